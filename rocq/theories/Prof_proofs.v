(** Moments of piecewise linear functions over the walls of a profile. *)
From Verif Require Import Tac EC3_proofs Sections_proofs.
From Verif Require Import Prof_model Prof_spec.
Require Import Psatz.
Open Scope R_scope.

(** The integral of the product of two functions that are linear along the segments. *)
Fixpoint M {X} (dA : list R) (f g : X -> R) (l : list X) : R :=
  match dA, l with
  | d :: dA, x :: ((y :: _) as r) => d * (2 * f x * g x + 2 * f y * g y + f x * g y + f y * g x) / 6 + M dA f g r
  | _, _ => 0
  end.
Definition one {X} (x : X) : R := 1.
Definition Cc {X} (dA : list R) (f g : X -> R) (l : list X) : R := M dA f g l - M dA one f l * M dA one g l / M dA one one l.

Section MX.
Context {X : Type}.
Implicit Types (f g h : X -> R) (l : list X).
Lemma M_cons d dA f g x y r : M (d :: dA) f g (x :: y :: r) = d * (2 * f x * g x + 2 * f y * g y + f x * g y + f y * g x) / 6 + M dA f g (y :: r).
Proof. reflexivity. Qed.
Lemma M_sym dA : forall f g l, M dA f g l = M dA g f l.
Proof. induction dA as [|d dA IH]; intros f g l; [reflexivity|]. destruct l as [|x [|y r]]; try reflexivity. rewrite !M_cons, (IH f g). field. Qed.
Lemma M_ext dA : forall f f' g g' l, (forall x, In x l -> f x = f' x) -> (forall x, In x l -> g x = g' x) -> M dA f g l = M dA f' g' l.
Proof.
  induction dA as [|d dA IH]; intros f f' g g' l F G; [reflexivity|]. destruct l as [|x [|y r]]; try reflexivity. rewrite !M_cons.
  rewrite (F x), (G x), (F y), (G y) by (cbn; auto). f_equal. apply IH; intros z Z; [apply F | apply G]; cbn in *; tauto.
Qed.
Lemma M_lin dA f g h a b c : forall l, M dA (fun x => a * f x + b * g x + c) h l = a * M dA f h l + b * M dA g h l + c * M dA one h l.
Proof.
  induction dA as [|d dA IH]; intros l; [cbn; ring|]. destruct l as [|x [|y r]]; try (cbn; ring). rewrite !M_cons, IH. unfold one. field.
Qed.
Lemma M_linr dA f g h a b c l : M dA h (fun x => a * f x + b * g x + c) l = a * M dA h f l + b * M dA h g l + c * M dA h one l.
Proof. rewrite M_sym, M_lin, (M_sym dA f h), (M_sym dA g h), (M_sym dA one h). reflexivity. Qed.
Lemma M_nonneg dA f : forall l, Forall (fun d => 0 <= d) dA -> 0 <= M dA f f l.
Proof.
  induction dA as [|d dA IH]; intros l D; [cbn; lra|]. destruct l as [|x [|y r]]; try (cbn; lra). rewrite M_cons. inversion D as [|? ? D1 D2]; subst.
  specialize (IH (y :: r) D2). assert (0 <= d * (2 * f x * f x + 2 * f y * f y + f x * f y + f y * f x)); [|lra].
  apply Rmult_le_pos; [auto|]. nra.
Qed.
Lemma Cc_sym dA f g l : Cc dA f g l = Cc dA g f l.
Proof. unfold Cc. rewrite (M_sym dA f g). rewrite (Rmult_comm (M dA one f l)). reflexivity. Qed.
Lemma Cc_lin dA f g h a b c l : M dA one one l <> 0 ->
  Cc dA (fun x => a * f x + b * g x + c) h l = a * Cc dA f h l + b * Cc dA g h l.
Proof.
  intros NZ. unfold Cc. rewrite M_lin, M_linr. field. exact NZ.
Qed.
Lemma Cc_linr dA f g h a b c l : M dA one one l <> 0 ->
  Cc dA h (fun x => a * f x + b * g x + c) l = a * Cc dA h f l + b * Cc dA h g l.
Proof. intros NZ. rewrite Cc_sym, Cc_lin by exact NZ. rewrite (Cc_sym dA f h), (Cc_sym dA g h). reflexivity. Qed.
Lemma Cc_ext dA f f' g g' l : (forall x, In x l -> f x = f' x) -> (forall x, In x l -> g x = g' x) -> Cc dA f g l = Cc dA f' g' l.
Proof. intros F G. unfold Cc. rewrite (M_ext dA f f' g g' l), (M_ext dA one one f f' l), (M_ext dA one one g g' l) by auto. reflexivity. Qed.
Lemma Cc_nonneg dA f l : Forall (fun d => 0 <= d) dA -> M dA one one l <> 0 -> 0 <= Cc dA f f l.
Proof.
  intros D NZ. set (m := M dA one f l / M dA one one l).
  assert (E : Cc dA f f l = M dA (fun x => 1 * f x + 0 * f x + - m) (fun x => 1 * f x + 0 * f x + - m) l).
  { rewrite M_lin, !M_linr. unfold Cc, m. rewrite (M_sym dA f one). field. exact NZ. }
  rewrite E. apply M_nonneg. exact D.
Qed.
Lemma Cc_cs dA f g l : Forall (fun d => 0 <= d) dA -> M dA one one l <> 0 -> Cc dA f g l ^ 2 <= Cc dA f f l * Cc dA g g l.
Proof.
  intros D NZ.
  assert (Q : forall k, 0 <= Cc dA f f l + 2 * k * Cc dA f g l + k ^ 2 * Cc dA g g l).
  { intros k. pose proof (Cc_nonneg dA (fun x => 1 * f x + k * g x + 0) l D NZ) as H. rewrite Cc_lin in H by exact NZ.
    rewrite !Cc_linr in H by exact NZ. rewrite (Cc_sym dA g f) in H. lra. }
  pose proof (Cc_nonneg dA f l D NZ) as P. pose proof (Cc_nonneg dA g l D NZ) as R0.
  set (a := Cc dA f f l) in *. set (b := Cc dA f g l) in *. set (c := Cc dA g g l) in *. clearbody a b c.
  destruct (Req_dec c 0) as [E | E].
  - subst c. assert (b = 0); [|subst; lra]. destruct (Req_dec b 0) as [|B]; [auto|]. exfalso.
    specialize (Q (- (a + 1) / (2 * b))). replace (a + 2 * (- (a + 1) / (2 * b)) * b + (- (a + 1) / (2 * b)) ^ 2 * 0) with (-1) in Q by (field; auto). lra.
  - specialize (Q (- b / c)). replace (a + 2 * (- b / c) * b + (- b / c) ^ 2 * c) with ((a * c - b ^ 2) / c) in Q by (field; auto).
    assert (0 < c) by lra. assert (0 <= (a * c - b ^ 2) / c * c) by (apply Rmult_le_pos; lra). replace ((a * c - b ^ 2) / c * c) with (a * c - b ^ 2) in H0 by (field; auto). lra.
Qed.
End MX.
Lemma M_map {X Y} (t : X -> Y) (f g : Y -> R) dA : forall l, M dA f g (map t l) = M dA (fun x => f (t x)) (fun x => g (t x)) l.
Proof. induction dA as [|d dA IH]; intros l; [reflexivity|]. destruct l as [|x [|y r]]; try reflexivity. cbn [map]. rewrite !M_cons. rewrite <- IH. reflexivity. Qed.
Lemma Cc_map {X Y} (t : X -> Y) (f g : Y -> R) dA l : Cc dA f g (map t l) = Cc dA (fun x => f (t x)) (fun x => g (t x)) l.
Proof. unfold Cc. rewrite !M_map. reflexivity. Qed.

(** Nodes with their sectorial coordinates. *)
Fixpoint Nw (w : R) (nodes : list pt2) : list (pt2 * R) :=
  match nodes with
  | [] => []
  | a :: r => (a, w) :: match r with [] => [] | b :: _ => Nw (w + fst a * snd b - fst b * snd a) r end
  end.
Lemma N_fst nodes : forall w, map fst (Nw w nodes) = nodes.
Proof. induction nodes as [|a r IH]; intros w; [reflexivity|]. destruct r as [|b r]; [reflexivity|]. cbn [Nw map fst]. f_equal. apply IH. Qed.
Lemma N_snd nodes : forall w, map snd (Nw w nodes) = sect_from w nodes.
Proof. induction nodes as [|a r IH]; intros w; [reflexivity|]. destruct r as [|b r]; [reflexivity|]. cbn [Nw map snd sect_from]. f_equal. apply IH. Qed.
Lemma N_length nodes w : length (Nw w nodes) = length nodes.
Proof. rewrite <- (N_fst nodes w) at 2. rewrite map_length. reflexivity. Qed.
Definition yy (x : pt2 * R) : R := fst (fst x).
Definition zz (x : pt2 * R) : R := snd (fst x).
Definition ww (x : pt2 * R) : R := snd x.
Definition dAs (p : prof) : list R := map seg_area (segs p).
Definition Np (p : prof) : list (pt2 * R) := Nw 0 (pn p).

Lemma segs_cons a b r t ts : segs_of (a :: b :: r) (t :: ts) = (a, b, t) :: segs_of (b :: r) ts.
Proof. reflexivity. Qed.
Lemma segs_len nodes : forall ts, length nodes = S (length ts) -> length (segs_of nodes ts) = length ts.
Proof.
  induction nodes as [|a r IH]; intros ts H; [discriminate|]. destruct ts as [|t ts]; [destruct r; reflexivity|].
  destruct r as [|b r]; [discriminate|]. rewrite segs_cons. cbn [length]. f_equal. apply IH. cbn in H |- *. lia.
Qed.
Lemma segs_M (q : seg -> R) (f g : pt2 -> R) : (forall a b t, q (a, b, t) = seg_area (a, b, t) * (2 * f a * g a + 2 * f b * g b + f a * g b + f b * g a) / 6) ->
  forall nodes ts, Rsum (map q (segs_of nodes ts)) = M (map seg_area (segs_of nodes ts)) f g nodes.
Proof.
  intros Q. induction nodes as [|a r IH]; intros ts; [reflexivity|]. destruct r as [|b r]; [destruct ts; reflexivity|].
  destruct ts as [|t ts]; [reflexivity|]. rewrite segs_cons, !map_cons. rewrite Rsum_cons, M_cons, Q, IH. reflexivity.
Qed.
Lemma segs_N (q : seg -> R) (f g : pt2 -> R) p : (forall a b t, q (a, b, t) = seg_area (a, b, t) * (2 * f a * g a + 2 * f b * g b + f a * g b + f b * g a) / 6) ->
  Rsum (map q (segs p)) = M (dAs p) (fun x => f (fst x)) (fun x => g (fst x)) (Np p).
Proof. intros Q. unfold segs. rewrite (segs_M q f g Q). fold (segs p). fold (dAs p). transitivity (M (dAs p) f g (map fst (Np p))); [unfold Np; rewrite N_fst; reflexivity | apply M_map]. Qed.
Lemma loop_M {X} (f g : X -> R) (G : R -> R -> R -> R -> R -> R) :
  (forall d u0 u1 v0 v1, G d u0 u1 v0 v1 = d * (2 * u0 * v0 + 2 * u1 * v1 + u0 * v1 + u1 * v0) / 6) ->
  forall n dA l, length dA = n -> length l = S n ->
  Rsum (map (fun i => G (at_ dA i) (at_ (map f l) i) (at_ (map f l) (S i)) (at_ (map g l) i) (at_ (map g l) (S i))) (seq 0 n)) = M dA f g l.
Proof.
  intros E. induction n as [|n IH]; intros dA l D L.
  - destruct dA; [reflexivity|discriminate].
  - destruct dA as [|d dA]; [discriminate|]. destruct l as [|x [|y r]]; try discriminate. rewrite M_cons. rewrite <- (IH dA (y :: r)) by (cbn in *; lia).
    cbn [seq map]. rewrite Rsum_cons. rewrite E. cbn [at_ nth map]. f_equal. rewrite <- seq_shift, map_map. reflexivity.
Qed.
Lemma area_M p : area p = M (dAs p) one one (Np p).
Proof. unfold area. rewrite (segs_N seg_area (fun _ => 1) (fun _ => 1)); [reflexivity|]. intros. field. Qed.
Lemma Sy_M p : Rsum (map seg_Sy (segs p)) = M (dAs p) one zz (Np p).
Proof. rewrite (segs_N seg_Sy (fun _ => 1) snd); [reflexivity|]. intros. unfold seg_Sy. field. Qed.
Lemma Sz_M p : Rsum (map seg_Sz (segs p)) = M (dAs p) one yy (Np p).
Proof. rewrite (segs_N seg_Sz (fun _ => 1) fst); [reflexivity|]. intros. unfold seg_Sz. field. Qed.
Lemma Iy_M p : Rsum (map seg_Iy (segs p)) = M (dAs p) zz zz (Np p).
Proof. rewrite (segs_N seg_Iy snd snd); [reflexivity|]. intros. unfold seg_Iy. field. Qed.
Lemma Iz_M p : Rsum (map seg_Iz (segs p)) = M (dAs p) yy yy (Np p).
Proof. rewrite (segs_N seg_Iz fst fst); [reflexivity|]. intros. unfold seg_Iz. field. Qed.
Lemma Iyz_M p : Rsum (map seg_Iyz (segs p)) = M (dAs p) yy zz (Np p).
Proof. rewrite (segs_N seg_Iyz fst snd); [reflexivity|]. intros. unfold seg_Iyz. field. Qed.
Lemma dAs_len p : wf p -> length (dAs p) = (length (pn p) - 1)%nat /\ length (Np p) = S (length (pn p) - 1).
Proof. intros W. unfold dAs, Np. rewrite map_length, N_length. unfold segs. rewrite segs_len by exact W. unfold wf in W. lia. Qed.
Lemma Iw_M p : wf p -> mean_sectorial_moment p = M (dAs p) one ww (Np p).
Proof.
  intros W. destruct (dAs_len p W) as (A & B). unfold mean_sectorial_moment, sectorial_coordinates. rewrite <- N_snd. fold (Np p) (dAs p). change (map snd (Np p)) with (map ww (Np p)).
  rewrite <- (loop_M one ww (fun d u0 u1 v0 v1 => d * (2 * u0 * v0 + 2 * u1 * v1 + u0 * v1 + u1 * v0) / 6) ltac:(reflexivity) _ _ _ A B).
  f_equal. apply map_ext_in. intros i I0. apply in_seq in I0. unfold at_.
  assert (O : forall j, (j < length (Np p))%nat -> nth j (map one (Np p)) 0 = 1).
  { intros j J. rewrite (nth_indep _ 0 (one (0, 0, 0))) by (rewrite map_length; auto). rewrite map_nth. reflexivity. }
  rewrite !O by lia. field.
Qed.
Lemma mixed_M p f : wf p -> mixed_loop (dAs p) (map f (pn p)) (sectorial_coordinates p) (length (pn p) - 1) = M (dAs p) (fun x => f (fst x)) ww (Np p).
Proof.
  intros W. destruct (dAs_len p W) as (A & B). unfold mixed_loop, sectorial_coordinates. rewrite <- N_snd. fold (Np p). change (map snd (Np p)) with (map ww (Np p)).
  replace (map f (pn p)) with (map (fun x => f (fst x)) (Np p)) by (rewrite <- (map_map fst f); unfold Np; rewrite N_fst; reflexivity).
  rewrite <- (loop_M (fun x => f (fst x)) ww (fun d u0 u1 v0 v1 => d * (2 * u0 * v0 + 2 * u1 * v1 + u0 * v1 + u1 * v0) / 6) ltac:(reflexivity) _ _ _ A B). reflexivity.
Qed.
Lemma Iww_M p : wf p -> Rsum (map (fun i => at_ (dAs p) i * (at_ (sectorial_coordinates p) (S i) ^ 2 + at_ (sectorial_coordinates p) i ^ 2 + at_ (sectorial_coordinates p) (S i) * at_ (sectorial_coordinates p) i) / 3) (seq 0 (length (pn p) - 1)))
  = M (dAs p) ww ww (Np p).
Proof.
  intros W. destruct (dAs_len p W) as (A & B). unfold sectorial_coordinates. rewrite <- N_snd. fold (Np p). change (map snd (Np p)) with (map ww (Np p)).
  rewrite <- (loop_M ww ww (fun d u0 u1 v0 v1 => d * (2 * u0 * v0 + 2 * u1 * v1 + u0 * v1 + u1 * v0) / 6) ltac:(reflexivity) _ _ _ A B).
  f_equal. apply map_ext. intros i. field.
Qed.
(** All quantities in terms of central moments. *)
Notation C2 p f g := (Cc (dAs p) f g (Np p)).
Lemma centroid_eq p : area p <> 0 -> centroid p = Some (M (dAs p) one yy (Np p) / area p, M (dAs p) one zz (Np p) / area p, area p).
Proof. intros A. unfold centroid, first_moments. rewrite !pdiv_ok by exact A. cbn [bind]. rewrite Sy_M, Sz_M. reflexivity. Qed.
Lemma second_eq p : area p <> 0 -> second_moments_gc p = Some (C2 p zz zz, C2 p yy yy).
Proof.
  intros A. unfold second_moments_gc. rewrite centroid_eq by exact A. cbn [bind second_moments]. rewrite Iy_M, Iz_M. unfold Cc. rewrite <- area_M.
  set (a := area p) in *. clearbody a. f_equal. f_equal; field; exact A.
Qed.
Lemma product_eq p : area p <> 0 -> product_moment_gc p = Some (C2 p yy zz).
Proof.
  intros A. unfold product_moment_gc, first_moments, product_moment. rewrite pdiv_ok by exact A. cbn [bind]. rewrite Iyz_M, Sy_M, Sz_M. unfold Cc. rewrite <- area_M.
  set (a := area p) in *. clearbody a. f_equal. field; exact A.
Qed.
Lemma sect_eq p : wf p -> area p <> 0 -> sectorial_constants p = Some (C2 p yy ww, C2 p zz ww, C2 p ww ww).
Proof.
  intros W A. unfold sectorial_constants, first_moments. fold (dAs p). rewrite !mixed_M, Iww_M, Iw_M by exact W. rewrite !pdiv_ok by exact A. cbn [bind].
  rewrite Sy_M, Sz_M. unfold Cc. rewrite <- area_M. set (a := area p) in *. clearbody a. f_equal. apply f_equal2; [apply f_equal2|]; unfold yy, zz; field; exact A.
Qed.
Definition dd (p : prof) : R := C2 p zz zz * C2 p yy yy - C2 p yy zz ^ 2.
Lemma shear_eq p : wf p -> area p <> 0 -> shear_center p =
  Some (if Rltb (1/100000000) (dd p) then ((C2 p zz ww * C2 p yy yy - C2 p yy ww * C2 p yy zz) / dd p, (- C2 p yy ww * C2 p zz zz + C2 p zz ww * C2 p yy zz) / dd p) else (0, 0)).
Proof.
  intros W A. unfold shear_center. rewrite sect_eq, second_eq, product_eq by auto. cbn [bind]. fold (dd p). destruct (Rltb _ _); reflexivity.
Qed.
Lemma warp_eq p : wf p -> area p <> 0 -> forall y z, shear_center p = Some (y, z) ->
  warping_constant p = Some (C2 p ww ww + z * C2 p yy ww - y * C2 p zz ww).
Proof. intros W A y z E. unfold warping_constant. rewrite E, sect_eq by auto. reflexivity. Qed.
Lemma det_eq p d : area p <> 0 -> inertia_det p d <-> d = dd p.
Proof.
  intros A. unfold inertia_det. rewrite second_eq, product_eq by auto. split.
  - intros (Iy & Iz & Iyz & E1 & E2 & ->). injection E1 as <- <-. injection E2 as <-. reflexivity.
  - intros ->. do 3 eexists. split; [reflexivity|]. split; reflexivity.
Qed.
