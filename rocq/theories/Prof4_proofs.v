(** Profiles: direction of traversal, symmetry, splitting, scaling, torsion, integrals. *)
From Verif Require Import Tac EC3_proofs Sections_proofs Loads2_proofs Prof_proofs Prof2_proofs Prof3_proofs.
From Verif Require Import Prof_model Prof_spec.
Require Import Psatz.
Open Scope R_scope.
Notation C2 p f g := (Cc (dAs p) f g (Np p)).

Lemma pdiv_zero a : pdiv a 0 = None.
Proof. unfold pdiv. replace (Reqb 0 0) with true by (symmetry; apply Reqb_true; reflexivity). reflexivity. Qed.
Definition basic (f : pt2 * R -> R) : Prop := f = one \/ f = yy \/ f = zz \/ f = ww.
Lemma Cc_same p q : (forall f g, basic f -> basic g -> M (dAs q) f g (Np q) = M (dAs p) f g (Np p)) ->
  forall f g, basic f -> basic g -> C2 q f g = C2 p f g.
Proof. intros H f g F G. unfold Cc. rewrite !H; unfold basic in *; tauto. Qed.
(** Up to a constant in the sectorial coordinate. *)
Lemma api_eq p q : wf p -> wf q -> area q = area p -> M (dAs q) one yy (Np q) = M (dAs p) one yy (Np p) -> M (dAs q) one zz (Np q) = M (dAs p) one zz (Np p) ->
  (area p <> 0 -> forall f g, basic f -> basic g -> C2 q f g = C2 p f g) -> same_api p q.
Proof.
  intros Wp Wq A Y Z H. unfold same_api. split; [exact A|]. destruct (Req_dec (area p) 0) as [E | NZ].
  - assert (E' : area q = 0) by congruence.
    assert (K : forall p, area p = 0 -> centroid p = None /\ second_moments_gc p = None /\ product_moment_gc p = None /\ sectorial_constants p = None /\ shear_center p = None /\ warping_constant p = None).
    { intros r R0. assert (c : centroid r = None) by (unfold centroid, first_moments; rewrite R0, !pdiv_zero; reflexivity).
      assert (s : sectorial_constants r = None) by (unfold sectorial_constants, first_moments; rewrite R0, !pdiv_zero; reflexivity).
      assert (h : shear_center r = None) by (unfold shear_center; rewrite s; reflexivity).
      repeat split; auto.
      - unfold second_moments_gc. rewrite c. reflexivity.
      - unfold product_moment_gc, first_moments. rewrite R0, !pdiv_zero. reflexivity.
      - unfold warping_constant. rewrite h. reflexivity. }
    destruct (K p E) as (-> & -> & -> & -> & -> & ->). destruct (K q E') as (-> & -> & -> & -> & -> & ->). repeat split.
  - specialize (H NZ). assert (NZ' : area q <> 0) by congruence. assert (B : basic one /\ basic yy /\ basic zz /\ basic ww) by (unfold basic; tauto). destruct B as (B1 & B2 & B3 & B4).
    assert (S1 : shear_center q = shear_center p).
    { rewrite !shear_eq by auto. unfold dd. rewrite !H by auto. reflexivity. }
    split; [rewrite !centroid_eq by auto; rewrite A, Y, Z; reflexivity|].
    split; [rewrite !second_eq by auto; rewrite !H by auto; reflexivity|].
    split; [rewrite !product_eq by auto; rewrite !H by auto; reflexivity|].
    split; [rewrite !sect_eq by auto; rewrite !H by auto; reflexivity|].
    split; [exact S1|]. unfold warping_constant. rewrite S1. destruct (shear_center p) as [[ys zs]|]; [|reflexivity]. cbn [bind].
    rewrite !sect_eq by auto. rewrite !H by auto. reflexivity.
Qed.
(** Traversal from the other end. *)
Lemma M_snoc {X} (f g : X -> R) d y : forall dA l x, length l = length dA -> 
  M (dA ++ [d]) f g (l ++ [x; y]) = M dA f g (l ++ [x]) + d * (2 * f x * g x + 2 * f y * g y + f x * g y + f y * g x) / 6.
Proof.
  induction dA as [|d0 dA IH]; intros l x L.
  - destruct l; [|discriminate]. cbn. ring.
  - destruct l as [|x0 l]; [discriminate|]. injection L as L. specialize (IH l x L).
    destruct l as [|x1 l]; cbn [app] in *.
    + destruct dA; [|discriminate]. cbn [app] in *. rewrite !M_cons. cbn. ring.
    + rewrite !M_cons. rewrite IH. ring.
Qed.
Lemma M_rev {X} (f g : X -> R) : forall dA l, length l = S (length dA) -> M (rev dA) f g (rev l) = M dA f g l.
Proof.
  induction dA as [|d dA IH]; intros l L.
  - destruct l as [|x [|y l]]; try discriminate. reflexivity.
  - destruct l as [|x [|y l]]; try discriminate. cbn [rev]. rewrite M_cons. rewrite <- app_assoc. cbn [app]. rewrite M_snoc by (cbn in L; rewrite !rev_length; lia).
    change (rev l ++ [y]) with (rev (y :: l)). rewrite IH by (cbn in *; lia). field.
Qed.
Lemma segs_snoc b t : forall nodes ts a, length nodes = length ts -> segs_of (nodes ++ [a; b]) (ts ++ [t]) = segs_of (nodes ++ [a]) ts ++ [(a, b, t)].
Proof.
  induction nodes as [|x nodes IH]; intros ts a L; destruct ts as [|t0 ts]; try discriminate; [reflexivity|]. injection L as L. specialize (IH ts a L).
  destruct nodes as [|x1 nodes]; cbn [app] in *.
  - destruct ts; [|discriminate]. reflexivity.
  - rewrite !segs_cons. rewrite IH. reflexivity.
Qed.
Lemma segs_rev : forall ts nodes, length nodes = S (length ts) ->
  map seg_area (segs_of (rev nodes) (rev ts)) = rev (map seg_area (segs_of nodes ts)).
Proof.
  induction ts as [|t ts IH]; intros nodes L; destruct nodes as [|a [|b r]]; try discriminate; [reflexivity|].
  cbn [rev]. rewrite <- app_assoc. cbn [app]. rewrite segs_snoc by (cbn in L; rewrite !rev_length; lia). change (rev r ++ [b]) with (rev (b :: r)).
  rewrite map_app, IH by (cbn in *; lia). rewrite segs_cons. cbn [map rev]. f_equal. f_equal. unfold seg_area, seg_len. cbn [fst snd]. f_equal. f_equal. ring.
Qed.
Lemma wf_back p : wf p -> wf (backwards p).
Proof. unfold wf, backwards. cbn. rewrite !rev_length. auto. Qed.
Lemma chain_snoc : forall L x y, chain (L ++ [x]) -> ww y = ww x + cross (fst x) (fst y) -> chain (L ++ [x; y]).
Proof.
  induction L as [|u L IH]; intros x y C E; [cbn; auto|]. destruct L as [|v L]; cbn [app] in *.
  - apply chain_cons in C. destruct C as (C1 & _). apply chain_cons. split; [exact C1|]. cbn. auto.
  - apply chain_cons in C. destruct C as (C1 & C3). apply chain_cons. split; [exact C1|]. apply (IH x y C3 E).
Qed.
Lemma chain_rev : forall L, chain L -> chain (rev L).
Proof.
  induction L as [|x L IH]; intros C; [exact Logic.I|]. destruct L as [|y L]; [exact Logic.I|]. apply chain_cons in C. destruct C as (C1 & C3).
  cbn [rev]. rewrite <- app_assoc. cbn [app]. apply chain_snoc; [exact (IH C3)|]. unfold cross in *. lra.
Qed.
Lemma Nw_from nodes w : forall L, chain L -> map fst L = nodes -> nodes <> [] -> exists k, Nw w nodes = map (fun x => (fst x, ww x + k)) L.
Proof.
  intros L C E NE. destruct L as [|x L]; [cbn in E; congruence|]. exists (w - ww x).
  assert (C' : chain (map (fun u : pt2 * R => (fst u, ww u + (w - ww x))) (x :: L))) by (apply chain_map; [intros a b Q; cbn; unfold ww in *; cbn; lra|exact C]).
  rewrite (chain_unique (map (fun u : pt2 * R => (fst u, ww u + (w - ww x))) (x :: L)) (fst x, ww x + (w - ww x)) (map (fun u : pt2 * R => (fst u, ww u + (w - ww x))) L) eq_refl C').
  f_equal; [unfold ww; cbn; ring|]. rewrite map_map. cbn [fst]. exact (eq_sym E).
Qed.
Lemma back_lemma p : wf p -> same_api p (backwards p).
Proof.
  intros W. destruct (dAs_len p W) as (L1 & L2).
  assert (DA : dAs (backwards p) = rev (dAs p)) by (unfold dAs, segs, backwards; cbn [pn pst]; apply segs_rev, W).
  destruct (Nw_from (rev (pn p)) 0 (rev (Np p))) as (k & K).
  { apply chain_rev, chain_N. } { rewrite map_rev. f_equal. apply N_fst. } { intros E. apply (wf_ne p W). apply (f_equal (@rev pt2)) in E. rewrite rev_involutive in E. exact E. }
  assert (NP : Np (backwards p) = rev (map (fun x => (fst x, ww x + k)) (Np p))) by (unfold Np at 1; cbn [pn backwards]; rewrite K, map_rev; reflexivity).
  assert (MM : forall f g, M (dAs (backwards p)) f g (Np (backwards p)) = M (dAs p) (fun x => f (fst x, ww x + k)) (fun x => g (fst x, ww x + k)) (Np p)).
  { intros f g. rewrite DA, NP, M_rev by (rewrite map_length; lia). rewrite M_map. reflexivity. }
  assert (AA : area (backwards p) = area p) by (rewrite !area_M, MM; reflexivity).
  apply api_eq; auto using wf_back; try (rewrite MM; reflexivity).
  intros NZ f g F G. assert (NM : M (dAs p) one one (Np p) <> 0) by (rewrite <- area_M; exact NZ).
  assert (CC : C2 (backwards p) f g = Cc (dAs p) (fun x => f (fst x, ww x + k)) (fun x => g (fst x, ww x + k)) (Np p)) by (unfold Cc; rewrite !MM; reflexivity).
  rewrite CC.
  assert (Q : forall f, basic f -> exists c, forall x, f (fst x, ww x + k) = 1 * f x + 0 * f x + c).
  { intros h [-> | [-> | [-> | ->]]]; [exists 0 | exists 0 | exists 0 | exists k]; intros x; unfold one, yy, zz, ww; cbn; ring. }
  destruct (Q f F) as (c1 & Q1). destruct (Q g G) as (c2 & Q2). rewrite (Cc_ext _ _ (fun x => 1 * f x + 0 * f x + c1) _ (fun x => 1 * g x + 0 * g x + c2)) by (intros; auto).
  rewrite Cc_lin, !Cc_linr by exact NM. ring.
Qed.
Lemma flip_iso : isometry flip.
Proof. intros a b. unfold flip. cbn. ring. Qed.
Lemma C2_flip p : wf p -> area p <> 0 -> let q := moved flip p in
  area q = area p /\ C2 q yy yy = C2 p yy yy /\ C2 q zz zz = C2 p zz zz /\ C2 q yy zz = - C2 p yy zz /\ C2 q yy ww = C2 p yy ww /\ C2 q zz ww = - C2 p zz ww /\ C2 q ww ww = C2 p ww ww.
Proof.
  intros W NZ q. assert (NM : M (dAs p) one one (Np p) <> 0) by (rewrite <- area_M; exact NZ).
  assert (D : dAs q = dAs p) by (apply dAs_iso, flip_iso).
  destruct (N_transform flip (fun x => - ww x) (pn p) (wf_ne p W)) as (k & K).
  { intros x y E. unfold flip, cross in *. cbn. lra. }
  assert (NP : Np q = map (fun x => (flip (fst x), - ww x + k)) (Np p)) by exact K.
  assert (A : area q = area p) by (unfold area; change (map seg_area (segs ?q)) with (dAs q); rewrite D; reflexivity).
  split; [exact A|].
  assert (CC : forall f g (a b c d : R) f' g', (forall x, f (flip (fst x), - ww x + k) = a * f' x + 0 * f' x + b) -> (forall x, g (flip (fst x), - ww x + k) = c * g' x + 0 * g' x + d) -> C2 q f g = a * c * C2 p f' g').
  { intros f g a b c d f' g' F G. rewrite NP, D, Cc_map. rewrite (Cc_ext _ _ (fun x => a * f' x + 0 * f' x + b) _ (fun x => c * g' x + 0 * g' x + d)) by (intros; auto).
    rewrite Cc_lin, !Cc_linr by exact NM. ring. }
  assert (Y : forall x, yy (flip (fst x), - ww x + k) = -1 * yy x + 0 * yy x + 0) by (intros; unfold yy, flip; cbn; ring).
  assert (Z : forall x, zz (flip (fst x), - ww x + k) = 1 * zz x + 0 * zz x + 0) by (intros; unfold zz, flip; cbn; ring).
  assert (Q : forall x, ww (flip (fst x), - ww x + k) = -1 * ww x + 0 * ww x + k) by (intros; unfold ww, flip; cbn; ring).
  rewrite (CC _ _ _ _ _ _ _ _ Y Y), (CC _ _ _ _ _ _ _ _ Z Z), (CC _ _ _ _ _ _ _ _ Y Z), (CC _ _ _ _ _ _ _ _ Y Q), (CC _ _ _ _ _ _ _ _ Z Q), (CC _ _ _ _ _ _ _ _ Q Q). 
  repeat split; ring.
Qed.
Lemma prof_flip_lemma p ys zs : wf p -> shear_center p = Some (ys, zs) -> shear_center (moved flip p) = Some (- ys, zs) /\ warping_constant (moved flip p) = warping_constant p.
Proof.
  intros W E. assert (NZ : area p <> 0).
  { intros Z. unfold shear_center, sectorial_constants, first_moments in E. rewrite Z, !pdiv_zero in E. discriminate. }
  destruct (C2_flip p W NZ) as (A & E1 & E2 & E3 & E4 & E5 & E6). cbv zeta in *. set (q := moved flip p) in *.
  assert (NZ' : area q <> 0) by congruence. assert (W' : wf q) by (apply wf_moved; auto).
  assert (DD : dd q = dd p) by (unfold dd; rewrite E1, E2, E3; ring).
  assert (S1 : shear_center q = Some (- ys, zs)).
  { rewrite shear_eq in E |- * by auto. rewrite DD, E1, E2, E3, E4, E5. injection E as E. destruct (Rltb (1 / 100000000) (dd p)) eqn:G.
    - apply Rltb_true in G. injection E as <- <-. f_equal. apply f_equal2; field; lra.
    - injection E as <- <-. f_equal. f_equal. ring. }
  split; [exact S1|]. rewrite (warp_eq q W' NZ' _ _ S1), (warp_eq p W NZ _ _ E). rewrite E4, E5, E6. f_equal. ring.
Qed.
Lemma same_nodes p q : pn p = pn q -> pst p = pst q -> same_api p q.
Proof. destruct p as [n s t], q as [n' s' t']. cbn. intros -> ->. unfold same_api. repeat split. Qed.
Lemma symmetric_lemma p ys zs : wf p -> symmetric p -> shear_center p = Some (ys, zs) -> ys = 0.
Proof.
  intros W (S1 & S2) E. destruct (prof_flip_lemma p ys zs W E) as (F & _).
  assert (Q : same_api (backwards p) (moved flip p)) by (apply same_nodes; cbn; [symmetry; exact S1 | symmetry; exact S2]).
  destruct Q as (_ & _ & _ & _ & _ & Q & _). destruct (back_lemma p W) as (_ & _ & _ & _ & _ & B & _). rewrite B, E in Q. rewrite F in Q. injection Q as Q. lra.
Qed.
Lemma symmetric_centroid_lemma p yc zc A Iyz : wf p -> symmetric p -> centroid p = Some (yc, zc, A) -> product_moment_gc p = Some Iyz -> yc = 0 /\ Iyz = 0.
Proof.
  intros W (S1 & S2) E P.
  assert (Q : same_api (backwards p) (moved flip p)) by (apply same_nodes; cbn; [symmetry; exact S1 | symmetry; exact S2]).
  destruct Q as (_ & Q1 & _ & Q2 & _). destruct (back_lemma p W) as (_ & B1 & _ & B2 & _). rewrite B1 in Q1. rewrite B2 in Q2.
  assert (NZ : area p <> 0).
  { intros Z. unfold centroid, first_moments in E. rewrite Z, !pdiv_zero in E. discriminate. }
  destruct (C2_flip p W NZ) as (AA & _ & _ & E3 & _). cbv zeta in *.
  assert (NZ' : area (moved flip p) <> 0) by congruence.
  rewrite (product_eq p NZ) in P, Q2. rewrite (product_eq _ NZ') in Q2. injection P as <-. assert (Q3 : C2 (moved flip p) yy zz = C2 p yy zz) by congruence. rewrite E3 in Q3.
  rewrite (centroid_eq p NZ) in E, Q1. rewrite (centroid_eq _ NZ') in Q1. injection E as <- <- <-. apply some_inj in Q1. assert (Y := f_equal (fun x => fst (fst x)) Q1). cbn [fst] in Y. clear Q1. rewrite AA in Y.
  destruct (N_transform flip (fun x => - ww x) (pn p) (wf_ne p W)) as (k & K).
  { intros x y E. unfold flip, cross in *. cbn. lra. }
  assert (NP : Np (moved flip p) = map (fun x => (flip (fst x), - ww x + k)) (Np p)) by exact K.
  rewrite NP, dAs_iso, M_map in Y by apply flip_iso.
  rewrite (M_ext _ _ one _ (fun x => -1 * yy x + 0 * yy x + 0)), M_linr in Y by (intros; unfold one, yy, flip; cbn; ring).
  split; [|lra]. set (m := M (dAs p) one yy (Np p)) in *. clearbody m.
  assert (G : (-1 * m + 0 * m + 0 * M (dAs p) one one (Np p)) / area p = - (m / area p)) by (field; exact NZ). rewrite G in Y. lra.
Qed.
(** Splitting a segment. *)
Lemma M_split {X} (f g : X -> R) s d a m b dA2 l2 : f m = f a + s * (f b - f a) -> g m = g a + s * (g b - g a) ->
  forall dA1 l1, length dA1 = length l1 -> M (dA1 ++ s * d :: (1 - s) * d :: dA2) f g (l1 ++ a :: m :: b :: l2) = M (dA1 ++ d :: dA2) f g (l1 ++ a :: b :: l2).
Proof.
  intros F G. induction dA1 as [|d1 dA1 IH]; intros l1 L.
  - destruct l1; [|discriminate]. cbn [app]. rewrite !M_cons, F, G. field.
  - destruct l1 as [|x l1]; [discriminate|]. injection L as L. specialize (IH l1 L). cbn [app]. destruct l1 as [|y l1]; cbn [app] in *; rewrite !M_cons in *; rewrite IH; reflexivity.
Qed.
Lemma segs_app : forall n1 t1 a n2 t2, length n1 = length t1 -> segs_of (n1 ++ a :: n2) (t1 ++ t2) = segs_of (n1 ++ [a]) t1 ++ segs_of (a :: n2) t2.
Proof.
  induction n1 as [|x n1 IH]; intros t1 a n2 t2 L; destruct t1 as [|u t1]; try discriminate; [destruct n2; reflexivity|]. injection L as L. specialize (IH t1 a n2 t2 L).
  destruct n1 as [|y n1]; cbn [app] in *; rewrite !segs_cons; rewrite IH; reflexivity.
Qed.
Lemma segs_nth : forall nodes ts n a b t, nth_error (segs_of nodes ts) n = Some (a, b, t) ->
  nodes = firstn n nodes ++ a :: b :: skipn (S (S n)) nodes /\ ts = firstn n ts ++ t :: skipn (S n) ts /\ length (firstn n nodes) = n /\ length (firstn n ts) = n.
Proof.
  induction nodes as [|x r IH]; intros ts n a b t E; [destruct n; discriminate|].
  destruct r as [|y r]; [destruct ts, n; discriminate|]. destruct ts as [|u ts]; [destruct n; discriminate|]. rewrite segs_cons in E. destruct n as [|n].
  - injection E as <- <- <-. repeat split.
  - cbn [nth_error] in E. destruct (IH ts n a b t E) as (E1 & E2 & E3 & E4). cbn [firstn skipn app length]. repeat split; try (f_equal; auto; fail).
Qed.
