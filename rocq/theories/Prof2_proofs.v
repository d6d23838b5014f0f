(** Profiles under rigid motions, reversal, splitting and scaling. *)
From Verif Require Import Tac EC3_proofs Sections_proofs Prof_proofs.
From Verif Require Import Prof_model Prof_spec.
Require Import Psatz.
Open Scope R_scope.
Notation C2 p f g := (Cc (dAs p) f g (Np p)).

Definition cross (a b : pt2) : R := fst a * snd b - fst b * snd a.
(** Nodes with consistent sectorial coordinates. *)
Fixpoint chain (L : list (pt2 * R)) : Prop :=
  match L with x :: ((y :: _) as r) => ww y = ww x + cross (fst x) (fst y) /\ chain r | _ => True end.
Lemma chain_cons x y r : chain (x :: y :: r) <-> ww y = ww x + cross (fst x) (fst y) /\ chain (y :: r).
Proof. reflexivity. Qed.
Lemma N_cons w a b r : Nw w (a :: b :: r) = (a, w) :: Nw (w + fst a * snd b - fst b * snd a) (b :: r).
Proof. reflexivity. Qed.
Lemma chain_unique L : forall x r, L = x :: r -> chain L -> L = Nw (ww x) (map fst L).
Proof.
  induction L as [|x0 r0 IH]; intros x r E C; [discriminate|]. injection E as -> ->. destruct r as [|y r]; [destruct x as [[a b] w]; reflexivity|].
  apply chain_cons in C. destruct C as (C1 & C2). specialize (IH y r eq_refl C2). cbn [map]. rewrite N_cons. cbn [map] in IH. rewrite IH.
  f_equal; [destruct x as [[a b] w]; reflexivity|]. f_equal. rewrite C1. unfold cross. ring.
Qed.
Lemma chain_N nodes : forall w, chain (Nw w nodes).
Proof.
  induction nodes as [|a r IH]; intros w; [exact Logic.I|]. destruct r as [|b r]; [exact Logic.I|]. rewrite N_cons. specialize (IH (w + fst a * snd b - fst b * snd a)).
  destruct r as [|c r].
  - cbn. split; [unfold cross, ww; cbn; ring|exact Logic.I].
  - rewrite N_cons in IH |- *. apply chain_cons. split; [unfold cross, ww; cbn; ring|exact IH].
Qed.
Lemma N_hd a r w : exists t, Nw w (a :: r) = (a, w) :: t.
Proof. destruct r; eexists; reflexivity. Qed.
Lemma chain_map (T : pt2 * R -> pt2 * R) L : (forall x y, ww y = ww x + cross (fst x) (fst y) -> ww (T y) = ww (T x) + cross (fst (T x)) (fst (T y))) ->
  chain L -> chain (map T L).
Proof.
  intros H. induction L as [|x r IH]; intros C; [exact Logic.I|]. destruct r as [|y r]; [exact Logic.I|]. apply chain_cons in C. destruct C as (C1 & C2).
  cbn [map]. apply chain_cons. split; [apply H; exact C1|apply IH; exact C2].
Qed.
(** A transformation of nodes lifted to sectorial coordinates, with the start value put to zero. *)
Lemma N_transform (f : pt2 -> pt2) (g : pt2 * R -> R) nodes : nodes <> [] ->
  (forall x y, ww y = ww x + cross (fst x) (fst y) -> g y = g x + cross (f (fst x)) (f (fst y))) ->
  exists k, Nw 0 (map f nodes) = map (fun x => (f (fst x), g x + k)) (Nw 0 nodes).
Proof.
  intros NE H. destruct nodes as [|a r]; [congruence|]. destruct (N_hd a r 0) as (t & E). exists (- g (a, 0)).
  pose proof (chain_N (a :: r) 0) as C. assert (F : map fst (Nw 0 (a :: r)) = a :: r) by apply N_fst. rewrite E in *.
  pose proof (chain_map (fun x => (f (fst x), g x + - g (a, 0))) _ ltac:(intros x y Q; cbn; rewrite (H x y Q); unfold ww; cbn; ring) C) as C'.
  pose proof (chain_unique (map (fun x => (f (fst x), g x + - g (a, 0))) ((a, 0) :: t)) (f a, g (a, 0) + - g (a, 0)) (map (fun x => (f (fst x), g x + - g (a, 0))) t) eq_refl C') as U. etransitivity; [|symmetry; exact U]. f_equal; [unfold ww; cbn; ring|].
  rewrite map_map. cbn [fst]. rewrite <- F at 1. rewrite map_map. reflexivity.
Qed.
Lemma segs_iso f : isometry f -> forall nodes ts, map seg_area (segs_of (map f nodes) ts) = map seg_area (segs_of nodes ts).
Proof.
  intros I0. induction nodes as [|a r IH]; intros ts; [reflexivity|]. destruct r as [|b r]; [destruct ts; reflexivity|]. destruct ts as [|t ts]; [reflexivity|].
  cbn [map]. rewrite !segs_cons. cbn [map]. f_equal; [|apply (IH ts)]. unfold seg_area, seg_len. rewrite I0. reflexivity.
Qed.
Lemma dAs_iso f p : isometry f -> dAs (moved f p) = dAs p.
Proof. intros I0. unfold dAs, segs, moved. cbn. apply segs_iso, I0. Qed.
Lemma wf_ne p : wf p -> pn p <> [].
Proof. unfold wf. destruct (pn p); [discriminate|congruence]. Qed.
Lemma wf_moved f p : wf p -> wf (moved f p).
Proof. unfold wf, moved. cbn. rewrite map_length. auto. Qed.

Lemma Cc_lin4 {X} dA (f g h u : X -> R) a b c d l : M dA one one l <> 0 ->
  Cc dA (fun x => a * f x + b * g x + c * h x + d) u l = a * Cc dA f u l + b * Cc dA g u l + c * Cc dA h u l.
Proof.
  intros NZ. transitivity (Cc dA (fun x => 1 * (a * f x + b * g x + 0) + c * h x + d) u l).
  - apply Cc_ext; intros; [ring|reflexivity].
  - rewrite (Cc_lin dA (fun x => a * f x + b * g x + 0) h u 1 c d) by exact NZ. rewrite Cc_lin by exact NZ. ring.
Qed.
Lemma Cc_lin4r {X} dA (f g h u : X -> R) a b c d l : M dA one one l <> 0 ->
  Cc dA u (fun x => a * f x + b * g x + c * h x + d) l = a * Cc dA u f l + b * Cc dA u g l + c * Cc dA u h l.
Proof. intros NZ. rewrite Cc_sym, Cc_lin4 by exact NZ. rewrite (Cc_sym dA f u), (Cc_sym dA g u), (Cc_sym dA h u). reflexivity. Qed.
Lemma M_lin4 {X} dA (f g h u : X -> R) a b c d l :
  M dA u (fun x => a * f x + b * g x + c * h x + d) l = a * M dA u f l + b * M dA u g l + c * M dA u h l + d * M dA u one l.
Proof.
  transitivity (M dA u (fun x => 1 * (a * f x + b * g x + 0) + c * h x + d) l).
  - apply M_ext; intros; [reflexivity|ring].
  - rewrite (M_linr dA (fun x => a * f x + b * g x + 0) h u 1 c d). rewrite M_linr. ring.
Qed.
Lemma rigid_iso c s a b : c ^ 2 + s ^ 2 = 1 -> isometry (rigid c s a b).
Proof.
  intros H x y. unfold rigid, shift, turn. cbn [fst snd].
  transitivity ((c ^ 2 + s ^ 2) * ((fst y - fst x) ^ 2 + (snd y - snd x) ^ 2)); [ring|rewrite H; ring].
Qed.
Lemma Np_rigid c s a b p : c ^ 2 + s ^ 2 = 1 -> wf p -> exists k,
  Np (moved (rigid c s a b) p) = map (fun x => (rigid c s a b (fst x), 1 * ww x + (a * s - b * c) * yy x + (a * c + b * s) * zz x + k)) (Np p).
Proof.
  intros H W. unfold Np, moved. cbn [pn].
  destruct (N_transform (rigid c s a b) (fun x => 1 * ww x + (a * s - b * c) * yy x + (a * c + b * s) * zz x) (pn p) (wf_ne p W)) as (k & K).
  { intros x y Q. unfold rigid, shift, turn, cross in *. cbn [fst snd]. unfold yy, zz. rewrite Q.
    transitivity (ww x + (c ^ 2 + s ^ 2) * (fst (fst x) * snd (fst y) - fst (fst y) * snd (fst x)) + (a * s - b * c) * fst (fst y) + (a * c + b * s) * snd (fst y)); [rewrite H; ring|ring]. }
  exists k. exact K.
Qed.
Lemma area_rigid c s a b p : c ^ 2 + s ^ 2 = 1 -> wf p -> area (moved (rigid c s a b) p) = area p.
Proof.
  intros H W. unfold area. change (map seg_area (segs ?q)) with (dAs q). rewrite dAs_iso by (apply rigid_iso; exact H). reflexivity.
Qed.
(** Central moments after a rigid motion. *)
Lemma C2_rigid c s a b p : c ^ 2 + s ^ 2 = 1 -> wf p -> area p <> 0 -> let q := moved (rigid c s a b) p in
  let e := a * s - b * c in let f := a * c + b * s in
  C2 q yy yy = c ^ 2 * C2 p yy yy - 2 * c * s * C2 p yy zz + s ^ 2 * C2 p zz zz /\
  C2 q zz zz = s ^ 2 * C2 p yy yy + 2 * c * s * C2 p yy zz + c ^ 2 * C2 p zz zz /\
  C2 q yy zz = c * s * (C2 p yy yy - C2 p zz zz) + (c ^ 2 - s ^ 2) * C2 p yy zz /\
  C2 q yy ww = c * (C2 p yy ww + e * C2 p yy yy + f * C2 p yy zz) - s * (C2 p zz ww + e * C2 p yy zz + f * C2 p zz zz) /\
  C2 q zz ww = s * (C2 p yy ww + e * C2 p yy yy + f * C2 p yy zz) + c * (C2 p zz ww + e * C2 p yy zz + f * C2 p zz zz) /\
  C2 q ww ww = C2 p ww ww + 2 * e * C2 p yy ww + 2 * f * C2 p zz ww + e ^ 2 * C2 p yy yy + 2 * e * f * C2 p yy zz + f ^ 2 * C2 p zz zz.
Proof.
  intros H W A q e f. destruct (Np_rigid c s a b p H W) as (k & K). fold q in K.
  assert (D : dAs q = dAs p) by (apply dAs_iso, rigid_iso; exact H).
  assert (NZ : M (dAs p) one one (Np p) <> 0) by (rewrite <- area_M; exact A).
  assert (Y : forall u, Cc (dAs q) u yy (Np q) = Cc (dAs p) (fun x => u (rigid c s a b (fst x), 1 * ww x + e * yy x + f * zz x + k)) (fun x => c * yy x + - s * zz x + 0 * ww x + a) (Np p)).
  { intros u. rewrite K, D, Cc_map. apply Cc_ext; intros; [reflexivity|]. unfold yy, zz, rigid, shift, turn. cbn. ring. }
  assert (Z : forall u, Cc (dAs q) u zz (Np q) = Cc (dAs p) (fun x => u (rigid c s a b (fst x), 1 * ww x + e * yy x + f * zz x + k)) (fun x => s * yy x + c * zz x + 0 * ww x + b) (Np p)).
  { intros u. rewrite K, D, Cc_map. apply Cc_ext; intros; [reflexivity|]. unfold yy, zz, rigid, shift, turn. cbn. ring. }
  assert (Wq : forall u, Cc (dAs q) u ww (Np q) = Cc (dAs p) (fun x => u (rigid c s a b (fst x), 1 * ww x + e * yy x + f * zz x + k)) (fun x => 1 * ww x + e * yy x + f * zz x + k) (Np p)).
  { intros u. rewrite K, D, Cc_map. reflexivity. }
  assert (Yf : forall u, Cc (dAs p) (fun x => yy (rigid c s a b (fst x), 1 * ww x + e * yy x + f * zz x + k)) u (Np p) = c * C2 p yy u - s * C2 p zz u).
  { intros u. transitivity (Cc (dAs p) (fun x => c * yy x + - s * zz x + 0 * ww x + a) u (Np p)).
    - apply Cc_ext; intros; [|reflexivity]. unfold yy, zz, rigid, shift, turn. cbn. ring.
    - rewrite Cc_lin4 by exact NZ. ring. }
  assert (Zf : forall u, Cc (dAs p) (fun x => zz (rigid c s a b (fst x), 1 * ww x + e * yy x + f * zz x + k)) u (Np p) = s * C2 p yy u + c * C2 p zz u).
  { intros u. transitivity (Cc (dAs p) (fun x => s * yy x + c * zz x + 0 * ww x + b) u (Np p)).
    - apply Cc_ext; intros; [|reflexivity]. unfold yy, zz, rigid, shift, turn. cbn. ring.
    - rewrite Cc_lin4 by exact NZ. ring. }
  assert (Wf : forall u, Cc (dAs p) (fun x => ww (rigid c s a b (fst x), 1 * ww x + e * yy x + f * zz x + k)) u (Np p) = C2 p ww u + e * C2 p yy u + f * C2 p zz u).
  { intros u. transitivity (Cc (dAs p) (fun x => 1 * ww x + e * yy x + f * zz x + k) u (Np p)).
    - apply Cc_ext; intros; reflexivity.
    - rewrite Cc_lin4 by exact NZ. ring. }
  rewrite !Y, !Z, !Wq, !Yf, !Zf, !Wf, !Cc_lin4r by exact NZ.
  rewrite (Cc_sym (dAs p) zz yy), (Cc_sym (dAs p) ww yy), (Cc_sym (dAs p) ww zz).
  repeat split; ring.
Qed.
