(** A truss that grows from one member by attaching every further node with two members that are not in line is
    rigid, and stable on a pin and a roller. *)
From Verif Require Import Base EC3_model Sections_proofs Rhs_model.
From Verif Require Import Truss_model Truss_spec.
Require Import Reals Lra List Bool Arith Lia Psatz.
Import ListNotations.
Local Open Scope R_scope.

(** Twice the area of the triangle of three nodes. *)
Definition area2 (p q r : pt) : R := (fst q - fst p) * (snd r - snd p) - (fst r - fst p) * (snd q - snd p).

(** Node lists reached by the construction. *)
Inductive built (t : truss) : list node -> Prop :=
| built_start a b : joined t a b -> place t a <> place t b -> built t [b; a]
| built_add c a b l : built t l -> In a l -> In b l -> joined t c a -> joined t c b ->
    area2 (place t c) (place t a) (place t b) <> 0 -> built t (c :: l).

Lemma two_dirs : forall d1 d2 x1 y1 x2 y2, x1 * y2 - x2 * y1 <> 0 -> d1 * x1 + d2 * y1 = 0 -> d1 * x2 + d2 * y2 = 0 ->
  d1 = 0 /\ d2 = 0.
Proof.
  intros d1 d2 x1 y1 x2 y2 H A B.
  assert (d1 * (x1 * y2 - x2 * y1) = 0).
  { replace (d1 * (x1 * y2 - x2 * y1)) with (y2 * (d1 * x1 + d2 * y1) - y1 * (d1 * x2 + d2 * y2)) by ring. rewrite A, B. ring. }
  assert (d2 * (x1 * y2 - x2 * y1) = 0).
  { replace (d2 * (x1 * y2 - x2 * y1)) with (x1 * (d1 * x2 + d2 * y2) - x2 * (d1 * x1 + d2 * y1)) by ring. rewrite A, B. ring. }
  split; [destruct (Rmult_integral _ _ H0); [auto|contradiction]|destruct (Rmult_integral _ _ H1); [auto|contradiction]].
Qed.

Lemma built_rigid : forall t l, built t l -> forall u, strainless t u ->
  exists a b w, forall v, In v l -> u v = (a - w * snd (place t v), b + w * fst (place t v)).
Proof.
  intros t l B. induction B as [p q J N|c p q l B IH Ip Iq Jp Jq N]; intros u S.
  - pose proof (S p q J) as E. destruct (place t p) as [x y] eqn:P, (place t q) as [x' y'] eqn:Q.
    destruct (u p) as [d1 d2] eqn:U, (u q) as [e1 e2] eqn:V. cbn [fst snd] in E.
    assert (D : 0 < (x - x') * (x - x') + (y - y') * (y - y')).
    { destruct (Req_dec x x') as [->|X]; [|assert (0 < (x - x') * (x - x')) by (apply Rsqr_pos_lt; lra); pose proof (Rle_0_sqr (y - y')) as Y; unfold Rsqr in Y; lra].
      destruct (Req_dec y y') as [->|Y]; [exfalso; now apply N|]. assert (0 < (y - y') * (y - y')) by (apply Rsqr_pos_lt; lra). lra. }
    set (D2 := (x - x') * (x - x') + (y - y') * (y - y')) in *.
    set (w := ((d2 - e2) * (x - x') - (d1 - e1) * (y - y')) / D2).
    assert (W1 : w * (x - x') = d2 - e2).
    { unfold w. apply Rmult_eq_reg_r with D2; [|lra]. transitivity (((d2 - e2) * (x - x') - (d1 - e1) * (y - y')) * (x - x')); [field; lra|].
      replace (((d2 - e2) * (x - x') - (d1 - e1) * (y - y')) * (x - x'))
        with ((d2 - e2) * D2 - (y - y') * ((d1 - e1) * (x - x') + (d2 - e2) * (y - y'))) by (unfold D2; ring). rewrite E. ring. }
    assert (W2 : w * (y - y') = - (d1 - e1)).
    { unfold w. apply Rmult_eq_reg_r with D2; [|lra]. transitivity (((d2 - e2) * (x - x') - (d1 - e1) * (y - y')) * (y - y')); [field; lra|].
      replace (((d2 - e2) * (x - x') - (d1 - e1) * (y - y')) * (y - y'))
        with (- (d1 - e1) * D2 + (x - x') * ((d1 - e1) * (x - x') + (d2 - e2) * (y - y'))) by (unfold D2; ring). rewrite E. ring. }
    exists (d1 + w * y), (d2 - w * x), w. intros v [<-|[<-|[]]].
    + rewrite V, Q. cbn [fst snd]. f_equal; lra.
    + rewrite U, P. cbn [fst snd]. f_equal; lra.
  - destruct (IH u S) as (a & b & w & R). exists a, b, w. intros v [<-|Iv]; [|now apply R].
    pose proof (S c p Jp) as E1. pose proof (S c q Jq) as E2. rewrite (R p Ip) in E1. rewrite (R q Iq) in E2. cbn [fst snd] in E1, E2.
    destruct (u c) as [d1 d2] eqn:U. unfold area2 in N. destruct (place t c) as [x y], (place t p) as [xp yp], (place t q) as [xq yq].
    cbn [fst snd] in *.
    destruct (two_dirs (d1 - (a - w * y)) (d2 - (b + w * x)) (xp - x) (yp - y) (xq - x) (yq - y)); [exact N| lra | lra |].
    f_equal; lra.
Qed.

Lemma built_stable : forall t l, built t l -> (forall v, is_node t v -> In v l) -> forall p r, is_node t p -> is_node t r ->
  fst (place t p) <> fst (place t r) -> stable t p r.
Proof.
  intros t l B A p r Ip Ir N u S U V v Iv. destruct (built_rigid t l B u S) as (a & b & w & R).
  rewrite (R p (A p Ip)) in U. rewrite (R r (A r Ir)) in V. cbn [snd] in V. inversion U as [[U1 U2]].
  assert (w = 0). { assert (w * (fst (place t r) - fst (place t p)) = 0) by lra. destruct (Rmult_integral _ _ H); [auto|lra]. }
  subst w. rewrite (R v (A v Iv)). f_equal; lra.
Qed.

(** A member can be attached before its triangle is closed: the last node keeps two neighbours. *)
Lemma built_in : forall t l, built t l -> forall c a b, In a l -> In b l -> joined t c a -> joined t c b ->
  area2 (place t c) (place t a) (place t b) <> 0 -> built t (c :: l).
Proof. intros. now apply built_add with a b. Qed.

(** Two nodes of a horizontal chord and a node off the chord are not in line. *)
Lemma area_bottom : forall p q r, snd q = snd p -> fst p <> fst q -> snd r <> snd p -> area2 r p q <> 0.
Proof. intros [x y] [x' y'] [a b]; unfold area2; cbn [fst snd]. intros -> A B C. assert ((x - x') * (b - y) = 0) by nra.
  destruct (Rmult_integral _ _ H); lra. Qed.
(** A node below a member is not in line with it. *)
Lemma area_below : forall p q r, fst p < fst q -> fst p <= fst r <= fst q -> snd r < snd p -> snd r < snd q -> area2 p q r < 0.
Proof.
  intros [x y] [x' y'] [a b]; unfold area2; cbn [fst snd]. intros H [A B] C D.
  replace ((x' - x) * (b - y) - (a - x) * (y' - y)) with (- ((x' - a) * (y - b) + (a - x) * (y' - b))) by ring.
  destruct (Rle_lt_or_eq_dec a x' B) as [E|E].
  - assert (0 < (x' - a) * (y - b)) by (apply Rmult_lt_0_compat; lra). assert (0 <= (a - x) * (y' - b)) by (apply Rmult_le_pos; lra). lra.
  - subst a. assert (0 < (x' - x) * (y' - b)) by (apply Rmult_lt_0_compat; lra). lra.
Qed.
Lemma area_cyc : forall p q r, area2 q r p = area2 p q r.
Proof. intros. unfold area2. ring. Qed.
Lemma area_swap : forall p q r, area2 q p r = - area2 p q r.
Proof. intros. unfold area2. ring. Qed.
