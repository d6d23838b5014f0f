Require Import Reals List Bool Lra Lia PeanoNat ZArith. Import ListNotations.
From Verif Require Import Elr_model Elr_spec.
Local Open Scope R_scope.

Lemma elr_set_at i x g : (i < length g)%nat -> exists g', set_at i x g = Some g' /\ length g' = length g /\
  forall j, nth j g' 0 = if Nat.eq_dec j i then x else nth j g 0.
Proof.
  revert i; induction g as [|y g IH]; intros i H; [cbn in H; lia|]. destruct i as [|i]; cbn.
  - eexists; split; [reflexivity|]. split; [reflexivity|]. intros [|j]; [reflexivity|]. destruct (Nat.eq_dec (S j) 0); [discriminate|reflexivity].
  - destruct (IH i) as (g' & E & L & N); [cbn in H; lia|]. rewrite E. cbn. eexists; split; [reflexivity|]. split; [cbn; lia|].
    intros [|j]; [destruct (Nat.eq_dec 0 (S i)); [discriminate|reflexivity]|]. cbn [nth]. rewrite N.
    destruct (Nat.eq_dec j i) as [A|A], (Nat.eq_dec (S j) (S i)) as [C|C]; auto; exfalso; lia.
Qed.
Definition psum (dv : list (nat * R)) (i : nat) : R := Rsum (map (fun p => if Nat.eq_dec (fst p) i then snd p else 0) dv).
Lemma elr_psum_cons d v dv i : psum ((d, v) :: dv) i = (if Nat.eq_dec d i then v else 0) + psum dv i.
Proof. reflexivity. Qed.
Lemma elr_psum_out dv i : ~ In i (map fst dv) -> psum dv i = 0.
Proof.
  induction dv as [|[d v] dv IH]; intros H; [reflexivity|]. rewrite elr_psum_cons. cbn [map fst In] in H. destruct (Nat.eq_dec d i); [tauto|]. rewrite IH by tauto. lra.
Qed.
Lemma elr_add_at dv : forall g0 g, NoDup (map fst dv) -> (forall d, In d (map fst dv) -> (d < length g)%nat) ->
  exists g', add_at g0 dv g = Some g' /\ length g' = length g /\
  forall i, nth i g' 0 = if in_dec Nat.eq_dec i (map fst dv) then nth i g0 0 + psum dv i else nth i g 0.
Proof.
  induction dv as [|[d v] dv IH]; intros g0 g ND B.
  - exists g. cbn. auto.
  - cbn [map fst] in ND, B. apply NoDup_cons_iff in ND. destruct ND as (ND1 & ND2).
    destruct (elr_set_at d (nth d g0 0 + v) g) as (g1 & E & L & N); [apply B; left; auto|].
    destruct (IH g0 g1 ND2) as (g' & E' & L' & N'); [intros x H; rewrite L; apply B; right; auto|].
    exists g'. cbn [add_at]. rewrite E. split; [exact E'|]. split; [lia|]. intros i. rewrite N'.
    rewrite elr_psum_cons.
    cbn [map fst]. destruct (in_dec Nat.eq_dec i (map fst dv)) as [H|H], (in_dec Nat.eq_dec i (d :: map fst dv)) as [K|K].
    + destruct (Nat.eq_dec d i); [subst; contradiction|]. lra.
    + exfalso; apply K; right; auto.
    + destruct K as [->|K]; [|contradiction]. rewrite N. destruct (Nat.eq_dec i i); [|congruence]. rewrite elr_psum_out by auto. lra.
    + rewrite N. destruct (Nat.eq_dec i d); [subst; exfalso; apply K; left; auto|]. reflexivity.
Qed.
Lemma elr_mask ds : forall F, length F = length ds -> (forall i j d, nth_error ds i = Some d -> nth_error ds j = Some d -> (0 <= d)%Z -> i = j) ->
  exists dv, mask F ds = Some dv /\ NoDup (map fst dv) /\ (forall d, In d (map fst dv) -> In (Z.of_nat d) ds) /\
  forall i, psum dv i = Rsum (map (fun p => if Z.eq_dec (fst p) (Z.of_nat i) then snd p else 0) (combine ds F)).
Proof.
  unfold mask. induction ds as [|d ds IH]; intros F L ND.
  - destruct F; [|discriminate]. cbn. exists []. split; [auto|]. split; [constructor|]. split; [intros ? []|auto].
  - destruct F as [|x F]; [discriminate|]. cbn in L. injection L as L.
    destruct (IH F L) as (dv & E & N & I & P). { intros i j e A B C. assert (X := ND (S i) (S j) e A B C). lia. }
    rewrite (proj2 (Nat.eqb_eq _ _) L) in E. injection E as E.
    cbn [length]. rewrite (proj2 (Nat.eqb_eq (S (length F)) (S (length ds)))) by lia. cbn [combine filter fst].
    destruct (Z.leb 0 d) eqn:D.
    + apply Z.leb_le in D. cbn [map fst snd]. rewrite E. eexists; split; [reflexivity|]. cbn [map fst]. split.
      { constructor; [|exact N]. intros H. apply I in H. rewrite Z2Nat.id in H by auto. apply In_nth_error in H. destruct H as (k & H).
        discriminate (ND 0%nat (S k) d eq_refl H D). }
      split; [intros e [<-|H]; [left; rewrite Z2Nat.id; auto|right; auto]|].
      intros i. rewrite elr_psum_cons. rewrite P. cbn [map fst snd]. change (Rsum (?a :: ?b)) with (a + Rsum b). f_equal. destruct (Nat.eq_dec (Z.to_nat d) i), (Z.eq_dec d (Z.of_nat i)); auto; lia.
    + apply Z.leb_gt in D. rewrite E. eexists; split; [reflexivity|]. split; [exact N|]. split; [intros e H; right; auto|].
      intros i. rewrite P. cbn [map fst snd]. change (Rsum (?a :: ?b)) with (a + Rsum b). destruct (Z.eq_dec d (Z.of_nat i)); [lia|]. lra.
Qed.
Lemma elr_load n l : fits n l -> ~ off_beam l -> exists dv, load_and_dofs l = Some dv /\ NoDup (map fst dv) /\
  (forall d, In d (map fst dv) -> (d < n)%nat) /\ forall i, psum dv i = share l i.
Proof.
  intros (L & B & ND) O. destruct (elr_mask (freedoms l) (forces l) L ND) as (dv & E & N & I & P).
  exists dv. split; [|split; [exact N|split; [intros d H; apply I, B in H; lia|exact P]]].
  destruct l as [s f v d|s k F d]; cbn in *; [exact E|]. destruct k; cbn; try exact E; exfalso; apply O; discriminate.
Qed.
Lemma elr_loop n sid ls : (forall l, In l ls -> load_sid l = sid -> fits n l /\ ~ off_beam l) -> forall g, length g = n ->
  exists g', load_loop sid ls g = Some g' /\ length g' = n /\
  forall i, (i < n)%nat -> nth i g' 0 = nth i g 0 + Rsum (map (fun l => if Nat.eq_dec (load_sid l) sid then share l i else 0) ls).
Proof.
  induction ls as [|l ls IH]; intros H g L.
  - exists g. cbn. repeat split; auto. intros. lra.
  - assert (H' : forall l, In l ls -> load_sid l = sid -> fits n l /\ ~ off_beam l) by (intros; apply H; [right|]; auto).
    cbn [load_loop map]. destruct (Nat.eqb (load_sid l) sid) eqn:E.
    + apply Nat.eqb_eq in E. destruct (H l (or_introl eq_refl) E) as (F & O). destruct (elr_load n l F O) as (dv & -> & ND & B & P).
      destruct (elr_add_at dv g g ND) as (g1 & -> & L1 & N1); [intros d X; rewrite L; auto|].
      destruct (IH H' g1) as (g' & -> & L' & N'); [lia|]. eexists; split; [reflexivity|]. split; [auto|].
      intros i I. rewrite N' by auto. rewrite N1. change (Rsum (?a :: ?b)) with (a + Rsum b). destruct (Nat.eq_dec (load_sid l) sid); [|contradiction].
      rewrite <- P. destruct (in_dec Nat.eq_dec i (map fst dv)) as [X|X]; [lra|]. rewrite (elr_psum_out dv i X). lra.
    + apply Nat.eqb_neq in E. destruct (IH H' g L) as (g' & -> & L' & N'). eexists; split; [reflexivity|]. split; [auto|].
      intros i I. rewrite N' by auto. change (Rsum (?a :: ?b)) with (a + Rsum b). destruct (Nat.eq_dec (load_sid l) sid); [contradiction|]. lra.
Qed.
Lemma elr_none sid ls : (exists l, In l ls /\ load_sid l = sid /\ off_beam l) -> forall g, load_loop sid ls g = None.
Proof.
  induction ls as [|l ls IH]; intros (l0 & I & S & O) g; [destruct I|]. cbn [load_loop]. destruct I as [->|I].
  - rewrite (proj2 (Nat.eqb_eq _ _) S). destruct l0 as [|s k F d]; [destruct O|]. destruct k; cbn; auto. exfalso; apply O; auto.
  - destruct (Nat.eqb (load_sid l) sid); [|apply IH; eauto]. destruct (load_and_dofs l); [|auto]. destruct (add_at _ _ _); [|auto]. apply IH; eauto.
Qed.
Lemma elr_len a b : a <> b -> 0 < rlen a b.
Proof.
  intros N. unfold rlen. apply sqrt_lt_R0. destruct a as [x y], b as [u v]. cbn [fst snd].
  assert (X := pow2_ge_0 (u - x)). assert (Y := pow2_ge_0 (v - y)).
  destruct (Req_dec (u - x) 0) as [U|U]; [destruct (Req_dec (v - y) 0) as [V|V]|].
  - exfalso. apply N. f_equal; lra.
  - assert (Z := Rsqr_pos_lt _ V). unfold Rsqr in Z. cbn in *. lra.
  - assert (Z := Rsqr_pos_lt _ U). unfold Rsqr in Z. cbn in *. lra.
Qed.
