(** C378: the load vector by class of element, and line loads on rods. *)
Require Import Reals List Bool Lra Lia PeanoNat ZArith. Import ListNotations.
From Verif Require Import Elr_proofs.
From Verif Require Import Elr_model Elr_spec.
Local Open Scope R_scope.

(** C378: with line loads on plane beams only, the load vector of a case holds at each degree of freedom the sum of the
    forces of the loads of the case, and of no other load. *)
Theorem C378_load_vector : forall n sid ls, (forall l, In l ls -> load_sid l = sid -> fits n l /\ ~ off_beam l) ->
  exists g, global_load_vector n sid ls = Some g /\ length g = n /\
  forall i, (i < n)%nat -> nth i g 0 = Rsum (map (fun l => if Nat.eq_dec (load_sid l) sid then share l i else 0) ls).
Proof.
  intros n sid ls H. destruct (elr_loop n sid ls H (repeat 0 n) (repeat_length _ _)) as (g & E & L & N).
  exists g. split; [exact E|]. split; [exact L|]. intros i I. rewrite N by auto. rewrite nth_repeat. lra.
Qed.
Print Assumptions C378_load_vector.
(** C378, finding: one line load of the case on a semi-rigid beam, a space beam, a rod or a spring makes the load
    vector raise, whatever the other loads. *)
Theorem C378_other_elements_refuted : forall n sid k F d ls1 ls2, k = Ksemi \/ k = Kbeam3 \/ k = Krod \/ k = Kspring ->
  global_load_vector n sid (ls1 ++ LineL sid k F d :: ls2) = None.
Proof.
  intros n sid k F d l1 l2 K. apply elr_none. exists (LineL sid k F d). split; [apply in_or_app; right; left; auto|].
  split; [reflexivity|]. cbn. intros ->. destruct K as [K|[K|[K|K]]]; discriminate.
Qed.
Print Assumptions C378_other_elements_refuted.
(** C378: so for loads that fit the model the load vector exists exactly if no line load of the case is off the plane
    beams. *)
Theorem C378_exists_iff : forall n sid ls, (forall l, In l ls -> load_sid l = sid -> fits n l) ->
  (global_load_vector n sid ls <> None <-> forall l, In l ls -> load_sid l = sid -> ~ off_beam l).
Proof.
  intros n sid ls F. split.
  - intros H l I S O. apply H. apply elr_none. eauto.
  - intros O. destruct (C378_load_vector n sid ls) as (g & -> & _); [intros; split; auto|discriminate].
Qed.
Print Assumptions C378_exists_iff.
(** C378: asked directly, a rod shares a line load equally between its ends; the sum is the intensity times the
    projected length, with the sign of the direction from its first node to its second. *)
Theorem C378_rod_loads : forall a b q, a <> b ->
  exists fx fy, rod_loads a b q = [fx; fy; fx; fy] /\ fx + fx = fst q * (snd b - snd a) /\ fy + fy = snd q * (fst b - fst a).
Proof.
  intros a b q N. assert (L := elr_len a b N). eexists _, _. split; [reflexivity|]. split; field; lra.
Qed.
Print Assumptions C378_rod_loads.
(** C378, finding: the loads of a rod change sign when its nodes are listed the other way round. *)
Theorem C378_rod_direction_refuted : forall a b q, a <> b -> rod_loads b a q = map Ropp (rod_loads a b q).
Proof.
  intros a b q N. assert (L := elr_len a b N). assert (M := elr_len b a ltac:(congruence)).
  unfold rod_loads. cbn [map]. repeat f_equal; field; lra.
Qed.
Print Assumptions C378_rod_direction_refuted.

Example C378_ex : (forall l, In l [PointL 2 (3/2) [10; -20; 0] [0; 1; -1]%Z; LineL 2 Kbeam [0; 5; 7; 0; 5; -7] [0; 1; -1; 2; 3; 4]%Z] -> fits 5 l /\ ~ off_beam l) /\
  share (PointL 2 (3/2) [10; -20; 0] [0; 1; -1]%Z) 1 = -30 /\ rod_loads (0, 0) (4, 0) (0, -3) = [0; -6; 0; -6].
Proof.
  split; [|split].
  - intros l [<-|[<-|[]]]; (split; [|cbn; auto]); (split; [reflexivity|]); cbn [freedoms]; split.
    1,3: cbn; intros d H; repeat destruct H as [<-|H]; try lia; destruct H.
    + intros i j d A B D. destruct i as [|[|[|i]]], j as [|[|[|j]]]; cbn in *; try congruence; try (destruct i; discriminate); try (destruct j; discriminate); injection A as <-; injection B as B; lia.
    + intros i j d A B D. destruct i as [|[|[|[|[|[|i]]]]]], j as [|[|[|[|[|[|j]]]]]]; cbn in *; try congruence; try (destruct i; discriminate); try (destruct j; discriminate); injection A as <-; injection B as B; lia.
  - unfold share; cbn. lra.
  - destruct (C378_rod_loads (0, 0) (4, 0) (0, -3)) as (fx & fy & E & X & Y); [intros H; injection H; lra|]. rewrite E. cbn in X, Y.
    assert (fx = 0) by lra. assert (fy = -6) by lra. subst. reflexivity.
Qed.
