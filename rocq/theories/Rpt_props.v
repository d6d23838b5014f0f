(** C376: the report of the largest constraints. *)
Require Import Reals List Bool Lra Lia PeanoNat Permutation Sorted. Import ListNotations.
From Verif Require Import EC3_proofs Rpt_proofs.
From Verif Require Import Rpt_model Rpt_spec.
Local Open Scope R_scope.

(** C376: asked for at least one constraint, the report lists as many as asked for, or all, each once, from the largest
    value down, and none with a larger value is left out. *)
Theorem C376_listed : forall cs n part, (1 <= n)%nat -> partitioned cs (Nat.min (length cs) n) part ->
  length (listed cs n part) = Nat.min (length cs) n /\ NoDup (listed cs n part) /\
  (forall i, In i (listed cs n part) -> (i < length cs)%nat) /\
  StronglySorted (fun i j => val cs j <= val cs i) (listed cs n part) /\
  (forall i j, In i (listed cs n part) -> (j < length cs)%nat -> ~ In j (listed cs n part) -> val cs j <= val cs i).
Proof. exact rpt_main. Qed.
Print Assumptions C376_listed.

(** C376: constraints with equal values are listed from the last to the first. *)
Theorem C376_order : forall cs n part, StronglySorted (before cs) (listed cs n part).
Proof. exact rpt_before. Qed.
Print Assumptions C376_order.

(** C376: the constraint named as the maximum is the first one with the largest value. *)
Theorem C376_maximum : forall cs, (cs = [] <-> max_con cs = None) /\
  forall i, max_con cs = Some i -> (i < length cs)%nat /\ (forall j, (j < length cs)%nat -> val cs j <= val cs i) /\ (forall j, (j < i)%nat -> val cs j < val cs i).
Proof.
  intros cs. unfold max_con, values. destruct cs as [|c cs]; cbn [map]; [split; [tauto|discriminate]|].
  split; [split; discriminate|]. intros i H. injection H as <-.
  pose proof (rpt_argmax (map snd cs) 1 0 (snd c) (val (c :: cs)) ltac:(lia) eq_refl) as K. cbn [length].
  rewrite map_length in K. apply K.
  - intros j H. assert (j = 0)%nat by lia. subst. unfold val. cbn. lra.
  - intros j H. lia.
  - intros j x H. unfold val. cbn. apply nth_error_nth. exact H.
Qed.
Print Assumptions C376_maximum.

(** C376: if all constraints are of the type [<] and one does not hold, then the maximum one and the first one listed do
    not hold; and all that do not hold are listed if there are no more of them than asked for. *)
Theorem C376_violated : forall cs n part, (1 <= n)%nat -> partitioned cs (Nat.min (length cs) n) part ->
  (forall c, In c cs -> fst c = Clt) ->
  ((exists i, violated_at cs i) ->
     (exists i, max_con cs = Some i /\ violated_at cs i) /\ (exists i r, listed cs n part = i :: r /\ violated_at cs i)) /\
  (forall V, NoDup V -> (forall i, In i V <-> violated_at cs i) -> (length V <= n)%nat -> forall i, violated_at cs i -> In i (listed cs n part)).
Proof.
  intros cs n part N P T. destruct (rpt_main cs n part N P) as (L & ND & B & S & M).
  assert (VA : forall i, violated_at cs i <-> (i < length cs)%nat /\ 0 < val cs i).
  { intros i. split.
    - intros (c & E & V). split; [apply nth_error_Some; congruence|]. rewrite (rpt_val _ _ _ E). unfold violated in V. rewrite (T c) in V by (eapply nth_error_In; eauto). exact V.
    - intros (Li & V). destruct (nth_error cs i) as [c|] eqn:E; [|apply nth_error_None in E; lia]. exists c. split; [exact E|].
      rewrite (rpt_val _ _ _ E) in V. unfold violated. rewrite (T c) by (eapply nth_error_In; eauto). exact V. }
  split.
  - intros (i & V). apply VA in V. destruct V as (Li & V). split.
    + destruct (C376_maximum cs) as (E & K). destruct (max_con cs) as [m|]; [|destruct E as [_ E]; rewrite (E eq_refl) in Li; cbn in Li; lia].
      exists m. split; [reflexivity|]. destruct (K m eq_refl) as (A & C & _). apply VA. split; [exact A|]. specialize (C i Li). lra.
    + destruct (listed cs n part) as [|a r] eqn:E; [cbn in L; lia|]. exists a, r. split; [reflexivity|]. apply VA. split; [apply B; left; reflexivity|].
      inversion S as [|? ? _ F]; subst. destruct (in_dec Nat.eq_dec i (a :: r)) as [[<-|I]|I]; [exact V| |].
      * rewrite Forall_forall in F. specialize (F i I). cbn in F. lra.
      * specialize (M a i (or_introl eq_refl) Li I). lra.
  - intros V NV IV LV i Vi. destruct (in_dec Nat.eq_dec i (listed cs n part)) as [I|I]; [exact I|]. exfalso.
    apply VA in Vi. destruct Vi as (Li & Vi).
    assert (INC : incl (i :: listed cs n part) V).
    { intros j [<-|J]; apply IV, VA; [auto|]. split; [apply B; exact J|]. specialize (M j i J Li I). lra. }
    assert (INC2 : incl (i :: listed cs n part) (seq 0 (length cs))).
    { intros j [<-|J]; apply in_seq; [lia|]. specialize (B j J). lia. }
    pose proof (NoDup_incl_length (NoDup_cons i I ND) INC) as H1. pose proof (NoDup_incl_length (NoDup_cons i I ND) INC2) as H2.
    rewrite seq_length in H2. cbn [length] in H1, H2. lia.
Qed.
Print Assumptions C376_violated.

(** C376, finding: with constraints of the type [>] what is reported as the maximum can hold while the one that does not
    is left out, however large the violation. *)
Theorem C376_greater_than_refuted : forall a b, a < b -> b < 0 ->
  let cs := [(Cgt, a); (Clt, b)] in
  violated_at cs 0 /\ ~ violated_at cs 1 /\ max_con cs = Some 1%nat /\ forall part, partitioned cs 1 part -> listed cs 1 part = [1%nat].
Proof.
  intros a b A B cs. split; [|split; [|split]].
  - exists (Cgt, a). split; [reflexivity|]. cbn. lra.
  - intros (c & E & V). injection E as <-. cbn in V. lra.
  - unfold max_con. cbn. rewrite (proj2 (Rltb_true a b)) by lra. reflexivity.
  - intros part P. destruct (rpt_main cs 1 part ltac:(lia) P) as (L & _ & I & _ & M). destruct (listed cs 1 part) as [|x [|y r]]; [discriminate| |discriminate].
    specialize (I x (or_introl eq_refl)). cbn in I. destruct x as [|[|x]]; [|reflexivity|lia].
    specialize (M 0%nat 1%nat (or_introl eq_refl) ltac:(cbn; lia) ltac:(intros [H|[]]; discriminate)). cbn in M. lra.
Qed.
Print Assumptions C376_greater_than_refuted.

(** C376, finding: asked for no constraint at all the report lists every one. *)
Theorem C376_zero_refuted : forall cs part, Permutation part (seq 0 (length cs)) -> Permutation (listed cs 0 part) (seq 0 (length cs)).
Proof. intros cs part P. destruct (rpt_listed cs 0 part) as (L & _). rewrite Nat.min_0_r in L. cbn [last_k] in L. rewrite L. exact P. Qed.
Print Assumptions C376_zero_refuted.

(** Four constraints, two of which do not hold. *)
Example C376_ex : let cs := [(Clt, -1); (Clt, 2); (Clt, 1); (Clt, -3)] in
  partitioned cs (Nat.min (length cs) 2) [0%nat; 3%nat; 1%nat; 2%nat] /\ listed cs 2 [0%nat; 3%nat; 1%nat; 2%nat] = [1%nat; 2%nat] /\ max_con cs = Some 1%nat.
Proof.
  cbn zeta. split; [split|split].
  - cbn. apply perm_skip. eapply perm_trans; [apply perm_swap|]. apply perm_skip. apply perm_swap.
  - cbn. intros i j [<-|[<-|[]]] [<-|[<-|[]]]; unfold val; cbn; lra.
  - unfold listed. cbn. unfold pair_le. cbn [fst snd]. rewrite (proj2 (Rltb_false 2 1)) by lra. rewrite (proj2 (Rltb_true 1 2)) by lra. reflexivity.
  - unfold max_con. cbn. rewrite (proj2 (Rltb_true (-1) 2)) by lra. rewrite (proj2 (Rltb_false 2 1)) by lra. rewrite (proj2 (Rltb_false 2 (-3))) by lra. reflexivity.
Qed.
