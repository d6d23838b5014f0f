From Verif Require Import Base Problem_proofs.
From Verif Require Import BnB_model BnB_spec.

Lemma choose_loop_cont vs : forall i xR cur mx cur' mx', 0 <= mx ->
  choose_loop i vs xR (cur, mx) = Some (cur', mx') ->
  forall j p xr, cur' = Some (j, p, xr) -> cur = Some (j, p, xr) \/ exists v, nth_error vs (j - i) = Some v /\ (i <= j)%nat /\ b_kind v <> BCont /\ exists viol, violation v xr = Some viol /\ 0 < viol.
Proof.
  induction vs as [|v vs IH]; intros i xR cur mx cur' mx' M H j p xr EC; cbn [choose_loop] in H.
  - injection H as <- <-. auto.
  - destruct xR as [|x xR]; [discriminate|]. destruct (violation v x) as [viol|] eqn:EV; [|discriminate].
    destruct (choose_step (cur, mx) i v x viol) as [c2 m2] eqn:ES.
    assert (ST : 0 <= m2 /\ (c2 = cur \/ (c2 = Some (i, b_prio v, x) /\ 0 < viol))).
    { unfold choose_step in ES. destruct cur as [[[j0 p0] x0]|].
      - destruct (p0 <? b_prio v)%Z; [destruct (Rltb 0 viol) eqn:Q; injection ES as <- <-; [apply Rltb_true in Q; split; [lra|right; auto]|auto]|].
        destruct (b_prio v =? p0)%Z; [destruct (Rltb mx viol) eqn:Q; injection ES as <- <-; [apply Rltb_true in Q; split; [lra|right; split; auto; lra]|auto]|injection ES as <- <-; auto].
      - destruct (Rltb mx viol) eqn:Q; injection ES as <- <-; [apply Rltb_true in Q; split; [lra|right; split; auto; lra]|auto]. }
    destruct ST as [M2 ST]. destruct (IH _ _ _ _ _ _ M2 H j p xr EC) as [E|(v2 & N & L & B)].
    + destruct ST as [->|[-> VP]]; auto. injection E as <- <- <-. right. exists v. rewrite Nat.sub_diag. split; auto. split; auto. split; [|exists viol; auto].
      intros K. unfold violation in EV. rewrite K in EV. injection EV as <-. lra.
    + right. exists v2. replace (j - i)%nat with (S (j - S i)) by lia. split; auto. split; [lia|auto].
Qed.
Lemma branch_variable_lemma : forall vs xR cur mx j p xr, choose_loop 0 vs xR (None, 0) = Some (cur, mx) -> cur = Some (j, p, xr) ->
  exists v, nth_error vs j = Some v /\ b_kind v <> BCont /\ exists viol, violation v xr = Some viol /\ 0 < viol.
Proof.
  intros vs xR cur mx j p xr H E. destruct (choose_loop_cont vs 0 xR None 0 cur mx ltac:(lra) H j p xr E) as [C|(v & N & _ & B & V)]; [discriminate|].
  rewrite Nat.sub_0_r in N. exists v. auto.
Qed.
Lemma allowed_lemma : forall v b x, -100000 <= fst b -> snd b <= 100000 -> b_kind v = BInt ->
  (allowed v b x = Some true <-> fst b <= x <= snd b /\ exists z, Rabs (x - IZR z) <= 1 / 10000).
Proof.
  intros v b x B1 B2 K. unfold allowed. rewrite K. destruct (int_violation_lemma x) as (_ & IV & _). change INT_TOL with (1 / 10000) in IV. rewrite <- IV, <- (int_allowed_lemma (fst b) (snd b) x B1 B2). split; [intros H; injection H; auto|intros ->; auto].
Qed.
Lemma all_allowed_lemma vs : forall bx xR b, all_allowed vs bx xR = Some b ->
  (b = true <-> forall i v d x, nth_error vs i = Some v -> nth_error bx i = Some d -> nth_error xR i = Some x -> allowed v d x = Some true).
Proof.
  induction vs as [|v vs IH]; intros bx xR b H; cbn in H.
  - injection H as <-. split; [|auto]. intros _ i v d x Hv. destruct i; discriminate.
  - destruct bx as [|d bx]; [discriminate|]. destruct xR as [|x xR]; [discriminate|].
    destruct (allowed v d x) as [r|] eqn:E; [|discriminate]. destruct (all_allowed vs bx xR) as [r'|] eqn:E'; [|discriminate].
    injection H as <-. specialize (IH bx xR r' E'). split.
    + intros H. apply andb_prop in H. destruct H as [-> ->]. intros [|i] v1 d1 x1 A B C; cbn in *.
      * injection A as <-. injection B as <-. injection C as <-. exact E.
      * apply (proj1 IH eq_refl i v1 d1 x1); auto.
    + intros H. assert (A := H 0%nat v d x eq_refl eq_refl eq_refl). rewrite E in A. injection A as ->.
      cbn. apply IH. intros i v1 d1 x1 B C D. apply (H (S i) v1 d1 x1); auto.
Qed.
