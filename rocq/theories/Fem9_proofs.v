From Verif Require Import Base Fem_proofs.
From Verif Require Import Fem_model Fem_spec.

Lemma removed_lemma : forall ns sups sid i, In i (rem_dofs ns sups sid) <->
  exists s k, In s sups /\ s_sid s = sid /\ In k (s_dof s) /\ dof_at ns (s_node s) k = Some (Z.of_nat i).
Proof.
  intros ns sups sid i. unfold rem_dofs. rewrite in_flat_map. unfold dof_at. split.
  - intros (s & I & H). destruct (Nat.eqb_spec (s_sid s) sid) as [E|E]; [|contradiction]. apply in_flat_map in H. destruct H as (k & K & H). cbv zeta in H.
    exists s, k. repeat split; auto. destruct (Z.ltb_spec (-1) (nth k (nth (s_node s) ns []) (-1)%Z)) as [L|L]; [|contradiction]. destruct H as [<-|[]]. rewrite Z2Nat.id by lia.
    destruct (nth_error ns (s_node s)) as [nd|] eqn:EN.
    + apply nth_error_nth with (d := []) in EN as EN2. rewrite EN2 in L |- *. destruct (nth_error nd k) as [z|] eqn:EK; [apply nth_error_nth with (d := (-1)%Z) in EK; congruence|]. apply nth_error_None in EK. rewrite nth_overflow in L by lia. lia.
    + apply nth_error_None in EN. rewrite (nth_overflow ns) in L by lia. destruct k; cbn in L; lia.
  - intros (s & k & I & E & K & H). exists s. split; auto. rewrite E, Nat.eqb_refl. apply in_flat_map. exists k. split; auto. cbv zeta.
    destruct (nth_error ns (s_node s)) as [nd|] eqn:EN; [|discriminate]. apply nth_error_nth with (d := []) in EN. rewrite EN.
    apply nth_error_nth with (d := (-1)%Z) in H. rewrite H. destruct (Z.ltb_spec (-1) (Z.of_nat i)); [|lia]. rewrite Nat2Z.id. left. auto.
Qed.
