(** Interaction of generated linear constraints with locked variables. *)
From Verif Require Import OptVars_proofs.

Lemma subst_vars_length xs vs vs' : subst_vars xs vs = Some vs' -> length vs' = length vs.
Proof.
  revert xs vs'; induction vs as [|v vs IH]; intros xs vs' E; simpl in E; [injection E as <-; auto|].
  destruct (v_locked v).
  - destruct (subst_vars xs vs) eqn:E1; [injection E as <-|discriminate]. simpl; f_equal; eauto.
  - destruct xs as [|x xs]; [injection E as <-; auto|].
    destruct (substitute v _); [|discriminate]. destruct (subst_vars xs vs) eqn:E1; [injection E as <-|discriminate].
    simpl; f_equal; eauto.
Qed.

Lemma free_locked_length vs : (length (free_vars vs) + length (locked_vars vs) = length vs)%nat.
Proof. unfold free_vars, locked_vars; induction vs as [|v vs IH]; simpl; auto. destruct (v_locked v); simpl; lia. Qed.

Lemma short_row_raises_lemma a b vs x :
  length a = length (free_vars vs) -> locked_vars vs <> [] -> lin_call a b vs x = None.
Proof.
  intros HA HL. unfold lin_call. destruct (con_sync vs x) as [vs'|] eqn:E; auto.
  assert (LV : length vs' = length vs).
  { destruct (con_sync_cases _ _ _ E) as [->|E1]; auto. eapply subst_vars_length; eauto. }
  unfold lin_values. destruct (existsb is_index vs'); auto.
  destruct (all_some (map v_value vs')) as [X|] eqn:EX; auto.
  apply all_some_len in EX. rewrite map_length, LV in EX.
  pose proof (free_locked_length vs). destruct (locked_vars vs) as [|w l] eqn:W; [congruence|]. simpl in H.
  destruct (Nat.eqb (length a) (length X)) eqn:Q; auto. apply Nat.eqb_eq in Q. lia.
Qed.
