From Verif Require Import Base OptVars_proofs.
From Verif Require Import OptVars_model OptVars_spec.

Lemma truncZ_nonneg x : 0 <= x -> IZR (truncZ x) <= x < IZR (truncZ x) + 1.
Proof. intros H. unfold truncZ. destruct (Rle_dec 0 x); [|lra]. destruct (base_Int_part x); lra. Qed.
Lemma truncZ_neg x : x < 0 -> IZR (truncZ x) - 1 < x <= IZR (truncZ x).
Proof. intros H. unfold truncZ. destruct (Rle_dec 0 x); [lra|]. rewrite opp_IZR. destruct (base_Int_part (- x)); lra. Qed.
Lemma index_position_lemma : forall v n x, (0 < n)%nat -> v_kind v = KIndex n -> v_locked v = false -> v_target v <> TNone ->
  (substitute v x = None <-> INR n <= x \/ x <= - INR n - 1) /\
  forall v', substitute v x = Some v' -> exists k, (k < n)%nat /\ v_written v' = Some (INR k) /\
    (-1 < x < 1 -> k = 0%nat) /\ (0 <= x -> INR k <= x < INR k + 1) /\ (x <= -1 -> INR k - INR n - 1 < x <= INR k - INR n).
Proof.
  intros v n x NP K L T. unfold substitute. rewrite K. unfold index_substitute, py_index_ok. rewrite L.
  set (i := truncZ x). assert (TR : (0 <= x -> IZR i <= x < IZR i + 1) /\ (x < 0 -> IZR i - 1 < x <= IZR i)) by (split; [apply truncZ_nonneg|apply truncZ_neg]).
  destruct TR as [TP TN]. rewrite (INR_IZR_INZ n).
  assert (LB : (- Z.of_nat n <= i)%Z <-> - IZR (Z.of_nat n) - 1 < x).
  { split; intros H.
    - apply IZR_le in H. rewrite opp_IZR in H. destruct (Rle_dec 0 x) as [X|X]; [pose proof (IZR_le 0 (Z.of_nat n) ltac:(lia)); lra|]. specialize (TN ltac:(lra)). lra.
    - destruct (Rle_dec 0 x) as [X|X].
      + specialize (TP X). assert (-1 < i)%Z by (apply lt_IZR; lra). lia.
      + specialize (TN ltac:(lra)). assert (- Z.of_nat n - 1 < i)%Z by (apply lt_IZR; rewrite minus_IZR, opp_IZR; lra). lia. }
  assert (UB : (i < Z.of_nat n)%Z <-> (x < IZR (Z.of_nat n) /\ ((0 < n)%nat \/ x <= -1))).
  { split; intros H.
    - destruct (Rle_dec 0 x) as [X|X].
      + specialize (TP X). assert (i + 1 <= Z.of_nat n)%Z by lia. apply IZR_le in H0. rewrite plus_IZR in H0. split; [lra|]. assert (-1 < i)%Z by (apply lt_IZR; lra). lia.
      + specialize (TN ltac:(lra)). pose proof (IZR_le 0 (Z.of_nat n) ltac:(lia)). split; [lra|]. destruct n; [right|left; lia]. assert (i <= -1)%Z by lia. apply IZR_le in H1. lra.
    - destruct H as [H1 H2]. destruct (Rle_dec 0 x) as [X|X].
      + specialize (TP X). apply lt_IZR. lra.
      + specialize (TN ltac:(lra)). destruct H2 as [H2|H2]; [assert (i < 1)%Z by (apply lt_IZR; lra); lia|]. assert (i < 0)%Z by (apply lt_IZR; lra). lia. }
  split.
  - split.
    + intros H. destruct (Z.leb_spec (- Z.of_nat n) i) as [A|A]; destruct (Z.ltb_spec i (Z.of_nat n)) as [B|B]; cbn [andb] in H; try discriminate.
      * destruct (Rle_dec (IZR (Z.of_nat n)) x) as [X|X]; [left; auto|]. assert (~ (x < IZR (Z.of_nat n) /\ ((0 < n)%nat \/ x <= -1))) as N by (intros C; apply UB in C; lia).
        exfalso; apply N; split; [lra|left; lia].
      * right. apply Rnot_lt_le. intros C. apply LB in C. lia.
      * right. apply Rnot_lt_le. intros C. apply LB in C. lia.
    + intros [H|H].
      * destruct (Z.ltb_spec i (Z.of_nat n)) as [B|B]; [apply UB in B; lra|]. rewrite andb_false_r. reflexivity.
      * destruct (Z.leb_spec (- Z.of_nat n) i) as [A|A]; [apply LB in A; lra|reflexivity].
  - intros v' H. destruct (Z.leb_spec (- Z.of_nat n) i) as [A|A]; [|discriminate]. destruct (Z.ltb_spec i (Z.of_nat n)) as [B|B]; [|discriminate]. cbn [andb] in H.
    exists (Z.to_nat (py_index_pos n i)). assert (P : (0 <= py_index_pos n i < Z.of_nat n)%Z) by (unfold py_index_pos; destruct (Z.ltb_spec i 0); lia).
    split; [lia|]. rewrite (INR_IZR_INZ (Z.to_nat _)). rewrite Z2Nat.id by lia. injection H as <-. cbn [v_written].
    split; [destruct (v_target v); congruence|]. unfold py_index_pos in *.
    split. { intros X. assert (i = 0)%Z; [|subst i; rewrite H; reflexivity]. destruct (Rle_dec 0 x) as [X0|X0]; [specialize (TP X0)|specialize (TN ltac:(lra))].
      - assert (-1 < i < 1)%Z by (split; apply lt_IZR; lra). lia. - assert (-1 < i < 1)%Z by (split; apply lt_IZR; lra). lia. }
    split; intros X.
    + specialize (TP X). assert (-1 < i)%Z by (apply lt_IZR; lra). destruct (Z.ltb_spec i 0); [lia|]. auto.
    + specialize (TN ltac:(lra)). assert (i < 0)%Z by (apply lt_IZR; lra). destruct (Z.ltb_spec i 0); [|lia]. rewrite plus_IZR. lra.
Qed.
Lemma unlock_lemma : forall v x, is_index v = false -> exists v', substitute (unlock v) x = Some v' /\ v_value v' = Some x /\ v_locked v' = false.
Proof.
  intros v x I. unfold substitute, unlock. cbn [set_locked v_kind]. unfold is_index in I. destruct (v_kind v) eqn:K; try discriminate;
    (eexists; split; [reflexivity|]; unfold base_substitute; cbn; auto).
Qed.
