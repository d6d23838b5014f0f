(** Proofs about the two-phase solver. *)
Require Import Reals List Bool Lra Lia PeanoNat. Import ListNotations.
From Verif Require Import Bool_tac EC3_proofs Csv_proofs Solvers2_proofs.
From Verif Require Import Tph_model Tph_spec.
Local Open Scope R_scope.

Lemma tph_abs a b : a ^ 2 <= b ^ 2 -> Rabs a <= Rabs b.
Proof. intros H. apply Rsqr_le_abs_0. unfold Rsqr. lra. Qed.
Lemma tph_asc_skipn l : forall n, ascending l -> ascending (skipn n l).
Proof. induction l as [|a l IH]; intros [|n] A; cbn; auto. apply IH. apply A. Qed.
Lemma tph_asc_firstn l : forall n, ascending l -> ascending (firstn n l).
Proof.
  induction l as [|a l IH]; intros [|n] A; cbn; auto. destruct A as (A & B). split; [|apply IH; exact B].
  intros b I. apply A. clear - I. revert n I. induction l as [|c l IH]; intros [|n] I; cbn in I; try tauto. destruct I as [<-|I]; [left; reflexivity|right; eapply IH; exact I].
Qed.
Lemma tph_asc_min a l : ascending (a :: l) -> lmin (a :: l) = a.
Proof.
  intros (A & _). destruct (csv_least (a :: l) ltac:(discriminate)) as (I & M). destruct I as [I|I]; [congruence|].
  specialize (M a (or_introl eq_refl)). specialize (A _ I). cbv beta in *. lra.
Qed.
Lemma tph_skipn_head {A} (l : list A) : forall n a, nth_error l n = Some a -> exists r, skipn n l = a :: r.
Proof. induction l as [|b l IH]; intros [|n] a H; cbn in *; try discriminate; [injection H as <-; eauto|apply IH; exact H]. Qed.
Lemma tph_window l x ll ul w : (1 <= ul)%nat -> window l x ll ul = Some w -> exists j, nearest_at j x l /\ exists a r, w = a :: r /\ nth_error l (j - ll) = Some a.
Proof.
  intros U H. unfold window in H. destruct (argmin_from 0 _ l) as [[j b]|] eqn:E; [|discriminate]. injection H as <-.
  apply argmin_from_ok in E. destruct E as (_ & E & M). rewrite Nat.sub_0_r in E. exists j. split.
  { exists b. split; [exact E|]. intros v I. apply tph_abs. apply M. exact I. }
  assert (L : (j < length l)%nat) by (apply nth_error_Some; congruence).
  destruct (nth_error l (j - ll)) as [a|] eqn:F; [|apply nth_error_None in F; lia]. destruct (tph_skipn_head _ _ _ F) as (r & K). rewrite K.
  destruct (Nat.min (length l) (j + ul) - (j - ll))%nat as [|m] eqn:Q; [lia|]. cbn [firstn]. eauto.
Qed.
Lemma tph_window_asc l x ll ul w : ascending l -> window l x ll ul = Some w -> ascending w.
Proof.
  intros A H. unfold window in H. destruct (argmin_from 0 _ l) as [[j b]|]; [|discriminate]. injection H as <-.
  apply tph_asc_firstn, tph_asc_skipn. exact A.
Qed.
Lemma tph_disc ll ul xs : forall vs i vs', discretize vs xs ll ul i = Some vs' ->
  Forall2 (fun p v' => match snd p with Pcont lb => v' = Pcont lb
     | Pdisc vals => exists x w, nth_error xs (fst p) = Some x /\ window vals x ll ul = Some w /\ w <> [] /\ v' = Pdisc w end)
    (combine (seq i (length vs)) vs) vs'.
Proof.
  induction vs as [|v vs IH]; intros i vs' H; cbn in H.
  - injection H as <-. constructor.
  - destruct v as [lb|vals]; cbn [length seq combine].
    + destruct (discretize vs xs ll ul (S i)) as [r|] eqn:E; [|discriminate]. injection H as <-. constructor; [reflexivity|apply IH; exact E].
    + destruct (nth_error xs i) as [x|] eqn:X; [|discriminate]. cbn in H. destruct (window vals x ll ul) as [w|] eqn:W; [|discriminate]. cbn in H.
      destruct w as [|a w]; [discriminate|]. destruct (discretize vs xs ll ul (S i)) as [r|] eqn:E; [|discriminate]. injection H as <-.
      constructor; [|apply IH; exact E]. cbn. exists x, (a :: w). repeat split; auto. discriminate.
Qed.
Lemma tph_disc_total ll ul xs : (1 <= ul)%nat -> forall vs i, (i + length vs <= length xs)%nat ->
  (forall vals, In (Pdisc vals) vs -> vals <> []) -> exists vs', discretize vs xs ll ul i = Some vs'.
Proof.
  intros U. induction vs as [|v vs IH]; intros i L N; cbn; [eauto|]. cbn in L.
  destruct (IH (S i) ltac:(lia) (fun vals I => N vals (or_intror I))) as (r & E). rewrite E. destruct v as [lb|vals]; cbn; [eauto|].
  destruct (nth_error xs i) as [x|] eqn:X; [|apply nth_error_None in X; lia]. cbn.
  destruct (window vals x ll ul) as [w|] eqn:W.
  - cbn. destruct (tph_window _ _ _ _ _ U W) as (j & _ & a & q & -> & _). eauto.
  - exfalso. unfold window in W. destruct (argmin_from_total (fun v => (v - x) ^ 2) vals 0%nat (N vals (or_introl eq_refl))) as (j & v & K). rewrite K in W. discriminate.
Qed.
