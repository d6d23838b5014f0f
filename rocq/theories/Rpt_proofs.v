(** Proofs about the report of constraints. *)
Require Import Reals List Bool Lra Lia PeanoNat Permutation Sorted. Import ListNotations.
From Verif Require Import Bool_tac EC3_proofs.
From Verif Require Import Rpt_model Rpt_spec.
Local Open Scope R_scope.

Lemma rpt_pins a l : Permutation (a :: l) (pins a l).
Proof.
  induction l as [|b l IH]; cbn; [reflexivity|]. destruct (pair_le a b); [reflexivity|].
  rewrite perm_swap. constructor. exact IH.
Qed.
Lemma rpt_psort l : Permutation l (psort l).
Proof. induction l as [|a l IH]; cbn; [reflexivity|]. rewrite <- rpt_pins. constructor. exact IH. Qed.
Lemma rpt_le a b : pair_le a b = true -> fst a <= fst b.
Proof. unfold pair_le. destruct (Rltb (fst a) (fst b)) eqn:E; [apply Rltb_true in E; lra|]. destruct (Rltb (fst b) (fst a)) eqn:F; [discriminate|]. apply Rltb_false in F. lra. Qed.
Lemma rpt_nle a b : pair_le a b = false -> fst b <= fst a.
Proof. unfold pair_le. destruct (Rltb (fst a) (fst b)) eqn:E; [discriminate|]. apply Rltb_false in E. lra. Qed.
Lemma rpt_pins_sorted a l : StronglySorted (fun x y : R * nat => fst x <= fst y) l -> StronglySorted (fun x y => fst x <= fst y) (pins a l).
Proof.
  induction l as [|b l IH]; intros S; cbn; [repeat constructor|]. inversion S as [|? ? S' F]; subst. destruct (pair_le a b) eqn:E.
  - constructor; [exact S|]. apply rpt_le in E. constructor; [exact E|]. eapply Forall_impl; [|exact F]. cbn. intros x H. lra.
  - apply rpt_nle in E. constructor; [apply IH; exact S'|]. eapply Permutation_Forall; [apply rpt_pins|]. constructor; auto.
Qed.
Lemma rpt_sorted l : StronglySorted (fun x y : R * nat => fst x <= fst y) (psort l).
Proof. induction l as [|a l IH]; cbn; [constructor|apply rpt_pins_sorted; exact IH]. Qed.
Lemma rpt_combine {A B} (f : A -> B) l : combine (map f l) l = map (fun i => (f i, i)) l.
Proof. induction l; cbn; congruence. Qed.
Lemma rpt_ss_map (f : nat -> R) l : Forall (fun p : R * nat => fst p = f (snd p)) l -> StronglySorted (fun x y : R * nat => fst x <= fst y) l ->
  StronglySorted (fun i j => f i <= f j) (map snd l).
Proof.
  intros F S. induction S as [|a l S IH G]; cbn; [constructor|]. inversion F as [|? ? E F']; subst. constructor; [apply IH; exact F'|].
  apply Forall_map. rewrite Forall_forall in *. intros p I. rewrite <- E, <- (F' p I). apply G. exact I.
Qed.
Lemma rpt_ss_app {A} (R : A -> A -> Prop) l a : StronglySorted R l -> Forall (fun x => R x a) l -> StronglySorted R (l ++ [a]).
Proof.
  induction l as [|b l IH]; intros S F; cbn; [repeat constructor|]. inversion S; inversion F; subst. constructor; [apply IH; auto|].
  apply Forall_app. split; auto.
Qed.
Lemma rpt_ss_rev {A} (R : A -> A -> Prop) l : StronglySorted R l -> StronglySorted (fun x y => R y x) (rev l).
Proof.
  induction 1 as [|a l S IH F]; cbn; [constructor|]. apply rpt_ss_app; [exact IH|]. apply Forall_rev. exact F.
Qed.
(** What is listed, up to order and sorted. *)
Lemma rpt_listed cs n part : Permutation (listed cs n part) (last_k (Nat.min (length cs) n) part) /\
  StronglySorted (fun i j => val cs j <= val cs i) (listed cs n part).
Proof.
  unfold listed. set (idx := last_k _ part). rewrite rpt_combine. set (l := map _ idx).
  assert (F : Forall (fun p : R * nat => fst p = val cs (snd p)) l) by (apply Forall_map, Forall_forall; intros; reflexivity).
  split.
  - rewrite <- Permutation_rev. rewrite <- rpt_psort. unfold l. rewrite map_map. cbn. rewrite map_id. reflexivity.
  - apply (rpt_ss_rev (fun i j => val cs i <= val cs j)). apply rpt_ss_map; [|apply rpt_sorted]. eapply Permutation_Forall; [apply rpt_psort|exact F].
Qed.
Lemma rpt_main cs n part : (1 <= n)%nat -> partitioned cs (Nat.min (length cs) n) part ->
  length (listed cs n part) = Nat.min (length cs) n /\ NoDup (listed cs n part) /\
  (forall i, In i (listed cs n part) -> (i < length cs)%nat) /\
  StronglySorted (fun i j => val cs j <= val cs i) (listed cs n part) /\
  (forall i j, In i (listed cs n part) -> (j < length cs)%nat -> ~ In j (listed cs n part) -> val cs j <= val cs i).
Proof.
  intros N (P & Q). destruct (rpt_listed cs n part) as (L & S). set (k := Nat.min (length cs) n) in *.
  assert (LP : length part = length cs) by (rewrite (Permutation_length P), seq_length; reflexivity).
  assert (E : last_k k part = skipn (length cs - k) part).
  { unfold last_k. destruct k eqn:K; [|rewrite LP; reflexivity]. assert (Z : length cs = 0%nat) by lia. rewrite Z in *. destruct part; [reflexivity|discriminate]. }
  rewrite E in L. assert (ND : NoDup part) by (eapply Permutation_NoDup; [symmetry; exact P|apply seq_NoDup]).
  rewrite <- (firstn_skipn (length cs - k) part) in ND. split; [|split; [|split; [|split]]].
  - rewrite (Permutation_length L), skipn_length, LP. unfold k. lia.
  - eapply Permutation_NoDup; [symmetry; exact L|]. clear -ND. induction (firstn _ part) as [|a l IH]; [exact ND|]. cbn in ND. inversion ND; auto.
  - intros i I. apply (Permutation_in _ L) in I. assert (J : In i part) by (rewrite <- (firstn_skipn (length cs - k) part); apply in_app_iff; auto).
    apply (Permutation_in _ P) in J. apply in_seq in J. lia.
  - exact S.
  - intros i j I J NJ. apply (Permutation_in _ L) in I. assert (K : In j part) by (apply (Permutation_in _ (Permutation_sym P)), in_seq; lia).
    rewrite <- (firstn_skipn (length cs - k) part) in K. apply in_app_iff in K. destruct K as [K|K]; [apply Q; auto|].
    exfalso. apply NJ. apply (Permutation_in _ (Permutation_sym L)). exact K.
Qed.
Lemma rpt_argmax l : forall i b bv (f : nat -> R), (b < i)%nat -> bv = f b -> (forall j, (j < i)%nat -> f j <= bv) -> (forall j, (j < b)%nat -> f j < bv) ->
  (forall j x, nth_error l j = Some x -> f (i + j)%nat = x) ->
  let r := argmax_from i b bv l in (r < i + length l)%nat /\ (forall j, (j < i + length l)%nat -> f j <= f r) /\ (forall j, (j < r)%nat -> f j < f r).
Proof.
  induction l as [|x l IH]; intros i b bv f Hb E A B N; cbn [argmax_from length].
  - subst bv. cbn. rewrite Nat.add_0_r. repeat split; auto.
  - assert (X : f i = x) by (rewrite <- (N 0%nat x eq_refl); f_equal; lia).
    assert (N' : forall j y, nth_error l j = Some y -> f (S i + j)%nat = y) by (intros j y H; rewrite <- (N (S j) y H); f_equal; lia).
    rewrite Nat.add_succ_r. change (S (i + length l)) with (S i + length l)%nat. destruct (Rltb bv x) eqn:R.
    + apply Rltb_true in R. apply IH; auto.
      * intros j H. destruct (Nat.eq_dec j i) as [->|]; [lra|]. specialize (A j ltac:(lia)). lra.
      * intros j H. specialize (A j H). lra.
    + apply Rltb_false in R. apply IH; auto. intros j H. destruct (Nat.eq_dec j i) as [->|]; [lra|]. apply A. lia.
Qed.
Lemma rpt_val cs i c : nth_error cs i = Some c -> val cs i = snd c.
Proof. intros H. unfold val. apply nth_error_nth. apply map_nth_error. exact H. Qed.
(** Equal values. *)
Lemma rpt_lex a b : pair_le a b = true <-> fst a < fst b \/ (fst a = fst b /\ (snd a <= snd b)%nat).
Proof.
  unfold pair_le. destruct (Rltb (fst a) (fst b)) eqn:E; [apply Rltb_true in E; split; auto|]. apply Rltb_false in E.
  destruct (Rltb (fst b) (fst a)) eqn:F.
  - apply Rltb_true in F. split; [discriminate|]. intros [H|(H & _)]; lra.
  - apply Rltb_false in F. rewrite Nat.leb_le. split; [intros H; right; split; [lra|exact H]|]. intros [H|(_ & H)]; [lra|exact H].
Qed.
Lemma rpt_lex_sorted l : StronglySorted (fun x y => pair_le x y = true) (psort l).
Proof.
  induction l as [|a l IH]; cbn; [constructor|]. revert IH. generalize (psort l) as q. induction q as [|b q IH]; intros S; cbn; [repeat constructor|].
  inversion S as [|? ? S' F]; subst. destruct (pair_le a b) eqn:E.
  - constructor; [exact S|]. constructor; [exact E|]. eapply Forall_impl; [|exact F]. cbn. intros x H. rewrite rpt_lex in *.
    destruct E as [E|(E & E')], H as [H|(H & H')]; try (left; lra). right. split; [lra|lia].
  - constructor; [apply IH; exact S'|]. eapply Permutation_Forall; [apply rpt_pins|]. constructor; [|exact F].
    rewrite rpt_lex. assert (N : ~ (pair_le a b = true)) by congruence. rewrite rpt_lex in N.
    destruct (Rlt_dec (fst b) (fst a)) as [H|H]; [left; exact H|]. destruct (Req_dec (fst a) (fst b)) as [K|K]; [|exfalso; apply N; left; lra].
    right. split; [lra|]. destruct (le_lt_dec (snd a) (snd b)); [exfalso; apply N; right; auto|lia].
Qed.
Lemma rpt_before cs n part : StronglySorted (before cs) (listed cs n part).
Proof.
  unfold listed. set (idx := last_k _ part). rewrite rpt_combine. set (l := map _ idx).
  assert (F : Forall (fun p : R * nat => fst p = val cs (snd p)) (psort l)).
  { eapply Permutation_Forall; [apply rpt_psort|]. apply Forall_map, Forall_forall; intros; reflexivity. }
  pose proof (rpt_lex_sorted l) as S. apply (rpt_ss_rev (fun i j => before cs j i)).
  induction S as [|a q S IH G]; cbn; [constructor|]. inversion F as [|? ? E F']; subst. constructor; [apply IH; exact F'|].
  apply Forall_map. rewrite Forall_forall in *. intros p I. specialize (G p I). rewrite rpt_lex in G. rewrite E, (F' p I) in G. exact G.
Qed.
