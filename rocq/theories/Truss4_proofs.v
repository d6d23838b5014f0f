(** Which nodes the braces of the three web patterns join. *)
From Verif Require Import Base EC3_model Sections_proofs Rhs_model Bool_tac.
From Verif Require Import Truss_proofs Truss_model Truss_spec.
Require Import Reals Lra List Bool Arith Lia.
Import ListNotations.
Local Open Scope nat_scope.

Lemma skipn_seq : forall k a n, skipn k (seq a n) = seq (a + k) (n - k).
Proof.
  induction k as [|k IH]; intros a n; [now rewrite Nat.add_0_r, Nat.sub_0_r|].
  destruct n as [|n]; [reflexivity|]. simpl. rewrite IH. f_equal; lia.
Qed.
Lemma firstn_seq : forall k a n, firstn k (seq a n) = seq a (Nat.min k n).
Proof.
  induction k as [|k IH]; intros a n; [reflexivity|].
  destruct n as [|n]; [reflexivity|]. simpl. now rewrite IH.
Qed.
Lemma slice_seq : forall a b n, slice a b (seq 0 n) = seq a (Nat.min (b - a) (n - a)).
Proof. intros. unfold slice. rewrite skipn_seq, firstn_seq. reflexivity. Qed.
Lemma removelast_seq : forall n a, removelast (seq a n) = seq a (n - 1).
Proof.
  intros [|n] a; [reflexivity|]. replace (S n - 1) with n by lia.
  replace (S n) with (n + 1) by lia. rewrite seq_app. simpl. apply removelast_last.
Qed.
Lemma tl_seq : forall n a, tl (seq a n) = seq (S a) (n - 1).
Proof. intros [|n] a; [reflexivity|]. simpl. now rewrite Nat.sub_0_r. Qed.
Lemma evens_seq : forall k a, evens (seq a (2 * k + 1)) = map (fun m => a + 2 * m) (seq 0 (k + 1)).
Proof.
  induction k as [|k IH]; intros a; [simpl; f_equal; lia|].
  replace (2 * S k + 1) with (S (S (2 * k + 1))) by lia. change (seq a (S (S (2 * k + 1)))) with (a :: S a :: seq (S (S a)) (2 * k + 1)).
  cbn [evens]. rewrite IH. replace (S k + 1) with (S (k + 1)) by lia. cbn [seq map]. f_equal; [lia|].
  rewrite <- seq_shift, map_map. apply map_ext. intros; lia.
Qed.
Lemma in_zip_seq : forall k k' a b i j, In (i, j) (zip_idx (seq a k) (seq b k')) <->
  exists m, m < Nat.min k k' /\ i = a + m /\ j = b + m.
Proof.
  unfold zip_idx. induction k as [|k IH]; intros k' a b i j.
  - simpl. split; [tauto|intros (m & H & _); lia].
  - destruct k' as [|k']; [simpl; split; [tauto|intros (m & H & _); lia]|].
    cbn [seq combine In]. rewrite IH. split.
    + intros [E|(m & H & -> & ->)].
      * inversion E; subst. exists 0. lia.
      * exists (S m). lia.
    + intros (m & H & -> & ->). destruct m as [|m].
      * left. f_equal; lia.
      * right. exists m. lia.
Qed.
Lemma in_zip_evens : forall k k' a b i j, In (i, j) (zip_idx (map (fun m => a + 2 * m) (seq 0 k)) (seq b k')) <->
  exists m, m < Nat.min k k' /\ i = a + 2 * m /\ j = b + m.
Proof.
  assert (H : forall k k' a b c i j, In (i, j) (zip_idx (map (fun m => a + 2 * m) (seq c k)) (seq b k')) <->
    exists m, m < Nat.min k k' /\ i = a + 2 * (c + m) /\ j = b + m).
  { unfold zip_idx. induction k as [|k IH]; intros k' a b c i j.
    - simpl. split; [tauto|intros (m & H & _); lia].
    - destruct k' as [|k']; [simpl; split; [tauto|intros (m & H & _); lia]|].
      cbn [seq map combine In]. rewrite IH. split.
      + intros [E|(m & H & -> & ->)].
        * inversion E; subst. exists 0. lia.
        * exists (S m). lia.
      + intros (m & H & -> & ->). destruct m as [|m].
        * left. f_equal; lia.
        * right. exists m. lia. }
  intros. rewrite H. reflexivity.
Qed.
Lemma in_flat_seq : forall (f : nat -> list brace) a k b, In b (flat_map f (seq a k)) <-> exists m, a <= m < a + k /\ In b (f m).
Proof.
  intros. rewrite in_flat_map. split; intros (m & H1 & H2); exists m; split; auto; now apply in_seq.
Qed.

Lemma K_up_braces : forall dx n edge i j, dx = 0%R -> (In (i, j) (K_braces dx true edge n (2 * n + 3) (2 * n + 2)) <->
  (1 <= i <= 2 * n + 1 /\ (j = i - 1 \/ j = i)) \/ (edge = true /\ ((i = 0 /\ j = 0) \/ (i = 2 * n + 2 /\ j = 2 * n + 1)))).
Proof.
  intros dx n edge i j ->. unfold K_braces. rewrite eqb_t by reflexivity. rewrite in_app_iff, in_flat_seq. split.
  - intros [(m & H & [E|[E|[]]])|H].
    + inversion E; subst. left. lia.
    + inversion E; subst. left. lia.
    + destruct edge; [|contradiction]. right. split; auto. destruct H as [E|[E|[]]]; inversion E; subst; lia.
  - intros [[H [-> | ->]]|[-> [[-> ->]|[-> ->]]]].
    + left. exists i. simpl. split; auto; lia.
    + left. exists i. simpl. split; auto; lia.
    + right. now left.
    + right. right. left. f_equal; lia.
Qed.
Lemma K_down_braces : forall dx n edge i j, dx = 0%R -> (In (i, j) (K_braces dx false edge n (2 * n + 1) (2 * n + 2)) <->
  (1 <= j <= 2 * n /\ (i = j - 1 \/ i = j)) \/ (edge = true /\ ((i = 0 /\ j = 0) \/ (i = 2 * n /\ j = 2 * n + 1)))).
Proof.
  intros dx n edge i j ->. unfold K_braces. rewrite eqb_t by reflexivity. rewrite in_app_iff, in_flat_seq. split.
  - intros [(m & H & [E|[E|[]]])|H].
    + inversion E; subst. left. lia.
    + inversion E; subst. left. lia.
    + destruct edge; [|contradiction]. right. split; auto. destruct H as [E|[E|[]]]; inversion E; subst; lia.
  - intros [[H [-> | ->]]|[-> [[-> ->]|[-> ->]]]].
    + left. exists j. simpl. split; auto; lia.
    + left. exists j. simpl. split; auto; lia.
    + right. now left.
    + right. right. left. f_equal; lia.
Qed.
Lemma K_dx_braces : forall dx n up edge nt nb i j, dx <> 0%R -> (In (i, j) (K_braces dx up edge n nt nb) <->
  j < 2 * n /\ (i = j \/ i = j + 1)).
Proof.
  intros dx n up edge nt nb i j H0. unfold K_braces. rewrite eqb_f by assumption. rewrite in_flat_seq. split.
  - intros (m & H & [E|[E|[]]]); inversion E; subst; lia.
  - intros [H [-> | ->]]; exists j; simpl; split; auto; lia.
Qed.

Lemma N_zero_braces : forall dx n up edge i j, dx = 0%R -> 1 <= n -> (In (i, j) (N_braces dx up edge n (2 * n + 1) (2 * n + 1)) <->
  (i = j /\ i <= 2 * n /\ (edge = true \/ 1 <= i < 2 * n)) \/
  (if up then (i = j + 1 /\ j < n) \/ (j = i + 1 /\ n <= i < 2 * n)
   else (j = i + 1 /\ i < n) \/ (i = j + 1 /\ n <= j < 2 * n))).
Proof.
  intros dx n up edge i j -> Hn. unfold N_braces. rewrite eqb_t by reflexivity. cbv zeta. rewrite in_app_iff.
  rewrite !tl_seq, !skipn_seq, !slice_seq, !removelast_seq.
  assert (A : In (i, j) (if edge then zip_idx (seq 0 (2 * n + 1)) (seq 0 (2 * n + 1))
              else zip_idx (seq 1 (2 * n + 1 - 1 - 1)) (seq 1 (2 * n + 1 - 1 - 1))) <->
              (i = j /\ i <= 2 * n /\ (edge = true \/ 1 <= i < 2 * n))).
  { destruct edge; rewrite in_zip_seq; split.
    - intros (m & H & -> & ->). lia.
    - intros (-> & H & _). exists j. lia.
    - intros (m & H & -> & ->). lia.
    - intros (-> & H & [X|X]); [discriminate|]. exists (j - 1). lia. }
  rewrite A. clear A.
  match goal with |- ?P \/ ?Q <-> ?P \/ ?T => assert (B : Q <-> T); [|tauto] end.
  destruct up; rewrite in_app_iff, !in_zip_seq; split.
  - intros [(m & H & -> & ->)|(m & H & -> & ->)]; lia.
  - intros [(-> & H)|(-> & H)]; [left; exists j|right; exists (i - n)]; lia.
  - intros [(m & H & -> & ->)|(m & H & -> & ->)]; lia.
  - intros [(-> & H)|(-> & H)]; [left; exists i|right; exists (j - n)]; lia.
Qed.
Lemma N_dx_braces : forall dx n up edge i j, dx <> 0%R -> 1 <= n -> (In (i, j) (N_braces dx up edge n (2 * n + 1) (2 * n - 1)) <->
  (i = j + 1 /\ j < 2 * n - 1) \/ (i = j /\ j < n) \/ (i = j + 2 /\ n <= j + 1 < 2 * n)).
Proof.
  intros dx n up edge i j H0 Hn. unfold N_braces. rewrite eqb_f by assumption. cbv zeta. rewrite !in_app_iff.
  rewrite !tl_seq, !skipn_seq, !slice_seq, !removelast_seq, !in_zip_seq. split.
  - intros [(m & H & -> & ->)|[(m & H & -> & ->)|(m & H & -> & ->)]]; lia.
  - intros [(-> & H)|[(-> & H)|(-> & H)]]; [left; exists j|right; left; exists j|right; right; exists (j + 1 - n)]; lia.
Qed.

Lemma KT_up_braces : forall dx n edge i j, dx = 0%R -> 1 <= n -> (In (i, j) (KT_braces dx true edge (4 * n + 3) (2 * n + 2)) <->
  (i = 2 * j /\ j <= 2 * n + 1 /\ (edge = true \/ 1 <= j <= 2 * n)) \/
  (i = 2 * j + 1 /\ j <= 2 * n) \/ (i + 1 = 2 * j /\ 1 <= j <= 2 * n + 1)).
Proof.
  intros dx n edge i j -> Hn. unfold KT_braces. rewrite eqb_t by reflexivity. cbv zeta. rewrite !in_app_iff, in_flat_seq.
  rewrite !tl_seq, !skipn_seq, !removelast_seq.
  replace (4 * n + 3) with (2 * (2 * n + 1) + 1) by lia. rewrite evens_seq.
  replace (2 * (2 * n + 1) + 1 - 2) with (2 * (2 * n) + 1) by lia. rewrite evens_seq.
  assert (A : In (i, j) (if edge then zip_idx (map (fun m => 0 + 2 * m) (seq 0 (2 * n + 1 + 1))) (seq 0 (2 * n + 2))
              else zip_idx (map (fun m => 0 + 2 + 2 * m) (seq 0 (2 * n + 1))) (seq 1 (2 * n + 2 - 1 - 1))) <->
              (i = 2 * j /\ j <= 2 * n + 1 /\ (edge = true \/ 1 <= j <= 2 * n))).
  { destruct edge; rewrite in_zip_evens; split.
    - intros (m & H & -> & ->). lia.
    - intros (-> & H & _). exists j. lia.
    - intros (m & H & -> & ->). lia.
    - intros (-> & H & [X|X]); [discriminate|]. exists (j - 1). lia. }
  rewrite A. clear A.
  match goal with |- ?P \/ ?Q <-> ?P \/ ?T => assert (B : Q <-> T); [|tauto] end. split.
  - intros [[E|[]]|[(m & H & [E|[E|[]]])|[E|[]]]]; inversion E; subst; lia.
  - intros [(-> & H)|(E & H)].
    + destruct (Nat.eq_dec j 0) as [->|]; [left; now left|]. right; left. exists j. split; [lia|]. right. left. reflexivity.
    + destruct (Nat.eq_dec j (2 * n + 1)) as [->|]; [right; right; left; f_equal; lia|].
      right; left. exists j. split; [lia|]. left. f_equal; lia.
Qed.
Lemma KT_down_braces : forall dx n edge i j, dx = 0%R -> (In (i, j) (KT_braces dx false edge (4 * n + 1) (2 * n + 2)) <->
  (1 <= j <= 2 * n /\ (i + 2 = 2 * j \/ i + 1 = 2 * j \/ i = 2 * j)) \/ (edge = true /\ ((i = 0 /\ j = 0) \/ (i = 4 * n /\ j = 2 * n + 1)))).
Proof.
  intros dx n edge i j ->. unfold KT_braces. rewrite eqb_t by reflexivity. cbv zeta. rewrite in_app_iff, in_flat_seq. split.
  - intros [H|(m & H & [E|[E|[E|[]]]])]; [|left; inversion E; subst; lia..].
    destruct edge; [|contradiction]. right. split; auto. destruct H as [E|[E|[]]]; inversion E; subst; lia.
  - intros [[H E]|[-> [[-> ->]|[-> ->]]]].
    + right. exists j. split; [lia|]. destruct E as [E|[E|E]]; [left|right; left|right; right; left]; f_equal; lia.
    + left. now left.
    + left. right. left. f_equal; lia.
Qed.
Lemma KT_dx_braces : forall dx up edge nt nb i j, dx <> 0%R -> (In (i, j) (KT_braces dx up edge nt nb) <->
  j < nb /\ (i = 2 * j \/ i = 2 * j + 1 \/ i = 2 * j + 2)).
Proof.
  intros dx up edge nt nb i j H0. unfold KT_braces. rewrite eqb_f by assumption. cbv zeta. rewrite in_flat_seq. split.
  - intros (m & H & [E|[E|[E|[]]]]); inversion E; subst; lia.
  - intros [H [-> |[-> | ->]]]; exists j; (split; [lia|]); [left|right; left|right; right; left]; f_equal; lia.
Qed.

Lemma in_range_all : forall nt nb bs, (forall i j, In (i, j) bs -> i < nt /\ j < nb) -> forallb (in_range nt nb) bs = true.
Proof.
  intros nt nb bs H. apply forallb_forall. intros [i j] I. unfold in_range. cbn [fst snd]. destruct (H i j I).
  apply andb_true_iff. split; apply Nat.ltb_lt; assumption.
Qed.
