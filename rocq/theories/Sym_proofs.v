(** Proofs: symmetry nodes. *)
From Verif Require Import Base EC3_model Bool_tac EC3_proofs Plate_proofs.
From Verif Require Import Sym_model Sym_spec.
Require Import Reals List Bool Lra Lia Psatz PeanoNat.
Import ListNotations.
Local Open Scope R_scope.

Lemma put_len : forall A (v : A) l k, length (put k v l) = length l.
Proof. induction l; intros [|k]; simpl; auto. Qed.
Lemma put_same : forall A (v d : A) l k, (k < length l)%nat -> nth k (put k v l) d = v.
Proof. induction l; intros [|k] H; simpl in *; try lia; auto. apply IHl; lia. Qed.
Lemma put_other : forall A (v d : A) l k i, i <> k -> nth i (put k v l) d = nth i l d.
Proof. induction l; intros [|k] [|i] H; simpl; auto; try congruence. Qed.

Lemma near_iff : forall s a b, near s a b = true <-> mirrors s a b.
Proof. intros. unfold near, mirrors. rewrite andb_true_iff, !Rltb_true. tauto. Qed.
Lemma mirrors_sym : forall s a b, mirrors s a b -> mirrors s b a.
Proof. intros s a b [H1 H2]. split; rewrite Rabs_minus_sym; assumption. Qed.
Lemma mirror_nodes_sym : forall s ns i j, mirror_nodes s ns i j -> mirror_nodes s ns j i.
Proof. intros s ns i j (?&?&?&?). split; [auto|split; [auto|split; [auto|apply mirrors_sym; assumption]]]. Qed.

Lemma first_near_spec : forall s ns a js,
  match first_near s ns a js with
  | None => forall j, In j js -> ~ mirrors s a (nth j ns (0, 0))
  | Some j => exists l1 l2, js = l1 ++ j :: l2 /\ mirrors s a (nth j ns (0, 0)) /\ forall x, In x l1 -> ~ mirrors s a (nth x ns (0, 0))
  end.
Proof.
  induction js; simpl. intros j [].
  destruct (near s a (nth a0 ns (0, 0))) eqn:E.
  - exists [], js. split; [auto|split; [apply near_iff; auto|intros x []]].
  - assert (~ mirrors s a (nth a0 ns (0, 0))) by (intro Q; apply near_iff in Q; congruence).
    destruct (first_near s ns a js).
    + destruct IHjs as (l1&l2&->&?&?). exists (a0 :: l1), l2. repeat split; auto; try apply H0.
      intros x [<-|Hx]; auto.
    + intros j [<-|Hj]; auto.
Qed.

Lemma first_after : forall s ns i j, (i < length ns)%nat -> first_near s ns (nth i ns (0, 0)) (seq (S i) (length ns - S i)) = Some j ->
  (i < j)%nat /\ mirror_nodes s ns i j /\ forall c, (i < c < j)%nat -> ~ mirror_nodes s ns i c.
Proof.
  intros s ns i j Hi E. pose proof (first_near_spec s ns (nth i ns (0, 0)) (seq (S i) (length ns - S i))) as Q. rewrite E in Q.
  destruct Q as (l1&l2&E1&M&N).
  assert (Hj : In j (seq (S i) (length ns - S i))) by (rewrite E1; apply in_or_app; right; left; auto).
  apply in_seq in Hj. split; [lia|]. split. split; [lia|split; [lia|split; [lia|exact M]]].
  intros c Hc (_&_&_&Mc). apply (N c); auto.
  assert (L : j = (S i + length l1)%nat).
  { assert (T : nth (length l1) (seq (S i) (length ns - S i)) 0%nat = j) by (rewrite E1, app_nth2, Nat.sub_diag; auto).
    rewrite seq_nth in T. lia. apply (f_equal (@length nat)) in E1. rewrite app_length, seq_length in E1. simpl in E1. lia. }
  assert (T : nth (c - S i) (seq (S i) (length ns - S i)) 0%nat = c) by (rewrite seq_nth; lia).
  rewrite E1, app_nth1 in T by lia. rewrite <- T. apply nth_In. lia.
Qed.
Lemma none_after : forall s ns i, (i < length ns)%nat -> first_near s ns (nth i ns (0, 0)) (seq (S i) (length ns - S i)) = None ->
  forall c, (i < c)%nat -> ~ mirror_nodes s ns i c.
Proof.
  intros s ns i Hi E c Hc (_&Hc'&_&M). pose proof (first_near_spec s ns (nth i ns (0, 0)) (seq (S i) (length ns - S i))) as Q. rewrite E in Q.
  apply (Q c); auto. apply in_seq. lia.
Qed.

(** Invariant of the loop over the nodes when the first [k] have been treated. *)
Record pinv (s : R) (ns : list spt) (k : nat) (sy : list (option nat)) : Prop := {
  pi_len : length sy = length ns;
  pi_sound : forall i j, rel sy i j -> mirror_nodes s ns i j;
  pi_back : forall i j, rel sy i j -> nth j sy None <> None;
  pi_done : forall i, (i < k)%nat -> nth i sy None = None -> forall c, (i < c)%nat -> ~ mirror_nodes s ns i c }.

Lemma pinv_step : forall s ns k sy, (k < length ns)%nat -> pinv s ns k sy -> pinv s ns (S k) (pair_step s ns sy k).
Proof.
  intros s ns k sy Hk [L So Ba Do]. unfold pair_step.
  destruct (nth k sy None) eqn:Ek.
  { constructor; auto. intros i Hi Hn. destruct (Nat.eq_dec i k). subst; congruence. apply Do; auto; lia. }
  destruct (first_near s ns (nth k ns (0, 0)) (seq (S k) (length ns - S k))) eqn:Ef.
  2:{ constructor; auto. intros i Hi Hn. destruct (Nat.eq_dec i k). subst. apply none_after; auto. apply Do; auto; lia. }
  destruct (first_after s ns k n Hk Ef) as (Hlt&M&F).
  assert (Hn : (n < length sy)%nat) by (rewrite L; apply M).
  assert (N1 : nth n (put n (Some k) (put k (Some n) sy)) None = Some k) by (apply put_same; rewrite put_len; auto).
  assert (N2 : nth k (put n (Some k) (put k (Some n) sy)) None = Some n) by (rewrite put_other by lia; apply put_same; lia).
  assert (N3 : forall i, i <> n -> i <> k -> nth i (put n (Some k) (put k (Some n) sy)) None = nth i sy None) by (intros; rewrite !put_other; auto).
  constructor.
  - rewrite !put_len; auto.
  - intros i j. unfold rel. destruct (Nat.eq_dec i n) as [->|]. rewrite N1. intros [= <-]. apply mirror_nodes_sym; auto.
    destruct (Nat.eq_dec i k) as [->|]. rewrite N2. intros [= <-]; auto. rewrite N3 by auto. apply So.
  - intros i j. unfold rel. destruct (Nat.eq_dec i n) as [->|]. rewrite N1. intros [= <-]. rewrite N2. discriminate.
    destruct (Nat.eq_dec i k) as [->|]. rewrite N2. intros [= <-]. rewrite N1; discriminate. rewrite N3 by auto. intro H.
    destruct (Nat.eq_dec j n) as [->|]. rewrite N1; discriminate. destruct (Nat.eq_dec j k) as [->|]. rewrite N2; discriminate. rewrite N3 by auto. apply (Ba i j H).
  - intros i Hi. destruct (Nat.eq_dec i k) as [->|]. rewrite N2; discriminate. destruct (Nat.eq_dec i n) as [->|]. lia.
    rewrite N3 by auto. apply Do. lia.
Qed.

Lemma pinv_fold : forall s ns n k sy, (k + n <= length ns)%nat -> pinv s ns k sy -> pinv s ns (k + n) (fold_left (pair_step s ns) (seq k n) sy).
Proof.
  induction n; intros k sy H I; simpl. rewrite Nat.add_0_r; auto.
  rewrite <- Nat.add_succ_comm. apply IHn. lia. apply pinv_step; auto; lia.
Qed.

Lemma nth_fresh : forall n i, nth i (repeat (@None nat) n) None = None.
Proof. induction n; intros [|i]; simpl; auto. Qed.
Lemma pinv_start : forall s ns, pinv s ns 0 (repeat None (length ns)).
Proof.
  intros. constructor. apply repeat_length. intros i j H. unfold rel in H. rewrite nth_fresh in H; discriminate.
  intros i j H. unfold rel in H. rewrite nth_fresh in H; discriminate. intros; lia.
Qed.
Lemma pinv_end : forall s ns, pinv s ns (length ns) (pair_nodes s ns (repeat None (length ns))).
Proof.
  intros. unfold pair_nodes. pose proof (pinv_fold s ns (length ns - 1) 0 _ ltac:(lia) (pinv_start s ns)) as I. simpl in I.
  destruct I as [L So Ba Do]. constructor; auto. intros i Hi Hn c Hc. destruct (Nat.eq_dec i (length ns - 1)).
  intros (_&?&_). lia. apply Do; auto. lia.
Qed.

Lemma sym_sound_lemma : forall s ns i j, rel (pair_nodes s ns (repeat None (length ns))) i j -> mirror_nodes s ns i j.
Proof. intros. apply (pi_sound _ _ _ _ (pinv_end s ns)); auto. Qed.

Lemma sym_exact_lemma : forall s ns, one_image s ns -> forall i j,
  rel (pair_nodes s ns (repeat None (length ns))) i j <-> mirror_nodes s ns i j.
Proof.
  intros s ns U i j. pose proof (pinv_end s ns) as [L So Ba Do]. set (sy := pair_nodes _ _ _) in *.
  split. apply So. intro M. unfold rel.
  destruct (nth i sy None) as [x|] eqn:E. f_equal. apply (U i); auto.
  exfalso. destruct (lt_eq_lt_dec i j) as [[H|H]|H]. apply (Do i ltac:(apply M) E j H M). apply M in H; auto.
  destruct (nth j sy None) as [x|] eqn:Ej.
  - assert (x = i) by (apply (U j); [apply So; auto|apply mirror_nodes_sym; auto]). subst. apply (Ba j i Ej E).
  - apply (Do j ltac:(apply M) Ej i H). apply mirror_nodes_sym; auto.
Qed.

Lemma sym_unpaired_lemma : forall s ns i, nth i (pair_nodes s ns (repeat None (length ns))) None = None ->
  forall j, (i < j)%nat -> ~ mirror_nodes s ns i j.
Proof.
  intros s ns i H j Hj M. pose proof (pinv_end s ns) as [L So Ba Do]. apply (Do i ltac:(apply M) H j Hj M).
Qed.

(** With transitivity the pairing is mutual. *)
Definition minv (s : R) (ns : list spt) (k : nat) (sy : list (option nat)) : Prop :=
  mutual sy /\ forall a b, (a < b)%nat -> rel sy a b -> (a < k)%nat /\ forall c, (a < c < b)%nat -> ~ mirror_nodes s ns a c.
Lemma minv_step : forall s ns k sy, no_chains s ns -> (k < length ns)%nat -> pinv s ns k sy -> minv s ns k sy -> minv s ns (S k) (pair_step s ns sy k).
Proof.
  intros s ns k sy T Hk [L So Ba Do] [Mu Fi]. unfold pair_step.
  destruct (nth k sy None) eqn:Ek.
  { split; auto. intros a b H R. destruct (Fi a b H R). split; auto. }
  destruct (first_near s ns (nth k ns (0, 0)) (seq (S k) (length ns - S k))) eqn:Ef.
  2:{ split; auto. intros a b H R. destruct (Fi a b H R). split; auto. }
  destruct (first_after s ns k n Hk Ef) as (Hlt&M&F).
  assert (Hn : (n < length sy)%nat) by (rewrite L; apply M).
  assert (Nn : nth n sy None = None).
  { destruct (nth n sy None) as [x|] eqn:En; auto. exfalso.
    assert (Rx : rel sy x n) by (apply Mu; auto). assert (x <> k) by (intro; subst; unfold rel in Rx; congruence).
    assert (Mx : mirror_nodes s ns x k). { apply (T x n k). apply So; auto. apply mirror_nodes_sym; auto. auto. }
    destruct (lt_eq_lt_dec x n) as [[H1|H1]|H1].
    - destruct (Fi x n H1 Rx) as (P1&P2). apply (P2 k); auto; lia.
    - subst. apply So in Rx. apply Rx; auto.
    - destruct (Fi n x H1 En) as (P1&P2). lia. }
  assert (N1 : nth n (put n (Some k) (put k (Some n) sy)) None = Some k) by (apply put_same; rewrite put_len; auto).
  assert (N2 : nth k (put n (Some k) (put k (Some n) sy)) None = Some n) by (rewrite put_other by lia; apply put_same; lia).
  assert (N3 : forall i, i <> n -> i <> k -> nth i (put n (Some k) (put k (Some n) sy)) None = nth i sy None) by (intros; rewrite !put_other; auto).
  split.
  - intros i j. unfold rel. destruct (Nat.eq_dec i n) as [->|]. rewrite N1. intros [= <-]. auto.
    destruct (Nat.eq_dec i k) as [->|]. rewrite N2. intros [= <-]; auto. rewrite N3 by auto. intro H.
    apply Mu in H. unfold rel in H. rewrite N3; auto; intro; subst; congruence.
  - intros a b Hab. unfold rel. destruct (Nat.eq_dec a n) as [->|]. rewrite N1. intros [= <-]. lia.
    destruct (Nat.eq_dec a k) as [->|]. rewrite N2. intros [= <-]. split; auto.
    rewrite N3 by auto. intro H. destruct (Fi a b Hab H). split; auto.
Qed.
Lemma minv_fold : forall s ns, no_chains s ns -> forall n k sy, (k + n <= length ns)%nat -> pinv s ns k sy -> minv s ns k sy -> minv s ns (k + n) (fold_left (pair_step s ns) (seq k n) sy).
Proof.
  intros s ns T. induction n; intros k sy H I J; simpl. rewrite Nat.add_0_r; auto.
  rewrite <- Nat.add_succ_comm. apply IHn. lia. apply pinv_step; auto; lia. apply minv_step; auto; lia.
Qed.
Lemma sym_mutual_lemma : forall s ns, no_chains s ns -> mutual (pair_nodes s ns (repeat None (length ns))).
Proof.
  intros s ns T. unfold pair_nodes. apply (minv_fold s ns T (length ns - 1) 0). lia. apply pinv_start.
  split. intros i j H. unfold rel in H. rewrite nth_fresh in H; discriminate. intros a b _ H. unfold rel in H. rewrite nth_fresh in H; discriminate.
Qed.

(** A second call finds nothing new. *)
Lemma step_keep : forall s ns sy i x, nth i sy None <> None -> nth i (pair_step s ns sy x) None <> None.
Proof.
  intros. unfold pair_step. destruct (nth x sy None); auto. destruct (first_near _ _ _ _); auto.
  destruct (Nat.eq_dec i n) as [->|]. destruct (Nat.lt_ge_cases n (length sy)). rewrite put_same. discriminate. rewrite put_len; auto.
  exfalso. apply H. apply nth_overflow; auto.
  rewrite put_other by auto. destruct (Nat.eq_dec i x) as [->|]. destruct (Nat.lt_ge_cases x (length sy)). rewrite put_same. discriminate. auto.
  exfalso. apply H. apply nth_overflow; auto. rewrite put_other; auto.
Qed.
Definition settled (s : R) (ns : list spt) (sy : list (option nat)) (i : nat) : Prop :=
  nth i sy None <> None \/ first_near s ns (nth i ns (0, 0)) (seq (S i) (length ns - S i)) = None.
Lemma step_settled : forall s ns sy i x, settled s ns sy i -> settled s ns (pair_step s ns sy x) i.
Proof. intros s ns sy i x [H|H]. left. apply step_keep; auto. right; auto. Qed.
Lemma fold_settled : forall s ns l sy i, settled s ns sy i -> settled s ns (fold_left (pair_step s ns) l sy) i.
Proof. induction l; simpl; intros; auto. apply IHl. apply step_settled; auto. Qed.
Lemma step_settles : forall s ns sy i, (i < length sy)%nat -> settled s ns (pair_step s ns sy i) i.
Proof.
  intros. unfold pair_step. destruct (nth i sy None) eqn:E. left; congruence.
  destruct (first_near _ _ _ _) eqn:F. 2: right; auto. left. destruct (Nat.eq_dec i n) as [->|]. rewrite put_same. discriminate. rewrite put_len; auto.
  rewrite put_other by auto. rewrite put_same; auto; discriminate.
Qed.
Lemma step_len : forall s ns sy x, length (pair_step s ns sy x) = length sy.
Proof. intros. unfold pair_step. destruct (nth x sy None); auto. destruct (first_near _ _ _ _); auto. rewrite !put_len; auto. Qed.
Lemma fold_settles : forall s ns l sy i, (forall x, In x l -> (x < length sy)%nat) -> In i l -> settled s ns (fold_left (pair_step s ns) l sy) i.
Proof.
  induction l; simpl; intros sy i B []. subst. apply fold_settled. apply step_settles. apply B; auto.
  apply IHl; auto. intros. rewrite step_len. apply B; auto.
Qed.
Lemma settled_id : forall s ns sy i, settled s ns sy i -> pair_step s ns sy i = sy.
Proof. intros s ns sy i H. unfold pair_step. destruct (nth i sy None) eqn:E; auto. destruct H. congruence. rewrite H; auto. Qed.
Lemma fold_id : forall s ns l sy, (forall i, In i l -> settled s ns sy i) -> fold_left (pair_step s ns) l sy = sy.
Proof. induction l; simpl; intros; auto. rewrite settled_id by auto. apply IHl. auto. Qed.
Lemma sym_again_lemma : forall s ns sy, length sy = length ns -> pair_nodes s ns (pair_nodes s ns sy) = pair_nodes s ns sy.
Proof.
  intros. unfold pair_nodes at 1. apply fold_id. intros i Hi. unfold pair_nodes. apply fold_settles; auto.
  intros x Hx. apply in_seq in Hx. lia.
Qed.
Lemma sym_kept_lemma : forall s ns sy, length sy = length ns -> (forall i, (i < length ns)%nat -> exists j, rel sy i j) -> pair_nodes s ns sy = sy.
Proof.
  intros s ns sy L H. unfold pair_nodes. apply fold_id. intros x Hx. apply in_seq in Hx. left. destruct (H x ltac:(lia)) as (j&Hj).
  unfold rel in Hj. congruence.
Qed.

(** Default axis. *)
Lemma fold_min_spec : forall xs x, (forall y, In y (x :: xs) -> fold_left Rmin xs x <= y) /\ In (fold_left Rmin xs x) (x :: xs).
Proof.
  induction xs; simpl; intros. split; auto. intros y [<-|[]]; lra.
  destruct (IHxs (Rmin x a)) as [A B]. split.
  - intros y [<-|[<-|H]]. eapply Rle_trans. apply A; left; auto. apply Rmin_l. eapply Rle_trans. apply A; left; auto. apply Rmin_r. apply A; right; auto.
  - simpl in B. destruct B as [B|B]; auto. rewrite <- B. destruct (Rle_dec x a). rewrite Rmin_left; auto. rewrite Rmin_right by lra; auto.
Qed.
Lemma fold_max_spec : forall xs x, (forall y, In y (x :: xs) -> y <= fold_left Rmax xs x) /\ In (fold_left Rmax xs x) (x :: xs).
Proof.
  induction xs; simpl; intros. split; auto. intros y [<-|[]]; lra.
  destruct (IHxs (Rmax x a)) as [A B]. split.
  - intros y [<-|[<-|H]]. eapply Rle_trans. apply Rmax_l. apply A; left; auto. eapply Rle_trans. apply Rmax_r. apply A; left; auto. apply A; right; auto.
  - simpl in B. destruct B as [B|B]; auto. rewrite <- B. destruct (Rle_dec a x). rewrite Rmax_left; auto. rewrite Rmax_right by lra; auto.
Qed.
Lemma sym_axis_lemma : forall s ns, ns <> [] -> symmetric_about s ns -> axis_at None ns = Some s.
Proof.
  intros s ns H Y. unfold axis_at, xrange. destruct ns as [|p ns]; [congruence|]. cbn [map option_map fst snd].
  destruct (fold_min_spec (map fst ns) (fst p)) as [A1 B1]. destruct (fold_max_spec (map fst ns) (fst p)) as [A2 B2].
  set (lo := fold_left Rmin _ _) in *. set (hi := fold_left Rmax _ _) in *.
  change (fst p :: map fst ns) with (map fst (p :: ns)) in *.
  assert (Y' : forall x, In x (map fst (p :: ns)) -> In (2 * s - x) (map fst (p :: ns))).
  { intros x Hx. apply in_map_iff in Hx. destruct Hx as (q&<-&Hq). apply Y in Hq. apply (in_map fst) in Hq. exact Hq. }
  pose proof (A1 _ (Y' _ B2)). pose proof (A2 _ (Y' _ B1)). f_equal. lra.
Qed.

Lemma sym_call_lemma : forall s ns, ns <> [] -> symmetric_about s ns -> one_image s ns ->
  exists sy, symmetry_nodes None ns (repeat None (length ns)) = Some sy /\ forall i j, rel sy i j <-> mirror_nodes s ns i j.
Proof.
  intros s ns H Y U. unfold symmetry_nodes. rewrite (sym_axis_lemma s) by auto. simpl. eexists. split. reflexivity.
  apply sym_exact_lemma; auto.
Qed.
