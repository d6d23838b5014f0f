Require Import Reals List Bool Lra Lia Psatz PeanoNat.
Import ListNotations.
From Verif Require Import Base EC3_model Bool_tac EC3_proofs Plate_proofs.
From Verif Require Import Bnb2_model Bnb2_spec.
Local Open Scope R_scope.

Lemma coincide_pinned v : coincide v = true <-> pinned v.
Proof. unfold coincide, pinned. apply Rltb_true. Qed.
Lemma coincide_not v : coincide v = false <-> ~ pinned v.
Proof. rewrite <- coincide_pinned. destruct (coincide v); split; congruence. Qed.
Lemma unlocked_all vs : Forall (fun v => n_locked v = false) vs -> unlocked vs = vs.
Proof. induction 1; simpl; auto. unfold unlocked in *. simpl. rewrite H. simpl. now rewrite IHForall. Qed.
Lemma reduce_rest vs : forall x0 y, Forall (fun v => n_locked v = false) vs -> rest vs x0 y -> reduce vs x0 = Some y.
Proof.
  intros x0 y F X. revert F. induction X; intros F; simpl; auto; inversion F; subst; rewrite H2, IHX by auto; simpl.
  - now rewrite (proj2 (coincide_pinned v)).
  - now rewrite (proj2 (coincide_not v)).
Qed.
Lemma assemble_rest vs : forall xn x, Forall (fun v => n_locked v = false) vs -> rest vs xn x -> (forall i, (i < length vs)%nat -> forall d, pinned (nth i vs d) -> nth i xn 0 = n_up (nth i vs d)) ->
  assemble (length vs) (map lock_equal vs) x = Some xn.
Proof.
  intros xn x F X. revert F. induction X; intros F U; auto; inversion F; subst; cbn [length map assemble].
  - assert (K : lock_equal v = mkNv (n_lo v) (n_up v) true (n_up v)) by (unfold lock_equal; rewrite H2, (proj2 (coincide_pinned v)); auto).
    rewrite K. cbn [n_locked n_val]. rewrite IHX; auto. simpl. f_equal. f_equal. symmetry. apply (U O ltac:(simpl; lia) v H).
    intros i I d P. apply (U (S i) ltac:(simpl; lia) d P).
  - assert (K : lock_equal v = v) by (unfold lock_equal; rewrite H2, (proj2 (coincide_not v)); auto).
    rewrite K, H2. rewrite IHX; auto. intros i I d P. apply (U (S i) ltac:(simpl; lia) d P).
Qed.
Lemma rest_length vs xs ys : rest vs xs ys -> length xs = length vs.
Proof. induction 1; simpl; auto. Qed.
(** A vector with given entries for the free variables. *)
Lemma rest_exists vs : forall ys, length ys = length (filter (fun v => negb (coincide v)) vs) ->
  exists xs, rest vs xs ys /\ forall i, (i < length vs)%nat -> forall d, pinned (nth i vs d) -> nth i xs 0 = n_up (nth i vs d).
Proof.
  induction vs as [|v vs IH]; intros ys L.
  - destruct ys; try discriminate. exists []. split. constructor. simpl. intros; lia.
  - simpl in L. destruct (coincide v) eqn:C; simpl in L.
    + destruct (IH ys L) as (xs&R0&U). exists (n_up v :: xs). split. apply r_pin; auto. now apply coincide_pinned.
      intros [|i] I d P; simpl in *; auto. apply (U i ltac:(lia) d P).
    + destruct ys as [|y ys]; try discriminate. destruct (IH ys ltac:(simpl in L; lia)) as (xs&R0&U). exists (y :: xs). apply coincide_not in C. split. apply r_free; auto.
      intros [|i] I d P; simpl in *. tauto. apply (U i ltac:(lia) d P).
Qed.
Lemma unlock_id vs : Forall (fun v => n_locked v = false) vs ->
  Forall2 (fun v w => n_lo w = n_lo v /\ n_up w = n_up v /\ n_locked w = false /\ (pinned v -> n_val w = n_up v) /\ (~ pinned v -> w = v)) vs (map (fun p => unlock_equal (fst p) (snd p)) (combine vs (map lock_equal vs))).
Proof.
  induction 1; simpl; constructor; auto. unfold unlock_equal, lock_equal. simpl. rewrite H. simpl. destruct (coincide x) eqn:C; simpl.
  - apply coincide_pinned in C. intuition.
  - apply coincide_not in C. repeat split; auto. intros. tauto.
Qed.
Lemma lower_bound_lemma : forall solve vs x0 start f x s fe, Forall (fun v => n_locked v = false) vs -> rest vs x0 start ->
  solve (map lock_equal vs) start = (f, x, s, fe) -> length x = length start ->
  exists xn out, lower_bound solve vs x0 = Some out /\ rest vs xn x /\ (forall i d, (i < length vs)%nat -> pinned (nth i vs d) -> nth i xn 0 = n_up (nth i vs d)) /\
    o_flag out = fe /\ (o_node out = if orb s fe then Some (f, xn) else None) /\
    Forall2 (fun v w => n_lo w = n_lo v /\ n_up w = n_up v /\ n_locked w = false /\ (pinned v -> n_val w = n_up v) /\ (~ pinned v -> w = v)) vs (o_vars out).
Proof.
  intros solve vs x0 start f x s fe F X SV L.
  assert (LS : length start = length (filter (fun v => negb (coincide v)) vs)).
  { clear SV. clear L x. induction X; simpl; auto; inversion F; subst. rewrite (proj2 (coincide_pinned v)) by auto. simpl. auto. rewrite (proj2 (coincide_not v)) by auto. simpl. f_equal. auto. }
  destruct (rest_exists vs x ltac:(congruence)) as (xn&R1&U). exists xn. unfold lower_bound. rewrite (reduce_rest vs x0 start F X). cbn [bind]. rewrite SV.
  rewrite (unlocked_all vs F), (assemble_rest vs xn x F R1 U). cbn [bind]. eexists. split; [reflexivity|]. split; [exact R1|]. split; [intros i d I P; now apply U|]. cbn [o_flag o_node o_vars].
  split; auto. split. destruct s; auto. now apply unlock_id.
Qed.
Lemma assemble_raises vs : forall c x, (c < length vs)%nat -> assemble c vs x = None.
Proof.
  induction vs as [|v r IH]; intros c x L. simpl in L. lia. destruct c as [|c]; auto. simpl in L.
  change (assemble (S c) (v :: r) x) with (if n_locked v then bind (assemble c r x) (fun t => Some (n_val v :: t)) else match x with [] => None | y :: x' => bind (assemble c r x') (fun t => Some (y :: t)) end).
  destruct (n_locked v). rewrite (IH c x) by lia. auto. destruct x as [|y x']; auto. rewrite (IH c x') by lia. auto.
Qed.
Lemma lower_bound_locked_lemma : forall solve vs x0, Exists (fun v => n_locked v = true) vs -> lower_bound solve vs x0 = None.
Proof.
  intros solve vs x0 X. unfold lower_bound. destruct (reduce vs x0) as [st|]; auto. cbn [bind]. destruct (solve (map lock_equal vs) st) as [[[f x] s] fe].
  rewrite assemble_raises; auto. rewrite map_length. clear -X. unfold unlocked. induction X; simpl. rewrite H. simpl.
  - clear. induction l; simpl; auto. destruct (n_locked a); simpl; lia.
  - destruct (n_locked x); simpl; lia.
Qed.

(* ------------------------------------------------ tightening *)
Lemma box_nth bx x i : Forall2 (fun (b : R * R) a => fst b <= a <= snd b) bx x -> (i < length bx)%nat -> fst (nth i bx (0, 0)) <= nth i x 0 <= snd (nth i bx (0, 0)).
Proof. intros F. revert i. induction F; intros i L; simpl in *. lia. destruct i; auto. apply IHF. lia. Qed.
Lemma box_set bx : forall x i b, Forall2 (fun (b : R * R) a => fst b <= a <= snd b) bx x -> (i < length bx)%nat -> fst b <= nth i x 0 <= snd b -> Forall2 (fun (b : R * R) a => fst b <= a <= snd b) (set_nth i b bx) x.
Proof. induction bx; intros x i b F L B; simpl in *. lia. inversion F; subst. destruct i; simpl in *; constructor; auto. apply IHbx; auto. lia. Qed.
Lemma box_unset bx : forall x i b, Forall2 (fun (b : R * R) a => fst b <= a <= snd b) (set_nth i b bx) x -> (i < length bx)%nat -> fst (nth i bx (0, 0)) <= nth i x 0 <= snd (nth i bx (0, 0)) -> Forall2 (fun (b : R * R) a => fst b <= a <= snd b) bx x.
Proof. induction bx; intros x i b F L B; simpl in *. lia. destruct i; simpl in *; inversion F; subst; constructor; auto. eapply IHbx; eauto. lia. Qed.
Section Tight.
  Variables (P : list R -> Prop) (lp : bool -> nat -> bounds -> option (list R)).
  Hypothesis E : exact_lp P lp.
  Lemma raise_step i bx : (i < length bx)%nat -> match raise_lower lp i bx with
    | None => forall x, ~ point_of P bx x
    | Some b => length b = length bx /\ (forall x, point_of P b x <-> point_of P bx x) /\ (forall j, j <> i -> nth j b (0, 0) = nth j bx (0, 0)) /\ snd (nth i b (0, 0)) = snd (nth i bx (0, 0)) /\
        exists x, point_of P bx x /\ nth i x 0 = fst (nth i b (0, 0)) end.
  Proof.
    intros I. unfold raise_lower. specialize (E true i bx I). destruct (lp true i bx) as [x|]; auto. cbn [bind]. destruct E as [X M]. pose proof (box_nth _ _ i (proj1 X) I) as B.
    destruct (nth i bx (0, 0)) as [l u] eqn:N. cbn [fst snd] in *. destruct (Rltb l (nth i x 0)) eqn:C.
    - apply Rltb_true in C. rewrite set_nth_length. split; auto. split; [|split; [|split]].
      + intros y. split; intros [Y1 Y2]; split; auto. eapply box_unset; eauto. rewrite N. cbn [fst snd]. pose proof (box_nth _ _ i Y1) as Q. rewrite set_nth_length, nth_set_nth, Nat.eqb_refl in Q by auto. specialize (Q I). cbn [fst snd] in Q. lra.
        apply box_set; auto. cbn [fst snd]. pose proof (M y (conj Y1 Y2)). pose proof (box_nth _ _ i Y1 I) as Q. rewrite N in Q. cbn [fst snd] in Q. lra.
      + intros j J. rewrite nth_set_nth by auto. now rewrite (proj2 (Nat.eqb_neq j i) J).
      + rewrite nth_set_nth, Nat.eqb_refl by auto. reflexivity.
      + exists x. split; auto. rewrite nth_set_nth, Nat.eqb_refl by auto. reflexivity.
    - apply Rltb_false in C. rewrite ?N. split; auto. split; [tauto|]. split; auto. split; auto. exists x. split; auto. cbn [fst]. lra.
  Qed.
  Lemma cut_step i bx : (i < length bx)%nat -> match cut_upper lp i bx with
    | None => forall x, ~ point_of P bx x
    | Some b => length b = length bx /\ (forall x, point_of P b x <-> point_of P bx x) /\ (forall j, j <> i -> nth j b (0, 0) = nth j bx (0, 0)) /\ fst (nth i b (0, 0)) = fst (nth i bx (0, 0)) /\
        exists x, point_of P bx x /\ nth i x 0 = snd (nth i b (0, 0)) end.
  Proof.
    intros I. unfold cut_upper. specialize (E false i bx I). destruct (lp false i bx) as [x|]; auto. cbn [bind]. destruct E as [X M]. pose proof (box_nth _ _ i (proj1 X) I) as B.
    destruct (nth i bx (0, 0)) as [l u] eqn:N. cbn [fst snd] in *. destruct (Rltb (nth i x 0) u) eqn:C.
    - apply Rltb_true in C. rewrite set_nth_length. split; auto. split; [|split; [|split]].
      + intros y. split; intros [Y1 Y2]; split; auto. eapply box_unset; eauto. rewrite N. cbn [fst snd]. pose proof (box_nth _ _ i Y1) as Q. rewrite set_nth_length, nth_set_nth, Nat.eqb_refl in Q by auto. specialize (Q I). cbn [fst snd] in Q. lra.
        apply box_set; auto. cbn [fst snd]. pose proof (M y (conj Y1 Y2)). pose proof (box_nth _ _ i Y1 I) as Q. rewrite N in Q. cbn [fst snd] in Q. lra.
      + intros j J. rewrite nth_set_nth by auto. now rewrite (proj2 (Nat.eqb_neq j i) J).
      + rewrite nth_set_nth, Nat.eqb_refl by auto. reflexivity.
      + exists x. split; auto. rewrite nth_set_nth, Nat.eqb_refl by auto. reflexivity.
    - apply Rltb_false in C. rewrite ?N. split; auto. split; [tauto|]. split; auto. split; auto. exists x. split; auto. cbn [snd]. lra.
  Qed.
  Lemma tighten_all is : forall bx, NoDup is -> Forall (fun i => (i < length bx)%nat) is -> match tighten lp is bx with
    | None => forall x, ~ point_of P bx x
    | Some b => length b = length bx /\ (forall x, point_of P b x <-> point_of P bx x) /\ (forall j, ~ In j is -> nth j b (0, 0) = nth j bx (0, 0)) /\
        forall i, In i is -> (exists x, point_of P bx x /\ nth i x 0 = fst (nth i b (0, 0))) /\ (exists x, point_of P bx x /\ nth i x 0 = snd (nth i b (0, 0))) end.
  Proof.
    induction is as [|i r IH]; intros bx N F. simpl. split; auto. split; [tauto|]. split; auto. intros i [].
    inversion N; subst. inversion F; subst. cbn [tighten]. pose proof (raise_step i bx H3) as S1. destruct (raise_lower lp i bx) as [b1|]; auto. cbn [bind]. destruct S1 as (L1&Q1&O1&U1&A1).
    pose proof (cut_step i b1 ltac:(lia)) as S2. destruct (cut_upper lp i b1) as [b2|]; cbn [bind]. 2:{ intros x X. apply (S2 x). now apply Q1. } destruct S2 as (L2&Q2&O2&U2&A2).
    assert (F2 : Forall (fun i => (i < length b2)%nat) r) by (rewrite L2, L1; auto). pose proof (IH b2 H2 F2) as S3. destruct (tighten lp r b2) as [b3|]. 2:{ intros x X. apply (S3 x). apply Q2. now apply Q1. }
    destruct S3 as (L3&Q3&O3&A3). assert (Q : forall x, point_of P b2 x <-> point_of P bx x) by (intros; now rewrite Q2, Q1).
    split; [congruence|]. split; [intros x; rewrite Q3; apply Q|]. split; [intros j J; rewrite O3, O2, O1; auto; simpl in J; intuition|].
    intros k [<-|J]; split.
    - rewrite O3, U2 by auto. exact A1.
    - rewrite O3 by auto. destruct A2 as (x&X1&X2). exists x. split; auto. now apply Q1.
    - destruct (proj1 (A3 k J)) as (x&X1&X2). exists x. split; auto. now apply Q.
    - destruct (proj2 (A3 k J)) as (x&X1&X2). exists x. split; auto. now apply Q.
  Qed.
End Tight.
Lemma tighten_lemma : forall P lp bx, exact_lp P lp -> match tighten lp (seq 0 (length bx)) bx with
  | None => forall x, ~ point_of P bx x
  | Some b => length b = length bx /\ (forall x, point_of P b x <-> point_of P bx x) /\
      forall i, (i < length bx)%nat -> (exists x, point_of P bx x /\ nth i x 0 = fst (nth i b (0, 0))) /\ (exists x, point_of P bx x /\ nth i x 0 = snd (nth i b (0, 0))) end.
Proof.
  intros P lp bx E. pose proof (tighten_all P lp E (seq 0 (length bx)) bx (seq_NoDup _ _)) as T. destruct (tighten lp (seq 0 (length bx)) bx).
  - destruct T as (L&Q&_&A). apply Forall_forall. intros i I. apply in_seq in I. lia. split; auto. split; auto. intros i I. apply A. apply in_seq. lia.
  - apply T. apply Forall_forall. intros i I. apply in_seq in I. lia.
Qed.
Lemma tighten_idem_lemma : forall P lp bx b, exact_lp P lp -> (0 < length bx)%nat -> tighten lp (seq 0 (length bx)) bx = Some b -> tighten lp (seq 0 (length b)) b = Some b /\ bounds_ok b = true.
Proof.
  intros P lp bx b E L T. pose proof (tighten_lemma P lp bx E) as A. rewrite T in A. destruct A as (LB&Q&A).
  assert (OK : bounds_ok b = true).
  { apply forallb_forall. intros p I. apply negb_true_iff, Rltb_false. apply In_nth with (d := (0, 0)) in I. destruct I as (i&I&<-). destruct (A i ltac:(lia)) as [(x&X1&X2) _]. rewrite <- X2.
    apply Q in X1. apply (box_nth b x i (proj1 X1) I). }
  split; auto. pose proof (tighten_lemma P lp b E) as B. destruct (tighten lp (seq 0 (length b)) b) as [c|].
  2:{ destruct (A O L) as [(x&X1&_) _]. exfalso. apply (B x). now apply Q. }
  destruct B as (LC&QC&B). f_equal. apply nth_ext with (d := (0, 0)) (d' := (0, 0)); auto. rewrite LC. intros i I.
  destruct (B i I) as [(x&X1&X2) (y&Y1&Y2)]. destruct (A i ltac:(lia)) as [(x'&X1'&X2') (y'&Y1'&Y2')].
  apply Q in X1', Y1'. pose proof (box_nth _ _ i (proj1 X1) I). pose proof (box_nth _ _ i (proj1 Y1) I). apply QC in X1', Y1'.
  pose proof (box_nth _ _ i (proj1 X1') ltac:(lia)). pose proof (box_nth _ _ i (proj1 Y1') ltac:(lia)).
  rewrite (surjective_pairing (nth i c (0, 0))), (surjective_pairing (nth i b (0, 0))). f_equal; lra.
Qed.
