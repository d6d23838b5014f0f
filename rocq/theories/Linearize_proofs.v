From Verif Require Import Linearize_spec.

Lemma set_nth_same {A} (d : A) : forall i l, set_nth i (nth i l d) l = l.
Proof. induction i; intros [|a l]; simpl; auto. f_equal; auto. Qed.
Lemma set_nth_twice {A} (a b : A) : forall i l, set_nth i a (set_nth i b l) = set_nth i a l.
Proof. induction i; intros [|c l]; simpl; auto. f_equal; auto. Qed.

Lemma fd_step_nz v ub : fd_step v ub <> 0.
Proof. unfold fd_step. pose proof (Rmax_facts (1 / 1000000 * Rabs v) (1 / 100000000)). destruct (Rltb _ _); lra. Qed.

(** the loop *)
Lemma lin_loop_ok vs cs : forall ubs i x,
  lin_loop vs cs i ubs x =
  (map (fun k => map (entry vs (i + k) (fd_step (nth (i + k) x 0) (nth k ubs 0))
                            (set_nth (i + k) (nth (i + k) x 0 + fd_step (nth (i + k) x 0) (nth k ubs 0)) x)) cs) (seq 0 (length ubs)), x).
Proof.
  induction ubs as [|ub r IH]; intros i x; simpl; auto.
  rewrite set_nth_twice, set_nth_same. rewrite IH. rewrite Nat.add_0_r. f_equal. f_equal.
  rewrite <- seq_shift, map_map. apply map_ext. intros k. rewrite Nat.add_succ_r. reflexivity.
Qed.

Lemma nth_map_lt {A B} (f : A -> B) l i d d' : (i < length l)%nat -> nth i (map f l) d = f (nth i l d').
Proof. revert i; induction l as [|a l IH]; intros [|i] H; simpl in *; try lia; auto. apply IH; lia. Qed.

Lemma linearize_form vs cons x : linearize vs cons x =
  (map (fun c => let r := map (fun k => entry vs k (fd_step (nth k x 0) (nth k (map lv_ub (free_l vs)) 0))
        (set_nth k (nth k x 0 + fd_step (nth k x 0) (nth k (map lv_ub (free_l vs)) 0)) x) (c, con_at vs c x)) (seq 0 (length (free_l vs))) in
     (r, dot r x - con_at vs c x)) cons, x).
Proof.
  unfold linearize. rewrite lin_loop_ok. rewrite !map_length. f_equal.
  apply nth_ext with (d := ([], 0)) (d' := ([], 0)); rewrite ?map_length, ?seq_length; auto.
  intros j Hj. rewrite (nth_map_lt _ _ j _ 0%nat) by (rewrite seq_length; auto). rewrite seq_nth by auto. simpl plus.
  destruct cons as [|c0 cons0]; [simpl in Hj; lia|]. rewrite (nth_map_lt _ (c0 :: cons0) j _ c0) by auto. cbv zeta.
  assert (RO : row_of (map (fun k => map (entry vs k (fd_step (nth k x 0) (nth k (map lv_ub (free_l vs)) 0))
           (set_nth k (nth k x 0 + fd_step (nth k x 0) (nth k (map lv_ub (free_l vs)) 0)) x))
           (map (fun c => (c, con_at vs c x)) (c0 :: cons0))) (seq 0 (length (free_l vs)))) j =
     map (fun k => entry vs k (fd_step (nth k x 0) (nth k (map lv_ub (free_l vs)) 0))
        (set_nth k (nth k x 0 + fd_step (nth k x 0) (nth k (map lv_ub (free_l vs)) 0)) x)
        (nth j (c0 :: cons0) c0, con_at vs (nth j (c0 :: cons0) c0) x)) (seq 0 (length (free_l vs)))).
  { unfold row_of. rewrite map_map. apply map_ext. intros k. simpl plus.
    rewrite (nth_map_lt _ _ j _ (c0, con_at vs c0 x)) by (rewrite map_length; auto).
    f_equal. rewrite (nth_map_lt _ _ j _ c0) by auto. reflexivity. }
  rewrite RO. f_equal. f_equal.
  rewrite map_map. rewrite (nth_map_lt _ _ j _ c0) by auto. reflexivity.
Qed.

(** full vectors *)
Lemma full_length : forall vs x, length x = length (free_l vs) -> length (full vs x) = length vs.
Proof.
  induction vs as [|v vs IH]; intros x H; simpl in *; auto. destruct (lv_locked v); simpl in *; [f_equal; auto|].
  destruct x as [|xi x]; simpl in *; [discriminate|]. f_equal; auto.
Qed.
Lemma full_free vs x : no_locks vs -> length x = length vs -> full vs x = x.
Proof.
  intros N; revert x; induction N as [|v vs H N IH]; intros [|xi x] L; simpl in *; try discriminate; auto.
  rewrite H. f_equal; auto.
Qed.
Lemma free_no_locks vs : no_locks vs -> free_l vs = vs.
Proof. intros N; induction N as [|v vs H N IH]; simpl; auto. unfold free_l in *; simpl. rewrite H; simpl. f_equal; auto. Qed.

(** projection of a full coefficient vector on the free variables *)
Fixpoint proj (vs : list lvar) (a : list R) : list R :=
  match vs, a with
  | v :: r, ai :: a' => if lv_locked v then proj r a' else ai :: proj r a'
  | _, _ => []
  end.
Lemma dot_full_diff : forall vs a x y, length a = length vs -> length x = length (free_l vs) -> length y = length (free_l vs) ->
  dot a (full vs y) - dot a (full vs x) = dot (proj vs a) y - dot (proj vs a) x.
Proof.
  induction vs as [|v vs IH]; intros [|ai a] x y LA LX LY; simpl in *; try discriminate; [lra|].
  destruct (lv_locked v); simpl in *.
  - specialize (IH a x y ltac:(lia) LX LY). lra.
  - destruct x as [|xi x], y as [|yi y]; simpl in *; try discriminate.
    specialize (IH a x y ltac:(lia) ltac:(lia) ltac:(lia)). lra.
Qed.
Lemma proj_length vs a : length a = length vs -> length (proj vs a) = length (free_l vs).
Proof.
  revert a; induction vs as [|v vs IH]; intros [|ai a] L; simpl in *; try discriminate; auto.
  destruct (lv_locked v); simpl; auto.
Qed.
Lemma dot_set : forall a x i h, length a = length x -> (i < length x)%nat ->
  dot a (set_nth i (nth i x 0 + h) x) - dot a x = nth i a 0 * h.
Proof.
  induction a as [|ai a IH]; intros [|xi x] [|i] h L H; simpl in *; try lia; try discriminate; [ring|].
  specialize (IH x i h ltac:(lia) ltac:(lia)). lra.
Qed.
Lemma dot_nth_map a n : length a = n -> map (fun k => nth k a 0) (seq 0 n) = a.
Proof.
  intros <-. induction a as [|ai a IH]; simpl; auto. f_equal. rewrite <- seq_shift, map_map. exact IH.
Qed.

(** value reproduced *)
Lemma linearize_value_lemma vs cons x : 
  snd (linearize vs cons x) = x /\
  Forall2 (fun c r => length (fst r) = length (free_l vs) /\ affine_value r x = con_at vs c x) cons (fst (linearize vs cons x)).
Proof.
  rewrite linearize_form. simpl. split; auto. induction cons as [|c cons IH]; simpl; constructor; auto.
  unfold affine_value; simpl. rewrite map_length, seq_length. split; auto. lra.
Qed.

(** affine constraints reproduced everywhere *)
Lemma linearize_affine_lemma vs cons x : length x = length (free_l vs) ->
  (no_locks vs \/ Forall (fun c => match c with LinC _ _ => False | NonC _ => True end) cons) ->
  Forall (affine (length vs)) cons ->
  Forall2 (fun c r => forall y, length y = length x -> affine_value r y = con_at vs c y) cons (fst (linearize vs cons x)).
Proof.
  intros LX NL AF. rewrite linearize_form. simpl.
  assert (KEY : forall c a d, length a = length vs -> (forall y, length y = length x -> con_at vs c y = dot a (full vs y) + d) ->
    forall r, r = proj vs a -> forall y, length y = length x -> affine_value (r, dot r x - con_at vs c x) y = con_at vs c y).
  { intros c a d LA H r -> y LY. unfold affine_value; simpl. rewrite (H y LY), (H x eq_refl).
    pose proof (dot_full_diff vs a x y LA LX ltac:(congruence)). lra. }
  assert (ROW : forall c a d, (exists f, c = NonC f) -> length a = length vs -> (forall y, length y = length x -> con_at vs c y = dot a (full vs y) + d) ->
    map (fun k => entry vs k (fd_step (nth k x 0) (nth k (map lv_ub (free_l vs)) 0))
        (set_nth k (nth k x 0 + fd_step (nth k x 0) (nth k (map lv_ub (free_l vs)) 0)) x) (c, con_at vs c x)) (seq 0 (length (free_l vs))) = proj vs a).
  { intros c a d [f ->] LA H. rewrite <- (dot_nth_map (proj vs a) (length (free_l vs))) by (apply proj_length; auto).
    apply map_ext_in. intros k Hk. apply in_seq in Hk. unfold entry; cbn [fst snd].
    set (h := fd_step _ _). rewrite (H (set_nth k (nth k x 0 + h) x)) by apply set_nth_length. rewrite (H x eq_refl).
    pose proof (dot_full_diff vs a x (set_nth k (nth k x 0 + h) x) LA LX ltac:(rewrite set_nth_length; auto)) as D.
    rewrite (dot_set (proj vs a) x k h) in D by (rewrite ?proj_length; auto; lia).
    assert (h <> 0) by apply fd_step_nz. field_simplify_eq; auto. lra. }
  induction cons as [|c cons IH]; simpl; constructor.
  - inversion AF as [|? ? A1 A2]; subst. destruct c as [a b|f]; simpl in A1.
    + destruct NL as [NL|NL]; [|inversion NL; contradiction].
      refine (KEY (LinC a b) a (- b) A1 _ _ _); [intros; simpl; lra|].
      unfold entry; simpl. rewrite (dot_nth_map a); [|rewrite free_no_locks; auto].
      clear -NL A1. revert a A1; induction NL as [|v vs H N IH]; intros [|ai a] A1; simpl in *; try discriminate; auto.
      rewrite H. f_equal; auto.
    + destruct A1 as (a & d & LA & H). refine (KEY (NonC f) a d LA _ _ _).
      * intros y LY; simpl. apply H. apply full_length. congruence.
      * apply (ROW (NonC f) a d); eauto. intros y LY; simpl. apply H. apply full_length. congruence.
  - inversion AF; subst. apply IH; auto. destruct NL as [NL|NL]; [left; auto|right; inversion NL; auto].
Qed.

(** with a locked variable the row of a linear constraint is misaligned *)
Lemma linearize_locks_refuted : exists vs a b x r xf y, length x = length (free_l vs) /\ length a = length vs /\
  linearize vs [LinC a b] x = ([r], xf) /\ length y = length x /\ affine_value r y <> con_at vs (LinC a b) y.
Proof.
  exists [mkLv true 0 10; mkLv false 0 10], [5; 7], 0, [1]. rewrite linearize_form. simpl. eexists; eexists; exists [2].
  repeat split. unfold affine_value; simpl. intros H. unfold entry in H; simpl in H. lra.
Qed.

(** slope = derivative at an intermediate point *)
Lemma fd_mvt phi dphi v h : h <> 0 ->
  (forall t, Rmin v (v + h) <= t <= Rmax v (v + h) -> derivable_pt_lim phi t (dphi t)) ->
  exists t, Rmin v (v + h) < t < Rmax v (v + h) /\ (phi (v + h) - phi v) / h = dphi t.
Proof.
  intros H D. destruct (Rtotal_order h 0) as [N|[N|N]]; [|contradiction|].
  - destruct (MVT_cor2 phi dphi (v + h) v) as (c & C1 & C2); [lra| |].
    { intros c Hc. apply D. rmx; lra. }
    exists c; split; [rmx; lra|]. replace (phi (v + h) - phi v) with (- (phi v - phi (v + h))) by ring. rewrite C1. field; lra.
  - destruct (MVT_cor2 phi dphi v (v + h)) as (c & C1 & C2); [lra| |].
    { intros c Hc. apply D. rmx; lra. }
    exists c; split; [rmx; lra|]. rewrite C1. field; lra.
Qed.
Lemma linearize_slope_lemma vs f x i dphi : length x = length (free_l vs) -> (i < length x)%nat ->
  let h := fd_step (nth i x 0) (nth i (map lv_ub (free_l vs)) 0) in
  (forall t, Rmin (nth i x 0) (nth i x 0 + h) <= t <= Rmax (nth i x 0) (nth i x 0 + h) ->
     derivable_pt_lim (fun s => con_at vs (NonC f) (at_coord x i s)) t (dphi t)) ->
  exists r xf t, linearize vs [NonC f] x = ([r], xf) /\
    Rmin (nth i x 0) (nth i x 0 + h) < t < Rmax (nth i x 0) (nth i x 0 + h) /\ nth i (fst r) 0 = dphi t.
Proof.
  intros LX LI h D. rewrite linearize_form. simpl map. cbv zeta.
  destruct (fd_mvt (fun s => con_at vs (NonC f) (at_coord x i s)) dphi (nth i x 0) h (fd_step_nz _ _) D) as (t & T1 & T2).
  do 2 eexists; exists t. split; [reflexivity|]. split; auto. cbn [fst].
  rewrite (nth_map_lt _ _ i _ 0%nat) by (rewrite seq_length; lia). rewrite seq_nth by lia. simpl plus.
  fold h. rewrite <- T2. unfold entry; cbn [fst snd]. unfold at_coord. rewrite set_nth_same. reflexivity.
Qed.
Lemma fd_step_size_lemma v ub : Rabs (fd_step v ub) = Rmax (1 / 1000000 * Rabs v) (1 / 100000000).
Proof.
  unfold fd_step. pose proof (Rmax_facts (1 / 1000000 * Rabs v) (1 / 100000000)) as F. set (m := Rmax _ _) in *.
  destruct (Rltb ub (v + m)); [rewrite Rabs_Ropp|]; apply Rabs_pos_eq; lra.
Qed.
Lemma fd_step_inside_lemma lb ub v : lb <= v <= ub -> 2 * Rmax (1 / 1000000 * Rabs v) (1 / 100000000) <= ub - lb ->
  lb <= v + fd_step v ub <= ub.
Proof.
  intros B W. unfold fd_step. pose proof (Rmax_facts (1 / 1000000 * Rabs v) (1 / 100000000)) as F. set (m := Rmax _ _) in *.
  destruct (Rltb ub (v + m)) eqn:E; [apply Rltb_true in E|apply Rltb_false in E]; lra.
Qed.

(** SLP's linear program and the original affine constraints *)
Lemma slp_rows_lemma vs cons x : length x = length (free_l vs) -> no_locks vs -> Forall (affine (length vs)) cons ->
  forall y, length y = length x ->
  (Forall (slp_row_ok y 0) (fst (linearize vs cons x)) <-> Forall (fun c => holds (CLt, con_at vs c y)) cons).
Proof.
  intros LX NL AF y LY. pose proof (linearize_affine_lemma vs cons x LX (or_introl NL) AF) as F.
  induction F as [|c r cons' rows H F IH]; [split; constructor|].
  inversion AF; subst. specialize (IH ltac:(auto)). specialize (H y LY). unfold affine_value in H.
  split; intros A; inversion A as [|? ? A1 A2]; subst; constructor; try (apply IH; auto); simpl in *; unfold slp_row_ok in *; lra.
Qed.
Lemma slp_gt_lemma : exists vs c x y, length x = length (free_l vs) /\ no_locks vs /\ affine (length vs) c /\
  length y = length x /\ Forall (slp_row_ok y 0) (fst (linearize vs [c] x)) /\ ~ holds (CGt, con_at vs c y).
Proof.
  exists [mkLv false 0 10], (LinC [1] 5), [6], [2]. rewrite linearize_form. simpl. repeat split; auto; try (repeat constructor).
  - unfold slp_row_ok, entry; simpl; lra.
  - lra.
Qed.
