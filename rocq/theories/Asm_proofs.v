Require Import Reals List Bool Lra Lia Psatz PeanoNat.
Import ListNotations.
From Verif Require Import Base EC3_model Bool_tac EC3_proofs Plate_proofs Approx_spec Approx_proofs.
From Verif Require Import Asm_model Asm_spec.
Local Open Scope R_scope.

Lemma num_step_pos x : 0 < num_step x.
Proof. unfold num_step. eapply Rlt_le_trans; [|apply Rmax_r]. lra. Qed.
Lemma num_grad_length f x : length (num_grad f x) = length x.
Proof. unfold num_grad. now rewrite map_length, seq_length. Qed.
Lemma num_grad_nth f x i : (i < length x)%nat -> nth i (num_grad f x) 0 = num_diff f x i.
Proof.
  intros H. unfold num_grad. rewrite (nth_indep _ 0 (num_diff f x 0)) by (rewrite map_length, seq_length; auto).
  rewrite map_nth, seq_nth; auto.
Qed.
Lemma dot_step : forall a x i h, length a = length x -> (i < length x)%nat -> dot a (set_nth i (nth i x 0 + h) x) - dot a x = nth i a 0 * h.
Proof.
  induction a as [|ai a IH]; intros [|xi x] [|i] h L H; simpl in *; try lia; try discriminate; [ring|].
  specialize (IH x i h ltac:(lia) ltac:(lia)). lra.
Qed.
Lemma num_affine_lemma : forall c a x f, length a = length x -> (forall y, length y = length x -> f y = c + dot a y) -> num_grad f x = a.
Proof.
  intros c a x f L F. apply (nth_ext _ _ 0 0). rewrite num_grad_length; auto.
  intros i Hi. rewrite num_grad_length in Hi. rewrite num_grad_nth; auto. unfold num_diff.
  rewrite !F by (auto; now rewrite set_nth_length). pose proof (dot_step a x i (num_step (nth i x 0)) L Hi) as E. pose proof (num_step_pos (nth i x 0)).
  apply (Rmult_eq_reg_r (num_step (nth i x 0))); [|lra]. rewrite <- E. field. lra.
Qed.

Lemma second_order phi d1 d2 a h M : 0 < h -> 0 <= M -> smooth phi d1 d2 a h M -> Rabs ((phi (a + h) - phi a) / h - d1 a) <= M / 2 * h.
Proof.
  intros Hh HM S.
  assert (D : forall t, a <= t <= a + h -> Rabs (d1 t - d1 a) <= M * (t - a)).
  { intros t T. destruct (Req_dec t a) as [->|N]. rewrite Rminus_diag_eq, Rabs_R0; auto. lra.
    destruct (MVT_cor2 d1 d2 a t ltac:(lra)) as (c&E&C). intros c C. apply S. lra.
    rewrite E, Rabs_mult, (Rabs_right (t - a)) by lra. apply Rmult_le_compat_r; [lra|]. apply S. lra. }
  assert (G : forall s, s = 1 \/ s = -1 -> s * (phi (a + h) - phi a - d1 a * h) <= M / 2 * h * h).
  { intros s Hs.
    destruct (MVT_cor2 (fun t => s * phi t - s * d1 a * t - M / 2 * (t - a) ^ 2) (fun t => s * d1 t - s * d1 a - M * (t - a)) a (a + h) ltac:(lra)) as (c&E&C).
    { intros c C. replace (s * d1 c - s * d1 a - M * (c - a)) with ((s * d1 c - s * d1 a * 1) - M / 2 * (INR 2 * (c - a) ^ 1 * (1 - 0))) by (simpl; field).
      apply (derivable_pt_lim_minus (fun t => s * phi t - s * d1 a * t) (fun t => M / 2 * (t - a) ^ 2)).
      apply (derivable_pt_lim_minus (fun t => s * phi t) (fun t => s * d1 a * t)).
      apply (derivable_pt_lim_scal phi s). apply S; lra.
      apply (derivable_pt_lim_scal id (s * d1 a)). apply derivable_pt_lim_id.
      apply (derivable_pt_lim_scal (fun t => (t - a) ^ 2) (M / 2)).
      apply (derivable_pt_lim_comp (fun t => t - a) (fun y => y ^ 2)).
      apply (derivable_pt_lim_minus id (fct_cte a)). apply derivable_pt_lim_id. apply derivable_pt_lim_const.
      apply (derivable_pt_lim_pow (c - a) 2). }
    cbv beta in E. specialize (D c ltac:(lra)). assert (- (M * (c - a)) <= d1 c - d1 a <= M * (c - a)) as D' by (unfold Rabs in D; destruct (Rcase_abs (d1 c - d1 a)); lra).
    assert (s * (d1 c - d1 a) <= M * (c - a)) by (destruct Hs as [Hs|Hs]; rewrite Hs; lra).
    assert (0 <= h * (M * (c - a) - s * (d1 c - d1 a))) by (apply Rmult_le_pos; lra). nra. }
  pose proof (G 1 (or_introl eq_refl)) as G1. pose proof (G (-1) (or_intror eq_refl)) as G2.
  replace ((phi (a + h) - phi a) / h - d1 a) with ((phi (a + h) - phi a - d1 a * h) / h) by (field; lra).
  apply Rabs_le. split.
  - apply (Rmult_le_reg_r h); auto. replace ((phi (a + h) - phi a - d1 a * h) / h * h) with (phi (a + h) - phi a - d1 a * h) by (field; lra). lra.
  - apply (Rmult_le_reg_r h); auto. replace ((phi (a + h) - phi a - d1 a * h) / h * h) with (phi (a + h) - phi a - d1 a * h) by (field; lra). lra.
Qed.
Lemma set_nth_own : forall (x : list R) i, set_nth i (nth i x 0) x = x.
Proof. induction x as [|a x IH]; intros [|i]; simpl; auto. now rewrite IH. Qed.
Lemma num_error_lemma : forall f x i d1 d2 M, (i < length x)%nat -> let h := Rmax (Rabs (nth i x 0) / 1000000) (1 / 100000000) in
  smooth (fun t => f (set_nth i t x)) d1 d2 (nth i x 0) h M -> Rabs (nth i (num_grad f x) 0 - d1 (nth i x 0)) <= M / 2 * h.
Proof.
  intros f x i d1 d2 M Hi h S. rewrite num_grad_nth; auto. unfold num_diff.
  assert (E : num_step (nth i x 0) = h) by (unfold num_step, h; f_equal; field).
  assert (0 < h) by (rewrite <- E; apply num_step_pos). rewrite E.
  assert (0 <= M) by (destruct (S (nth i x 0) ltac:(lra)) as (_&_&Q); pose proof (Rabs_pos (d2 (nth i x 0))); lra).
  pose proof (second_order _ d1 d2 (nth i x 0) h M H H0 S) as Q. cbv beta in Q. now rewrite set_nth_own in Q.
Qed.
Lemma num_blind_lemma : forall f x, (forall y, length y = length x -> f y = f x) -> num_grad f x = repeat 0 (length x).
Proof.
  intros f x F. apply (nth_ext _ _ 0 0). now rewrite num_grad_length, repeat_length. intros i Hi. rewrite num_grad_length in Hi.
  rewrite num_grad_nth, nth_repeat; auto. unfold num_diff. rewrite F by apply set_nth_length. unfold Rdiv. ring.
Qed.

(** full vectors *)
Lemma fill_free vs x : none_locked vs -> length x = length (free vs) -> fill vs x = x.
Proof.
  revert x. induction vs as [|v vs IH]; intros x N L; inversion N; subst; simpl in *. destruct x; auto; discriminate.
  rewrite H1 in *. simpl in L. destruct x; simpl in *; try discriminate. f_equal. apply IH; auto.
Qed.
Lemma sub_none x : none_locked (sub_vars x).
Proof. unfold none_locked, sub_vars. apply Forall_map. apply Forall_forall. auto. Qed.
Lemma free_none vs : none_locked vs -> free vs = vs.
Proof. unfold free. induction 1 as [|v vs H N IH]; simpl; auto. rewrite H. simpl. now rewrite IH. Qed.
Lemma fill_sub x y : length y = length x -> fill (sub_vars x) y = y.
Proof. intros L. apply fill_free. apply sub_none. rewrite free_none by apply sub_none. unfold sub_vars. now rewrite map_length. Qed.
Lemma fill_length vs x : length x = length (free vs) -> length (fill vs x) = length vs.
Proof.
  revert x. induction vs as [|v vs IH]; intros x L; simpl in *; auto. destruct (av_locked v); simpl in *.
  now rewrite IH. destruct x; simpl in *; try discriminate. now rewrite IH by lia.
Qed.
Lemma filter_le_len {A} (p : A -> bool) l : (length (filter p l) <= length l)%nat.
Proof. induction l; simpl; auto. destruct (p a); simpl; lia. Qed.
Lemma free_lt vs : ~ none_locked vs -> (length (free vs) < length vs)%nat.
Proof.
  unfold none_locked, free. induction vs as [|v vs IH]; intros N. exfalso; apply N; constructor. simpl.
  destruct (av_locked v) eqn:E; simpl. pose proof (filter_le_len (fun v => negb (av_locked v)) vs). lia.
  apply -> Nat.succ_lt_mono. apply IH. intros Q. apply N. constructor; auto.
Qed.

Lemma approx_value k L U x fx df : admissible k L U x -> length df = length x -> approx k L U x fx df x = fx.
Proof.
  destruct k; simpl. intros A D. now apply (conlin_interpolates_lemma x fx df).
  all: intros (A&B&_) D; apply mma_value_lemma; repeat split; auto.
Qed.
Lemma approx_grad k L U x fx df i : admissible k L U x -> length df = length x -> (i < length x)%nat -> partial_deriv (approx k L U x fx df) x i (nth i df 0).
Proof.
  destruct k; simpl. intros A D Hi. now apply (conlin_interpolates_lemma x fx df).
  all: intros (A&B&C) D Hi; pose proof (mma_grad_lemma x fx df L U x ltac:(repeat split; auto) eq_refl C i Hi) as Q;
    rewrite mma_grad_at_lemma in Q; auto; repeat split; auto.
Qed.
Lemma con_df_length s f g x : sized g -> length (con_df s f g x) = length x.
Proof. destruct g; simpl; auto. intros _. apply num_grad_length. Qed.

Definition true_base (k : sub) (vs : list avar) : Prop := none_locked vs \/ k = SMmaP.
Lemma base_call k vs f x : length x = length (free vs) -> true_base k vs -> base_value k vs f x = f (fill vs x) (fill vs x).
Proof. intros L [N| ->]; auto. unfold base_value. rewrite (fill_free vs x) by auto. now destruct k. Qed.

Lemma sub_value_lemma : forall k vs L U x f g ty, length x = length (free vs) -> none_locked vs \/ k = SMmaP -> admissible k L U x -> sized g ->
  call (sub_vars x) (sub_con k vs L U x (ANon f g ty)) x = call vs (ANon f g ty) x.
Proof.
  intros k vs L U x f g ty LX B A G. simpl. f_equal. rewrite fill_sub by auto. rewrite approx_value; auto. now apply base_call.
  now apply con_df_length.
Qed.
Lemma sub_grad_lemma : forall k vs L U x f g ty, length x = length (free vs) -> admissible k L U x -> sized g ->
  exists F, (forall y, length y = length x -> call (sub_vars x) (sub_con k vs L U x (ANon f g ty)) y = Some (F y)) /\
    forall i, (i < length x)%nat -> partial_deriv F x i (nth i (con_df (fill vs x) f g x) 0).
Proof.
  intros k vs L U x f g ty LX A G. exists (approx k L U x (base_value k vs f x) (con_df (fill vs x) f g x)). split.
  - intros y Y. simpl. now rewrite fill_sub by auto.
  - intros i Hi. apply approx_grad; auto. now apply con_df_length.
Qed.
Lemma sub_obj_lemma : forall k vs L U x f g, admissible k L U x -> sized g -> sub_obj k vs f g L U x x = f (fill vs x) (fill vs x) /\
  forall i, (i < length x)%nat -> partial_deriv (sub_obj k vs f g L U x) x i (nth i (match g with None => num_grad (fun y => f (fill vs y) (fill vs y)) x | Some g => g x end) 0).
Proof.
  intros k vs L U x f g A G.
  assert (D : length (match g with None => num_grad (obj_fun vs f) x | Some g => g x end) = length x) by (destruct g; auto; apply num_grad_length).
  split. unfold sub_obj. now rewrite approx_value. intros i Hi. unfold sub_obj. apply approx_grad; auto.
Qed.
Lemma sub_linear_lemma : forall k vs L U x a b ty y, none_locked vs -> length x = length (free vs) -> length y = length x ->
  call (sub_vars x) (sub_con k vs L U x (ALin a b ty)) y = call vs (ALin a b ty) y.
Proof. intros k vs L U x a b ty y N LX LY. simpl. rewrite fill_sub, fill_free; auto. congruence. Qed.
Lemma after_free_lemma : forall vs s x y c, none_locked vs -> length x = length (free vs) -> length y = length x ->
  call_after vs s x y c = match call vs c y with Some r => Some (r, match c with ALin _ _ _ => s | ANon _ _ _ => y end) | None => None end.
Proof.
  intros vs s x y c N LX LY. destruct c as [a b ty|f g ty]; auto. unfold call_after; cbn [owner_after].
  pose proof (sub_linear_lemma SConlin vs [] [] x a b ty y N LX LY) as E. cbn [sub_con] in E. now rewrite E.
Qed.
Lemma after_locked_lemma : forall vs s x y a b ty, ~ none_locked vs -> length a = length vs -> length x = length (free vs) -> length y = length x ->
  call vs (ALin a b ty) y <> None /\ call_after vs s x y (ALin a b ty) = None.
Proof.
  intros vs s x y a b ty N LA LX LY. pose proof (free_lt vs N). unfold call_after; cbn [owner_after call].
  rewrite fill_length, LA, Nat.eqb_refl by congruence. split. discriminate. rewrite fill_sub by auto.
  replace (Nat.eqb (length vs) (length y)) with false; auto. symmetry. apply Nat.eqb_neq. lia.
Qed.
Lemma sub_types_lemma : forall k vs L U x cs, map type_of (map (sub_con k vs L U x) cs) = map type_of cs.
Proof. intros. rewrite map_map. apply map_ext. now intros []. Qed.
Lemma sub_linear_value_lemma : forall k vs L U x a b ty y, none_locked vs -> length x = length (free vs) -> length y = length x -> length a = length x ->
  call (sub_vars x) (sub_con k vs L U x (ALin a b ty)) y = Some (dot a y - b) /\ call vs (ALin a b ty) y = Some (dot a y - b).
Proof.
  intros k vs L U x a b ty y N LX LY LA. rewrite (sub_linear_lemma k vs L U x a b ty y N LX LY). cbn [call]. rewrite fill_free by congruence.
  rewrite LA, LY, Nat.eqb_refl. auto.
Qed.
