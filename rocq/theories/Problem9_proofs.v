From Verif Require Import Base Problem_proofs.
From Verif Require Import Problem_model Problem_spec.

Lemma exact_gt_lemma : forall Rw gs, 0 <= Rw -> Forall (fun c => fst c = CGt) gs ->
  exact_penalty Rw gs [] = - (Rw * Rsum (map (fun c => Rmax 0 (- snd c)) gs)) /\ exact_penalty Rw gs [] <= 0.
Proof.
  intros Rw gs RW H. assert (E : exact_penalty Rw gs [] = - (Rw * Rsum (map (fun c => Rmax 0 (- snd c)) gs))).
  { unfold exact_penalty. cbn [fold_left]. rewrite (fold_incr (exact_con Rw) (fun c => - (Rw * Rmax 0 (- snd c)))).
    - assert (G : forall l : list (ctype * R), Rsum (map (fun c => - (Rw * Rmax 0 (- snd c))) l) = - (Rw * Rsum (map (fun c => Rmax 0 (- snd c)) l))) by (induction l; simpl; [lra|rewrite IHl; lra]). rewrite G. lra.
    - intros F [ty g] I. rewrite Forall_forall in H. specialize (H _ I). cbn in H. subst ty. cbn. unfold Rmin, Rmax. destruct (Rle_dec 0 g), (Rle_dec 0 (- g)); try lra. replace g with 0 by lra. lra. }
  split; auto. rewrite E. assert (0 <= Rsum (map (fun c => Rmax 0 (- snd c)) gs)) by (apply Rsum_map_nonneg; intros; apply Rmax_l). nra.
Qed.
Lemma aug_terms_lemma : forall Rineq Req mult val, 0 < Rineq -> 0 < Req ->
  4 * Rineq * aug_term CLt Rineq Req mult val = upd_mult CLt Rineq Req mult val ^ 2 /\
  4 * Rineq * aug_term CGt Rineq Req mult val = upd_mult CGt Rineq Req mult val ^ 2 /\
  4 * Req * aug_term CEq Rineq Req mult val = upd_mult CEq Rineq Req mult val ^ 2 - mult ^ 2 /\
  4 * Rineq * aug_bound Rineq mult val = Rmax (mult + 2 * Rineq * val) 0 ^ 2.
Proof.
  intros Ri Re m v R1 R2. unfold aug_term, upd_mult, aug_bound.
  assert (G : forall s, 4 * Ri * (Ri * Rmax (5/10 * m / Ri + s) 0 ^ 2) = Rmax (m + 2 * Ri * s) 0 ^ 2).
  { intros s. assert (E : Rmax (m + 2 * Ri * s) 0 = 2 * Ri * Rmax (5/10 * m / Ri + s) 0).
    { rewrite <- (Rmult_0_r (2 * Ri)) at 1. replace (m + 2 * Ri * s) with (2 * Ri * (5/10 * m / Ri + s)) by (field; lra). rewrite RmaxRmult by lra. reflexivity. }
    rewrite E. ring. }
  split; [apply G|]. split; [rewrite <- (Ropp_involutive v) at 2; unfold Rminus; rewrite (G (- v)); f_equal; f_equal; ring|]. split; [ring|apply G].
Qed.
(* slack variables of constraints and finite bounds *)
Definition slacks (gs : list (ctype * R)) (vs : list bvar) : list R :=
  flat_map (fun c => match fst c with CEq => [] | CLt => [- snd c] | CGt => [snd c] end) gs ++
  flat_map (fun v => (if Rlt_dec (- 100000000) (snd (fst v)) then [fst (fst v) - snd (fst v)] else []) ++
                     (if Rlt_dec (snd v) 100000000 then [snd v - fst (fst v)] else [])) vs.
Lemma Rsum_flat {A} (f : A -> list R) (h : R -> R) l : Rsum (map h (flat_map f l)) = Rsum (map (fun a => Rsum (map h (f a))) l).
Proof. induction l; simpl; auto. rewrite map_app, Rsum_app, IHl. reflexivity. Qed.
Lemma inverse_value_lemma : forall Rw obj gs vs, 0 < Rw -> Forall holds_strictly gs -> Forall bounds_hold_strictly vs ->
  inverse_barrier Rw obj gs vs = obj + Rsum (map (fun s => / (Rw * s)) (slacks gs vs)).
Proof.
  intros Rw obj gs vs RW HG HV. rewrite inverse_sum. unfold slacks. rewrite map_app, Rsum_app, !Rsum_flat. rewrite Rplus_assoc. f_equal. f_equal; f_equal; apply map_ext_in.
  - intros [ty g] I. rewrite Forall_forall in HG. specialize (HG _ I). unfold inv_con_t, inv_con, holds_strictly in *. destruct ty; cbn in *; try lra.
    + field. lra. + field. lra.
  - intros [[x lb] ub] I. rewrite Forall_forall in HV. specialize (HV _ I). unfold bounds_hold_strictly in HV. destruct HV as [H1 H2]. unfold inv_var_t, inv_var, XLB, XUB in *. cbn [fst snd].
    destruct (Rlt_dec (- 100000000) lb) as [A|A], (Rlt_dec ub 100000000) as [B|B]; cbn; try specialize (H1 A); try specialize (H2 B); try (field; lra); try lra.
Qed.
Lemma convert_other K vars : forall i cur j, In (TOther j) (convert K i vars cur) <-> In (TOther j) cur /\ (forall p, (i <= j)%nat -> nth_error vars (j - i) <> Some (Some p)).
Proof.
  induction vars as [|v vars IH]; intros i cur j.
  - simpl. split; [intros H; split; auto; intros p _; destruct (j - i)%nat; discriminate|tauto].
  - assert (SH : forall P : option (option (list (list R))) -> Prop, True) by auto. clear SH. destruct v as [profs|]; cbn [convert].
    + rewrite IH. unfold del_var. rewrite filter_In, in_app_iff. 
      assert (NI : ~ In (TOther j) (map (TProp i) (seq 0 K) ++ map (TBin i) (seq 0 (length profs)))).
      { rewrite in_app_iff, !in_map_iff. intros [(x & E & _)|(x & E & _)]; discriminate. }
      split.
      * intros ((A & B) & C). split; [tauto|]. intros p L. destruct (Nat.eq_dec i j) as [->|N].
        -- apply negb_true_iff in B. exfalso. assert (tag_eqb (TOther j) (TOther j) = true) by (apply tag_eqb_eq; auto). congruence.
        -- replace (j - i)%nat with (S (j - S i)) by lia. cbn. apply C. lia.
      * intros (A & C). split; [split; [tauto|]|].
        -- apply negb_true_iff. destruct (tag_eqb (TOther i) (TOther j)) eqn:E; auto. apply tag_eqb_eq in E. injection E as ->. exfalso. apply (C profs); [lia|]. rewrite Nat.sub_diag. reflexivity.
        -- intros p L. specialize (C p ltac:(lia)). replace (j - i)%nat with (S (j - S i)) in C by lia. exact C.
    + rewrite IH. split; intros (A & C); (split; [auto|]); intros p L.
      * destruct (Nat.eq_dec i j) as [->|N]; [rewrite Nat.sub_diag; discriminate|]. replace (j - i)%nat with (S (j - S i)) by lia. apply C. lia.
      * specialize (C p ltac:(lia)). replace (j - i)%nat with (S (j - S i)) in C by lia. exact C.
Qed.
Lemma kept_variables_lemma : forall K vars j, In (TOther j) (final_vars K vars) <-> nth_error vars j = Some None.
Proof.
  intros K vars j. unfold final_vars. rewrite convert_other. rewrite Nat.sub_0_r. split.
  - intros (A & B). apply in_map_iff in A. destruct A as (x & E & I). injection E as ->. apply in_seq in I. destruct (nth_error vars j) as [[p|]|] eqn:E; auto.
    + exfalso. apply (B p); [lia|auto].
    + apply nth_error_None in E. lia.
  - intros E. split; [apply in_map, in_seq; split; [lia|]; cbn; apply nth_error_Some; congruence|]. intros p _. congruence.
Qed.
