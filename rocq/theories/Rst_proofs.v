Require Import Reals ZArith List Bool Lra Lia Psatz PeanoNat.
Import ListNotations.
From Verif Require Import Base EC3_model Bool_tac EC3_proofs Plate_proofs.
From Verif Require Import Rst_model Rst_spec.
Local Open Scope R_scope.

Lemma nearest_in : forall l b t, nearest b l t = b \/ In (nearest b l t) l.
Proof.
  induction l as [|v l IH]; intros b t; simpl; auto. destruct (Rltb (Rabs (v - t)) (Rabs (b - t))).
  destruct (IH v t) as [->|]; auto. destruct (IH b t) as [->|]; auto.
Qed.
Lemma nearest_min : forall l b t w, w = b \/ In w l -> Rabs (nearest b l t - t) <= Rabs (w - t).
Proof.
  induction l as [|v l IH]; intros b t w H; simpl in *. destruct H as [->|[]]; lra.
  destruct (Rltb (Rabs (v - t)) (Rabs (b - t))) eqn:E.
  - apply Rltb_true in E. destruct H as [->|[->|H]]. eapply Rle_trans; [apply (IH v t v); auto|]. lra. apply IH; auto. apply IH; auto.
  - apply Rltb_false in E. destruct H as [->|[->|H]]. apply IH; auto. eapply Rle_trans; [apply (IH b t b); auto|]. lra. apply IH; auto.
Qed.
Lemma floor_range u n : rnd u -> (0 < n)%Z -> (0 <= floorZ (u * IZR n) < n)%Z.
Proof.
  intros (U0&U1) N. destruct (floorZ_spec (u * IZR n)) as (A&B). apply IZR_lt in N. simpl in N.
  assert (0 <= u * IZR n) by (apply Rmult_le_pos; lra). assert (u * IZR n < IZR n) by nra. split.
  - assert (IZR (-1) < IZR (floorZ (u * IZR n))) by (simpl; lra). apply lt_IZR in H1. lia.
  - apply lt_IZR. lra.
Qed.
Lemma draw_lemma : forall v u, well_formed v -> rnd u -> exists x, draw v u = Some x /\ allowed v x.
Proof.
  intros [k lb ub] u W U. unfold well_formed, draw, allowed in *; simpl in *. destruct k as [| |l].
  - eexists; split; [reflexivity|]. split; auto. destruct U. nra.
  - destruct W as (a&b&->&->&L). assert (E : Rltb (IZR a) (IZR b + 1) = true). { apply Rltb_true. apply IZR_le in L. lra. }
    rewrite E. eexists; split; [reflexivity|]. replace (IZR b + 1 - IZR a) with (IZR (b + 1 - a)) by (rewrite minus_IZR, plus_IZR; reflexivity).
    pose proof (floor_range u (b + 1 - a) U ltac:(lia)) as Q. set (z := floorZ (u * IZR (b + 1 - a))) in *. rewrite <- plus_IZR. split.
    split; apply IZR_le; lia. eauto.
  - destruct W as (A&B&C). destruct l as [|a r]; [destruct A|]. eexists; split; [reflexivity|].
    assert (I : In (nearest a r ((ub - lb) * u + lb)) (a :: r)) by (destruct (nearest_in r a ((ub - lb) * u + lb)) as [->|]; [left; auto|right; auto]). auto.
Qed.
Lemma random_values_lemma : forall vs us, Forall well_formed vs -> (forall i, rnd (us i)) -> exists x, random_values vs us = Some x /\ Forall2 allowed vs x.
Proof.
  induction vs as [|v vs IH]; intros us W U; inversion W; subst; simpl. exists []; auto.
  destruct (draw_lemma v (us O) H1 (U O)) as (x&->&A). destruct (IH (fun i => us (S i)) H2 (fun i => U (S i))) as (t&->&B). simpl. eauto.
Qed.
Lemma draw_nearest_lemma : forall v u l x w, r_kind v = RDisc l -> draw v u = Some x -> In w l -> let t := (1 - u) * r_lb v + u * r_ub v in Rabs (x - t) <= Rabs (w - t).
Proof.
  intros [k lb ub] u l x w K D I t. simpl in *. subst k. unfold draw in D; simpl in D. destruct l as [|a r]; [destruct I|]. injection D as <-.
  subst t. replace ((1 - u) * lb + u * ub) with ((ub - lb) * u + lb) by ring. apply nearest_min. destruct I; auto.
Qed.
Lemma gap : forall (l : list R) m, exists e, 0 < e /\ forall w, In w l -> w < m -> w <= m - e.
Proof.
  induction l as [|a l IH]; intros m. exists 1. split; [lra|intros ? []].
  destruct (IH m) as (e&E&H). destruct (Rlt_dec a m).
  - exists (Rmin e (m - a)). split. apply Rmin_glb_lt; lra. pose proof (Rmin_l e (m - a)). pose proof (Rmin_r e (m - a)). intros w [->|I] L. lra. specialize (H w I L). lra.
  - exists e. split; auto. intros w [->|I] L. lra. auto.
Qed.
Lemma draw_onto_lemma : forall v x, well_formed v -> allowed v x -> (r_kind v = RCont -> x < r_ub v) -> exists u, rnd u /\ draw v u = Some x.
Proof.
  intros [k lb ub] x W A C. unfold well_formed, allowed, draw, rnd in *; simpl in *. destruct A as (B&A). destruct k as [| |l].
  - specialize (C eq_refl). exists ((x - lb) / (ub - lb)). split.
    + split. apply Rmult_le_pos; [lra|]. left. apply Rinv_0_lt_compat; lra. apply (Rmult_lt_reg_r (ub - lb)); [lra|]. replace ((x - lb) / (ub - lb) * (ub - lb)) with (x - lb) by (field; lra). lra.
    + f_equal. field. lra.
  - destruct W as (a&b&->&->&L), A as (z&->). destruct B as (B1&B2). apply le_IZR in B1, B2.
    assert (N : 0 < IZR (b + 1 - a)) by (apply (IZR_lt 0); lia).
    exists (IZR (z - a) / IZR (b + 1 - a)). split.
    + split. apply Rmult_le_pos. apply (IZR_le 0); lia. left; now apply Rinv_0_lt_compat. apply (Rmult_lt_reg_r (IZR (b + 1 - a))); auto. unfold Rdiv. rewrite Rmult_assoc, Rinv_l, Rmult_1_r, Rmult_1_l by lra. apply IZR_lt. lia.
    + assert (E : Rltb (IZR a) (IZR b + 1) = true). { apply Rltb_true. apply IZR_le in L. lra. } rewrite E. f_equal.
      replace (IZR b + 1 - IZR a) with (IZR (b + 1 - a)) by (rewrite minus_IZR, plus_IZR; reflexivity).
      unfold Rdiv. rewrite Rmult_assoc, Rinv_l, Rmult_1_r by lra.
      destruct (floorZ_spec (IZR (z - a))) as (F1&F2). apply le_IZR in F1. rewrite <- (plus_IZR _ 1) in F2. apply lt_IZR in F2. replace (floorZ (IZR (z - a))) with (z - a)%Z by lia. rewrite minus_IZR. ring.
  - destruct W as (W1&W2&W3). destruct l as [|a r]; [destruct A|].
    assert (M : forall t w, In w (a :: r) -> Rabs (nearest a r t - t) <= Rabs (w - t)) by (intros t w [->|I]; apply nearest_min; auto).
    assert (I : forall t, In (nearest a r t) (a :: r)) by (intros t; destruct (nearest_in r a t) as [->|]; [left; auto|right; auto]).
    destruct (Req_dec lb ub) as [Q|Q].
    + exists 0. split; [lra|]. f_equal. pose proof (W3 _ (I ((ub - lb) * 0 + lb))). lra.
    + destruct (Rlt_dec x ub) as [X|X].
      * exists ((x - lb) / (ub - lb)). split.
        { split. apply Rmult_le_pos; [lra|]. left. apply Rinv_0_lt_compat; lra. apply (Rmult_lt_reg_r (ub - lb)); [lra|]. replace ((x - lb) / (ub - lb) * (ub - lb)) with (x - lb) by (field; lra). lra. }
        f_equal. replace ((ub - lb) * ((x - lb) / (ub - lb)) + lb) with x by (field; lra). specialize (M x x A). unfold Rminus in M at 2. rewrite Rplus_opp_r, Rabs_R0 in M. pose proof (Rabs_pos (nearest a r x - x)).
        destruct (Req_dec (nearest a r x - x) 0) as [Z|Z]. lra. apply Rabs_pos_lt in Z. lra.
      * assert (x = ub) by lra. subst x. destruct (gap (a :: r) ub) as (e&E&G). set (d := Rmin e (ub - lb) / 3).
        assert (0 < d) by (unfold d; pose proof (Rmin_glb_lt e (ub - lb) 0 E ltac:(lra)); lra). assert (d <= e / 3) by (unfold d; pose proof (Rmin_l e (ub - lb)); lra). assert (d <= (ub - lb) / 3) by (unfold d; pose proof (Rmin_r e (ub - lb)); lra).
        exists (1 - d / (ub - lb)). assert (D1 : 0 < d / (ub - lb)) by (apply Rmult_lt_0_compat; auto; apply Rinv_0_lt_compat; lra). assert (D2 : d / (ub - lb) <= 1). { apply (Rmult_le_reg_r (ub - lb)); [lra|]. replace (d / (ub - lb) * (ub - lb)) with d by (field; lra). lra. }
        split; [lra|]. f_equal. replace ((ub - lb) * (1 - d / (ub - lb)) + lb) with (ub - d) by (field; lra).
        pose proof (M (ub - d) ub A) as M'. replace (ub - (ub - d)) with d in M' by ring. rewrite (Rabs_right d) in M' by lra.
        pose proof (I (ub - d)) as I'. pose proof (W3 _ I') as W'. destruct (Rlt_dec (nearest a r (ub - d)) ub) as [Y|Y]; [|lra].
        specialize (G _ I' Y). rewrite Rabs_left1 in M' by lra. lra.
Qed.

(** random feasible points *)
Lemma rejected_false cs x : rejected cs x = false <-> forall c, In c cs -> snd c x <= - (15 / 100).
Proof.
  unfold rejected. split.
  - intros E c I. destruct (Rle_dec (snd c x) (- (15/100))); auto. exfalso. assert (existsb (fun c => Rltb (- (15 / 100)) (snd c x)) cs = true). apply existsb_exists. exists c; split; auto. apply Rltb_true. lra. congruence.
  - intros Q. destruct (existsb (fun c => Rltb (- (15 / 100)) (snd c x)) cs) eqn:E; auto. apply existsb_exists in E. destruct E as (c&I&E). apply Rltb_true in E. specialize (Q c I). lra.
Qed.
Lemma rejected_true cs x : rejected cs x = true <-> exists c, In c cs /\ - (15 / 100) < snd c x.
Proof. unfold rejected. rewrite existsb_exists. split; intros (c&I&E); exists c; split; auto; now apply Rltb_true. Qed.
Lemma feasible_first_lemma : forall cont vs cs fuel us x, feasible_point cont vs cs us fuel = Some x <->
  exists k, (k < fuel)%nat /\ point cont vs (us k) = Some x /\ (forall c, In c cs -> snd c x <= - (15 / 100)) /\
    forall j, (j < k)%nat -> exists y c, point cont vs (us j) = Some y /\ In c cs /\ - (15 / 100) < snd c y.
Proof.
  intros cont vs cs. induction fuel as [|n IH]; intros us x; simpl. split; [discriminate|intros (k&K&_); lia].
  destruct (point cont vs (us O)) as [y|] eqn:E; simpl.
  2:{ split; [discriminate|]. intros (k&K&P&_&F). destruct k as [|k]; [congruence|]. destruct (F O ltac:(lia)) as (y&c&Q&_). congruence. }
  destruct (rejected cs y) eqn:J.
  - rewrite IH. apply rejected_true in J. destruct J as (c0&I0&J0). split.
    + intros (k&K&P&C&F). exists (S k). split; [lia|]. split; auto. split; auto. intros [|j] Hj. eauto. apply F; lia.
    + intros ([|k]&K&P&C&F). rewrite E in P. injection P as ->. specialize (C c0 I0). lra.
      exists k. split; [lia|]. split; auto. split; auto. intros j Hj. apply (F (S j)); lia.
  - pose proof (proj1 (rejected_false cs y) J) as J2; clear J; rename J2 into J. split.
    + intros Q; injection Q as <-. exists O. split; [lia|]. split; auto. split; auto. intros j Hj; lia.
    + intros ([|k]&K&P&C&F). congruence. destruct (F O ltac:(lia)) as (z&c&Q&I1&J1). rewrite E in Q; injection Q as <-. specialize (J c I1). lra.
Qed.
Lemma point_cont_lemma : forall vs us x, (forall i, rnd (us i)) -> Forall (fun v => r_lb v <= r_ub v) vs -> point true vs us = Some x -> Forall2 (fun v y => r_lb v <= y <= r_ub v) vs x.
Proof.
  induction vs as [|v vs IH]; intros us x U W; inversion W; subst; simpl. intros E; injection E as <-; auto.
  destruct (point true vs (fun i => us (S i))) as [t|] eqn:E; simpl; try discriminate. intros Q; injection Q as <-. constructor.
  destruct (U O). nra. exact (IH (fun i => us (S i)) t (fun i => U (S i)) H2 E).
Qed.
Lemma point_int_lemma : forall vs us x, (forall i, rnd (us i)) -> Forall (fun v => exists a b, r_lb v = IZR a /\ r_ub v = IZR b) vs -> point false vs us = Some x ->
  Forall2 (fun v y => r_lb v <= y < r_ub v /\ exists z, y = IZR z) vs x.
Proof.
  induction vs as [|v vs IH]; intros us x U W; inversion W; subst; simpl. intros E; injection E as <-; auto.
  destruct (Rltb (r_lb v) (r_ub v)) eqn:B; simpl; try discriminate.
  destruct (point false vs (fun i => us (S i))) as [t|] eqn:E; simpl; try discriminate. intros Q; injection Q as <-. constructor; [|exact (IH (fun i => us (S i)) t (fun i => U (S i)) H2 E)].
  apply Rltb_true in B. destruct H1 as (a&b&Ea&Eb). rewrite Ea, Eb in *. apply lt_IZR in B. rewrite <- minus_IZR. pose proof (floor_range (us O) (b - a) (U O) ltac:(lia)).
  rewrite <- plus_IZR. split; eauto. split. apply IZR_le; lia. apply IZR_lt; lia.
Qed.
Lemma feasible_less_lemma : forall cont vs cs us fuel x tol, feasible_point cont vs cs us fuel = Some x -> 0 <= tol -> forall c, In c cs -> fst c = RLe -> con_ok tol c x = true.
Proof.
  intros cont vs cs us fuel x tol E T c I Y. apply feasible_first_lemma in E. destruct E as (k&_&_&C&_). specialize (C c I). unfold con_ok. rewrite Y. apply negb_true_iff. apply Rltb_false. lra.
Qed.
Lemma feasible_other_lemma : forall cont vs cs us fuel x tol, feasible_point cont vs cs us fuel = Some x -> tol < 15 / 100 -> forall c, In c cs -> fst c <> RLe -> con_ok tol c x = false.
Proof.
  intros cont vs cs us fuel x tol E T c I Y. apply feasible_first_lemma in E. destruct E as (k&_&_&C&_). specialize (C c I). unfold con_ok. destruct (fst c); try congruence; apply negb_false_iff, Rltb_true.
  lra. rewrite Rabs_left1; lra.
Qed.

(** stopping *)
Lemma sumsq_pos x : 0 <= Rsum (map (fun a => a ^ 2) x).
Proof. induction x as [|a x IH]; simpl. lra. pose proof (pow2_ge_0 a). simpl in *. lra. Qed.
Lemma norm2_pos x : 0 <= norm2 x.
Proof. apply sqrt_pos. Qed.
Lemma norm2_zero x : norm2 x = 0 <-> Forall (fun a => a = 0) x.
Proof.
  unfold norm2. split.
  - intros E. apply sqrt_eq_0 in E; [|apply sumsq_pos]. induction x as [|a x IH]; [constructor|]. assert (E2 : a ^ 2 + Rsum (map (fun a => a ^ 2) x) = 0) by exact E. pose proof (sumsq_pos x) as Q. pose proof (pow2_ge_0 a) as Q2. clear E. constructor; [apply Rsqr_0_uniq; rewrite Rsqr_pow2; lra|apply IH; lra].
  - intros F. replace (Rsum (map (fun a => a ^ 2) x)) with 0. apply sqrt_0. induction F as [|a x Z F IH]; auto. change (0 = a ^ 2 + Rsum (map (fun a => a ^ 2) x)). rewrite <- IH, Z. ring.
Qed.
Lemma norm2_scale c x : norm2 (map (Rmult c) x) = Rabs c * norm2 x.
Proof.
  unfold norm2. replace (Rsum (map (fun a => a ^ 2) (map (Rmult c) x))) with (c ^ 2 * Rsum (map (fun a => a ^ 2) x)).
  rewrite sqrt_mult; [|apply pow2_ge_0|apply sumsq_pos]. f_equal. rewrite <- (Rsqr_pow2 c). apply sqrt_Rsqr_abs.
  induction x as [|a x IH]. simpl; ring. change (c ^ 2 * (a ^ 2 + Rsum (map (fun a => a ^ 2) x)) = (c * a) ^ 2 + Rsum (map (fun a => a ^ 2) (map (Rmult c) x))). rewrite <- IH. ring.
Qed.
Lemma norm2_entry x i : (i < length x)%nat -> Rabs (nth i x 0) <= norm2 x.
Proof.
  intros Hi. unfold norm2. rewrite <- sqrt_Rsqr_abs. apply sqrt_le_1_alt. rewrite Rsqr_pow2. revert i Hi.
  induction x as [|a x IH]; intros [|i] Hi; simpl in Hi; try lia.
  - change (a ^ 2 <= a ^ 2 + Rsum (map (fun a => a ^ 2) x)). pose proof (sumsq_pos x). lra.
  - change (nth i x 0 ^ 2 <= a ^ 2 + Rsum (map (fun a => a ^ 2) x)). specialize (IH i ltac:(lia)). pose proof (pow2_ge_0 a). lra.
Qed.
Lemma vsub_self x : Forall (fun a => a = 0) (vsub x x).
Proof. induction x; simpl; constructor; auto. ring. Qed.
Lemma vsub_scale c : forall a b, vsub (map (Rmult c) a) (map (Rmult c) b) = map (Rmult c) (vsub a b).
Proof. induction a as [|u a IH]; intros [|v b]; simpl; auto. rewrite IH. f_equal. ring. Qed.
Lemma vsub_nth : forall a b i, length a = length b -> (i < length a)%nat -> nth i (vsub a b) 0 = nth i a 0 - nth i b 0.
Proof. induction a as [|u a IH]; intros [|v b] [|i] L Hi; simpl in *; try lia; auto. apply IH; lia. Qed.
Lemma vsub_length : forall a b, length a = length b -> length (vsub a b) = length a.
Proof. induction a as [|u a IH]; intros [|v b] L; simpl in *; try discriminate; auto. Qed.
Lemma stop_same_lemma : forall xtol x, 0 < xtol -> stop_x xtol x x = true <-> Exists (fun a => a <> 0) x.
Proof.
  intros xtol x T. unfold stop_x. assert (E : norm2 (vsub x x) = 0) by (apply norm2_zero, vsub_self). rewrite E, Rltb_true. pose proof (norm2_pos x). split.
  - intros H1. destruct (Forall_Exists_dec (fun a => a = 0) (fun a => Req_EM_T a 0) x) as [F|F]; auto. apply norm2_zero in F. rewrite F in H1. lra.
  - intros X. assert (norm2 x <> 0). intros Z. apply norm2_zero in Z. apply Exists_exists in X. destruct X as (a&I&N). rewrite Forall_forall in Z. auto. apply Rmult_lt_0_compat; lra.
Qed.
Lemma stop_scale_lemma : forall xtol x0 x1 c, c <> 0 -> stop_x xtol (map (Rmult c) x0) (map (Rmult c) x1) = stop_x xtol x0 x1.
Proof.
  intros xtol x0 x1 c C. unfold stop_x. rewrite vsub_scale, !norm2_scale. apply Rabs_pos_lt in C. apply eq_true_iff_eq. rewrite !Rltb_true. split; intros H; nra.
Qed.
Lemma stop_entry_lemma : forall xtol x0 x1 i, length x1 = length x0 -> (i < length x0)%nat -> stop_x xtol x0 x1 = true -> Rabs (nth i x1 0 - nth i x0 0) < xtol * sqrt (Rsum (map (fun a => a ^ 2) x0)).
Proof.
  intros xtol x0 x1 i L Hi S. apply Rltb_true in S. eapply Rle_lt_trans; [|exact S]. rewrite <- vsub_nth by lia. apply norm2_entry. rewrite vsub_length; lia.
Qed.
Lemma stop_f_lemma : forall atol rtol f0 f1, stop_f atol rtol f0 f1 = true <-> f0 - (atol + rtol * Rabs f0) <= f1 <= f0 + (atol + rtol * Rabs f0).
Proof. intros. unfold stop_f. rewrite Rleb_true. unfold Rabs at 1. destruct (Rcase_abs (f1 - f0)); split; intros; try lra. Qed.
