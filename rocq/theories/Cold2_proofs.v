(** Distortional buckling, edge stiffeners, axial resistance. *)
Require Import Psatz.
From Verif Require Import Tac Bool_tac EC3_proofs Sections_proofs Loads2_proofs Plate_proofs Cold_proofs.
From Verif Require Import Cold_model Cold_spec.
Open Scope R_scope.

Lemma chi_dist_lemma l : 
  (l <= 65/100 -> chi_dist l = Some 1) /\ (65/100 < l <= 138/100 -> chi_dist l = Some (147/100 - 723/1000 * l)) /\
  (138/100 < l -> exists c, chi_dist l = Some c /\ c * l = 66/100) /\
  (exists c, chi_dist l = Some c /\ 0 < c < 100006/100000 /\ (470/723 <= l -> c <= 1)).
Proof.
  unfold chi_dist. repeat split.
  - intros H. rewrite leb_t by exact H. reflexivity.
  - intros H. rewrite leb_f, leb_t by lra. reflexivity.
  - intros H. rewrite !leb_f by lra. rewrite pdiv_ok by lra. eexists. split; [reflexivity|]. field. lra.
  - cmp.
    + exists 1. repeat split; lra.
    + eexists. split; [reflexivity|]. repeat split; lra.
    + rewrite pdiv_ok by lra. eexists. split; [reflexivity|]. assert (X : 66/100 / l * l = 66/100) by (field; lra). set (c := 66/100 / l) in *. repeat split; intros; nra.
Qed.
Lemma chi_dist_anti_lemma l l' c c' : l <= l' -> chi_dist l = Some c -> chi_dist l' = Some c' ->
  (l' <= 65/100 \/ (470/723 <= l /\ l' <= 138/100) \/ (l <= 65/100 /\ 470/723 <= l') \/ 138/100 < l \/ 1398/1000 <= l') -> c' <= c.
Proof.
  intros L. unfold chi_dist. cmp; intros X1 X2; try (apply some_inj in X1; subst c); try (apply some_inj in X2; subst c'); try lra;
    repeat match goal with H : pdiv _ _ = Some ?c |- _ => apply pdiv_inv in H; destruct H as (? & ->) end; intros K; try lra.
  - apply (Rmult_le_reg_r l'); [lra|]. replace (66/100 / l' * l') with (66/100) by (field; lra). lra.
  - apply (Rmult_le_reg_r l'); [lra|]. replace (66/100 / l' * l') with (66/100) by (field; lra). destruct K as [K|[K|[K|[K|K]]]]; try lra; nra.
  - unfold Rdiv. apply Rmult_le_compat_l; [lra|]. apply Rinv_le_contravar; lra.
Qed.
Lemma chi_dist_refuted_lemma : (exists l c, 65/100 < l /\ chi_dist l = Some c /\ 1 < c) /\
  (exists l l' c c', 65/100 < l /\ l < l' /\ chi_dist l = Some c /\ chi_dist l' = Some c' /\ c + 5/1000 < c').
Proof.
  split.
  - exists (65001/100000), (147/100 - 723/1000 * (65001/100000)). split; [lra|]. split; [|lra]. apply chi_dist_lemma. lra.
  - destruct (proj1 (proj2 (proj2 (chi_dist_lemma (1381/1000)))) ltac:(lra)) as (c & E & V).
    exists (138/100), (1381/1000), (147/100 - 723/1000 * (138/100)), c. split; [lra|]. split; [lra|]. split; [apply chi_dist_lemma; lra|]. split; [exact E|]. lra.
Qed.
Lemma cbrt_spec x c : pcbrt x = Some c -> 0 <= x /\ 0 <= c /\ c ^ 3 = x.
Proof.
  unfold pcbrt. cmp; intros H; try discriminate; apply some_inj in H; subst c.
  - subst x. repeat split; lra.
  - assert (X : 0 < x) by lra. repeat split; [lra|left; apply exp_pos|].
    rewrite <- Rpower_pow by apply exp_pos. rewrite Rpower_mult. replace (1 / 3 * INR 3) with 1 by (cbn; field). apply Rpower_1. exact X.
Qed.
Lemma cbrt_ok x : 0 <= x -> exists c, pcbrt x = Some c.
Proof. intros H. unfold pcbrt. cmp; eauto. lra. Qed.
Lemma cube_le a b : 0 <= a -> 0 <= b -> a ^ 3 <= b ^ 3 -> a <= b.
Proof.
  intros A B H. destruct (Rle_lt_dec a b) as [L|L]; [exact L|]. exfalso.
  assert (X : 0 < a * a * (a - b)) by (repeat apply Rmult_lt_0_compat; lra). assert (0 <= (a - b) * (b * b + a * b)) by (apply Rmult_le_pos; nra). nra.
Qed.
Lemma ksigma_lemma b : 
  (b <= 35/100 -> ksigma_edge b = Some (1/2)) /\
  (35/100 <= b <= 6/10 -> exists k, ksigma_edge b = Some k /\ 1/2 <= k < 83/100 /\ ((k - 1/2) / (83/100)) ^ 3 = (b - 35/100) ^ 2) /\
  (6/10 < b -> ksigma_edge b = None).
Proof.
  unfold ksigma_edge. repeat split.
  - intros H. rewrite leb_t by exact H. f_equal. lra.
  - intros H. destruct (Req_dec b (35/100)) as [->|NE].
    + rewrite leb_t by lra. exists (5/10). repeat split; lra.
    + rewrite leb_f, leb_t by lra. destruct (cbrt_ok ((b - 35/100) ^ 2) (pow2_ge_0 _)) as (c & E). rewrite E. cbn [bind]. eexists. split; [reflexivity|].
      destruct (cbrt_spec _ _ E) as (X0 & C0 & C3). split; [|rewrite <- C3; field].
      assert (C1 : c <= 397/1000). { apply cube_le; [exact C0|lra|]. rewrite C3. assert ((b - 35/100) ^ 2 <= (25/100) ^ 2) by (apply pow_incr; lra). lra. }
      lra.
  - intros H. rewrite !leb_f by lra. reflexivity.
Qed.
Lemma ksigma_mono_lemma b b' k k' : b <= b' -> ksigma_edge b = Some k -> ksigma_edge b' = Some k' -> k <= k'.
Proof.
  intros L. unfold ksigma_edge. cmp; intros X1 X2; try discriminate; try lra.
  - apply some_inj in X1. apply some_inj in X2. lra.
  - apply bind_inv in X2. destruct X2 as (c & C & X2). apply some_inj in X1. apply some_inj in X2. destruct (cbrt_spec _ _ C) as (_ & C0 & _). lra.
  - apply bind_inv in X1. destruct X1 as (c & C & X1). apply bind_inv in X2. destruct X2 as (c' & C' & X2). apply some_inj in X1. apply some_inj in X2.
    destruct (cbrt_spec _ _ C) as (_ & C0 & C3). destruct (cbrt_spec _ _ C') as (_ & C0' & C3').
    assert (c <= c'); [|lra]. apply cube_le; auto. rewrite C3, C3'. apply pow_incr. lra.
Qed.
Lemma sigma_dist_lemma Is As E K : 0 < Is -> 0 < As -> 0 < E -> 0 < K ->
  exists s, sigma_dist Is As E K = Some s /\ 0 < s /\ (s * As) ^ 2 = 4 * K * E * Is.
Proof.
  intros I0 A0 E0 K0. unfold sigma_dist. assert (X : 0 < K * E * Is) by (repeat apply Rmult_lt_0_compat; lra). rewrite psqrt_ok by lra. cbn [bind]. rewrite pdiv_ok by lra.
  eexists. split; [reflexivity|]. pose proof (sqrt_lt_R0 _ X) as Q. pose proof (sqrt_sqrt _ (Rlt_le _ _ X)) as Q2. split.
  - apply Rdiv_lt_0_compat; lra.
  - replace (2 * sqrt (K * E * Is) / As * As) with (2 * sqrt (K * E * Is)) by (field; lra). nra.
Qed.
Lemma axial_lemma Ned A fa fb Ae lr : 0 < A -> 0 < fb <= fa -> 0 <= Ae -> 
  (0 <= Ned -> axial_force_resistance Ned A (all_kw fa fb Ae lr) = fa * A) /\
  (Ned < 0 -> Ae < A -> axial_force_resistance Ned A (all_kw fa fb Ae lr) = fb * Ae) /\
  (Ned < 0 -> A <= Ae -> lr <= 1 -> fb * A <= axial_force_resistance Ned A (all_kw fa fb Ae lr) <= fa * A) /\
  (Ned < 0 -> A <= Ae -> lr <= 3/4 -> axial_force_resistance Ned A (all_kw fa fb Ae lr) = fa * A) /\
  (Ned < 0 -> A <= Ae -> 3/4 <= lr -> axial_force_resistance Ned A (all_kw fa fb Ae lr) = (fb + 4 * (fa - fb) * (1 - lr)) * A).
Proof.
  intros A0 F AE. unfold axial_force_resistance, all_kw, gammaM0. cbn [k_fya k_fyb k_Aeff k_lam bind]. repeat split.
  - intros H. rewrite leb_t by exact H. field.
  - intros H L. rewrite leb_f, ltb_t by lra. field.
  - rewrite leb_f, ltb_f by lra. unfold Rdiv. rewrite Rinv_1, Rmult_1_r. apply Rmin_glb; [|nra].
    assert (0 <= 4 * (fa - fb) * (1 - lr)) by (apply Rmult_le_pos; lra). nra.
  - rewrite leb_f, ltb_f by lra. unfold Rdiv. rewrite Rinv_1, Rmult_1_r. apply Rmin_r.
  - intros H L R0. rewrite leb_f, ltb_f by lra. rewrite Rmin_right; [field|]. assert (fa - fb <= 4 * (fa - fb) * (1 - lr)) by nra. nra.
  - intros H L R0. rewrite leb_f, ltb_f by lra. rewrite Rmin_left; [field|]. assert (4 * (fa - fb) * (1 - lr) <= fa - fb) by nra. nra.
Qed.
Lemma axial_missing_lemma Ned A k :
  (0 <= Ned -> k_fya k = None -> axial_force_resistance Ned A k = 0) /\ (Ned < 0 -> k_Aeff k = None -> axial_force_resistance Ned A k = 0) /\
  (Ned < 0 -> k_fyb k = None -> axial_force_resistance Ned A k = 0).
Proof.
  unfold axial_force_resistance. repeat split.
  - intros H E. rewrite leb_t by exact H. rewrite E. reflexivity.
  - intros H E. rewrite leb_f by exact H. rewrite E. reflexivity.
  - intros H E. rewrite leb_f by exact H. destruct (k_Aeff k) as [a|]; cbn [bind]; [|reflexivity]. rewrite E. destruct (Rltb a A); cbn [bind]; [reflexivity|]. destruct (k_lam k); reflexivity.
Qed.
Lemma axial_slender_refuted_lemma fa fb A : 0 < A -> 0 < fb < fa -> exists lr, 1 < lr /\ axial_force_resistance (-1) A (all_kw fa fb A lr) < 0.
Proof.
  intros A0 F. exists (2 + fb / (fa - fb)). assert (X : 0 < fb / (fa - fb)) by (apply Rdiv_lt_0_compat; lra). split; [lra|].
  destruct (axial_lemma (-1) A fa fb A (2 + fb / (fa - fb)) A0 ltac:(lra) ltac:(lra)) as (_ & _ & _ & _ & E). rewrite E by lra.
  replace ((fb + 4 * (fa - fb) * (1 - (2 + fb / (fa - fb)))) * A) with (- ((4 * fa - fb) * A)) by (field; lra). nra.
Qed.
