(** Rotational and shear restraint by sheeting, trapezoidal sheets. *)
Require Import Psatz.
From Verif Require Import Tac Bool_tac EC3_proofs Sections_proofs Loads2_proofs Plate_proofs Cold_proofs Cold2_proofs.
From Verif Require Import Cold_model Cold_spec.
Open Scope R_scope.

Lemma Rpower_mono_base x y p : 0 < x <= y -> 0 <= p -> Rpower x p <= Rpower y p.
Proof. intros H P. apply Rle_Rpower_l; lra. Qed.
Lemma kt_pos tnom pos kt : 0 < tnom -> cd_kt tnom pos = Some kt -> 0 < kt.
Proof. intros T. unfold cd_kt. rewrite (ltb_f tnom 0), (eqb_f tnom 0) by lra. intros E. apply some_inj in E. subst kt. apply exp_pos. Qed.
Lemma kt_ok tnom pos : 0 < tnom -> exists kt, cd_kt tnom pos = Some kt.
Proof. intros T. unfold cd_kt. rewrite (ltb_f tnom 0), (eqb_f tnom 0) by lra. eauto. Qed.
Lemma kt_75 pos : cd_kt (75/100) pos = Some 1.
Proof. unfold cd_kt. rewrite !ltb_f, eqb_f by lra. f_equal. replace (75/100 / (75/100)) with 1 by field. unfold Rpower. rewrite ln_1, Rmult_0_r. apply exp_0. Qed.
Lemma kt_mono tnom tnom' pos kt kt' : 0 < tnom <= tnom' -> cd_kt tnom pos = Some kt -> cd_kt tnom' pos = Some kt' -> kt <= kt'.
Proof.
  intros T. unfold cd_kt. rewrite (ltb_f tnom 0), (eqb_f tnom 0), (ltb_f tnom' 0), (eqb_f tnom' 0) by lra. intros E E'. apply some_inj in E. apply some_inj in E'. subst kt kt'.
  assert (Q : 0 < tnom / (75/100) <= tnom' / (75/100)) by lra.
  destruct (Rltb (75/100) tnom) eqn:C; [apply Rltb_true in C | apply Rltb_false in C]; (destruct (Rltb (75/100) tnom') eqn:C'; [apply Rltb_true in C' | apply Rltb_false in C']); try lra.
  - apply Rpower_mono_base; [exact Q|]. destruct pos; lra.
  - apply Rle_trans with 1.
    + replace 1 with (Rpower 1 (15/10)) by (unfold Rpower; rewrite ln_1, Rmult_0_r; apply exp_0). apply Rpower_mono_base; lra.
    + replace 1 with (Rpower 1 (if pos then 11/10 else 15/10)) by (unfold Rpower; rewrite ln_1, Rmult_0_r; apply exp_0). apply Rpower_mono_base; [lra|destruct pos; lra].
  - apply Rpower_mono_base; lra.
Qed.
Lemma kba_mono ba ba' : 0 <= ba <= ba' -> 0 <= cd_kba ba <= cd_kba ba'.
Proof. intros H. unfold cd_kba. cmp; split; nra. Qed.
Lemma kbR_anti bR bR' : bR <= bR' -> 0 < cd_kbR bR' <= cd_kbR bR.
Proof.
  intros H. unfold cd_kbR. cmp.
  - lra.
  - lra.
  - assert (185 / bR' * bR' = 185) by (field; lra). split; [apply Rdiv_lt_0_compat; lra|]. apply (Rmult_le_reg_r bR'); lra.
  - split; [apply Rdiv_lt_0_compat; lra|]. unfold Rdiv. apply Rmult_le_compat_l; [lra|]. apply Rinv_le_contravar; lra.
Qed.
(** The results in the supported cases. *)
Lemma CD_A_lemma ba tnom A bT bR : 0 < tnom ->
  (tnom = 75/100 -> CD_A ba tnom true A bT bR true = Some (52/10 * cd_kba ba * cd_kbR bR * (1 + 8/100 * (A - 1)) * (if Rltb 40 bT then sqrt (40 / bT) else 1))) /\
  (1 <= tnom -> CD_A ba tnom true A bT bR true = Some (52/10 * cd_kba ba * Rpower (tnom / (75/100)) (11/10) * cd_kbR bR * (1 + 95/1000 * (A - 1)) * (if Rltb 40 bT then sqrt (40 / bT) else 1))) /\
  (forall pos, CD_A ba tnom pos A bT bR false = Some (26/10 * cd_kba ba * Rpower (tnom / (75/100)) (if andb (Rltb (75/100) tnom) pos then 11/10 else 15/10) * cd_kbR bR * (if Rltb 40 bT then sqrt (40 / bT) else 1))).
Proof.
  intros T. unfold CD_A. repeat split.
  - intros ->. rewrite kt_75. cbn [bind cd_C100]. unfold cd_kA. rewrite eqb_t by reflexivity. cbn [bind]. f_equal. ring.
  - intros H. unfold cd_kt, cd_kA. rewrite (ltb_t _ tnom), (ltb_f tnom 0), (eqb_f tnom 0), (eqb_f tnom (75/100)), (leb_t 1 tnom) by lra. cbn [bind cd_C100]. f_equal. ring.
  - intros pos. unfold cd_kt, cd_kA. rewrite (ltb_f tnom 0), (eqb_f tnom 0) by lra. cbn [bind cd_C100]. f_equal. destruct (Rltb (75/100) tnom), pos; cbn [andb]; ring.
Qed.
Lemma CD_A_fails_lemma ba tnom A bT bR pos : (pos = false \/ (tnom < 1 /\ tnom <> 75/100)) -> CD_A ba tnom pos A bT bR true = None.
Proof.
  intros H. unfold CD_A. destruct (cd_kt tnom pos) as [kt|]; cbn [bind]; [|reflexivity]. destruct pos; cbn [cd_C100]; [|reflexivity]. cbn [bind].
  destruct H as [H|(H1 & H2)]; [discriminate|]. unfold cd_kA. rewrite eqb_f, leb_f by auto. reflexivity.
Qed.
Lemma bT_anti m bT bT' : 0 < m -> bT <= bT' -> 0 < (if Rltb m bT' then sqrt (m / bT') else 1) <= (if Rltb m bT then sqrt (m / bT) else 1).
Proof.
  intros M H. cmp; try lra.
  - split; [apply sqrt_lt_R0; apply Rdiv_lt_0_compat; lra|]. apply sqrt_le_1_alt. unfold Rdiv. apply Rmult_le_compat_l; [lra|]. apply Rinv_le_contravar; lra.
  - split; [apply sqrt_lt_R0; apply Rdiv_lt_0_compat; lra|]. rewrite <- sqrt_1. apply sqrt_le_1_alt. assert (m / bT' * bT' = m) by (field; lra). apply (Rmult_le_reg_r bT'); lra.
Qed.
Lemma CD_A_mono_lemma ba ba' tnom tnom' pos A A' bT bT' bR bR' g v v' : 0 < ba <= ba' -> 0 < tnom <= tnom' -> 1 <= A <= A' -> bT' <= bT -> bR' <= bR ->
  (g = false \/ tnom = tnom' \/ 1 <= tnom \/ A = 1) ->
  CD_A ba tnom pos A bT bR g = Some v -> CD_A ba' tnom' pos A' bT' bR' g = Some v' -> 0 < v <= v'.
Proof.
  intros B T HA HT HR G E E'. unfold CD_A in E, E'. apply bind_inv in E. destruct E as (kt & Kt & E). apply bind_inv in E'. destruct E' as (kt' & Kt' & E').
  pose proof (kt_mono _ _ _ _ _ T Kt Kt') as M1. pose proof (kt_pos tnom pos kt ltac:(lra) Kt) as M0.
  destruct (cd_C100 g pos) as [[C|] m] eqn:CE; [|discriminate]. cbn [bind] in E, E'. 
  apply bind_inv in E. destruct E as (kA & KA & E). apply bind_inv in E'. destruct E' as (kA' & KA' & E'). apply some_inj in E. apply some_inj in E'. subst v v'.
  assert (CC : 0 < C /\ 0 < m). { unfold cd_C100 in CE. destruct g, pos; inversion CE; subst; lra. }
  assert (KK : 0 < kA <= kA').
  { unfold cd_kA in KA, KA'. destruct g; [|apply some_inj in KA; apply some_inj in KA'; lra].
    destruct G as [G|G]; [discriminate|]. revert KA KA'. cmp; intros KA KA'; try discriminate; apply some_inj in KA; apply some_inj in KA'; subst kA kA'; destruct pos; destruct G as [G|[G|G]]; try lra; try (subst; lra); try nra. }
  pose proof (bT_anti m bT' bT (proj2 CC) HT) as BT. pose proof (kbR_anti bR' bR HR) as BR.
  assert (BA : 0 < cd_kba ba <= cd_kba ba'). { split; [|apply kba_mono; lra]. unfold cd_kba. cmp; nra. }
  set (b1 := if Rltb m bT then _ else 1) in *. set (b2 := if Rltb m bT' then _ else 1) in *. set (r1 := cd_kbR bR) in *. set (r2 := cd_kbR bR') in *. set (a1 := cd_kba ba) in *. set (a2 := cd_kba ba') in *. clearbody b1 b2 r1 r2 a1 a2.
  destruct CC as (CC & _). split; [repeat apply Rmult_lt_0_compat; lra|].
  assert (X1 : 0 < C * a1 <= C * a2) by (split; [apply Rmult_lt_0_compat; lra|apply Rmult_le_compat_l; lra]).
  assert (X2 : 0 < C * a1 * kt <= C * a2 * kt') by (split; [apply Rmult_lt_0_compat; lra|apply Rmult_le_compat; lra]).
  assert (X3 : 0 < C * a1 * kt * r1 <= C * a2 * kt' * r2) by (split; [apply Rmult_lt_0_compat; lra|apply Rmult_le_compat; lra]).
  assert (X4 : 0 < C * a1 * kt * r1 * kA <= C * a2 * kt' * r2 * kA') by (split; [apply Rmult_lt_0_compat; lra|apply Rmult_le_compat; lra]).
  apply Rmult_le_compat; lra.
Qed.
Lemma kba_lemma ba : 0 <= ba -> (ba <= 125 -> cd_kba ba = (ba / 100) ^ 2) /\ (125 <= ba -> cd_kba ba = ba / 80).
Proof. intros H. unfold cd_kba. split; intros L; cmp; try lra. replace ba with 125 by lra. field. Qed.
(** Shear stiffness of sheeting. *)
Lemma sheeting_lemma t s hw broof : 0 <= t -> 0 <= s -> 0 < hw -> 0 <= broof ->
  exists v q c, sheeting_stiffness t s hw broof = Some v /\ 0 <= q /\ q ^ 2 = t ^ 3 /\ 0 <= c /\ c ^ 3 = broof /\ v = 1000 * q * (50 + 10 * c) * s / hw.
Proof.
  intros T S0 H B. unfold sheeting_stiffness. assert (T3 : 0 <= t ^ 3) by (apply pow_le; exact T). rewrite psqrt_ok by exact T3. cbn [bind]. destruct (cbrt_ok broof B) as (c & C). rewrite C. cbn [bind]. rewrite pdiv_ok by lra.
  destruct (cbrt_spec _ _ C) as (_ & C0 & C3). exists (1000 * sqrt (t ^ 3) * (50 + 10 * c) * s / hw), (sqrt (t ^ 3)), c. split; [reflexivity|]. split; [apply sqrt_pos|]. split; [apply pow2_sqrt; exact T3|]. auto.
Qed.
Lemma sheeting_mono_lemma t t' s s' hw hw' b b' v v' : 0 <= t <= t' -> 0 <= s <= s' -> 0 < hw' <= hw -> 0 <= b <= b' ->
  sheeting_stiffness t s hw b = Some v -> sheeting_stiffness t' s' hw' b' = Some v' -> v <= v'.
Proof.
  intros T S0 H B E E'. destruct (sheeting_lemma t s hw b) as (w & q & c & W & Q0 & Q & C0 & C & V); try lra. destruct (sheeting_lemma t' s' hw' b') as (w' & q' & c' & W' & Q0' & Q' & C0' & C' & V'); try lra.
  rewrite E in W. rewrite E' in W'. apply some_inj in W. apply some_inj in W'. subst w w' v v'.
  assert (QQ : q <= q'). { apply Rsqr_incr_0_var; [|exact Q0']. unfold Rsqr. replace (q * q) with (t ^ 3) by (rewrite <- Q; ring). replace (q' * q') with (t' ^ 3) by (rewrite <- Q'; ring). apply pow_incr; lra. }
  assert (CC : c <= c') by (apply cube_le; auto; lra).
  assert (I0 : 0 < / hw <= / hw') by (split; [apply Rinv_0_lt_compat; lra|apply Rinv_le_contravar; lra]).
  unfold Rdiv. apply Rmult_le_compat; try lra; [repeat apply Rmult_le_pos; lra|]. apply Rmult_le_compat; try lra; [repeat apply Rmult_le_pos; lra|]. apply Rmult_le_compat; lra.
Qed.
(** Trapezoidal sheets. *)
Lemma sin_lt_1 v : 0 < v < PI / 2 -> 0 < sin v < 1 /\ 0 < cos v < 1.
Proof.
  intros V. pose proof PI_RGT_0. assert (0 < sin v) by (apply sin_gt_0; lra). assert (0 < cos v) by (apply cos_gt_0; lra). pose proof (sin2_cos2 v) as E. unfold Rsqr in E. split; split; nra.
Qed.
Lemma sheet_refuted_lemma s : 0 < s_angle s < 90 -> 4/100 < s_tnom s < s_h s -> 0 < s_n s ->
  sheet_sw s < sheet_hw s /\ sheet_hw s < web_length (sheet_hw s) (radians (s_angle s)) /\
  sheet_pitch s < s_bb s + s_bt s + 2 * web_run (s_h s) (radians (s_angle s)) /\
  sheet_A s < s_n s * sheet_t s * (s_bt s + s_bb s + 2 * web_length (sheet_hw s) (radians (s_angle s))).
Proof.
  intros P T N. apply rad_range in P. unfold sheet_sw, sheet_pitch, sheet_A, sheet_t, web_length, web_run. fold (sheet_hw s). set (v := radians (s_angle s)) in *. destruct (sin_lt_1 v P) as (S0 & C0).
  assert (W : 0 < sheet_hw s) by (unfold sheet_hw; lra). set (w := sheet_hw s) in *.
  assert (X : w / sin v * sin v = w) by (field; lra). set (l := w / sin v) in *.
  assert (A1 : w * sin v < w) by nra. assert (A2 : w < l) by (apply (Rmult_lt_reg_r (sin v)); [lra|]; lra).
  split; [exact A1|]. split; [exact A2|]. split.
  - assert (Y : s_h s * cos v / sin v * sin v = s_h s * cos v) by (field; lra). assert (Z : s_h s * cos v < s_h s * cos v / sin v); [|lra]. apply (Rmult_lt_reg_r (sin v)); [lra|]. rewrite Y. assert (0 < s_h s * cos v) by (apply Rmult_lt_0_compat; lra). nra.
  - unfold sheet_sw. fold w v. apply Rmult_lt_compat_l; [apply Rmult_lt_0_compat; lra|]. lra.
Qed.
Lemma sheet_right_lemma s : s_angle s = 90 ->
  sheet_sw s = s_h s - s_tnom s /\ sheet_pitch s = s_bb s + s_bt s /\ sheet_width s = s_n s * (s_bb s + s_bt s) /\ sheet_A s = s_n s * (s_tnom s - 4/100) * (s_bt s + s_bb s + 2 * (s_h s - s_tnom s)).
Proof.
  intros E. unfold sheet_A, sheet_width, sheet_pitch, sheet_sw, sheet_hw, sheet_t. rewrite E. replace (radians 90) with (PI / 2) by (unfold radians; field). rewrite sin_PI2, cos_PI2. repeat split; ring.
Qed.
