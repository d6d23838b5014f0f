From Verif Require Import Base EC3_model Bool_tac EC3_spec EC3_proofs Plate_proofs Sections_proofs Sections2_proofs Secls_proofs Secls2_proofs Secls3_proofs Secls4_proofs.
From Verif Require Import Secls_model Secls_spec.
Require Import Reals List Bool Lra Lia Psatz PeanoNat.
Local Open Scope R_scope.

(** Effective section of a welded I-section that is not slender *)
Lemma sqrt_lb x y : 0 <= x -> x * x <= y -> x <= sqrt y.
Proof. intros A B. apply Rsqr_incr_0; [unfold Rsqr; rewrite sqrt_sqrt; nra|auto|apply sqrt_pos]. Qed.
Lemma eff_flange_zero e c t : 0 < t -> 0 < e -> c / t <= 139/10 * e -> eff_flange e c t = Some 0.
Proof.
  intros Ht He H. unfold eff_flange. rewrite ko_tip_lemma. replace (57/100 - 21/100 * 1 + 7/100 * 1 ^ 2) with (43/100) by field.
  rewrite lambda_p_eq by lra. cbn [bind]. assert (S := sqrt_lb (655/1000) (43/100) ltac:(lra) ltac:(lra)).
  assert (c / t / (284/10) / e / sqrt (43/100) <= 748/1000).
  { apply div_le_iff; [lra|]. apply div_le_iff; [lra|]. apply div_le_iff; [lra|]. nra. }
  rewrite (proj2 (rho_outstand_lemma _)) by auto. f_equal. ring.
Qed.
Lemma eff_axis_sym d f : welded_ok d -> doubly_symmetric d -> e_top f = 0 -> e_bot f = 0 -> e_web f = 0 -> eff_axis d f = w_h d / 2.
Proof.
  intros [V _] [D1 D2] F1 F2 F3. assert (P := wi_area_pos d V). unfold eff_axis. rewrite F1, F2, F3.
  revert P. unfold wi_area, zb, zt, zw, Aw, At, Ab, hw. rewrite D1, D2. intros P. field. lra.
Qed.
Lemma eff_web_sym e d f : welded_ok d -> doubly_symmetric d -> 0 < e -> e_top f = 0 -> e_bot f = 0 -> e_web f = 0 -> welded_web d <= 121 * e ->
  eff_web e d (-1) f = Some (mkEff 0 0 0 (4/10 * (welded_cw d / 2))).
Proof.
  intros V D He F1 F2 F3 H. unfold eff_web, buckling_factor_internal. rewrite eqb_f by lra. rewrite !ltb_f by lra. rewrite eqb_f by lra. rewrite eqb_t by lra. cbn [bind].
  assert (V' := V). destruct V' as [(V1 & V2 & V3 & V4 & V5 & V6) [Va Vc]]. assert (C : cw d = welded_cw d) by (unfold cw, welded_cw, hw; ring). rewrite C.
  rewrite lambda_p_eq by lra. cbn [bind]. fold (welded_web d). unfold reduction_factor_internal, psqrt. rewrite ltb_f by lra. cbn [bind].
  assert (S1 := sqrt_lb (4888/1000) (239/10) ltac:(lra) ltac:(lra)). assert (S2 := sqrt_lb (374/1000) (85/1000 - 55/1000 * -1) ltac:(lra) ltac:(lra)).
  assert (L : welded_web d / (284/10) / e / sqrt (239/10) <= 1/2 + sqrt (85/1000 - 55/1000 * -1)).
  { apply Rle_trans with (874/1000); [|lra]. apply div_le_iff; [lra|]. apply div_le_iff; [lra|]. apply div_le_iff; [lra|]. nra. }
  rewrite leb_t by exact L. cbn [bind]. unfold effective_width_internal. rewrite ltb_f by (rewrite Rabs_left; lra). rewrite ltb_f by lra. cbn [fst snd].
  rewrite F1, F2, F3. rewrite eff_axis_sym by (auto; reflexivity). cbn [e_be e_top e_bot e_web]. do 2 f_equal; [|field].
  destruct D as [_ D2]. unfold welded_cw. rewrite D2. field.
Qed.
Lemma Ieff_pass_sym e d f : welded_ok d -> doubly_symmetric d -> 0 < e -> e_top f = 0 -> e_bot f = 0 -> e_web f = 0 -> welded_web d <= 121 * e ->
  Ieff_pass e d (-1) f = Some (wi_Iy d, mkEff 0 0 0 (4/10 * (welded_cw d / 2)), -1).
Proof.
  intros V D He F1 F2 F3 H. unfold Ieff_pass. rewrite eff_web_sym by auto. cbn [bind].
  rewrite eff_axis_sym by (auto; reflexivity). assert (V' := V). destruct V' as [(V1 & V2 & V3 & V4 & V5 & V6) [Va Vc]]. destruct D as [D1 D2].
  rewrite pdiv_ok by lra. cbn [bind e_be e_web]. f_equal. f_equal; [f_equal|].
  - assert (P := wi_area_pos d (proj1 V)). assert (ZE : zel d = w_h d / 2).
    { revert P. unfold zel, wi_area, zb, zt, zw, Aw, At, Ab, hw. rewrite D1, D2. intros P. field. lra. }
    unfold wi_Iy. rewrite ZE. unfold Iyb, zb, zt, zw, Aw, At, Ab. unfold cw, welded_cw, hw. rewrite D1, D2.
    replace (2 * (sqrt 2 * w_a d)) with (2 * sqrt 2 * w_a d) by ring. set (w := sqrt 2 * w_a d).
    replace (w_a d * sqrt 2) with w by (unfold w; ring). replace (2 * sqrt 2 * w_a d) with (2 * w) by (unfold w; ring). field.
  - rewrite D2. field. lra.
Qed.
Lemma Ieff_lemma e d : welded_ok d -> doubly_symmetric d -> 0 < e -> welded_top d <= 139/10 * e -> welded_web d <= 121 * e ->
  exists f, wi_Ieff e d eff0 = Some (wi_Iy d, f) /\ eff_axis d f = w_h d / 2 /\ e_top f = 0 /\ e_web f = 0.
Proof.
  intros V D He H1 H2. unfold wi_Ieff. rewrite eff_flange_zero; [|apply V|auto|].
  2:{ unfold welded_top in H1. unfold cf_top. replace (1/2 * (w_bt d - w_tw d)) with ((w_bt d - w_tw d) / 2) by field. auto. }
  cbn [bind]. exists (mkEff 0 0 0 (4/10 * (welded_cw d / 2))). unfold Ieff_loop.
  rewrite Ieff_pass_sym by (auto; reflexivity). cbn [bind fst snd]. 
  rewrite !Ieff_pass_sym by (auto; reflexivity). cbn [bind fst snd]. 
  rewrite !Ieff_pass_sym by (auto; reflexivity). cbn [bind fst snd]. 
  rewrite !Ieff_pass_sym by (auto; reflexivity). cbn [bind fst snd]. 
  rewrite !Ieff_pass_sym by (auto; reflexivity). cbn [bind fst snd]. 
  split; [reflexivity|]. split; [apply eff_axis_sym; auto|split; reflexivity].
Qed.
Lemma Weff_lemma fy e d : welded_ok d -> doubly_symmetric d -> 0 < e -> welded_top d <= 139/10 * e -> welded_web d <= 121 * e ->
  wi_Weff e d eff0 = Some (wi_Wely d) /\ wi_MRd 4 fy e d eff0 = Some (wi_Iy d / (w_h d / 2) * fy) /\ wi_MRd 3 fy e d eff0 = Some (wi_Iy d / (w_h d / 2) * fy).
Proof.
  intros V D He H1 H2. destruct (Ieff_lemma e d V D He H1 H2) as [f [I [X _]]].
  assert (ZE : zel d = w_h d / 2).
  { destruct V as [V _]. destruct D as [D1 D2]. assert (P := wi_area_pos d V). revert P. unfold zel, wi_area, zb, zt, zw, Aw, At, Ab, hw. rewrite D1, D2. intros P. field. lra. }
  assert (M : Rmax (w_h d / 2) (w_h d - w_h d / 2) = w_h d / 2) by (rewrite Rmax_left; lra).
  assert (W : wi_Weff e d eff0 = Some (wi_Iy d / (w_h d / 2))). { unfold wi_Weff. rewrite I. cbn [bind fst snd]. rewrite X, M. reflexivity. }
  assert (W2 : wi_Wely d = wi_Iy d / (w_h d / 2)) by (unfold wi_Wely; rewrite ZE, M; reflexivity).
  split; [congruence|]. unfold wi_MRd. cbn [Nat.ltb Nat.leb Nat.eqb]. rewrite W, W2. cbn [bind]. unfold bending_resistance, gammaM0. split; f_equal; lra.
Qed.

(** Shear buckling *)
Lemma flange_part_eq b t fy a h tw m : 0 < b -> 0 < t -> 0 < fy -> 0 < a -> 0 < h -> 0 < tw ->
  shear_buckling_flanges b t fy a h tw fy m = flange_share b t fy a h tw m
  /\ exists K, 0 < K /\ forall m, flange_share b t fy a h tw m = K * (1 - m ^ 2).
Proof.
  intros B T F A H W. assert (P1 : 0 < b * t ^ 2 * fy) by (repeat apply Rmult_lt_0_compat; nra). assert (P2 : 0 < tw * h ^ 2 * fy) by (repeat apply Rmult_lt_0_compat; nra).
  assert (Q : 0 < a * (1/4 + 8/5 * (b * t ^ 2 * fy) / (tw * h ^ 2 * fy))).
  { apply Rmult_lt_0_compat; [auto|]. assert (0 < 8/5 * (b * t ^ 2 * fy) / (tw * h ^ 2 * fy)) by (apply Rdiv_lt_0_compat; lra). lra. }
  split.
  - unfold shear_buckling_flanges, flange_share, gammaM1. f_equal.
    replace (a * (25 / 100 + 16 / 10 * b * t ^ 2 * fy / tw / h ^ 2 / fy)) with (a * (1/4 + 8/5 * (b * t ^ 2 * fy) / (tw * h ^ 2 * fy))) by (field; lra).
    set (x := a * _) in *. field. lra.
  - eexists. split; [|intros; reflexivity]. apply Rdiv_lt_0_compat; auto.
Qed.
Lemma moment_eq fy d : wi_valid d -> 0 < fy -> wi_MfRd fy d = flange_moment fy d /\ 0 < flange_moment fy d.
Proof.
  intros (V1 & V2 & V3 & V4 & V5 & V6) F. unfold wi_MfRd, flange_moment, At, Ab.
  assert (P1 : 0 < w_bt d * w_tt d) by (apply Rmult_lt_0_compat; auto). assert (P2 : 0 < w_bb d * w_tb d) by (apply Rmult_lt_0_compat; auto).
  set (at' := w_bt d * w_tt d) in *. set (ab := w_bb d * w_tb d) in *. set (l := w_h d - 1/2 * (w_tb d + w_tt d)).
  assert (L : 0 < l) by (unfold l; lra). replace (w_h d - (w_tb d + w_tt d) / 2) with l by (unfold l; field).
  assert (LF : 0 < l * fy) by (apply Rmult_lt_0_compat; auto). split.
  - destruct (Rle_dec at' ab) as [H|H].
    + rewrite !Rmin_left; [reflexivity|auto|]. nra.
    + rewrite !Rmin_right; [reflexivity|lra|]. nra.
  - apply Rmult_lt_0_compat; [apply Rmult_lt_0_compat; [auto|apply Rmin_glb_lt; auto]|auto].
Qed.
Lemma squash_eq fy d N : (if Rltb (1/1000000) (Rabs N) then Rabs N / ((At d + Ab d) * fy) else 0) = squash_share fy d N.
Proof.
  unfold squash_share, At, Ab. destruct (Rlt_dec (1/1000000) (Rabs N)); [rewrite ltb_t by auto|rewrite ltb_f by lra]; reflexivity.
Qed.
Lemma VbRd_eq fy e a b d Ned Med : wi_valid d -> 0 < fy -> 0 < e -> 0 < a -> 72 * e / shear_eta fy <= (w_h d - w_tt d - w_tb d) / w_tw d -> squash_share fy d Ned <> 1 ->
  exists Vw bf tf, web_shear fy (w_h d - w_tt d - w_tb d) a (w_tw d) (Some b) = Some Vw /\ weaker d bf tf /\ 0 < bf /\ 0 < tf /\
  let m := Rabs Med / ((1 - squash_share fy d Ned) * flange_moment fy d) in
  wi_VbRd fy e a (Some b) d Ned Med = if Rlt_dec m 1 then
    Some (Vw + flange_share (Rmin bf (30 * e * tf + w_tw d)) tf fy a (w_h d - w_tt d - w_tb d) (w_tw d) m) else None.
Proof.
  intros V F E A H S. assert (V' := V). destruct V' as (V1 & V2 & V3 & V4 & V5 & V6).
  assert (WS : exists Vw, web_shear fy (w_h d - w_tt d - w_tb d) a (w_tw d) (Some b) = Some Vw).
  { unfold web_shear, shear_buckling_reduction_factor. destruct (Rltb _ _); [eexists; reflexivity|]. destruct (Rltb _ _); [eexists; reflexivity|]. destruct b; eexists; reflexivity. }
  destruct WS as [Vw WS]. exists Vw. destruct (moment_eq fy d V F) as [M1 M2].
  set (q := if Rle_dec (w_bt d * w_tt d) (w_bb d * w_tb d) then (w_bt d, w_tt d) else (w_bb d, w_tb d)).
  exists (fst q), (snd q). assert (QW : weaker d (fst q) (snd q)) by (unfold q, weaker; destruct (Rle_dec _ _); simpl; [left|right]; repeat split; lra).
  assert (QP : 0 < fst q /\ 0 < snd q) by (unfold q; destruct (Rle_dec _ _); simpl; auto).
  split; [exact WS|]. split; [exact QW|]. split; [apply QP|]. split; [apply QP|]. intros m. unfold wi_VbRd.
  unfold hw at 1. rewrite ltb_f by lra. unfold hw at 1. rewrite WS. cbn [bind]. rewrite squash_eq, M1.
  rewrite pdiv_ok by (apply Rmult_integral_contrapositive_currified; lra). cbn [bind]. fold m.
  destruct (Rlt_dec m 1) as [L|L]; [rewrite ltb_t by auto|rewrite ltb_f by lra; reflexivity].
  replace (if Rleb (At d * fy) (Ab d * fy) then (w_bt d, w_tt d) else (w_bb d, w_tb d)) with q.
  2:{ unfold q, At, Ab. destruct (Rle_dec (w_bt d * w_tt d) (w_bb d * w_tb d)); [rewrite leb_t by nra|rewrite leb_f by nra]; reflexivity. }
  destruct q as [bf tf]. cbn [fst snd] in *. do 2 f_equal. unfold hw. apply flange_part_eq; try lra.
  apply Rmin_glb_lt; [lra|]. assert (0 < 30 * e * tf) by (apply Rmult_lt_0_compat; lra). lra.
Qed.
Lemma VbRd_stocky fy e a post d Ned Med : (w_h d - w_tt d - w_tb d) / w_tw d < 72 * e / shear_eta fy ->
  wi_VbRd fy e a post d Ned Med = Some (shear_cap (shear_eta fy) fy (w_h d - w_tt d - w_tb d) (w_tw d)).
Proof. intros H. unfold wi_VbRd, hw. rewrite ltb_t by auto. f_equal. unfold shear_resistance, wi_shear, shear_cap, gammaM0, hw. field. apply Rgt_not_eq, sqrt_lt_R0. lra. Qed.
Lemma Rabs_div_le x y c : 0 < c -> x <= y -> x / c <= y / c.
Proof. intros. apply div_le; auto. Qed.
Lemma squash_mono fy d N1 N2 : wi_valid d -> 0 < fy -> Rabs N1 <= Rabs N2 -> 0 <= squash_share fy d N1 <= squash_share fy d N2.
Proof.
  intros (V1 & V2 & V3 & V4 & V5 & V6) F H. unfold squash_share.
  assert (P : 0 < (w_bt d * w_tt d + w_bb d * w_tb d) * fy). { apply Rmult_lt_0_compat; [|auto]. assert (0 < w_bt d * w_tt d) by (apply Rmult_lt_0_compat; auto). assert (0 < w_bb d * w_tb d) by (apply Rmult_lt_0_compat; auto). lra. }
  set (c := (w_bt d * w_tt d + w_bb d * w_tb d) * fy) in *.
  assert (0 <= Rabs N1 / c) by (apply le_div_iff; [auto|]; rewrite Rmult_0_l; apply Rabs_pos). assert (Rabs N1 / c <= Rabs N2 / c) by (apply div_le; auto).
  destruct (Rlt_dec (1/1000000) (Rabs N1)); destruct (Rlt_dec (1/1000000) (Rabs N2)); lra.
Qed.
Lemma VbRd_mono fy e a b d N1 N2 M1 M2 v2 : wi_valid d -> 0 < fy -> 0 < e -> 0 < a ->
  Rabs N1 <= Rabs N2 -> Rabs M1 <= Rabs M2 -> squash_share fy d N2 < 1 -> wi_VbRd fy e a (Some b) d N2 M2 = Some v2 ->
  exists v1, wi_VbRd fy e a (Some b) d N1 M1 = Some v1 /\ v2 <= v1.
Proof.
  intros V F E A HN HM S H2. destruct (squash_mono fy d N1 N2 V F HN) as [S1 S2]. destruct (moment_eq fy d V F) as [_ MP].
  destruct (Rlt_dec ((w_h d - w_tt d - w_tb d) / w_tw d) (72 * e / shear_eta fy)) as [L|L].
  { rewrite VbRd_stocky in H2 by auto. rewrite VbRd_stocky by auto. injection H2 as <-. eexists. split; [reflexivity|lra]. }
  apply Rnot_lt_le in L.
  destruct (VbRd_eq fy e a b d N1 M1 V F E A L ltac:(lra)) as [Vw [bf [tf [W [Wk [B [T E1]]]]]]].
  destruct (VbRd_eq fy e a b d N2 M2 V F E A L ltac:(lra)) as [Vw' [bf' [tf' [W' [Wk' [B' [T' E2]]]]]]].
  rewrite W' in W. injection W as ->. assert (bf' = bf /\ tf' = tf) as [-> ->] by (destruct Wk as [[? [-> ->]]|[? [-> ->]]]; destruct Wk' as [[? [-> ->]]|[? [-> ->]]]; auto; lra).
  cbv zeta in E1, E2. set (m1 := Rabs M1 / ((1 - squash_share fy d N1) * flange_moment fy d)) in *. set (m2 := Rabs M2 / ((1 - squash_share fy d N2) * flange_moment fy d)) in *.
  set (s1 := squash_share fy d N1) in *. set (s2 := squash_share fy d N2) in *. set (M := flange_moment fy d) in *.
  assert (D2 : 0 < (1 - s2) * M) by (apply Rmult_lt_0_compat; lra). assert (D1 : (1 - s2) * M <= (1 - s1) * M) by (apply Rmult_le_compat_r; lra).
  assert (O : 0 <= m1 <= m2).
  { split; [apply le_div_iff; [lra|rewrite Rmult_0_l; apply Rabs_pos]|]. apply Rle_trans with (Rabs M2 / ((1 - s1) * M)); [apply div_le; lra|].
    apply div_anti; [apply Rabs_pos|lra]. }
  rewrite E2 in H2. destruct (Rlt_dec m2 1) as [Q|Q]; [|discriminate]. injection H2 as <-. rewrite E1. destruct (Rlt_dec m1 1) as [Q1|Q1]; [|lra].
  eexists. split; [reflexivity|]. destruct V as (V1 & V2 & V3 & V4 & V5 & V6).
  assert (BP : 0 < Rmin bf (30 * e * tf + w_tw d)). { apply Rmin_glb_lt; [lra|]. assert (0 < 30 * e * tf) by (apply Rmult_lt_0_compat; lra). lra. }
  destruct (flange_part_eq (Rmin bf (30 * e * tf + w_tw d)) tf fy a (w_h d - w_tt d - w_tb d) (w_tw d) m1 BP T F A V6 V1) as [_ [K [KP KE]]].
  rewrite !KE. assert (m1 ^ 2 <= m2 ^ 2) by nra. nra.
Qed.
Lemma VbRd_web fy e a b d Ned Med v : wi_valid d -> 0 < fy -> 0 < e -> 0 < a -> squash_share fy d Ned < 1 ->
  wi_VbRd fy e a (Some b) d Ned Med = Some v -> exists Vw, web_shear fy (w_h d - w_tt d - w_tb d) a (w_tw d) (Some b) = Some Vw /\ 0 < Vw <= v.
Proof.
  intros V F E A S H. destruct (moment_eq fy d V F) as [_ MP]. destruct (squash_mono fy d Ned Ned V F ltac:(lra)) as [S0 _]. assert (V' := V). destruct V' as (V1 & V2 & V3 & V4 & V5 & V6).
  destruct (Rlt_dec ((w_h d - w_tt d - w_tb d) / w_tw d) (72 * e / shear_eta fy)) as [L|L].
  - rewrite VbRd_stocky in H by auto. injection H as <-.
    assert (WS : exists Vw, web_shear fy (w_h d - w_tt d - w_tb d) a (w_tw d) (Some b) = Some Vw).
    { unfold web_shear, shear_buckling_reduction_factor. destruct (Rltb _ _); [eexists; reflexivity|]. destruct (Rltb _ _); [eexists; reflexivity|]. destruct b; eexists; reflexivity. }
    destruct WS as [Vw WS]. exists Vw. split; [auto|]. apply web_shear_lemma in WS; try lra. unfold shear_cap.
    replace (shear_eta fy * fy * (w_h d - w_tt d - w_tb d) * w_tw d) with (shear_eta fy * ((w_h d - w_tt d - w_tb d) * w_tw d) * fy) by ring. auto.
  - apply Rnot_lt_le in L. destruct (VbRd_eq fy e a b d Ned Med V F E A L ltac:(lra)) as [Vw [bf [tf [W [Wk [B [T E1]]]]]]]. exists Vw. split; [auto|].
    cbv zeta in E1. set (m := Rabs Med / ((1 - squash_share fy d Ned) * flange_moment fy d)) in *. rewrite E1 in H. destruct (Rlt_dec m 1) as [Q|Q]; [|discriminate]. injection H as <-.
    apply web_shear_lemma in W; try lra. split; [lra|].
    assert (BP : 0 < Rmin bf (30 * e * tf + w_tw d)). { apply Rmin_glb_lt; [lra|]. assert (0 < 30 * e * tf) by (apply Rmult_lt_0_compat; lra). lra. }
    destruct (flange_part_eq (Rmin bf (30 * e * tf + w_tw d)) tf fy a (w_h d - w_tt d - w_tb d) (w_tw d) m BP T F A V6 V1) as [_ [K [KP KE]]].
    rewrite KE. assert (0 <= m). { apply le_div_iff; [apply Rmult_lt_0_compat; lra|rewrite Rmult_0_l; apply Rabs_pos]. } assert (m ^ 2 <= 1) by nra. nra.
Qed.
Lemma VbRd_none fy e a b d Ned Med : wi_valid d -> 0 < fy -> 0 < e -> 0 < a -> squash_share fy d Ned < 1 ->
  (wi_VbRd fy e a (Some b) d Ned Med = None <->
   72 * e / shear_eta fy <= (w_h d - w_tt d - w_tb d) / w_tw d /\ (1 - squash_share fy d Ned) * flange_moment fy d <= Rabs Med).
Proof.
  intros V F E A S. destruct (moment_eq fy d V F) as [_ MP]. 
  destruct (Rlt_dec ((w_h d - w_tt d - w_tb d) / w_tw d) (72 * e / shear_eta fy)) as [L|L].
  - rewrite VbRd_stocky by auto. split; [discriminate|lra].
  - apply Rnot_lt_le in L. destruct (VbRd_eq fy e a b d Ned Med V F E A L ltac:(lra)) as [Vw [bf [tf [W [Wk [B [T E1]]]]]]]. cbv zeta in E1. rewrite E1.
    assert (D : 0 < (1 - squash_share fy d Ned) * flange_moment fy d) by (apply Rmult_lt_0_compat; lra).
    assert (Q := le_div_iff (Rabs Med) _ 1 D). destruct (Rlt_dec _ 1) as [X|X].
    + split; [discriminate|]. intros [_ Y]. assert (1 * ((1 - squash_share fy d Ned) * flange_moment fy d) <= Rabs Med) by lra. apply Q in H. lra.
    + split; [|reflexivity]. intros _. split; [auto|]. apply Rnot_lt_le in X. apply Q in X. lra.
Qed.

Lemma VbRd_cap_refuted : exists v, welded_ok ex_cap /\ wi_VbRd 235 1 100 (Some false) ex_cap 0 0 = Some v /\ shear_cap (12/10) 235 200 (10/3) < v.
Proof.
  destruct sqrt2_b as [S1 S2]. assert (V : welded_ok ex_cap) by (unfold welded_ok, wi_valid, welded_cw; simpl; lra). 
  assert (ET : shear_eta 235 = 12/10) by (unfold shear_eta; rewrite leb_t by lra; reflexivity).
  assert (SQ : squash_share 235 ex_cap 0 = 0) by (unfold squash_share; destruct (Rlt_dec _ _) as [X|X]; [rewrite Rabs_R0 in X; lra|reflexivity]).
  destruct (VbRd_eq 235 1 100 false ex_cap 0 0 (proj1 V)) as [Vw [bf [tf [W [Wk [B [T E1]]]]]]]; try lra.
  { rewrite ET. simpl. lra. }
  cbv zeta in E1. rewrite SQ, Rabs_R0 in E1. replace (0 / ((1 - 0) * flange_moment 235 ex_cap)) with 0 in E1 by (unfold Rdiv; ring). destruct (Rlt_dec 0 1); [|lra].
  eexists. split; [exact V|]. split; [exact E1|].
  assert (BP : 0 < Rmin bf (30 * 1 * tf + w_tw ex_cap)). { apply Rmin_glb_lt; [lra|]. simpl. lra. }
  destruct (flange_part_eq _ tf 235 100 (w_h ex_cap - w_tt ex_cap - w_tb ex_cap) (w_tw ex_cap) 0 BP T ltac:(lra) ltac:(lra) ltac:(simpl; lra) ltac:(simpl; lra)) as [_ [K [KP KE]]].
  rewrite KE. revert W. unfold web_shear. rewrite web_slend by (simpl; lra). simpl w_h. simpl w_tt. simpl w_tb. simpl w_tw. replace (220 - 10 - 10) with 200 by ring.
  assert (KT : shear_buckling_coefficient 200 100 = 2536/100) by (unfold shear_buckling_coefficient; rewrite leb_f by lra; field). rewrite KT, ET.
  assert (SR : sqrt (235 / (2536/100 * 190000)) <= 1/100).
  { rewrite <- (sqrt_pow2 (1/100)) by lra. apply sqrt_le_1; [lra|lra|]. lra. }
  unfold shear_buckling_reduction_factor. rewrite ltb_t. 2:{ set (s := sqrt _) in *. replace (200 / (10/3)) with 60 by field. lra. }
  cbn [bind]. intros X. injection X as <-. unfold shear_buckling_web, shear_cap, gammaM1. replace (sqrt 3 * 1) with (sqrt 3) by ring. nra.
Qed.
Lemma VbRd_axial_refuted : exists d N1 N2 M v, welded_ok d /\ 0 < N1 < N2 /\ 0 < M
  /\ wi_VbRd 235 1 100 (Some false) d N1 M = None /\ wi_VbRd 235 1 100 (Some false) d N2 M = Some v.
Proof.
  destruct sqrt2_b as [S1 S2]. assert (V : welded_ok ex_cap) by (unfold welded_ok, wi_valid, welded_cw; simpl; lra). 
  assert (ET : shear_eta 235 = 12/10) by (unfold shear_eta; rewrite leb_t by lra; reflexivity).
  assert (SQ : forall N, 1 < N -> squash_share 235 ex_cap N = N / 470000).
  { intros N HN. unfold squash_share. destruct (Rlt_dec _ _) as [X|X]; [|rewrite Rabs_right in X; lra]. rewrite Rabs_right by lra. simpl. field. }
  assert (FM : flange_moment 235 ex_cap = 49350000). { unfold flange_moment. simpl. rewrite Rmin_left by lra. field. }
  exists ex_cap, 423000, 1410000, 24675000.
  destruct (VbRd_eq 235 1 100 false ex_cap 1410000 24675000 (proj1 V)) as [Vw [bf [tf [W [Wk [B [T E1]]]]]]]; try lra.
  { rewrite ET. simpl. lra. } { rewrite SQ; lra. }
  cbv zeta in E1. rewrite SQ, FM in E1 by lra. rewrite Rabs_right in E1 by lra.
  destruct (Rlt_dec (24675000 / ((1 - 1410000 / 470000) * 49350000)) 1) as [X|X].
  2:{ exfalso. apply X. replace (24675000 / ((1 - 1410000 / 470000) * 49350000)) with (-1/4) by field. lra. }
  eexists. split; [exact V|]. split; [lra|]. split; [lra|]. split; [|exact E1].
  apply VbRd_none; try lra; try apply V. { rewrite SQ; lra. } split; [rewrite ET; simpl; lra|]. rewrite SQ, FM by lra. rewrite Rabs_right by lra. lra.
Qed.
(** Bending resistance by class. *)
Lemma MRd_class_lemma : forall fy e d f, wi_valid d -> 0 < fy ->
  (forall C, (C <= 2)%nat -> wi_MRd C fy e d f = Some (fy * over (slab_abs (zpl d)) (wi_plates d))) /\
  wi_MRd 3 fy e d f = Some (fy * (wi_Iy d / Rmax (zel d) (w_h d - zel d))) /\
  fy * (wi_Iy d / Rmax (zel d) (w_h d - zel d)) <= fy * over (slab_abs (zpl d)) (wi_plates d).
Proof.
  intros fy e d f V P. assert (W := wi_wpl_wel_lemma d V). rewrite (wpl_lemma d V) in W. repeat split.
  - intros C L. unfold wi_MRd. replace (Nat.ltb C 3) with true by (symmetry; apply Nat.ltb_lt; Lia.lia). cbn [bind]. rewrite (wpl_lemma d V). f_equal. unfold bending_resistance, gammaM0. field.
  - unfold wi_MRd. cbn [Nat.ltb Nat.leb Nat.eqb bind]. f_equal. unfold bending_resistance, gammaM0, wi_Wely. set (q := Rmax _ _). unfold Rdiv. rewrite Rinv_1. ring.
  - apply Rmult_le_compat_l; [Lra.lra|exact W].
Qed.
