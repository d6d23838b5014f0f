From Verif Require Import Base EC3_model Bool_tac EC3_spec EC3_proofs Plate_proofs Sections_proofs Secls_proofs Secls2_proofs Secls3_proofs.
From Verif Require Import Secls_model Secls_spec.
Require Import Reals List Bool Lra Lia Psatz PeanoNat.
Local Open Scope R_scope.

(** Compression and bending of welded sections *)
Lemma cb_alpha_eq fy A Ned : 0 < fy -> 0 < A -> cb_alpha fy A Ned = 1/2 * (1 + Ned / (fy * A)).
Proof. intros. unfold cb_alpha, gammaM0. field. lra. Qed.
Lemma cb_alpha_range fy A Ned : 0 < fy -> 0 < A -> - (fy * A) < Ned -> Ned < 0 -> 0 < cb_alpha fy A Ned < 1/2.
Proof.
  intros Hf Ha N1 N2. rewrite cb_alpha_eq by auto. assert (P : 0 < fy * A) by (apply Rmult_lt_0_compat; auto).
  assert (I : 0 < / (fy * A)) by (apply Rinv_0_lt_compat; auto). assert (J : fy * A * / (fy * A) = 1) by (apply Rinv_r; lra). unfold Rdiv. split; nra.
Qed.
Lemma cb_alpha_mono fy A N1 N2 : 0 < fy -> 0 < A -> N2 <= N1 -> cb_alpha fy A N2 <= cb_alpha fy A N1.
Proof.
  intros Hf Ha H. rewrite !cb_alpha_eq by auto. assert (P : 0 < fy * A) by (apply Rmult_lt_0_compat; auto).
  assert (N2 / (fy * A) <= N1 / (fy * A)) by (apply div_le; auto). lra.
Qed.
Lemma wi_area_pos d : wi_valid d -> 0 < wi_area d.
Proof.
  intros (V1 & V2 & V3 & V4 & V5 & V6). unfold wi_area, Aw, At, Ab, hw.
  assert (0 < (w_h d - w_tt d - w_tb d) * w_tw d) by (apply Rmult_lt_0_compat; lra).
  assert (0 < w_bt d * w_tt d) by (apply Rmult_lt_0_compat; lra). assert (0 < w_bb d * w_tb d) by (apply Rmult_lt_0_compat; lra). lra.
Qed.
Lemma w_combined_lemma fy d Ned Med : welded_ok d -> 235 <= fy -> Ned <= -1/10000 -> 1/10000 <= Rabs Med -> - (fy * wi_area d) < Ned ->
  exists f w, outstand_class (eps_of fy) (welded_top d) f
   /\ combined_class (eps_of fy) (1/2 * (1 + Ned / (fy * wi_area d))) (-1) ((w_h d - w_tt d - w_tb d) / w_tw d) w
   /\ w_class fy d Ned Med = Some (Nat.max w f).
Proof.
  intros V Hf Hn Hm HN. destruct (eps_ok fy Hf) as [e [E [E2 E3]]]. rewrite <- E2. destruct (w_parts e d V ltac:(lra)) as [P1 _].
  destruct V as [V _]. assert (AP := wi_area_pos d V). destruct V as (V1 & V2 & V3 & V4 & V5 & V6).
  assert (AL := cb_alpha_range fy (wi_area d) Ned ltac:(lra) AP HN ltac:(lra)).
  unfold w_class. rewrite E. cbn [bind]. rewrite P1, class_comp_bend by auto. unfold w_comp_bend. rewrite pdiv_ok by lra. cbn [bind worse].
  rewrite cb_cls by lra. rewrite cb_alpha_eq by lra. unfold hw.
  eexists _, _. split; [apply cls_table|]. split; [apply cls_table|]. reflexivity.
Qed.
Lemma w_wrong_way_lemma fy d N1 N2 Med : welded_ok d -> 235 <= fy -> 1/10000 <= Rabs Med ->
  - (fy * wi_area d) < N2 -> N2 <= N1 -> N1 <= -1/10000 ->
  exists c1 c2, w_class fy d N1 Med = Some c1 /\ w_class fy d N2 Med = Some c2 /\ (c2 <= c1)%nat.
Proof.
  intros V Hf Hm H1 H2 H3. destruct (eps_ok fy Hf) as [e [E [E2 E3]]]. destruct (w_parts e d V ltac:(lra)) as [P1 _].
  destruct V as [V _]. assert (AP := wi_area_pos d V). destruct V as (V1 & V2 & V3 & V4 & V5 & V6).
  assert (A1 := cb_alpha_range fy (wi_area d) N1 ltac:(lra) AP ltac:(lra) ltac:(lra)).
  assert (A2 := cb_alpha_range fy (wi_area d) N2 ltac:(lra) AP ltac:(lra) ltac:(lra)).
  unfold w_class. rewrite E. cbn [bind]. rewrite P1, !class_comp_bend by (auto; lra). unfold w_comp_bend. rewrite pdiv_ok by lra. cbn [bind worse].
  rewrite !cb_cls by lra. eexists _, _. split; [reflexivity|]. split; [reflexivity|]. apply max_le; [|lia].
  destruct (lim12_anti e (cb_alpha fy (wi_area d) N2) (cb_alpha fy (wi_area d) N1)); [lra|split; [lra|apply cb_alpha_mono; lra]|]. apply cls_mono; lra.
Qed.
Lemma w_combined_refuted_lemma : exists d Ned Med, welded_ok d /\ doubly_symmetric d /\ Ned < -1 /\ 1 < Med
  /\ w_class 235 d Ned 0 = Some 4%nat /\ w_class 235 d 0 Med = Some 3%nat /\ w_class 235 d Ned Med = Some 1%nat.
Proof.
  exists (ex_welded 2 1), (-338400), 10. set (d := ex_welded 2 1). destruct sqrt2_b as [S1 S2]. destruct eps235 as [E E2].
  assert (V : welded_ok d) by (unfold welded_ok, wi_valid, welded_cw; simpl; lra).
  assert (AR : wi_area d = 2400) by (unfold wi_area, Aw, At, Ab, hw; simpl; ring).
  assert (Z : zpl d = 110). { unfold zpl. rewrite AR. unfold At, Ab. simpl. rewrite !leb_f by lra. field. }
  assert (ZE : zel d = 110). { unfold zel. rewrite AR. unfold zb, zw, zt, Aw, At, Ab, hw. simpl. field. }
  assert (C : welded_cw d = 200 - 2 * sqrt 2) by (unfold welded_cw; simpl; ring).
  assert (W : welded_web d = 100 - sqrt 2). { unfold welded_web. rewrite C. simpl. field. }
  destruct (w_parts 1 d V ltac:(lra)) as [P1 [P2 P3]]. rewrite (cls1 _ _ _ (welded_top d)) in P1 by (unfold welded_top; simpl; lra).
  rewrite W in P2. rewrite cls4 in P2 by lra.
  split; [exact V|]. split; [split; reflexivity|]. split; [lra|]. split; [lra|].
  unfold w_class. rewrite E. cbn [bind]. rewrite P1, P2. rewrite class_comp by (rewrite ?Rabs_R0; lra). rewrite class_bend by (rewrite ?Rabs_R0, ?Rabs_right; lra).
  rewrite class_comp_bend by (try lra; rewrite Rabs_right; lra). split; [reflexivity|]. split.
  - unfold w_bend. rewrite pdiv_ok by (simpl; lra). cbn [bind]. rewrite P3. replace (welded_cw d / w_tw d) with (100 - sqrt 2) by (symmetry; exact W).
    unfold w_psi. rewrite ZE. rewrite pdiv_ok by (simpl; lra). cbn [bind]. replace ((- (110) + w_tb d) / (w_h d - 110 - w_tt d)) with (-1) by (simpl; field).
    unfold w_alpha. rewrite Z. simpl. rewrite !leb_f by lra. rewrite pdiv_ok by lra. cbn [bind].
    replace ((220 - 10 - sqrt 2 * 1 - 110) / (220 - 10 - 10 - 2 * sqrt 2)) with (1/2) by (field; lra). rewrite cb_cls by lra.
    rewrite cls3; [reflexivity| | |]; unfold lim1, lim2, lim3; try (destruct (Rlt_dec (1/2) (1/2)); lra).
    destruct (Rlt_dec (-1) (-1)); [lra|]. replace (- -1) with 1 by ring. rewrite sqrt_1. lra.
  - unfold w_comp_bend. rewrite pdiv_ok by (simpl; lra). cbn [bind]. rewrite AR. rewrite cb_alpha_eq by lra.
    replace (1 / 2 * (1 + -338400 / (235 * 2400))) with (1/5) by field. rewrite cb_cls by lra. rewrite cls1; [reflexivity|].
    unfold hw, lim1. simpl. destruct (Rlt_dec (1/2) (1/5)); lra.
Qed.

(** WQ beams *)
Lemma wq_axis_range d : wq_valid d -> 0 < wq_area d /\ 0 < wq_zel d < q_h d + q_tb d.
Proof.
  intros (V1 & V2 & V3 & V4 & V5 & V6). unfold wq_zel, wq_area, q_Aw, q_At, q_Ab, q_zb, q_zw, q_zt.
  assert (A : 0 < q_h d * q_tw d) by (apply Rmult_lt_0_compat; lra). assert (B : 0 < q_bt d * q_tt d) by (apply Rmult_lt_0_compat; lra).
  assert (C : 0 < q_bb d * q_tb d) by (apply Rmult_lt_0_compat; lra).
  set (aw := q_h d * q_tw d) in *. set (at' := q_bt d * q_tt d) in *. set (ab := q_bb d * q_tb d) in *.
  split; [lra|]. assert (P : 0 < 2 * aw + at' + ab) by lra. split.
  - apply Rdiv_lt_0_compat; [|lra]. assert (0 < 1/2 * q_tb d * ab) by (apply Rmult_lt_0_compat; lra).
    assert (0 < (q_tb d + 1/2 * q_h d) * aw) by (apply Rmult_lt_0_compat; lra).
    assert (0 < (q_tb d + q_h d - 1/2 * q_tt d) * at') by (apply Rmult_lt_0_compat; lra). lra.
  - apply (Rmult_lt_reg_r (2 * aw + at' + ab)); [auto|]. unfold Rdiv. rewrite Rmult_assoc, Rinv_l, Rmult_1_r by lra.
    set (H := q_h d + q_tb d). assert (1/2 * q_tb d * ab < H * ab) by (apply Rmult_lt_compat_r; unfold H; lra).
    assert ((q_tb d + 1/2 * q_h d) * aw < H * aw) by (apply Rmult_lt_compat_r; unfold H; lra).
    assert ((q_tb d + q_h d - 1/2 * q_tt d) * at' < H * at') by (apply Rmult_lt_compat_r; unfold H; lra).
    assert (0 < H * aw) by (apply Rmult_lt_0_compat; unfold H; lra). lra.
Qed.
Lemma lim3_opp e p : 0 < e -> 0 < p -> lim3 e p <= lim3 e (- p).
Proof.
  intros He Hp. unfold lim3. destruct (Rlt_dec (-1) p); [|lra].
  assert (A : 42 * e / (67/100 + 33/100 * p) <= 63 * e).
  { apply div_le_iff; [lra|]. nra. }
  destruct (Rlt_dec (-1) (- p)).
  - unfold Rdiv. apply Rmult_le_compat_l; [lra|]. apply Rinv_le_contravar; lra.
  - rewrite Ropp_involutive. assert (1 <= sqrt p) by (rewrite <- sqrt_1; apply sqrt_le_1; lra).
    assert (124 * e <= 62 * e * (1 - - p)) by nra. assert (124 * e * 1 <= 62 * e * (1 - - p) * sqrt p) by (apply Rmult_le_compat; lra). lra.
Qed.
Lemma q_bend_lemma fy d Ned Med : wq_valid d -> 235 <= fy -> Rabs Ned < 1/10000 -> 1/10000 < Rabs Med -> 0 < wq_zpl d ->
  exists f w c a p, compressed_class (eps_of fy) (q_bt d / q_tt d) f
   /\ a = wq_zpl d / (q_h d - q_tt d)
   /\ (forall k, 0 < k -> p = bent_stress k (wq_zel d) 0 / bent_stress k (wq_zel d) (q_h d + q_tb d))
   /\ combined_class (eps_of fy) a (- p) ((q_h d - q_tt d) / q_tw d) w
   /\ combined_class (eps_of fy) a p ((q_h d - q_tt d) / q_tw d) c
   /\ q_class fy d Ned Med = Some (Nat.max w f) /\ (c <= w)%nat.
Proof.
  intros V Hf Hn Hm Hz. destruct (wq_axis_range d V) as [AP AX]. destruct V as (V1 & V2 & V3 & V4 & V5 & V6).
  destruct (eps_ok fy Hf) as [e [E [E2 E3]]]. rewrite <- E2.
  unfold q_class. rewrite E. cbn [bind]. rewrite class_bend by auto. unfold q_flange, q_bend, q_psi, q_alpha. unfold q_hw. rewrite !pdiv_ok by lra. cbn [bind worse].
  set (a := wq_zpl d / (q_h d - q_tt d)). set (r := (q_h d - q_tt d) / q_tw d). set (p := wq_zel d / (q_h d + q_tb d - wq_zel d)).
  assert (PA : 0 < a) by (apply Rdiv_lt_0_compat; lra). assert (PP : 0 < p) by (apply Rdiv_lt_0_compat; lra).
  rewrite comp_cls, cb_cls by lra.
  exists (cls (33 * e) (38 * e) (42 * e) (q_bt d / q_tt d)), (cls (lim1 e a) (lim2 e a) (lim3 e p) r), (cls (lim1 e a) (lim2 e a) (lim3 e (- p)) r), a, (- p).
  split; [apply cls_table|]. split; [reflexivity|]. split; [|split; [|split; [|split]]].
  - intros k Hk. unfold p, bent_stress. field. lra.
  - rewrite Ropp_involutive. apply cls_table.
  - apply cls_table.
  - reflexivity.
  - apply cls_mono; [lra|lra|apply lim3_opp; lra].
Qed.
Lemma q_bend_refuted_lemma : exists d c, wq_valid d /\ 0 < wq_zpl d
  /\ combined_class 1 (wq_zpl d / (q_h d - q_tt d)) (bent_stress 1 (wq_zel d) 0 / bent_stress 1 (wq_zel d) (q_h d + q_tb d)) ((q_h d - q_tt d) / q_tw d) c
  /\ c = 3%nat /\ q_class 235 d 0 1 = Some 4%nat.
Proof.
  exists ex_wq, 3%nat. destruct eps235 as [E E2].
  assert (V : wq_valid ex_wq) by (unfold wq_valid; simpl; lra).
  assert (Z : wq_zpl ex_wq = 95) by (unfold wq_zpl, q_hw, q_At, q_Ab; simpl; field).
  assert (ZE : wq_zel ex_wq = 270715 / 2882) by (unfold wq_zel, wq_area, q_zb, q_zw, q_zt, q_Aw, q_At, q_Ab; simpl; field).
  split; [exact V|]. split; [lra|]. rewrite Z, ZE. simpl. split; [|split; [reflexivity|]].
  - unfold combined_class, table_class, bent_stress. right. right. left. split; [reflexivity|]. 
    unfold lim1, lim2, lim3. destruct (Rlt_dec (1/2) (95 / (210 - 10))); [lra|].
    replace (1 * (0 - 270715 / 2882) / (1 * (210 + 10 - 270715 / 2882))) with (- (270715 / 363325)) by field.
    destruct (Rlt_dec (-1) (- (270715 / 363325))); [|lra]. split; [lra|]. split; [lra|].
    apply le_div_iff; lra.
  - unfold q_class. rewrite E. cbn [bind]. rewrite class_bend by (rewrite ?Rabs_R0, ?Rabs_right; lra).
    unfold q_flange, q_bend, q_psi, q_alpha. rewrite Z, ZE. unfold q_hw. simpl. rewrite !pdiv_ok by lra. cbn [bind worse].
    rewrite comp_cls, cb_cls by lra. rewrite (cls1 _ _ _ (100/10)) by lra.
    replace (270715 / 2882 / (210 + 10 - 270715 / 2882)) with (270715 / 363325) by field.
    rewrite cls4; [reflexivity| | |]; unfold lim1, lim2, lim3.
    + destruct (Rlt_dec (1/2) (95 / (210 - 10))); lra.
    + destruct (Rlt_dec (1/2) (95 / (210 - 10))); lra.
    + destruct (Rlt_dec (-1) (270715 / 363325)); [|lra]. apply Rnot_le_lt. rewrite le_div_iff; lra.
Qed.
Lemma wq_area_pos d : wq_valid d -> 0 < wq_area d.
Proof. intros V. apply (wq_axis_range d V). Qed.
Lemma q_combined_lemma fy d Ned Med : wq_valid d -> 235 <= fy -> Ned <= -1/10000 -> 1/10000 <= Rabs Med -> - (fy * wq_area d) < Ned ->
  exists f w, compressed_class (eps_of fy) (q_bt d / q_tt d) f
   /\ combined_class (eps_of fy) (1/2 * (1 + Ned / (fy * wq_area d))) (-1) ((q_h d - q_tt d) / q_tw d) w
   /\ q_class fy d Ned Med = Some (Nat.max w f).
Proof.
  intros V Hf Hn Hm HN. destruct (eps_ok fy Hf) as [e [E [E2 E3]]]. rewrite <- E2.
  assert (AP := wq_area_pos d V). destruct V as (V1 & V2 & V3 & V4 & V5 & V6).
  assert (AL := cb_alpha_range fy (wq_area d) Ned ltac:(lra) AP HN ltac:(lra)).
  unfold q_class. rewrite E. cbn [bind]. rewrite class_comp_bend by auto. unfold q_flange, q_comp_bend. unfold q_hw. rewrite !pdiv_ok by lra. cbn [bind worse].
  rewrite comp_cls, cb_cls by lra. rewrite cb_alpha_eq by lra.
  eexists _, _. split; [apply cls_table|]. split; [apply cls_table|]. reflexivity.
Qed.
Lemma q_comp_lemma fy d Ned Med : wq_valid d -> 235 <= fy -> Ned < 0 -> Rabs Med < 1/10000 ->
  exists f w, compressed_class (eps_of fy) (q_bt d / q_tt d) f /\ compressed_class (eps_of fy) ((q_h d - q_tt d) / q_tw d) w
   /\ q_class fy d Ned Med = Some (Nat.max w f).
Proof.
  intros V Hf Hn Hm. destruct (eps_ok fy Hf) as [e [E [E2 E3]]]. rewrite <- E2. destruct V as (V1 & V2 & V3 & V4 & V5 & V6).
  unfold q_class. rewrite E. cbn [bind]. rewrite class_comp by auto. unfold q_flange, q_comp. unfold q_hw. rewrite !pdiv_ok by lra. cbn [bind worse].
  rewrite !comp_cls by lra. eexists _, _. split; [apply cls_table|]. split; [apply cls_table|]. reflexivity.
Qed.

(** Buckling curves of rolled sections *)
Lemma curves_lemma h b tf fy : 0 < b -> 0 <= h -> tf <= 40 \/ (tf <= 100 \/ h <= 12/10 * b) ->
  exists cy cz, i_curves h b tf fy = Some (cy, cz) /\ table_6_2 h b tf (Rltb 420 fy) cy cz.
Proof.
  intros Hb Hh Ht. unfold i_curves. rewrite pdiv_ok by lra. cbn [bind].
  assert (Q : (12/10 < h / b <-> 12/10 * b < h)). { split; intros H. - apply Rnot_le_lt. intros K. apply (proj2 (div_le_iff h b (12/10) Hb)) in K. lra. - apply Rnot_le_lt. intros K. apply (proj1 (div_le_iff h b (12/10) Hb)) in K. lra. }
  assert (Y : Rleb fy 420 = negb (Rltb 420 fy)).
  { destruct (Rltb 420 fy) eqn:F; [apply Rltb_true in F; apply leb_f|apply Rltb_false in F; apply leb_t]; lra. }
  rewrite Y. clear Y. set (hi := Rltb 420 fy) in *.
  destruct (Rltb (12/10) (h / b)) eqn:A.
  - apply Rltb_true, Q in A. destruct (Rleb tf 40) eqn:B; [apply Rleb_true in B|apply Rleb_false in B].
    + pose proof (deep_thin h b tf hi A B) as T. destruct hi; cbn [negb]; eexists _, _; (split; [reflexivity|exact T]).
    + pose proof (deep_thick h b tf hi A B ltac:(lra)) as T. destruct hi; cbn [negb]; eexists _, _; (split; [reflexivity|exact T]).
  - apply Rltb_false in A. assert (A' : h <= 12/10 * b) by (apply Rnot_lt_le; intros K; apply Q in K; lra).
    destruct (Rleb tf 100) eqn:B; [apply Rleb_true in B|apply Rleb_false in B].
    + pose proof (wide_thin h b tf hi A' B) as T. destruct hi; cbn [negb]; eexists _, _; (split; [reflexivity|exact T]).
    + pose proof (wide_thick h b tf hi A' B) as T. destruct hi; cbn [negb]; eexists _, _; (split; [reflexivity|exact T]).
Qed.
Lemma curves_LT_lemma h b : 0 < b -> (h <= 2 * b -> i_curves_LT h b = Some (ca, cb)) /\ (2 * b < h -> i_curves_LT h b = Some (cb, cc)).
Proof.
  intros Hb. unfold i_curves_LT. rewrite pdiv_ok by lra. cbn [bind]. split; intros H.
  - rewrite leb_t; [reflexivity|]. apply div_le_iff; auto.
  - rewrite leb_f; [reflexivity|]. apply Rnot_le_lt. intros K. apply (proj1 (div_le_iff _ _ _ Hb)) in K. lra.
Qed.
Lemma comp_flange_lemma s F If Iz : i_A s = 2 * F + (i_h s - 2 * i_tf s) * i_tw s ->
  Iz = 2 * If + (i_h s - 2 * i_tf s - 2 * i_r s) * i_tw s ^ 3 / 12 ->
  i_comp_flange s Iz = (F + (i_h s - 2 * i_tf s) / 2 / 3 * i_tw s, If + ((i_h s - 2 * i_tf s) / 2 / 3 - i_r s) * i_tw s ^ 3 / 12).
Proof. intros A B. unfold i_comp_flange, i_hw. rewrite A, B. f_equal; field. Qed.
