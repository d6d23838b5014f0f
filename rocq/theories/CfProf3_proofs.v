(** Notional widths, yield strength and effective areas of cold-formed sections. *)
From Verif Require Import Base EC3_model Bool_tac EC3_proofs Plate_proofs Sections_proofs Cold_proofs Joint_model Joint_proofs CfProf_proofs CfProf2_proofs.
From Verif Require Import CfProf_model CfProf_spec.
Require Import Reals List Bool Lra Lia Psatz PeanoNat.
Import ListNotations.
Local Open Scope R_scope.

Lemma rad45 : Cold_model.radians 45 = PI / 4. Proof. unfold Cold_model.radians. field. Qed.
Lemma rad90 : Cold_model.radians (1/2 * 90) = PI / 4. Proof. unfold Cold_model.radians. field. Qed.
Lemma gr_val s : cf_gr s = cf_rm s - half_corner s.
Proof. unfold cf_gr, Cold_model.gr, half_corner. rewrite rad45, tan_PI4. unfold cf_rm. cbv zeta. ring. Qed.
Lemma sig_range : 0 < sin (PI / 4) < 1.
Proof.
  pose proof PI_RGT_0. split; [apply sin_gt_0; lra|]. rewrite <- sin_PI2. apply sin_increasing_1; lra.
Qed.
Lemma half_range s : 0 < cf_rm s -> 0 < half_corner s < cf_rm s.
Proof. intros R0. unfold half_corner. pose proof sig_range. nra. Qed.
Lemma nw1 b r : Cold_model.notional_width b (Cold_model.Lst [r]) (Cold_model.Lst [90]) = Some (b + r * sin (PI / 4)).
Proof. unfold Cold_model.notional_width, Cold_model.amap, Cold_model.sum_prod. cbn [map length Nat.eqb combine option_map fst snd]. rewrite rad90. f_equal. cbn. ring. Qed.
Lemma nw2 b r : Cold_model.notional_width b (Cold_model.Lst [r; r]) (Cold_model.Lst [90; 90]) = Some (b + 2 * (r * sin (PI / 4))).
Proof. unfold Cold_model.notional_width, Cold_model.amap, Cold_model.sum_prod. cbn [map length Nat.eqb combine option_map fst snd]. rewrite rad90. f_equal. cbn. ring. Qed.
Lemma bpw_val s : c_round s = true -> bp_w s = Some (cf_hw s + 2 * half_corner s).
Proof. intros H. unfold bp_w. rewrite H. apply nw2. Qed.
Lemma bpf_c s w c : c_round s = true -> 0 < c -> bp_flange s w c = Some (straight_flange s w c + 2 * half_corner s).
Proof. intros H C0. unfold bp_flange. rewrite H, (ltb_t 0 c) by lra. apply nw2. Qed.
Lemma bpf_0 s w : c_round s = true -> bp_flange s w 0 = Some (straight_flange s w 0 + half_corner s).
Proof. intros H. unfold bp_flange. rewrite H, (ltb_f 0 0) by lra. apply nw1. Qed.
Lemma bpl_c s c : c_round s = true -> 0 < c -> bp_lip s c = Some (straight_lip s c + half_corner s).
Proof. intros H C0. unfold bp_lip. rewrite H, (ltb_t 0 c) by lra. apply nw1. Qed.
Lemma notional_lemma s : c_round s = true ->
  bp_w s = Some (hw_center s - 2 * cf_gr s) /\
  (forall w, bp_flange s w 0 = Some (b_center s w 0 - cf_gr s)) /\
  (forall w c, 0 < c -> bp_flange s w c = Some (b_center s w c - 2 * cf_gr s)) /\
  (forall c, 0 < c -> bp_lip s c = Some (lip_center s c - cf_gr s)) /\ bp_lip s 0 = Some 0.
Proof.
  intros H. pose proof (gr_val s) as E. repeat split.
  - rewrite bpw_val by exact H. f_equal. rewrite (web_c s). lra.
  - intros w. rewrite bpf_0 by exact H. f_equal. rewrite flange_0. lra.
  - intros w c C0. rewrite bpf_c by assumption. f_equal. rewrite flange_c by lra. lra.
  - intros c C0. rewrite bpl_c by assumption. f_equal. unfold straight_lip, lip_center, cf_rm in *. rewrite (ltb_t 0 c), (eqb_f c 0) by lra. lra.
  - unfold bp_lip. rewrite H, (ltb_f 0 0) by lra. reflexivity.
Qed.
Lemma sharp_widths_lemma s w c : c_round s = false -> bp_w s = Some (hw_center s) /\ bp_flange s w c = Some (b_center s w c) /\ bp_lip s c = Some (lip_center s c).
Proof. intros H. unfold bp_w, bp_flange, bp_lip. rewrite H. auto. Qed.
Lemma gr_small_lemma s : 0 < cf_rm s -> 0 < cf_gr s < cf_rm s.
Proof. intros H. rewrite gr_val. pose proof (half_range s H). lra. Qed.
Lemma centre_line_lemma s : lips s ->
  center_line_length s = hw_center s + bt_center s + bb_center s + lip_center s (c_ca s) + lip_center s (c_cb s) - corners s * (2 - PI / 2) * cf_rm s.
Proof.
  intros [LA LB]. rewrite length_corners. rewrite (web_c s).
  assert (E : forall w c, 0 <= c -> b_center s w c + lip_center s c = straight_flange s w c + straight_lip s c + (1 + 2 * (if Rltb 0 c then 1 else 0)) * cf_rm s).
  { intros w c C0. destruct (Rlt_dec 0 c) as [P|P].
    - rewrite flange_c by exact P. unfold straight_lip, lip_center, cf_rm. rewrite (ltb_t 0 c), (eqb_f c 0) by lra. lra.
    - rewrite (lip0 c C0 P), flange_0. unfold straight_lip, lip_center. rewrite (ltb_f 0 0), (eqb_t 0 0) by lra. lra. }
  pose proof (E (c_a s) (c_ca s) LA) as E1. pose proof (E (c_b s) (c_cb s) LB) as E2. fold (bt_center s) in E1. fold (bb_center s) in E2. fold (c_top s) in E1. fold (c_bottom s) in E2.
  unfold corners. destruct (Rltb 0 (c_ca s)), (Rltb 0 (c_cb s)); lra.
Qed.
Lemma default_radius_lemma k tn h a b ca cb coat cn s : new_cf k tn h a b ca cb 0 coat cn = Some s -> c_r s = 15/10 * tn /\ cf_rm s = 2 * tn.
Proof.
  unfold new_cf. rewrite (eqb_t 0 0) by lra. intros H.
  assert (P : c_r s = 15/10 * tn /\ c_tn s = tn).
  { destruct cn; [injection H as H; subst s; auto|].
    apply bind_inv in H. destruct H as (q & _ & H). destruct (Rleb q 5); [|injection H as H; subst s; auto].
    apply bind_inv in H. destruct H as (q1 & _ & H). destruct (Rleb q1 (1/10)); [|injection H as H; subst s; auto].
    apply bind_inv in H. destruct H as (q2 & _ & H). injection H as H; subst s; auto. }
  destruct P as [P1 P2]. split; [exact P1|]. unfold cf_rm. rewrite P1, P2. field.
Qed.
Lemma sharp_only_lemma k tn h a b ca cb r coat s : r <> 0 -> 0 < tn - coat -> new_cf k tn h a b ca cb r coat false = Some s -> 0 < bt_center s -> 0 < bb_center s ->
  (c_round s = false <-> r <= 5 * cf_t s /\ r <= bt_center s / 10 /\ r <= bb_center s / 10).
Proof.
  intros RN T H. unfold new_cf in H. rewrite (eqb_f r 0) in H by exact RN.
  apply bind_inv in H. destruct H as (q & Q & H). apply pdiv_inv in Q. destruct Q as [_ Q]. unfold cf_t in Q. cbn [c_tn c_coat] in Q.
  assert (E0 : q <= 5 <-> r <= 5 * (tn - coat)) by (rewrite Q; rewrite div_le_iff by lra; lra).
  destruct (Rleb q 5) eqn:L5.
  - apply Rleb_true in L5. apply bind_inv in H. destruct H as (q1 & Q1 & H). apply pdiv_inv in Q1. destruct Q1 as [N1 Q1].
    destruct (Rleb q1 (1/10)) eqn:L1.
    + apply Rleb_true in L1. apply bind_inv in H. destruct H as (q2 & Q2 & H). apply pdiv_inv in Q2. destruct Q2 as [N2 Q2].
      injection H as H. subst s. cbn [c_round]. intros B1 B2.
      change (0 < bt_center (mkCf k tn h a b ca cb r coat false)) in B1. change (0 < bb_center (mkCf k tn h a b ca cb r coat false)) in B2.
      change (bt_center (mkCf k tn h a b ca cb r coat (negb (Rleb q2 (1/10))))) with (bt_center (mkCf k tn h a b ca cb r coat false)).
      change (bb_center (mkCf k tn h a b ca cb r coat (negb (Rleb q2 (1/10))))) with (bb_center (mkCf k tn h a b ca cb r coat false)).
      set (B := bt_center _) in *. set (D := bb_center _) in *. unfold cf_t. cbn [c_tn c_coat].
      assert (E1 : q1 <= 1/10 <-> r <= 1/10 * B) by (rewrite Q1; rewrite div_le_iff by lra; lra).
      assert (E2 : q2 <= 1/10 <-> r <= 1/10 * D) by (rewrite Q2; rewrite div_le_iff by lra; lra).
      destruct (Rleb q2 (1/10)) eqn:L2; cbn [negb]; [apply Rleb_true in L2 | apply Rleb_false in L2]; split; intros W; try discriminate W; try reflexivity; try lra.
    + apply Rleb_false in L1. injection H as H. subst s. cbn [c_round]. intros B1 B2. split; [discriminate|]. intros (_ & W & _). exfalso.
      change (0 < bt_center (mkCf k tn h a b ca cb r coat false)) in B1. change (r <= bt_center (mkCf k tn h a b ca cb r coat false) / 10) in W. set (B := bt_center _) in *.
      assert (E1 : q1 <= 1/10 <-> r <= 1/10 * B) by (rewrite Q1; rewrite div_le_iff by lra; lra). lra.
  - apply Rleb_false in L5. injection H as H. subst s. cbn [c_round]. intros B1 B2. split; [discriminate|]. intros (W & _ & _). unfold cf_t in W. cbn [c_tn c_coat] in W. lra.
Qed.
(** Average yield strength. *)
Lemma fya_val_lemma m s fa : cf_fya m s = Some fa -> fa = average_yield (m_fy m) (m_fu m) (cf_t s) (Agross s) 4.
Proof.
  unfold cf_fya, Cold_model.fya, average_yield. intros H. apply bind_inv in H. destruct H as (q & Q & H). apply pdiv_inv in Q. destruct Q as [_ Q].
  injection H as H. subst fa q. replace ((m_fu m + m_fy m) / 2) with (1 / 2 * (m_fu m + m_fy m)) by field.
  replace ((m_fu m - m_fy m) * 7 * 4 * cf_t s ^ 2) with ((m_fu m - m_fy m) * 7 * 4 * cf_t s ^ 2) by ring. reflexivity.
Qed.
Lemma fya_range_lemma m s fa : m_fy m <= m_fu m -> 0 < Agross s -> cf_fya m s = Some fa -> m_fy m <= fa <= (m_fu m + m_fy m) / 2.
Proof.
  intros U A H. rewrite (fya_val_lemma m s fa H). unfold average_yield. split; [|apply Rmin_r]. apply Rmin_glb; [|lra].
  assert (0 <= (m_fu m - m_fy m) * 7 * 4 * cf_t s ^ 2 / Agross s); [|lra].
  apply Rmult_le_pos; [|left; apply Rinv_0_lt_compat; lra]. apply Rmult_le_pos; [|apply pow2_ge_0]. lra.
Qed.
Lemma fya_corners_lemma m s fa : m_fy m < m_fu m -> 0 < Agross s -> 0 < cf_t s -> corners s < 4 -> cf_fya m s = Some fa ->
  average_yield (m_fy m) (m_fu m) (cf_t s) (Agross s) (corners s) <= fa /\
  (average_yield (m_fy m) (m_fu m) (cf_t s) (Agross s) (corners s) < (m_fu m + m_fy m) / 2 -> average_yield (m_fy m) (m_fu m) (cf_t s) (Agross s) (corners s) < fa).
Proof.
  intros U A T C4 H. rewrite (fya_val_lemma m s fa H). unfold average_yield.
  assert (P : 0 < (m_fu m - m_fy m) * 7 * cf_t s ^ 2 / Agross s).
  { apply Rmult_lt_0_compat; [|apply Rinv_0_lt_compat; lra]. apply Rmult_lt_0_compat; [lra|]. apply pow_lt. lra. }
  set (u := (m_fu m - m_fy m) * 7 * cf_t s ^ 2 / Agross s) in *.
  assert (E : forall n, (m_fu m - m_fy m) * 7 * n * cf_t s ^ 2 / Agross s = n * u) by (intros n; unfold u, Rdiv; ring). rewrite !E.
  assert (corners s * u < 4 * u) by nra. set (c := (m_fu m + m_fy m) / 2) in *. unfold Rmin. destruct (Rle_dec (m_fy m + corners s * u) c), (Rle_dec (m_fy m + 4 * u) c); split; intros; lra.
Qed.
