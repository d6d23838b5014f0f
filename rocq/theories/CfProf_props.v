(** C296-C304: cold-formed Z and C sections. *)
From Coq Require Import Rtrigo.
From Verif Require Import Base EC3_model Bool_tac EC3_proofs Plate_proofs Sections_proofs Cold_proofs Cold2_proofs.
From Verif Require Import CfProf_proofs CfProf2_proofs CfProf3_proofs CfProf4_proofs CfProf5_proofs CfProf6_proofs.
From Verif Require Import CfProf_model CfProf_spec.
Require Import Reals List Bool Lra Lia Psatz PeanoNat.
Import ListNotations.
Local Open Scope R_scope.

(** A section with lips, one without; S350GD. *)
Definition ex_lip (k : cfkind) : cf := mkCf k 2 200 70 70 20 20 3 (4/100) true.
Definition ex_plain : cf := mkCf KC 2 100 40 40 0 0 3 (4/100) true.
Definition ex_steel : cfmat := mkCM 350 420 210000 (3/10).
Ltac geo := unfold ordered, fits, lips, cf_rm, cf_hw, cf_t, c_top, c_bottom, straight_lip, straight_flange, bt_center, bb_center, b_center, lip_center, hw_center, ex_lip, ex_plain, ex_steel;
  cbn [c_kind c_tn c_h c_a c_b c_ca c_cb c_r c_coat c_round m_fy m_fu m_E m_nu];
  rewrite ?(ltb_t 0 20), ?(ltb_f 0 0), ?(eqb_f 20 0), ?(eqb_t 0 0) by lra.
Lemma ex_fits k : fits (ex_lip k) /\ ordered (ex_lip k) /\ issymmetric (ex_lip k) = true /\ 0 < cf_t (ex_lip k).
Proof.
  split; [geo; lra|]. split; [geo; lra|]. split; [|geo; lra]. unfold issymmetric, ex_lip. cbn [c_a c_b c_ca c_cb]. rewrite !eqb_t by reflexivity. reflexivity.
Qed.
Lemma ex_plain_fits : fits ex_plain /\ ordered ex_plain /\ 0 < cf_t ex_plain.
Proof. split; [geo; lra|]. split; geo; lra. Qed.

Lemma some_eq {X} (o : option X) a : o = Some a -> exists x, o = Some x /\ x = a.
Proof. intros H. exists a. auto. Qed.
Lemma area_some s : fits s -> exists A, cf_area false s = Some A.
Proof. intros F. eexists. apply area_exact_lemma. exact F. Qed.

(** C296 *)
Theorem C296_notional_widths : forall s, c_round s = true ->
  bp_w s = Some (hw_center s - 2 * cf_gr s) /\
  (forall w, bp_flange s w 0 = Some (b_center s w 0 - cf_gr s)) /\
  (forall w c, 0 < c -> bp_flange s w c = Some (b_center s w c - 2 * cf_gr s)) /\
  (forall c, 0 < c -> bp_lip s c = Some (lip_center s c - cf_gr s)) /\ bp_lip s 0 = Some 0.
Proof. exact notional_lemma. Qed.
Print Assumptions C296_notional_widths.
Theorem C296_sharp_widths : forall s w c, c_round s = false -> bp_w s = Some (hw_center s) /\ bp_flange s w c = Some (b_center s w c) /\ bp_lip s c = Some (lip_center s c).
Proof. exact sharp_widths_lemma. Qed.
Print Assumptions C296_sharp_widths.
Theorem C296_corner_offset : forall s, 0 < cf_rm s -> 0 < cf_gr s < cf_rm s.
Proof. exact gr_small_lemma. Qed.
Print Assumptions C296_corner_offset.
Theorem C296_centre_line : forall s, lips s ->
  center_line_length s = hw_center s + bt_center s + bb_center s + lip_center s (c_ca s) + lip_center s (c_cb s) - corners s * (2 - PI / 2) * cf_rm s.
Proof. exact centre_line_lemma. Qed.
Print Assumptions C296_centre_line.
Theorem C296_default_radius : forall k tn h a b ca cb coat cn s, new_cf k tn h a b ca cb 0 coat cn = Some s -> c_r s = 15/10 * tn /\ cf_rm s = 2 * tn.
Proof. exact default_radius_lemma. Qed.
Print Assumptions C296_default_radius.
Theorem C296_sharp_only_small_radius : forall k tn h a b ca cb r coat s, r <> 0 -> 0 < tn - coat -> new_cf k tn h a b ca cb r coat false = Some s -> 0 < bt_center s -> 0 < bb_center s ->
  (c_round s = false <-> r <= 5 * cf_t s /\ r <= bt_center s / 10 /\ r <= bb_center s / 10).
Proof. exact sharp_only_lemma. Qed.
Print Assumptions C296_sharp_only_small_radius.
Example C296_ex : bp_w (ex_lip KZ) = Some (198 - 2 * cf_gr (ex_lip KZ)) /\ 0 < cf_gr (ex_lip KZ) < 4 /\
  exists s, new_cf KC 2 200 70 70 20 20 0 (4/100) true = Some s /\ cf_rm s = 4.
Proof.
  split; [|split].
  - destruct (C296_notional_widths (ex_lip KZ) eq_refl) as (E & _). rewrite E. do 2 f_equal. geo. lra.
  - pose proof (C296_corner_offset (ex_lip KZ)) as H. replace (cf_rm (ex_lip KZ)) with 4 in H by (geo; lra). apply H. lra.
  - eexists. split; [reflexivity|]. destruct (C296_default_radius KC 2 200 70 70 20 20 (4/100) true _ eq_refl) as [_ E]. rewrite E. lra.
Qed.

(** C297 *)
Theorem C297_area_exact : forall s, fits s ->
  cf_area false s = Some (cf_t s * (straight_lip s (c_cb s) + c_bottom s + cf_hw s + run_top s + corners s * chords * cf_rm s)).
Proof. exact area_exact_lemma. Qed.
Print Assumptions C297_area_exact.
Theorem C297_area_close : forall s A, fits s -> ordered s -> 0 < cf_t s -> cf_area false s = Some A -> (1 - 1/96) * Agross s <= A < Agross s.
Proof. exact area_bounds_lemma. Qed.
Print Assumptions C297_area_close.
Theorem C297_short_lip_refuted : forall s A, fits s -> 0 < c_ca s -> cf_rm s <= bt_center s / 4 -> lip_center s (c_ca s) / 2 < cf_rm s -> cf_area false s = Some A ->
  A = Agross s + cf_t s * (2 * cf_rm s - lip_center s (c_ca s) - corners s * (PI / 2 - chords) * cf_rm s).
Proof. exact short_lip_lemma. Qed.
Print Assumptions C297_short_lip_refuted.
Example C297_ex k : exists A, cf_area false (ex_lip k) = Some A /\ (1 - 1/96) * Agross (ex_lip k) <= A < Agross (ex_lip k).
Proof.
  destruct (ex_fits k) as (F & O & _ & T). eexists. split; [apply C297_area_exact; exact F|]. apply C297_area_close; auto. apply C297_area_exact. exact F.
Qed.
(** A lip of 6.5 mm: 0.5 mm straight; the section counts more than its centre line. *)
Example C297_short_ex : let s := mkCf KC 2 200 70 70 (65/10) 20 4 0 true in
  exists A, fits s /\ cf_area false s = Some A /\ Agross s < A.
Proof.
  set (s := mkCf KC 2 200 70 70 (65/10) 20 4 0 true). cbv zeta. assert (F : fits s).
  { unfold fits, lips, cf_rm, cf_hw, c_top, c_bottom, straight_lip, straight_flange, s. cbn [c_kind c_tn c_h c_a c_b c_ca c_cb c_r c_coat c_round]. rewrite !ltb_t by lra. lra. }
  eexists. split; [exact F|]. split; [apply C297_area_exact; exact F|]. pose proof (C297_area_exact s F) as EA. match type of EA with _ = Some ?a => set (A := a) in *; rewrite (C297_short_lip_refuted s A F); [| | | |exact EA] end.
  - assert (E : corners s = 4) by (unfold corners, s; cbn [c_ca c_cb]; rewrite !ltb_t by lra; ring). rewrite E.
    assert (E2 : cf_rm s = 5) by (unfold cf_rm, s; cbn [c_tn c_r]; lra). rewrite E2.
    assert (E3 : lip_center s (c_ca s) = 55/10) by (unfold lip_center, s; cbn [c_tn c_ca]; rewrite eqb_f by lra; lra). rewrite E3.
    assert (E4 : cf_t s = 2) by (unfold cf_t, s; cbn [c_tn c_coat]; lra). rewrite E4. pose proof chords_bounds. pose proof PI_4. pose proof PI_RGT_0. lra.
  - unfold s; cbn [c_ca]. lra.
  - unfold bt_center, b_center, cf_rm, s. cbn [c_tn c_a c_ca c_r]. rewrite eqb_f by lra. lra.
  - unfold lip_center, cf_rm, s. cbn [c_tn c_ca c_r]. rewrite eqb_f by lra. lra.
Qed.

(** C298 *)
Theorem C298_centroid_Z : forall s, c_kind s = KZ -> fits s -> ordered s -> issymmetric s = true -> 0 < cf_t s -> cf_centroid s = Some (0, 0).
Proof. exact centroid_Z_lemma. Qed.
Print Assumptions C298_centroid_Z.
Theorem C298_centroid_C : forall s, fits s -> ordered s -> issymmetric s = true -> 0 < cf_t s -> exists y, cf_centroid s = Some (y, 0).
Proof. exact centroid_C_lemma. Qed.
Print Assumptions C298_centroid_C.
Example C298_ex : cf_centroid (ex_lip KZ) = Some (0, 0) /\ exists y, cf_centroid (ex_lip KC) = Some (y, 0).
Proof.
  destruct (ex_fits KZ) as (F & O & Y & T). destruct (ex_fits KC) as (F' & O' & Y' & T'). split; [apply C298_centroid_Z; auto|apply C298_centroid_C; auto].
Qed.

(** C299 *)
Theorem C299_average_yield : forall m s fa, cf_fya m s = Some fa -> fa = average_yield (m_fy m) (m_fu m) (cf_t s) (Agross s) 4.
Proof. exact fya_val_lemma. Qed.
Print Assumptions C299_average_yield.
Theorem C299_range : forall m s fa, m_fy m <= m_fu m -> 0 < Agross s -> cf_fya m s = Some fa -> m_fy m <= fa <= (m_fu m + m_fy m) / 2.
Proof. exact fya_range_lemma. Qed.
Print Assumptions C299_range.
Theorem C299_corner_count_refuted : forall m s fa, m_fy m < m_fu m -> 0 < Agross s -> 0 < cf_t s -> corners s < 4 -> cf_fya m s = Some fa ->
  average_yield (m_fy m) (m_fu m) (cf_t s) (Agross s) (corners s) <= fa /\
  (average_yield (m_fy m) (m_fu m) (cf_t s) (Agross s) (corners s) < (m_fu m + m_fy m) / 2 -> average_yield (m_fy m) (m_fu m) (cf_t s) (Agross s) (corners s) < fa).
Proof. exact fya_corners_lemma. Qed.
Print Assumptions C299_corner_count_refuted.
Theorem C299_tension_resistance : forall m s Ned N, 0 <= Ned -> 0 < m_fy m <= m_fu m -> 0 < cf_t s -> fits s -> ordered s -> NRd_C m s Ned = Some N ->
  exists A, cf_area false s = Some A /\ N = average_yield (m_fy m) (m_fu m) (cf_t s) (Agross s) 4 * A /\
    (1 - 1/96) * m_fy m * Agross s <= N /\ N < (m_fu m + m_fy m) / 2 * Agross s.
Proof. exact NRd_tension_lemma. Qed.
Print Assumptions C299_tension_resistance.
Lemma ex_gross : 0 < Agross ex_plain.
Proof.
  unfold Agross. pose proof ex_plain_fits as ((_ & Rm & HW & CT & CB & SA & SB) & _ & T). apply Rmult_lt_0_compat; [exact T|]. rewrite length_corners. pose proof (corners_range ex_plain). pose proof PI_RGT_0.
  assert (0 < corners ex_plain * (PI / 2) * cf_rm ex_plain) by (apply Rmult_lt_0_compat; [apply Rmult_lt_0_compat|]; lra). lra.
Qed.
Example C299_ex : exists fa, cf_fya ex_steel ex_plain = Some fa /\ 350 <= fa <= 385 /\ average_yield 350 420 (cf_t ex_plain) (Agross ex_plain) 2 <= fa /\
  exists N, NRd_C ex_steel ex_plain 100 = Some N /\ N < 385 * Agross ex_plain.
Proof.
  pose proof ex_gross as G. destruct ex_plain_fits as (F & O & T).
  assert (FA : exists fa, cf_fya ex_steel ex_plain = Some fa) by (unfold cf_fya, Cold_model.fya; rewrite pdiv_ok by lra; eexists; reflexivity).
  destruct FA as [fa FA]. exists fa. split; [exact FA|]. pose proof (C299_range ex_steel ex_plain fa) as R. unfold ex_steel at 1 2 3 4 5 6 in R. cbn [m_fy m_fu] in R.
  split; [assert (350 <= fa <= (420 + 350) / 2); [apply R; [lra|exact G|exact FA]|lra]|].
  split.
  - replace 2 with (corners ex_plain) by (unfold corners, ex_plain; cbn [c_ca c_cb]; rewrite !ltb_f by lra; ring). 
    apply (C299_corner_count_refuted ex_steel ex_plain fa); [unfold ex_steel; cbn; lra|exact G|exact T| |exact FA].
    unfold corners, ex_plain; cbn [c_ca c_cb]; rewrite !ltb_f by lra; lra.
  - assert (E : exists N, NRd_C ex_steel ex_plain 100 = Some N) by (unfold NRd_C; rewrite leb_t by lra; rewrite FA, (C297_area_exact ex_plain F); eexists; reflexivity).
    destruct E as [N E]. exists N. split; [exact E|]. destruct (C299_tension_resistance ex_steel ex_plain 100 N) as (A & _ & _ & _ & H); auto; [lra|unfold ex_steel; cbn; lra|]. unfold ex_steel in H. cbn [m_fy m_fu] in H. lra.
Qed.

(** C300 *)
Theorem C300_web_slenderness_partial : forall m s bw, 0 < m_fy m -> 0 < cf_t s -> bp_w s = Some bw ->
  exists rw lw, web_rho m s 1 = Some (rw, lw) /\ lw = bw / (568/10 * m_eps m * cf_t s) /\ 0 < rw <= 1 /\ (rw < 1 <-> slender_web m s bw) /\ (slender_web m s bw -> rw = (lw - 22/100) / lw ^ 2).
Proof. exact web_rho_lemma. Qed.
Print Assumptions C300_web_slenderness_partial.
Theorem C300_slender_Z_refuted : forall m s bw e l, 0 < m_fy m -> 0 < cf_t s -> bp_w s = Some bw -> slender_web m s bw ->
  option_map fst (web_rho m s 1) = Some (e_rw e) -> eff_Z s e l = None.
Proof. exact Z_slender_lemma. Qed.
Print Assumptions C300_slender_Z_refuted.
Theorem C300_stocky_Z_refuted : forall s e A, c_kind s = KZ -> fits s -> ordered s -> 0 < c_ca s -> 0 < c_cb s ->
  e_rw e = 1 -> e_rt e = 1 -> e_rb e = 1 -> e_rbl e = 1 -> cf_area false s = Some A ->
  exists p, eff_Z s e (cf_points s) = Some p /\
    area p = A - cf_t s * ((1 - e_xt e) * straight_lip s (c_ca s) + (1 - e_xb e) * (3/4 * straight_lip s (c_cb s))).
Proof. exact Z_eff_lemma. Qed.
Print Assumptions C300_stocky_Z_refuted.
Example C300_ex : exists bw, bp_w (ex_lip KZ) = Some bw /\ slender_web ex_steel (ex_lip KZ) bw /\
  forall e l, option_map fst (web_rho ex_steel (ex_lip KZ) 1) = Some (e_rw e) -> eff_Z (ex_lip KZ) e l = None.
Proof.
  destruct (C296_notional_widths (ex_lip KZ) eq_refl) as (E & _). pose proof (C296_corner_offset (ex_lip KZ)) as H. replace (cf_rm (ex_lip KZ)) with 4 in H by (geo; lra). specialize (H ltac:(lra)).
  eexists. split; [exact E|]. assert (S1 : slender_web ex_steel (ex_lip KZ) (hw_center (ex_lip KZ) - 2 * cf_gr (ex_lip KZ))).
  { unfold slender_web. replace (hw_center (ex_lip KZ)) with 198 by (geo; lra). replace (cf_t (ex_lip KZ)) with (196/100) by (geo; lra).
    assert (m_eps ex_steel < 1). { unfold m_eps, ex_steel. cbn [m_fy]. rewrite <- sqrt_1. apply sqrt_lt_1; lra. }
    pose proof (eps_pos ex_steel). assert (0 < m_eps ex_steel) by (apply eps_pos; unfold ex_steel; cbn; lra).
    assert (sqrt (3/100) < 1/5). { rewrite <- (sqrt_square (1/5)) by lra. apply sqrt_lt_1; lra. } pose proof (sqrt_pos (3/100)). nra. }
  split; [exact S1|]. intros e l W. apply (C300_slender_Z_refuted ex_steel (ex_lip KZ) _ e l) with (4 := S1); auto; geo; lra.
Qed.
Example C300_stocky_ex : exists A p, cf_area false (ex_lip KZ) = Some A /\ eff_Z (ex_lip KZ) (mkEff 1 1 1 1 1 (8/10) (6/10) 0 0 0) (cf_points (ex_lip KZ)) = Some p /\
  area p = A - 196/100 * (2/10 * 15 + 4/10 * (3/4 * 15)).
Proof.
  destruct (ex_fits KZ) as (F & O & Y & T). destruct (area_some _ F) as [A EA]. exists A.
  destruct (C300_stocky_Z_refuted (ex_lip KZ) (mkEff 1 1 1 1 1 (8/10) (6/10) 0 0 0) A eq_refl F O) as (p & E & V); try reflexivity; try (unfold ex_lip; cbn; lra); [exact EA|].
  exists p. split; [exact EA|]. split; [exact E|]. rewrite V. cbn [e_xt e_xb]. replace (cf_t (ex_lip KZ)) with (196/100) by (geo; lra).
  replace (straight_lip (ex_lip KZ) (c_ca (ex_lip KZ))) with 15 by (geo; lra). replace (straight_lip (ex_lip KZ) (c_cb (ex_lip KZ))) with 15 by (geo; lra). lra.
Qed.

(** C301 *)
Theorem C301_plain_effective_area_partial : forall s e A bw bt bb, c_kind s = KC -> c_round s = true -> fits s -> ordered s -> c_ca s = 0 -> c_cb s = 0 -> factors e ->
  bp_w s = Some bw -> bp_flange s (c_a s) (c_ca s) = Some bt -> bp_flange s (c_b s) (c_cb s) = Some bb ->
  2 * half_corner s <= e_rw e * bw -> half_corner s <= e_rt e * bt -> half_corner s <= e_rb e * bb -> cf_area false s = Some A ->
  exists p, eff_C s 1 e (cf_points s) = Some p /\ area p = A - cf_t s * ((1 - e_rw e) * bw + (1 - e_rt e) * bt).
Proof. exact plain_eff_lemma. Qed.
Print Assumptions C301_plain_effective_area_partial.
Theorem C301_lipped_effective_area_refuted : forall s e A bw bt bb blt blb, c_kind s = KC -> c_round s = true -> fits s -> ordered s -> 0 < c_ca s -> 0 < c_cb s -> factors e ->
  bp_w s = Some bw -> bp_flange s (c_a s) (c_ca s) = Some bt -> bp_flange s (c_b s) (c_cb s) = Some bb ->
  bp_lip s (c_ca s) = Some blt -> bp_lip s (c_cb s) = Some blb ->
  2 * half_corner s <= e_rw e * bw -> 2 * half_corner s <= e_rt e * bt -> 2 * half_corner s <= e_rb e * bb ->
  half_corner s <= e_rtl e * blt -> cf_area false s = Some A ->
  (exists q, new_prof (after s e bt bb blt blb) (Tone (cf_t s)) = Some q /\ area q = A + cf_t s * (2 * (1 - e_rbl e) * blb)) /\
  (exists p, eff_C s 1 e (after s e bt bb blt blb) = Some p /\
     area p = A + cf_t s * (2 * (1 - e_rbl e) * blb - (1 - e_rw e) * bw - (1 - e_xt e) * stiffener s (e_rt e) bt (c_ca s)
       - (1 - e_xb e) * (stiffener s (e_rb e) bb (c_cb s) + 2 * (1 - e_rbl e) * blb) - lost_top s (e_rt e) bt - lost_bottom s (e_rb e) bb)).
Proof. exact lipped_lemma. Qed.
Print Assumptions C301_lipped_effective_area_refuted.
Example C301_ex : let e := mkEff (8/10) 1 (7/10) (8/10) 1 1 1 0 0 0 in exists A bw bt, bp_w ex_plain = Some bw /\ bp_flange ex_plain 40 0 = Some bt /\ cf_area false ex_plain = Some A /\
  exists p, eff_C ex_plain 1 e (cf_points ex_plain) = Some p /\ area p = A - 196/100 * (3/10 * bw + 2/10 * bt).
Proof.
  cbv zeta. destruct ex_plain_fits as (F & O & T). destruct (C296_notional_widths ex_plain eq_refl) as (E1 & E2 & _). specialize (E2 40).
  pose proof (half_range ex_plain) as H. replace (cf_rm ex_plain) with 4 in H by (geo; lra). specialize (H ltac:(lra)). pose proof (gr_val ex_plain) as G. replace (cf_rm ex_plain) with 4 in G by (geo; lra).
  destruct (area_some _ F) as [A EA]. apply some_eq in E1. destruct E1 as (bw & E1 & V1). apply some_eq in E2. destruct E2 as (bt & E2 & V2).
  exists A, bw, bt. split; [exact E1|]. split; [exact E2|]. split; [exact EA|].
  destruct (C301_plain_effective_area_partial ex_plain (mkEff (8/10) 1 (7/10) (8/10) 1 1 1 0 0 0) A bw bt bt eq_refl eq_refl F O eq_refl eq_refl) as (p & E & V); [|exact E1|exact E2|exact E2| | | |exact EA|].
  - unfold factors. cbn. lra.
  - cbn [e_rw]. replace (hw_center ex_plain) with 98 in V1 by (geo; lra). lra.
  - cbn [e_rt]. replace (b_center ex_plain 40 0) with 39 in V2 by (geo; lra). lra.
  - cbn [e_rb]. replace (b_center ex_plain 40 0) with 39 in V2 by (geo; lra). lra.
  - exists p. split; [exact E|]. rewrite V. cbn [e_rw e_rt]. replace (cf_t ex_plain) with (196/100) by (geo; lra). lra.
Qed.
(** Bottom lip three quarters effective: the area of the gross section grows. *)
Example C301_lipped_ex : let e := mkEff 1 1 1 1 (3/4) 1 1 0 0 0 in let s := ex_lip KC in exists A bt bb blt blb q, cf_area false s = Some A /\ bp_flange s 70 20 = Some bt /\ bp_flange s 70 20 = Some bb /\ bp_lip s 20 = Some blt /\ bp_lip s 20 = Some blb /\
  new_prof (after s e bt bb blt blb) (Tone (cf_t s)) = Some q /\ A < area q.
Proof.
  cbv zeta. destruct (ex_fits KC) as (F & O & Y & T). set (s := ex_lip KC) in *. destruct (C296_notional_widths s eq_refl) as (E1 & _ & E2 & E3 & _). specialize (E2 70 20 ltac:(lra)). specialize (E3 20 ltac:(lra)).
  pose proof (half_range s) as H. replace (cf_rm s) with 4 in H by (unfold s; geo; lra). specialize (H ltac:(lra)). pose proof (gr_val s) as G. replace (cf_rm s) with 4 in G by (unfold s; geo; lra).
  destruct (area_some _ F) as [A EA]. apply some_eq in E1. destruct E1 as (bw & E1 & V1). apply some_eq in E2. destruct E2 as (bt & E2 & V2). apply some_eq in E3. destruct E3 as (bl & E3 & V3).
  replace (hw_center s) with 198 in V1 by (unfold s; geo; lra). replace (b_center s 70 20) with 68 in V2 by (unfold s; geo; lra). replace (lip_center s 20) with 19 in V3 by (unfold s; geo; lra).
  destruct (C301_lipped_effective_area_refuted s (mkEff 1 1 1 1 (3/4) 1 1 0 0 0) A bw bt bt bl bl eq_refl eq_refl F O) as [(q & Q & V) _]; [| | |exact E1|exact E2|exact E2|exact E3|exact E3| | | | |exact EA|].
  - unfold s, ex_lip; cbn; lra.
  - unfold s, ex_lip; cbn; lra.
  - unfold factors. cbn. lra.
  - cbn [e_rw]. lra.
  - cbn [e_rt]. lra.
  - cbn [e_rb]. lra.
  - cbn [e_rtl]. lra.
  - exists A, bt, bt, bl, bl, q. split; [exact EA|]. split; [exact E2|]. split; [exact E2|]. split; [exact E3|]. split; [exact E3|]. split; [exact Q|]. rewrite V. cbn [e_rbl].
    assert (0 < cf_t s * (2 * (1 - 3/4) * bl)) by (apply Rmult_lt_0_compat; lra). lra.
Qed.

(** C302 *)
Theorem C302_bounds : forall m s Ae Ag e N, 0 < m_fy m <= m_fu m -> 0 < Agross s -> 0 <= Ae -> 0 < Ag -> NRd_compression m s Ae Ag e = Some N ->
  exists fa, cf_fya m s = Some fa /\ N <= fa * Ag /\
    (Ae < Ag -> N = m_fy m * Ae) /\
    (Ag <= Ae -> ratio s e <= 3/4 -> N = fa * Ag) /\
    (Ag <= Ae -> ratio s e <= 1 -> m_fy m * Ag <= N) /\
    (Ag <= Ae -> 3/4 <= ratio s e -> N = (m_fy m + (fa - m_fy m) * 4 * (1 - ratio s e)) * Ag).
Proof. exact NRd_bounds_lemma. Qed.
Print Assumptions C302_bounds.
Theorem C302_slenderness_monotone : forall m s Ag e e' N N', 0 < m_fy m <= m_fu m -> 0 < Agross s -> 0 < Ag -> 
  e_lt e <= e_lt e' -> e_lw e <= e_lw e' -> e_lb e <= e_lb e' ->
  NRd_compression m s Ag Ag e = Some N -> NRd_compression m s Ag Ag e' = Some N' -> N' <= N.
Proof. exact NRd_mono_lemma. Qed.
Print Assumptions C302_slenderness_monotone.
Theorem C302_outstand_factor : forall m s w bp, 0 < m_fy m -> 0 < cf_t s -> bp_flange s w 0 = Some bp ->
  exists l, flange_rho m s 1 w 0 = Some (outstand_factor m s bp, l).
Proof. exact outstand_lemma. Qed.
Print Assumptions C302_outstand_factor.
Theorem C302_plain_C_bottom_flange_refuted : forall m s A bw bt bb Ned, c_kind s = KC -> c_round s = true -> fits s -> ordered s -> c_ca s = 0 -> c_cb s = 0 -> 0 < m_fy m -> 0 < cf_t s ->
  bp_w s = Some bw -> bp_flange s (c_a s) 0 = Some bt -> bp_flange s (c_b s) 0 = Some bb -> Ned < 0 -> cf_area false s = Some A ->
  exists rw lw, web_rho m s 1 = Some (rw, lw) /\
    let rt := outstand_factor m s bt in let rb := outstand_factor m s bb in
    (2 * half_corner s <= rw * bw -> half_corner s <= rt * bt -> half_corner s <= rb * bb -> rw < 1 \/ rt < 1 ->
     NRd_C m s Ned = Some (m_fy m * (A - cf_t s * ((1 - rw) * bw + (1 - rt) * bt)))).
Proof. exact plain_NRd_lemma. Qed.
Print Assumptions C302_plain_C_bottom_flange_refuted.
Example C302_ex : exists N, NRd_compression ex_steel ex_plain 300 300 (mkEff 1 1 1 1 1 1 1 (4/10) (5/10) (4/10)) = Some N /\ 350 * 300 <= N <= 385 * 300.
Proof.
  pose proof ex_gross as G. assert (E : exists N, NRd_compression ex_steel ex_plain 300 300 (mkEff 1 1 1 1 1 1 1 (4/10) (5/10) (4/10)) = Some N).
  { unfold NRd_compression, cf_fya, Cold_model.fya. rewrite ltb_f, pdiv_ok by lra. eexists. reflexivity. }
  destruct E as [N E]. exists N. split; [exact E|].
  destruct (C302_bounds ex_steel ex_plain 300 300 (mkEff 1 1 1 1 1 1 1 (4/10) (5/10) (4/10)) N) as (fa & FA & U & _ & _ & L & _); [unfold ex_steel; cbn; lra|exact G|lra|lra|exact E|].
  pose proof (C299_range ex_steel ex_plain fa) as R. unfold ex_steel at 1 2 3 4 5 6 in R. cbn [m_fy m_fu] in R. assert (350 <= fa <= (420 + 350) / 2) by (apply R; [lra|exact G|exact FA]).
  split; [|nra]. apply L; [lra|]. unfold ratio. cbn [e_lw e_lt e_lb]. unfold ex_plain. cbn [c_ca c_cb]. rewrite !ltb_f by lra. apply Rmax_lub; [apply Rmax_lub|]; lra.
Qed.
(** A C section 100 x 40 x 1 without lips, web and flanges slender. *)
Example C302_plain_ex : let s := mkCf KC 1 100 40 40 0 0 2 0 true in exists A bw bt rw lw, cf_area false s = Some A /\ bp_w s = Some bw /\ bp_flange s 40 0 = Some bt /\ web_rho ex_steel s 1 = Some (rw, lw) /\ rw < 1 /\ outstand_factor ex_steel s bt < 1 /\
  NRd_C ex_steel s (-1) = Some (350 * (A - 1 * ((1 - rw) * bw + (1 - outstand_factor ex_steel s bt) * bt))).
Proof.
  set (s := mkCf KC 1 100 40 40 0 0 2 0 true). cbv zeta.
  assert (F : fits s) by (unfold fits, lips, cf_rm, cf_hw, c_top, c_bottom, straight_lip, straight_flange, s; cbn [c_kind c_tn c_h c_a c_b c_ca c_cb c_r c_coat c_round]; rewrite !ltb_f by lra; lra).
  assert (O : ordered s) by (unfold ordered, bt_center, b_center, cf_rm, s; cbn [c_kind c_tn c_h c_a c_b c_ca c_cb c_r c_coat c_round]; rewrite ltb_f, eqb_t by lra; lra).
  assert (T : cf_t s = 1) by (unfold cf_t, s; cbn; lra). assert (Rm : cf_rm s = 25/10) by (unfold cf_rm, s; cbn; lra).
  destruct (C296_notional_widths s eq_refl) as (E1 & E2 & _). specialize (E2 40). pose proof (C296_corner_offset s ltac:(lra)) as G. rewrite Rm in G.
  assert (HW : hw_center s = 99) by (unfold hw_center, s; cbn; lra). assert (BC : b_center s 40 0 = 395/10) by (unfold b_center, s; cbn [c_tn]; rewrite eqb_t by lra; lra).
  rewrite HW in E1. rewrite BC in E2.
  assert (EE : 8/10 < m_eps ex_steel < 1).
  { unfold m_eps, ex_steel. cbn [m_fy]. split; [rewrite <- (sqrt_square (8/10)) by lra|rewrite <- sqrt_1]; apply sqrt_lt_1; lra. }
  destruct (area_some _ F) as [A EA]. apply some_eq in E1. destruct E1 as (bw & E1 & V1). apply some_eq in E2. destruct E2 as (bt & E2 & V2).
  destruct (C302_plain_C_bottom_flange_refuted ex_steel s A bw bt bt (-1) eq_refl eq_refl F O eq_refl eq_refl) as (rw & lw & W & N); try (unfold ex_steel; cbn; lra); try lra; [exact E1|exact E2|exact E2|exact EA|].
  destruct (C300_web_slenderness_partial ex_steel s bw) as (rw' & lw' & W' & LW & RW & SL & VW); [unfold ex_steel; cbn; lra|lra|exact E1|]. rewrite W in W'. injection W' as W1 W2. subst rw' lw'.
  assert (RW1 : rw < 1).
  { apply SL. unfold slender_web. rewrite T. assert (sqrt (3/100) < 1/5) by (rewrite <- (sqrt_square (1/5)) by lra; apply sqrt_lt_1; lra). pose proof (sqrt_pos (3/100)). nra. }
  assert (RT1 : outstand_factor ex_steel s bt < 1).
  { unfold outstand_factor. rewrite T. assert (sqrt (43/100) < 66/100) by (rewrite <- (sqrt_square (66/100)) by lra; apply sqrt_lt_1; lra). assert (0 < sqrt (43/100)) by (apply sqrt_lt_R0; lra).
    set (d := 284/10 * m_eps ex_steel * 1 * sqrt (43/100)). assert (D : 0 < d < 19). { unfold d. nra. }
    set (l := bt / d). assert (L : 1 < l). { unfold l. apply (Rmult_lt_reg_r d); [lra|]. replace (bt / d * d) with bt by (field; lra). lra. }
    cbv zeta. destruct (Rle_dec l (748/1000)); [lra|]. eapply Rle_lt_trans; [apply Rmin_l|]. apply (Rmult_lt_reg_r (l ^ 2)); [nra|]. replace ((l - 188/1000) / l ^ 2 * l ^ 2) with (l - 188/1000) by (field; lra). nra. }
  exists A, bw, bt, rw, lw. split; [exact EA|]. split; [exact E1|]. split; [exact E2|]. split; [exact W|]. split; [exact RW1|]. split; [exact RT1|].
  pose proof (half_range s ltac:(lra)) as HC. rewrite Rm in HC.
  assert (H1 : half_corner s <= outstand_factor ex_steel s bt * bt).
  { apply Rle_trans with 5; [lra|]. revert RT1. unfold outstand_factor. rewrite T. assert (65/100 < sqrt (43/100)) by (rewrite <- (sqrt_square (65/100)) by lra; apply sqrt_lt_1; lra).
    set (d := 284/10 * m_eps ex_steel * 1 * sqrt (43/100)). assert (D : 10 < d) by (unfold d; nra). cbv zeta.
    destruct (Rle_dec (bt / d) (748/1000)) as [Q|Q]; intros RT1; [lra|]. rewrite Rmin_left by (destruct (Rle_dec ((bt / d - 188/1000) / (bt / d) ^ 2) 1) as [Z|Z]; [exact Z|rewrite Rmin_right in RT1 by lra; lra]).
    replace ((bt / d - 188/1000) / (bt / d) ^ 2 * bt) with (d - 188/1000 * d * (d / bt)) by (field; lra).
    assert (d / bt * bt = d) by (field; lra). assert (748/1000 * d <= bt). { apply Rnot_le_lt in Q. apply (Rmult_lt_compat_r d) in Q; [|lra]. replace (bt / d * d) with bt in Q by (field; lra). lra. }
    assert (d / bt <= 2). { apply div_le_iff; lra. } nra. }
  assert (H2 : 2 * half_corner s <= rw * bw).
  { apply Rle_trans with 5; [lra|]. rewrite (VW (proj1 SL RW1)), LW, T. set (d := 568/10 * m_eps ex_steel * 1). assert (D : 40 < d < 57) by (unfold d; nra).
    replace ((bw / d - 22/100) / (bw / d) ^ 2 * bw) with (d - 22/100 * d * (d / bw)) by (field; lra). assert (d / bw <= 1) by (apply div_le_iff; lra). nra. }
  cbv zeta in N. rewrite (N H2 H1 H1) by (left; exact RW1). rewrite T. reflexivity.
Qed.

(** C303 *)
Theorem C303_edge_stiffness : forall m s Ned A1 y1 A2 y2, 0 < m_E m -> -1 < m_nu m < 1 -> 0 < cf_t s -> 0 < hw_center s -> y1 <> 0 -> 0 < A1 -> 0 < A2 ->
  edge_stiffness m s Ned A1 y1 (Some (A2, y2)) =
    Some (spring_of m s (Rabs y1) (Rabs y2) (if Rlt_dec Ned 0 then if issymmetric s then 1 else A2 / A1 else 0)) /\
  (0 <= Ned -> edge_stiffness m s Ned A1 y1 None = edge_stiffness m s Ned A1 y1 (Some (A2, y2))) /\
  (Ned < 0 -> edge_stiffness m s Ned A1 y1 None = None).
Proof. exact edge_lemma. Qed.
Print Assumptions C303_edge_stiffness.
Theorem C303_stiffness_monotone : forall m s b1 b1' b2 b2' kf kf', 0 < m_E m -> -1 < m_nu m < 1 -> 0 < cf_t s -> 0 < hw_center s -> 0 < b1 <= b1' -> 0 <= b2 <= b2' -> 0 <= kf <= kf' ->
  0 < spring_of m s b1' b2' kf' <= spring_of m s b1 b2 kf.
Proof. exact spring_mono_lemma. Qed.
Print Assumptions C303_stiffness_monotone.
Theorem C303_distortional : forall m K Is As, 0 < m_fy m -> 0 < m_E m -> 0 < K -> 0 < Is -> 0 < As ->
  exists chi l, distortional m K Is As = Some (chi, l) /\ 0 < l /\ l ^ 2 * (2 * sqrt (K * m_E m * Is)) = m_fy m * As /\ Cold_model.chi_dist l = Some chi.
Proof. exact distortional_lemma. Qed.
Print Assumptions C303_distortional.
Example C303_ex : edge_stiffness ex_steel (ex_lip KC) (-1) 90 50 (Some (90, 50)) = Some (spring_of ex_steel (ex_lip KC) 50 50 1) /\
  0 < spring_of ex_steel (ex_lip KC) 50 50 1 <= spring_of ex_steel (ex_lip KC) 50 50 0.
Proof.
  destruct (ex_fits KC) as (_ & _ & Y & T). assert (H : 0 < hw_center (ex_lip KC)) by (geo; lra). split.
  - destruct (C303_edge_stiffness ex_steel (ex_lip KC) (-1) 90 50 90 50) as (E & _); try lra; try (unfold ex_steel; cbn; lra).
    rewrite E, Y. rewrite Rabs_right by lra. destruct (Rlt_dec (-1) 0); [reflexivity|lra].
  - apply C303_stiffness_monotone; try lra; unfold ex_steel; cbn; lra.
Qed.
Example C303_dist_ex : exists chi l, distortional ex_steel 1 1000 90 = Some (chi, l) /\ l ^ 2 * (2 * sqrt (1 * 210000 * 1000)) = 350 * 90.
Proof.
  destruct (C303_distortional ex_steel 1 1000 90) as (c & l & E & _ & V & _); try lra; try (unfold ex_steel; cbn; lra). exists c, l. split; [exact E|exact V].
Qed.

(** C304 *)
Theorem C304_bending_spring : forall m s kh afp, 0 < m_E m -> -1 < m_nu m < 1 -> 0 < cf_t s -> 0 < hw_center s -> 0 <= afp -> 0 < c_a s -> 0 <= c_b s ->
  exists k, KB m s kh afp = Some k /\ 0 < k /\
    let a := if Req_EM_T afp 0 then c_a s / 2 else afp in
    let bmod := if Rlt_dec 0 kh then a else 2 * a + c_b s in
    1 / k = 4 * (1 - m_nu m ^ 2) * hw_center s ^ 2 * (hw_center s + bmod) / (m_E m * cf_t s ^ 3).
Proof. exact KB_lemma. Qed.
Print Assumptions C304_bending_spring.
Theorem C304_springs_in_series : forall m s kh afp CD g k, 0 < CD -> 0 < hw_center s -> KB m s kh afp = Some k -> 0 < k ->
  exists K, Kspring m s kh afp CD g = Some K /\ 1 / K = 1 / k + hw_center s ^ 2 / CD /\ 0 < K < k /\ K < CD / hw_center s ^ 2.
Proof. exact K_series_lemma. Qed.
Print Assumptions C304_springs_in_series.
Theorem C304_gravity_is_uplift_refuted : forall s Iyz Iy sc kd kg, kh_C s Iyz Iy sc Ldown = Some kd -> kh_C s Iyz Iy sc Lgravity = Some kg ->
  kh_C s Iyz Iy sc Luplift = Some kg /\ kg = kd - bt_center s / (2 * c_h s).
Proof. exact kh_C_lemma. Qed.
Print Assumptions C304_gravity_is_uplift_refuted.
Theorem C304_standard_z : forall h t s, ruukki_z h t = Some s ->
  (h <= 250 \/ h = 300 \/ h = 350) /\ In t [1; 12/10; 15/10; 2; 25/10; 3] /\
  c_kind s = KZ /\ c_h s = h /\ c_tn s = t /\ c_ca s = c_cb s /\ c_round s = true /\ cf_t s = t - 4/100 /\
  (exists w, c_a s = w + 2 * t /\ (h <= 150 -> w = 43 /\ c_b s = 37 + 2 * t /\ c_ca s = 18) /\
     (150 < h <= 250 -> w = 67 /\ c_b s = 59 + 2 * t /\ c_ca s = 26) /\
     (250 < h -> w = 86 /\ c_b s = 78 + 2 * t /\ c_ca s = (if Req_EM_T h 300 then 26 else 30))) /\
  c_r s = (if Req_EM_T h 300 then 1 else 2).
Proof. exact ruukki_z_lemma. Qed.
Print Assumptions C304_standard_z.
Theorem C304_standard_gap_refuted : forall h t, 250 < h -> h <> 300 -> h <> 350 -> ruukki_z h t = None.
Proof. exact ruukki_gap_lemma. Qed.
Print Assumptions C304_standard_gap_refuted.
Example C304_ex : exists k K, KB ex_steel (ex_lip KC) (1/10) 0 = Some k /\ Kspring ex_steel (ex_lip KC) (1/10) 0 2000 true = Some K /\ 0 < K < k.
Proof.
  assert (H : 0 < hw_center (ex_lip KC)) by (geo; lra). destruct (ex_fits KC) as (_ & _ & _ & T).
  destruct (C304_bending_spring ex_steel (ex_lip KC) (1/10) 0) as (k & E & P & _); try lra; try (unfold ex_steel, ex_lip; cbn; lra).
  destruct (C304_springs_in_series ex_steel (ex_lip KC) (1/10) 0 2000 true k) as (K & E2 & _ & R & _); try lra; [exact E|]. exists k, K. auto.
Qed.
Example C304_gravity_ex : exists kd kg, kh_C (ex_lip KC) 0 1 (-20, 0) Ldown = Some kd /\ kh_C (ex_lip KC) 0 1 (-20, 0) Lgravity = Some kg /\ kg = kd - 68/400.
Proof.
  assert (E : exists kd kg, kh_C (ex_lip KC) 0 1 (-20, 0) Ldown = Some kd /\ kh_C (ex_lip KC) 0 1 (-20, 0) Lgravity = Some kg).
  { unfold kh_C. rewrite !pdiv_ok by (unfold ex_lip; cbn; lra). do 2 eexists. split; reflexivity. }
  destruct E as (kd & kg & E1 & E2). exists kd, kg. split; [exact E1|]. split; [exact E2|]. destruct (C304_gravity_is_uplift_refuted _ _ _ _ kd kg E1 E2) as [_ V]. rewrite V.
  replace (bt_center (ex_lip KC)) with 68 by (geo; lra). unfold ex_lip. cbn [c_h]. lra.
Qed.
Example C304_ruukki_ex : exists s, ruukki_z 200 2 = Some s /\ c_a s = 71 /\ ruukki_z 275 2 = None.
Proof.
  assert (E : exists s, ruukki_z 200 2 = Some s).
  { unfold ruukki_z, ruukki. rewrite leb_f, leb_t by lra. cbn [find fst option_map snd]. rewrite eqb_f, eqb_t by lra. cbn [bind snd option_map]. unfold new_cf. eexists. reflexivity. }
  destruct E as [s E]. exists s. split; [exact E|]. split; [|apply C304_standard_gap_refuted; lra].
  destruct (C304_standard_z 200 2 s E) as (_ & _ & _ & _ & _ & _ & _ & _ & (w & A & _ & B & _) & _). destruct B as [-> _]; lra.
Qed.
