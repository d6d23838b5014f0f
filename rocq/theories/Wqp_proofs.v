Require Import Reals List Bool Lra Lia Psatz PeanoNat.
Import ListNotations.
From Verif Require Import Base EC3_model Bool_tac EC3_proofs Plate_proofs Sections_proofs Sections2_proofs.
From Verif Require Import Wqp_model Wqp_spec.
Local Open Scope R_scope.

Lemma wq_wply_lemma : forall d, wq_valid d -> 0 <= wq_zpl d <= q_h d - q_tt d -> wq_Wply d = over (slab_abs (wq_axis d)) (wq_plates d).
Proof.
  intros d (v1&v2&v3&v4&v5&v6) Z. unfold wq_Wply. cbv zeta. rewrite (proj2 (Rltb_false (wq_zpl d) 0)) by lra.
  rewrite (proj2 (Rltb_false (q_hw d) (wq_zpl d))) by (unfold q_hw; lra). slabs. unfold wq_axis. set (p := wq_zpl d) in *.
  rewrite (slab_abs_full _ (mkSlab (q_bb d) 0 (q_tb d))) by (cbn; lra).
  rewrite slab_abs_part by (cbn; lra). rewrite slab_abs_none by (cbn; lra). unfold slab_first. cbn [s_w s_lo s_hi]. unfold q_At, q_Ab, q_hw. field.
Qed.
Lemma slab_convex z p lo hi : lo <= hi -> slab_abs p (mkSlab 1 lo hi) + (z - p) * (slab_below p (mkSlab 1 lo hi) - (hi - lo - slab_below p (mkSlab 1 lo hi))) <= slab_abs z (mkSlab 1 lo hi).
Proof.
  intros L. unfold slab_abs, slab_below. cbn [s_w s_lo s_hi]. cbv zeta.
  assert (M : forall y, exists m, Rmax lo (Rmin hi y) = m /\ lo <= m <= hi /\ (m - y) ^ 2 <= (z - y) ^ 2 + (m - y) ^ 2 /\ (y <= lo -> m = lo) /\ (hi <= y -> m = hi) /\ (lo <= y <= hi -> m = y)).
  { intros y. eexists. split; [reflexivity|]. unfold Rmax, Rmin. assert (0 <= (z - y) ^ 2) by apply pow2_ge_0. repeat destruct (Rle_dec _ _); repeat split; intros; lra. }
  destruct (M p) as (m&->&B1&_&C1&C2&C3). destruct (M z) as (n&->&B2&_&D1&D2&D3). clear M.
  assert (Q : 0 <= (m - n) ^ 2) by apply pow2_ge_0.
  destruct (Rle_dec p lo); [rewrite C1 in * by lra|destruct (Rle_dec hi p); [rewrite C2 in * by lra|rewrite C3 in * by lra]];
  (destruct (Rle_dec z lo); [rewrite D1 in * by lra|destruct (Rle_dec hi z); [rewrite D2 in * by lra|rewrite D3 in * by lra]]); nra.
Qed.
Lemma wq_wply_least_lemma : forall d z, wq_valid d -> 0 <= wq_zpl d <= q_h d - q_tt d -> wq_Wply d <= over (slab_abs z) (wq_plates d).
Proof.
  intros d z V Z. rewrite (wq_wply_lemma d V Z). destruct V as (v1&v2&v3&v4&v5&v6). slabs. set (p := wq_axis d).
  assert (B : q_bb d * q_tb d + 2 * q_tw d * (p - q_tb d) = 2 * q_tw d * (q_tb d + q_h d - p) + q_bt d * q_tt d).
  { unfold p, wq_axis, wq_zpl, q_hw, q_At, q_Ab. field. lra. }
  assert (P : q_tb d <= p <= q_tb d + q_h d - q_tt d) by (unfold p, wq_axis; lra). clearbody p.
  assert (K : forall w lo hi, 0 <= w -> lo <= hi -> slab_abs z (mkSlab w lo hi) >= slab_abs p (mkSlab w lo hi) + (z - p) * (slab_below p (mkSlab w lo hi) - (w * (hi - lo) - slab_below p (mkSlab w lo hi)))).
  { intros w lo hi W L. assert (E : forall y, slab_abs y (mkSlab w lo hi) = w * slab_abs y (mkSlab 1 lo hi)) by (intros y; unfold slab_abs; cbn [s_w s_lo s_hi]; cbv zeta; field).
    assert (E2 : slab_below p (mkSlab w lo hi) = w * slab_below p (mkSlab 1 lo hi)) by (unfold slab_below; cbn [s_w s_lo s_hi]; ring). rewrite !E, E2.
    assert (U := slab_convex z p lo hi L). set (u := slab_abs z _) in *. set (v := slab_abs p _) in *. clear E E2. set (q := slab_below p _) in *.
    replace (w * v + (z - p) * (w * q - (w * (hi - lo) - w * q))) with (w * (v + (z - p) * (q - (hi - lo - q)))) by ring. apply Rle_ge, Rmult_le_compat_l; lra. }
  pose proof (K (q_bb d) 0 (q_tb d) ltac:(lra) ltac:(lra)) as K1. pose proof (K (2 * q_tw d) (q_tb d) (q_tb d + q_h d) ltac:(lra) ltac:(lra)) as K2.
  pose proof (K (q_bt d) (q_tb d + q_h d - q_tt d) (q_tb d + q_h d) ltac:(lra) ltac:(lra)) as K3.
  unfold slab_below in K1, K2, K3. cbn [s_w s_lo s_hi] in K1, K2, K3.
  rewrite Rmin_left in K1 by lra. rewrite Rmax_right in K1 by lra. rewrite Rmin_right in K2 by lra. rewrite Rmax_right in K2 by lra. rewrite Rmin_right in K3 by lra. rewrite Rmax_left in K3 by lra.
  set (a1 := slab_abs z _) in *. set (a2 := slab_abs z _) in *. set (a3 := slab_abs z _) in *. set (b1 := slab_abs p _) in *. set (b2 := slab_abs p _) in *. set (b3 := slab_abs p _) in *.
  assert (E : (z - p) * (q_bb d * (q_tb d - 0) - (q_bb d * (q_tb d - 0) - q_bb d * (q_tb d - 0))) + (z - p) * (2 * q_tw d * (p - q_tb d) - (2 * q_tw d * (q_tb d + q_h d - q_tb d) - 2 * q_tw d * (p - q_tb d)))
    + (z - p) * (q_bt d * (q_tb d + q_h d - q_tt d - (q_tb d + q_h d - q_tt d)) - (q_bt d * (q_tb d + q_h d - (q_tb d + q_h d - q_tt d)) - q_bt d * (q_tb d + q_h d - q_tt d - (q_tb d + q_h d - q_tt d)))) = 0).
  { rewrite <- !Rmult_plus_distr_l. replace (_ + _) with (q_bb d * q_tb d + 2 * q_tw d * (p - q_tb d) - (2 * q_tw d * (q_tb d + q_h d - p) + q_bt d * q_tt d)) by ring. rewrite B. ring. }
  lra.
Qed.
Lemma wq_wply_zero_lemma : forall d, wq_valid d -> wq_zpl d < 0 \/ q_h d - q_tt d < wq_zpl d -> wq_Wply d = 0.
Proof.
  intros d V H. unfold wq_Wply. cbv zeta. destruct (Rltb (wq_zpl d) 0) eqn:A; auto. apply Rltb_false in A. rewrite (proj2 (Rltb_true (q_hw d) (wq_zpl d))); auto. unfold q_hw. lra.
Qed.
Lemma wq_zpl_where_lemma : forall d, wq_valid d -> (0 <= wq_zpl d <-> q_bt d * q_tt d - q_bb d * q_tb d <= 2 * q_tw d * (q_h d - 2 * q_tt d)) /\
  (wq_zpl d <= q_h d - q_tt d <-> q_bb d * q_tb d - q_bt d * q_tt d <= 2 * q_tw d * q_h d).
Proof.
  intros d (v1&v2&v3&v4&v5&v6). unfold wq_zpl, q_hw, q_At, q_Ab. set (D := q_bt d * q_tt d - q_bb d * q_tb d).
  assert (E : 1 / 4 * D / q_tw d * q_tw d = 1 / 4 * D) by (field; lra). set (x := 1 / 4 * D / q_tw d) in *. unfold D in *. clear D. split; split; intros; nra.
Qed.
Lemma wq_wplz_lemma : forall d, wq_valid d -> wq_Wplz d = over (slab_abs 0) (wq_across d).
Proof.
  intros d (v1&v2&v3&v4&v5&v6). unfold over, wq_across. cbn [map fold_right].
  rewrite (slab_abs_part 0 (mkSlab (q_tb d) _ _)) by (cbn; lra). rewrite (slab_abs_part 0 (mkSlab (q_tt d) _ _)) by (cbn; lra).
  rewrite slab_abs_full by (cbn; lra). rewrite slab_abs_none by (cbn; lra). unfold slab_first, wq_Wplz, q_Ab, q_At, q_Aw. cbn [s_w s_lo s_hi]. field.
Qed.
Lemma wq_iz_lemma : forall d, wq_Iz d = over (slab_second 0) (wq_across d).
Proof. intros d. unfold over, wq_across, slab_second, wq_Iz, q_Aw. cbn [map fold_right s_w s_lo s_hi]. field. Qed.
Lemma wq_welz_lemma : forall d, wq_valid d -> 0 <= wq_lip d -> 0 < wq_Welz d < wq_Wplz d.
Proof.
  intros d (v1&v2&v3&v4&v5&v6) L. unfold wq_lip in L. unfold wq_Welz.
  assert (I : 0 < wq_Iz d) by (unfold wq_Iz, q_Aw; cbv zeta; assert (0 < q_tb d * q_bb d ^ 3) by (apply Rmult_lt_0_compat; auto; now apply pow_lt);
    assert (0 < q_tt d * q_bt d ^ 3) by (apply Rmult_lt_0_compat; auto; now apply pow_lt); assert (0 < q_h d * q_tw d ^ 3) by (apply Rmult_lt_0_compat; try lra; now apply pow_lt);
    assert (0 <= (5 / 10 * (q_bt d + q_tw d)) ^ 2 * 2 * (q_h d * q_tw d)) by (apply Rmult_le_pos; [assert (0 <= (5 / 10 * (q_bt d + q_tw d)) ^ 2) by apply pow2_ge_0; lra|nra]); lra).
  split. apply Rdiv_lt_0_compat; lra. apply Rmult_lt_reg_r with (5 / 10 * q_bb d). lra. unfold Rdiv at 1. rewrite Rmult_assoc, Rinv_l, Rmult_1_r by lra.
  unfold wq_Iz, wq_Wplz, q_Ab, q_At, q_Aw. cbv zeta. set (b := q_bb d) in *. set (a := q_bt d) in *. set (w := q_tw d) in *. set (h := q_h d) in *.
  assert (T1 : 1/12 * q_tb d * b ^ 3 < 1/4 * (b * q_tb d) * b * (5/10 * b)). { assert (0 < q_tb d * b ^ 3) by (apply Rmult_lt_0_compat; auto; now apply pow_lt). nra. }
  assert (T2 : 1/12 * q_tt d * a ^ 3 <= 1/4 * (a * q_tt d) * a * (5/10 * b)). { assert (0 < q_tt d * a ^ 2) by (apply Rmult_lt_0_compat; auto; now apply pow_lt). assert (q_tt d * a ^ 2 * a <= q_tt d * a ^ 2 * b) by (apply Rmult_le_compat_l; lra). nra. }
  assert (T3 : 1/6 * h * w ^ 3 + (5/10 * (a + w)) ^ 2 * 2 * (h * w) <= h * w * (a + w) * (5/10 * b)).
  { assert (HW : 0 < h * w) by (apply Rmult_lt_0_compat; lra). replace (1/6 * h * w ^ 3 + (5/10 * (a + w)) ^ 2 * 2 * (h * w)) with (h * w * (1/6 * w ^ 2 + (a + w) ^ 2 / 2)) by field.
    replace (h * w * (a + w) * (5/10 * b)) with (h * w * ((a + w) * b / 2)) by field. apply Rmult_le_compat_l; [lra|]. nra. }
  lra.
Qed.
Lemma wq_paint_lemma : forall d, wq_valid d -> 0 <= wq_lip d -> wq_paint d = along (wq_outline d).
Proof.
  intros d (v1&v2&v3&v4&v5&v6) L. unfold wq_lip in L. unfold wq_paint, wq_lip, wq_outline. cbv zeta. cbn [along]. unfold edge. cbn [fst snd].
  repeat match goal with |- context [Rabs ?x] => (rewrite (Rabs_right x) by lra) || (rewrite (Rabs_left1 x) by lra) end. field.
Qed.
