(** More of C295-C304: plate geometry, reduction for rounded corners, slenderness of the web, lateral load factor, default spring. *)
From Verif Require Import Base EC3_model Bool_tac Sections_proofs Cold_proofs CfProf_proofs CfProf2_proofs CfProf3_proofs CfProf7_proofs Epj5_proofs Epj_model Epj_spec.
From Verif Require Import CfProf_props CfProf_model CfProf_spec.
Require Import Reals List Bool Lra Lia Psatz PeanoNat.
Import ListNotations.
Local Open Scope R_scope.

Theorem C297_rounded_area : forall s A, fits s -> c_round s = true -> 0 < notional_sum s -> cf_area false s = Some A ->
  cf_area true s = Some (A * (1 - 43/100 * (corners s * c_r s) / notional_sum s)).
Proof. exact area_reduced_lemma. Qed.
Print Assumptions C297_rounded_area.
Example C297_rounded_ex : exists A B, cf_area false (ex_lip KC) = Some A /\ cf_area true (ex_lip KC) = Some B /\ B = A * (1 - 43/100 * 12 / notional_sum (ex_lip KC)).
Proof.
  destruct (ex_fits KC) as (F & O & _ & T). destruct (area_some (ex_lip KC) F) as (A & EA). exists A, (A * (1 - 43/100 * (corners (ex_lip KC) * c_r (ex_lip KC)) / notional_sum (ex_lip KC))).
  split; [exact EA|]. split.
  - apply C297_rounded_area; try assumption; [reflexivity|]. unfold notional_sum.
    assert (G : 0 < cf_gr (ex_lip KC) < 4).
    { destruct (gr_small_lemma (ex_lip KC)) as [G1 G2]; [apply F|]. split; [exact G1|]. apply Rlt_le_trans with (1 := G2). geo. lra. }
    set (g := cf_gr (ex_lip KC)) in *. clearbody g. geo. lra.
  - f_equal. f_equal. f_equal. f_equal. unfold corners. geo. rewrite ?(ltb_t 0 20) by lra. lra.
Qed.
Theorem C300_web_slenderness_value : forall m s bw, 0 < m_fy m -> 0 < cf_t s -> bp_w s = Some bw ->
  exists rw lw, web_rho m s 1 = Some (rw, lw) /\ lw = bw / (568/10 * sqrt (235 / m_fy m) * cf_t s).
Proof. exact web_slenderness_lemma. Qed.
Print Assumptions C300_web_slenderness_value.
Theorem C304_kh_Z : forall s Iyz Iy e z g a, Iy <> 0 -> 0 < c_h s ->
  exists k, kh_Z s Iyz Iy (e, z) g a = Some k /\
    (g = true -> Rabs (k * c_h s) = Rabs (Iyz / Iy * (c_h s / 2 - z) + e) /\ (0 <= e -> k * c_h s = Iyz / Iy * (c_h s / 2 - z) + e) /\ (e < 0 -> k * c_h s = - (Iyz / Iy * (c_h s / 2 - z) + e))) /\
    (g = false -> Rabs (k * c_h s) = Rabs (Iyz / Iy * (c_h s / 2 - z) + (a - e)) /\
       (Iyz / Iy * (c_h s / 2 - z) <= a - e -> k * c_h s = - (Iyz / Iy * (c_h s / 2 - z) + (a - e))) /\
       (a - e < Iyz / Iy * (c_h s / 2 - z) -> k * c_h s = Iyz / Iy * (c_h s / 2 - z) + (a - e))).
Proof. exact kh_Z_lemma. Qed.
Print Assumptions C304_kh_Z.
Theorem C304_default_spring : forall m s kh afp g, 0 < c_a s ->
  Kspring m s kh afp 0 g = Kspring m s kh afp ((if g then 52/10 * (1855/1000) else 26/10) * Cold_model.cd_kba (c_a s) * Rpower (4/3) (11/10) * sqrt (4/5)) g.
Proof. exact Kspring_default_lemma. Qed.
Print Assumptions C304_default_spring.
Example C304_default_ex : 0 < c_a (ex_lip KZ).
Proof. cbn. lra. Qed.
Theorem C295_new_geometry : forall beamh tp bp etop ebot e, let g := new_geo beamh tp bp etop ebot e in
  eg_b g = bp /\ eg_t g = tp /\ eg_etop g = etop /\ eg_e g = e /\ eg_e g + eg_x g = bp / 2 /\ bolt_dist g = 2 * eg_x g.
Proof. exact new_geo_lemma. Qed.
Print Assumptions C295_new_geometry.
