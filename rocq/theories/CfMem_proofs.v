Require Import Reals List Bool Lra Lia Psatz.
Import ListNotations.
From Verif Require Import Base EC3_model Bool_tac EC3_spec EC3_proofs Plate_proofs.
From Verif Require Import CfMem_model CfMem_spec.
Local Open Scope R_scope.

Lemma cf_chi_eq a s : cf_chi a s = buckling_reduction_factor s a.
Proof. unfold cf_chi, buckling_reduction_factor. replace (5 / 10) with (1 / 2) by field. reflexivity. Qed.
Lemma cf_ncr_euler m I k : cf_ncr m I k = euler (f_E m * I) (f_L m * k).
Proof. unfold cf_ncr, euler. f_equal. ring. Qed.
Lemma euler_pos EI l : 0 < EI -> 0 < l -> 0 < euler EI l.
Proof. intros. unfold euler. apply Rdiv_lt_0_compat. apply Rmult_lt_0_compat; auto. apply pow_lt, PI_RGT_0. now apply pow_lt. Qed.
Lemma cf_axis m I k a : 0 < f_Aeff m -> 0 < f_fy m -> 0 < f_E m -> 0 < I -> 0 < f_L m -> 0 < k -> 0 <= a <= 1 ->
  exists r, cf_chi a (cf_slend m I k) = Some r /\ let N := f_Aeff m * f_fy m * r in
    reduced (f_Aeff m) (f_fy m) (euler (f_E m * I) (f_L m * k)) a N /\ 0 < N <= f_Aeff m * f_fy m /\ N <= euler (f_E m * I) (f_L m * k).
Proof.
  intros HA Hf HE HI HL Hk Ha. assert (P : 0 < euler (f_E m * I) (f_L m * k)) by (apply euler_pos; nra).
  assert (PN : 0 < f_Aeff m * f_fy m) by nra. set (l := cf_slend m I k). assert (L0 : 0 <= l) by apply sqrt_pos.
  assert (L2 : l ^ 2 * euler (f_E m * I) (f_L m * k) = f_Aeff m * f_fy m).
  { unfold l, cf_slend. rewrite cf_ncr_euler. rewrite pow2_sqrt. field. lra. left. apply Rdiv_lt_0_compat; auto. }
  destruct (chi_proper_lemma a l Ha L0) as (c&E&C1&C2&C3&C4). exists c. rewrite cf_chi_eq. split; auto. cbv zeta. split; [|split; [split|]].
  - exists l, c. repeat split; auto; try lra; try (intros; apply C4; assumption).
  - apply Rmult_lt_0_compat; lra.
  - nra.
  - rewrite <- L2. set (e := euler _ _) in *. replace (l ^ 2 * e * c) with (e * (c * l ^ 2)) by ring. assert (0 <= e * (1 - c * l ^ 2)) by (apply Rmult_le_pos; lra). lra.
Qed.
Lemma cf_strength_lemma : forall m, cf_ok m -> exists Ny Nz, cf_strength m = Some [Ny; Nz] /\
  reduced (f_Aeff m) (f_fy m) (euler (f_E m * f_Iy m) (f_L m * f_ky m)) (f_ay m) Ny /\ reduced (f_Aeff m) (f_fy m) (euler (f_E m * f_Iz m) (f_L m * f_kz m)) (f_az m) Nz /\
  0 < Ny <= f_Aeff m * f_fy m /\ 0 < Nz <= f_Aeff m * f_fy m /\ Ny <= euler (f_E m * f_Iy m) (f_L m * f_ky m) /\ Nz <= euler (f_E m * f_Iz m) (f_L m * f_kz m).
Proof.
  intros m (A1&A2&A3&A4&A5&A6&A7&A8&A9&A10&A11&A12&A13&A14).
  destruct (cf_axis m (f_Iy m) (f_ky m) (f_ay m) A1 A2 A3 A5 A12 A13 A10) as (ry&E1&R1&B1&C1).
  destruct (cf_axis m (f_Iz m) (f_kz m) (f_az m) A1 A2 A3 A6 A12 A14 A11) as (rz&E2&R2&B2&C2).
  exists (f_Aeff m * f_fy m * ry), (f_Aeff m * f_fy m * rz). unfold cf_strength. rewrite E1, E2. cbn [bind]. split; [reflexivity|]. repeat split; auto; try apply B1; try apply B2.
Qed.
Lemma slend_mono m L' I k : cf_ok m -> 0 < I -> 0 < k -> f_L m <= L' -> 0 <= cf_slend m I k <= cf_slend (with_length m L') I k.
Proof.
  intros (A1&A2&A3&A4&A5&A6&A7&A8&A9&A10&A11&A12&A13&A14) HI Hk HL. split; [apply sqrt_pos|]. unfold cf_slend. apply sqrt_le_1_alt. rewrite !cf_ncr_euler. cbn [with_length f_Aeff f_fy f_E f_L].
  assert (P1 : 0 < euler (f_E m * I) (f_L m * k)) by (apply euler_pos; nra). assert (P2 : 0 < euler (f_E m * I) (L' * k)) by (apply euler_pos; nra).
  apply Rmult_le_compat_l; [nra|]. apply Rinv_le_contravar; auto. unfold euler. apply Rmult_le_compat_l. left. apply Rmult_lt_0_compat; [apply pow_lt, PI_RGT_0|nra].
  apply Rinv_le_contravar. apply pow_lt; nra. apply pow_incr. nra.
Qed.
Lemma cf_longer_lemma : forall m L' Ny Nz Ny' Nz', cf_ok m -> f_L m <= L' -> cf_strength m = Some [Ny; Nz] -> cf_strength (with_length m L') = Some [Ny'; Nz'] -> Ny' <= Ny /\ Nz' <= Nz.
Proof.
  intros m L' Ny Nz Ny' Nz' OK HL E E'. pose proof OK as (A1&A2&A3&A4&A5&A6&A7&A8&A9&A10&A11&A12&A13&A14).
  pose proof (slend_mono m L' (f_Iy m) (f_ky m) OK A5 A13 HL) as S1. pose proof (slend_mono m L' (f_Iz m) (f_kz m) OK A6 A14 HL) as S2.
  unfold cf_strength in E, E'. rewrite !cf_chi_eq in *. cbn [with_length f_Aeff f_fy f_ay f_az f_ky f_kz f_Iy f_Iz] in E'.
  destruct (buckling_reduction_factor (cf_slend m (f_Iy m) (f_ky m)) (f_ay m)) as [a|] eqn:Q1; try discriminate.
  destruct (buckling_reduction_factor (cf_slend m (f_Iz m) (f_kz m)) (f_az m)) as [b|] eqn:Q2; try discriminate.
  destruct (buckling_reduction_factor (cf_slend (with_length m L') (f_Iy m) (f_ky m)) (f_ay m)) as [c|] eqn:Q3; try discriminate.
  destruct (buckling_reduction_factor (cf_slend (with_length m L') (f_Iz m) (f_kz m)) (f_az m)) as [d|] eqn:Q4; try discriminate.
  cbn [bind] in E, E'. injection E as <- <-. injection E' as <- <-.
  pose proof (chi_mono_lemma (f_ay m) (f_ay m) _ _ a c ltac:(lra) ltac:(lra) S1 Q1 Q3). pose proof (chi_mono_lemma (f_az m) (f_az m) _ _ b d ltac:(lra) ltac:(lra) S2 Q2 Q4).
  assert (0 < f_Aeff m * f_fy m) by nra. split; apply Rmult_le_compat_l; lra.
Qed.
Lemma cf_Sreq_lemma : forall m, cf_ok m -> cf_Sreq m = 70 / f_h m ^ 2 * (euler (f_E m * f_Iw m) (f_L m) + f_G m * f_It m + (f_h m / 2) ^ 2 * euler (f_E m * f_Iz m) (f_L m)).
Proof. intros m (A1&A2&A3&A4&A5&A6&A7&A8&A9&A10&A11&A12&A13&A14). unfold cf_Sreq, euler. field. lra. Qed.
Lemma cf_Sreq_length_lemma : forall m L', cf_ok m -> f_L m < L' -> 70 / f_h m ^ 2 * (f_G m * f_It m) < cf_Sreq (with_length m L') < cf_Sreq m.
Proof.
  intros m L' OK HL. pose proof OK as (A1&A2&A3&A4&A5&A6&A7&A8&A9&A10&A11&A12&A13&A14).
  rewrite (cf_Sreq_lemma m OK), cf_Sreq_lemma by (repeat split; simpl; auto; lra). cbn [with_length f_E f_Iw f_G f_It f_Iz f_h f_L].
  assert (H : 0 < 70 / f_h m ^ 2) by (apply Rdiv_lt_0_compat; [lra|now apply pow_lt]).
  assert (Q : 0 < (f_h m / 2) ^ 2) by (apply pow_lt; lra).
  assert (E : forall EI, 0 < EI -> 0 < euler EI L' < euler EI (f_L m)).
  { intros EI P. split. apply euler_pos; lra. unfold euler. apply Rmult_lt_compat_l. apply Rmult_lt_0_compat; auto. apply pow_lt, PI_RGT_0.
    apply Rinv_lt_contravar. apply Rmult_lt_0_compat; apply pow_lt; lra. simpl. nra. }
  assert (W : 0 <= euler (f_E m * f_Iw m) L' <= euler (f_E m * f_Iw m) (f_L m)).
  { destruct A8 as [A8|A8]. specialize (E (f_E m * f_Iw m) ltac:(nra)). lra. rewrite <- A8. unfold euler. rewrite !Rmult_0_r. unfold Rdiv. rewrite !Rmult_0_l. lra. }
  specialize (E (f_E m * f_Iz m) ltac:(nra)). set (e1 := euler (f_E m * f_Iz m) L') in *. set (e2 := euler (f_E m * f_Iz m) (f_L m)) in *.
  assert (0 < (f_h m / 2) ^ 2 * e1) by nra. assert ((f_h m / 2) ^ 2 * e1 < (f_h m / 2) ^ 2 * e2) by nra. split; apply Rmult_lt_compat_l; lra.
Qed.
