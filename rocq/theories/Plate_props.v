(** C55 to C57, C96 to C99: EN 1993-1-5 rules. *)
From Verif Require Import Plate_spec Plate_proofs.

(** C55 *)
Theorem C55_internal_reduction : forall lp ps, ps <= 1 -> -3 < ps -> exists rho, reduction_factor_internal lp ps = Some rho /\ 0 < rho <= 1 /\
  (lp <= 1/2 + sqrt (85/1000 - 55/1000 * ps) -> rho = 1) /\
  (1/2 + sqrt (85/1000 - 55/1000 * ps) < lp -> rho = (lp - 55/1000 * (3 + ps)) / lp ^ 2 /\ rho < 1).
Proof. exact rho_internal_lemma. Qed.
Print Assumptions C55_internal_reduction.
Theorem C55_internal_monotone : forall lp lp' ps r r', -3 < ps <= 1 -> lp <= lp' ->
  reduction_factor_internal lp ps = Some r -> reduction_factor_internal lp' ps = Some r' -> r' <= r.
Proof. exact rho_internal_mono_lemma. Qed.
Print Assumptions C55_internal_monotone.
Theorem C55_outstand_reduction : forall lp, 0 < reduction_factor_outstand lp <= 1 /\ (lp <= 748/1000 -> reduction_factor_outstand lp = 1).
Proof. exact rho_outstand_lemma. Qed.
Print Assumptions C55_outstand_reduction.
Theorem C55_outstand_monotone : forall x y, x <= y -> reduction_factor_outstand y <= reduction_factor_outstand x.
Proof. exact rho_outstand_mono_lemma. Qed.
Print Assumptions C55_outstand_monotone.
Theorem C55_internal_width : forall b ps rho, 0 < b -> ps <= 1 -> 0 < rho <= 1 -> forall beff b1 b2,
  effective_width_internal b ps rho = (beff, (b1, b2)) ->
  b1 + b2 = beff /\ 0 < b1 /\ 0 < b2 /\ beff = rho * compressed b ps /\ beff <= compressed b ps /\ (rho = 1 -> beff = compressed b ps).
Proof. exact eff_internal_lemma. Qed.
Print Assumptions C55_internal_width.
Theorem C55_outstand_width : forall b ps rho, 0 < b -> 0 < rho <= 1 ->
  effective_width_outstand b ps rho = rho * compressed b ps /\ 0 < effective_width_outstand b ps rho <= compressed b ps.
Proof. exact eff_outstand_lemma. Qed.
Print Assumptions C55_outstand_width.
Example C55_ex : exists r, reduction_factor_internal 1 1 = Some r /\ r = 78/100.
Proof.
  destruct (rho_internal_lemma 1 1) as (r & E & _ & _ & H); [lra|lra|]. exists r. split; auto.
  assert (1/2 + sqrt (85/1000 - 55/1000 * 1) < 1).
  { assert (sqrt (85/1000 - 55/1000 * 1) < 1/2); [|lra]. rewrite <- (sqrt_pow2 (1/2)) by lra. apply sqrt_lt_1_alt. lra. }
  destruct (H H0) as (-> & _). field.
Qed.

(** C56 *)
Theorem C56_table : forall ps k, -3 < ps -> buckling_factor_internal ps = Some k -> Rabs (k - table41 ps) <= 2/100.
Proof. exact ks_table_lemma. Qed.
Print Assumptions C56_table.
Theorem C56_defined : forall ps, (exists k, buckling_factor_internal ps = Some k) <-> -3 < ps.
Proof. exact ks_defined_lemma. Qed.
Print Assumptions C56_defined.
Theorem C56_range : forall ps k, -3 < ps <= 1 -> buckling_factor_internal ps = Some k -> 4 <= k <= 96.
Proof. exact ks_positive_lemma. Qed.
Print Assumptions C56_range.
Theorem C56_no_jumps : forall p q kp kq, -3 < p <= 1 -> -3 < q <= 1 ->
  buckling_factor_internal p = Some kp -> buckling_factor_internal q = Some kq ->
  Rabs (kp - kq) <= 48 * Rabs (p - q) + 4/100.
Proof. exact ks_lipschitz_lemma. Qed.
Print Assumptions C56_no_jumps.
Example C56_ex : buckling_factor_internal 1 = Some 4.
Proof. unfold buckling_factor_internal, Reqb. destruct (Req_EM_T 1 1); [auto|lra]. Qed.

(** C57 *)
Theorem C57_range : forall sw eta post c, 77/100 <= eta -> 0 <= sw -> shear_buckling_reduction_factor sw eta post = Some c -> 0 < c <= eta.
Proof. exact shear_chi_lemma. Qed.
Print Assumptions C57_range.
Theorem C57_monotone : forall sw sw' eta post c c', 77/100 <= eta -> 0 <= sw <= sw' ->
  shear_buckling_reduction_factor sw eta post = Some c -> shear_buckling_reduction_factor sw' eta post = Some c' ->
  (post = Some false -> c' <= c) /\ c' <= c + 12/10000.
Proof. exact shear_chi_mono_lemma. Qed.
Print Assumptions C57_monotone.
Theorem C57_eta : forall fy, 77/100 <= shear_eta fy <= 12/10 /\ 1 <= shear_eta fy.
Proof. exact eta_lemma. Qed.
Print Assumptions C57_eta.
Theorem C57_end_post : forall sw eta, 77/100 <= eta ->
  (shear_buckling_reduction_factor sw eta None = None <-> 108/100 <= sw).
Proof. exact shear_bad_post_lemma. Qed.
Print Assumptions C57_end_post.
(** Finding: the printed constants make the rigid end post curve step up at 1.08. *)
Theorem C57_rigid_step_refuted : exists sw sw' c c', 0 <= sw < sw' /\
  shear_buckling_reduction_factor sw (12/10) (Some true) = Some c /\
  shear_buckling_reduction_factor sw' (12/10) (Some true) = Some c' /\ c < c'.
Proof. exact shear_chi_refuted_lemma. Qed.
Print Assumptions C57_rigid_step_refuted.
Example C57_ex : shear_buckling_reduction_factor 0 (12/10) (Some false) = Some (12/10).
Proof. unfold shear_buckling_reduction_factor, Rltb. destruct (Rlt_dec 0 _); auto. exfalso; lra. Qed.

(** C96 *)
Theorem C96_tip : forall ps, buckling_factor_outstand ps true = 57/100 - 21/100 * ps + 7/100 * ps ^ 2.
Proof. exact ko_tip_lemma. Qed.
Print Assumptions C96_tip.
Theorem C96_support_partial : forall ps, -1 < ps < 1 ->
  let k := buckling_factor_outstand ps false in
  (0 < ps -> k = 578/1000 / (ps + 34/100)) /\ (ps <= 0 -> k = 17/10 - 5 * ps + 171/10 * ps ^ 2) /\ 43/100 < k < 238/10.
Proof. exact ko_support_lemma. Qed.
Print Assumptions C96_support_partial.
(** Finding: uniform compression reported with the larger stress at the support. *)
Theorem C96_uniform_compression_refuted : buckling_factor_outstand 1 false = 238/10 /\
  forall d, 0 < d < 1 -> buckling_factor_outstand (1 - d) false <= 44/100 + 2 * d.
Proof. exact ko_support_refuted_lemma. Qed.
Print Assumptions C96_uniform_compression_refuted.
Example C96_ex : buckling_factor_outstand 1 true = 43/100.
Proof. rewrite ko_tip_lemma. lra. Qed.

(** C97 *)
Theorem C97_defined : forall b t eps ps, 0 < b -> 0 < t -> 0 < eps -> -3 < ps <= 1 ->
  exists w, plate_beff b t eps ps = Some w /\ 0 < w <= compressed b ps.
Proof. exact plate_defined_lemma. Qed.
Print Assumptions C97_defined.
Theorem C97_thickness : forall b t t' eps ps w w', 0 < b -> 0 < t <= t' -> 0 < eps -> -3 < ps <= 1 ->
  plate_beff b t eps ps = Some w -> plate_beff b t' eps ps = Some w' -> w <= w'.
Proof. exact plate_thickness_lemma. Qed.
Print Assumptions C97_thickness.
Theorem C97_width : forall b b' t eps ps w w', 0 < b <= b' -> 0 < t -> 0 < eps -> -3 < ps <= 1 ->
  plate_beff b t eps ps = Some w -> plate_beff b' t eps ps = Some w' -> w <= w'.
Proof. exact plate_width_lemma. Qed.
Print Assumptions C97_width.
Example C97_ex : exists w, plate_beff 300 6 1 1 = Some w /\ 0 < w <= 300.
Proof. destruct (plate_defined_lemma 300 6 1 1) as (w & E & H); try lra. exists w. split; auto. unfold compressed in H. destruct (Rlt_dec 1 0); lra. Qed.

(** C98 *)
Theorem C98_coefficient : forall hw a, 0 < hw -> 0 < a -> 534/100 <= shear_buckling_coefficient hw a.
Proof. exact ktau_lemma. Qed.
Print Assumptions C98_coefficient.
Theorem C98_coefficient_continuous : forall hw, 0 < hw -> shear_buckling_coefficient hw hw = 534/100 + 4 /\
  forall a, 0 < a -> (a < hw -> shear_buckling_coefficient hw a = 4 + 534/100 * (hw / a) ^ 2) /\
                     (hw <= a -> shear_buckling_coefficient hw a = 534/100 + 4 * (hw / a) ^ 2).
Proof. exact ktau_continuous_lemma. Qed.
Print Assumptions C98_coefficient_continuous.
Theorem C98_coefficient_monotone : forall hw a a', 0 < hw -> 0 < a <= a' -> shear_buckling_coefficient hw a' <= shear_buckling_coefficient hw a.
Proof. exact ktau_mono_lemma. Qed.
Print Assumptions C98_coefficient_monotone.
Theorem C98_resistance : forall fyw hw a t post v, 0 < hw -> 0 < a -> 0 < t -> 0 < fyw ->
  web_shear fyw hw a t post = Some v -> 0 < v <= shear_eta fyw * (hw * t) * fyw / sqrt 3.
Proof. exact web_shear_lemma. Qed.
Print Assumptions C98_resistance.
Theorem C98_thickness : forall fyw hw a t t' v v', 0 < hw -> 0 < a -> 0 < t <= t' -> 0 < fyw ->
  web_shear fyw hw a t (Some false) = Some v -> web_shear fyw hw a t' (Some false) = Some v' -> v <= v'.
Proof. exact web_shear_thickness_lemma. Qed.
Print Assumptions C98_thickness.
Example C98_ex : shear_buckling_coefficient 1000 1000 = 934/100.
Proof. destruct (ktau_continuous_lemma 1000) as (-> & _); lra. Qed.

(** C99: load cases (a) and (b) of EN 1993-1-5 6.1. *)
Theorem C99_range_partial : forall fyw hw tw fyf bf tf ss a ty c, tf_ok fyw hw tw fyf bf tf ss a -> ty <> Tc ->
  0 < transverse_force_resistance fyw hw tw fyf bf tf ss a ty c <= fyw * tw * spacing hw a.
Proof. exact tf_range_lemma. Qed.
Print Assumptions C99_range_partial.
Theorem C99_bearing_length_partial : forall fyw hw tw fyf bf tf ss ss' a ty c, tf_ok fyw hw tw fyf bf tf ss a -> ty <> Tc -> ss <= ss' ->
  transverse_force_resistance fyw hw tw fyf bf tf ss a ty c <= transverse_force_resistance fyw hw tw fyf bf tf ss' a ty c.
Proof. exact tf_bearing_lemma. Qed.
Print Assumptions C99_bearing_length_partial.
Example C99_ex : tf_ok 355 500 8 355 200 12 100 0.
Proof. unfold tf_ok. lra. Qed.
