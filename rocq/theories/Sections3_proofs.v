From Verif Require Import Sections_spec Sections_proofs Sections2_proofs Plate_proofs.
Require Import Psatz.

(* ------------------------------------------------------------ edits of a welded section *)
Lemma wi_edit_props_lemma fy d1 d2 es1 es2 p :
  o_dims (wi_edits es1 (wi_new d1)) = o_dims (wi_edits es2 (wi_new d2)) ->
  wi_get fy p (wi_edits es1 (wi_new d1)) = wi_get fy p (wi_edits es2 (wi_new d2)).
Proof. intros E. unfold wi_get. rewrite E. reflexivity. Qed.

Lemma wi_edit_fresh_lemma fy d es p :
  wi_get fy p (wi_edits es (wi_new d)) = wi_get fy p (wi_new (o_dims (wi_edits es (wi_new d)))).
Proof. reflexivity. Qed.

Lemma edits_snoc es k v o : wi_edits (es ++ [(k, v)]) o = wi_set k v (wi_edits es o).
Proof. unfold wi_edits. rewrite fold_left_app. reflexivity. Qed.

Lemma wi_readback_lemma d es v :
  let o := wi_edits es (wi_new d) in let g k := o_dims (wi_edits (es ++ [(k, v)]) (wi_new d)) in
  (w_h (g ah) = v) /\ (w_tw (g atw) = v) /\ (w_bt (g abt) = v /\ w_bb (g abt) = w_bb (o_dims o)) /\
  (w_bb (g abb) = v /\ w_bt (g abb) = w_bt (o_dims o)) /\ (w_tt (g att) = v /\ w_tb (g att) = w_tb (o_dims o)) /\
  (w_tb (g atb) = v /\ w_tt (g atb) = w_tt (o_dims o)) /\
  (w_bt (g ab) = v /\ w_bb (g ab) = v) /\ (w_tt (g atf) = v /\ w_tb (g atf) = v) /\
  (w_h (g ahw) - w_tt (g ahw) - w_tb (g ahw) = v /\ w_tt (g ahw) = w_tt (o_dims o) /\ w_tb (g ahw) = w_tb (o_dims o)).
Proof. intros o g. unfold g. rewrite !edits_snoc. fold o. cbn. repeat split; lra. Qed.

Lemma wi_imp_stale_lemma d es : o_imp (wi_edits es (wi_new d)) = wi_imp d.
Proof.
  assert (K : forall es o, o_imp (wi_edits es o) = o_imp o).
  { clear. induction es as [|[k v] es IH]; intros o; [reflexivity|]. unfold wi_edits in *. cbn [fold_left]. rewrite IH. reflexivity. }
  rewrite K. reflexivity.
Qed.

Lemma wi_imp_refuted_lemma : exists d es, wi_valid d /\ wi_valid (o_dims (wi_edits es (wi_new d))) /\
  o_imp (wi_edits es (wi_new d)) <> o_imp (wi_new (o_dims (wi_edits es (wi_new d)))).
Proof.
  exists (mkWi 1000 10 300 300 40 40 5), [(atf, 50)]. repeat split; cbn; try lra.
  unfold wi_imp. cbn [w_tt w_tb w_h w_bt w_bb].
  assert (Rleb (Rmax 40 40) 40 = true) as -> by (apply Rleb_true; rewrite Rmax_left; lra).
  assert (Rleb (Rmax 50 50) 40 = false) as -> by (apply Rleb_false; rewrite Rmax_left; lra).
  intros E. injection E as E1 E2. unfold buckling_curve in *. lra.
Qed.

(* ------------------------------------------------------------ symmetry *)
Lemma sym_zel d : wi_valid d -> doubly_symmetric d -> zel d = w_h d / 2.
Proof.
  intros V (s1 & s2). destruct (wi_area_pos d V) as (p1 & p2 & p3 & p4).
  unfold zel. apply Rmult_eq_reg_r with (wi_area d); [|lra].
  replace ((zb d * Ab d + zw d * Aw d + zt d * At d) / wi_area d * wi_area d) with (zb d * Ab d + zw d * Aw d + zt d * At d) by (field; lra).
  unfold zb, zw, zt, wi_area, Ab, At, Aw, hw. rewrite s1, s2. field.
Qed.

Lemma wi_Iz_pos d : wi_valid d -> 0 < wi_Iz d.
Proof.
  intros (v1 & v2 & v3 & v4 & v5 & v6). unfold wi_Iz. change (0 < hw d) in v6.
  assert (0 < w_tb d * w_bb d ^ 3) by (apply Rmult_lt_0_compat; [auto|apply pow_lt; auto]).
  assert (0 < w_tt d * w_bt d ^ 3) by (apply Rmult_lt_0_compat; [auto|apply pow_lt; auto]).
  assert (0 < hw d * w_tw d ^ 3) by (apply Rmult_lt_0_compat; [auto|apply pow_lt; auto]). lra.
Qed.

Lemma shear_centre_lemma d : wi_valid d -> doubly_symmetric d -> wi_zs d = 0.
Proof.
  intros V D. pose proof (sym_zel d V D) as Z. pose proof (wi_Iz_pos d V) as P. destruct D as (s1 & s2).
  unfold wi_zs. rewrite Z. apply Rmult_eq_reg_r with (wi_Iz d); [|lra].
  unfold Rdiv at 1. rewrite Rmult_assoc, Rinv_l by lra.
  unfold Izt, Izb, zt, zb, zw, hw. rewrite s1, s2. field.
Qed.

Lemma wagner_lemma d : wi_valid d -> doubly_symmetric d -> wi_zj d < 0.
Proof.
  intros V D. unfold wi_zj. rewrite (shear_centre_lemma d V D). destruct (inertia_lemma d V) as (_ & IP & _).
  destruct (wi_area_pos d V) as (p1 & p2 & p3 & p4). destruct V as (v1 & v2 & v3 & v4 & v5 & v6). change (0 < hw d) in v6.
  assert (0 < zb d) by (unfold zb; lra). assert (0 < zw d) by (unfold zw; lra). assert (0 < zt d) by (unfold zt, hw in *; lra).
  assert (P : forall a b, 0 < a -> 0 < b -> 0 < a * b ^ 3 / 12) by (intros; apply Rdiv_lt_0_compat; [apply Rmult_lt_0_compat; [auto|apply pow_lt; auto]|lra]).
  assert (0 < Izt d) by (apply P; auto). assert (0 < Izb d) by (apply P; auto). assert (0 < Izw d) by (apply P; auto).
  assert (0 < Iyt d) by (apply P; auto). assert (0 < Iyb d) by (apply P; auto). assert (0 < Iyw d) by (apply P; auto).
  assert (Q : forall z I1 A I2, 0 < z -> 0 < I1 -> 0 < A -> 0 < I2 -> 0 < z * (I1 + A * z ^ 2 + 3 * I2)).
  { intros. apply Rmult_lt_0_compat; auto. assert (0 < A * z ^ 2) by (apply Rmult_lt_0_compat; [auto|apply pow_lt; auto]). lra. }
  assert (S1 := Q (zt d) (Izt d) (At d) (Iyt d) ltac:(auto) ltac:(auto) ltac:(auto) ltac:(auto)).
  assert (S2 := Q (zb d) (Izb d) (Ab d) (Iyb d) ltac:(auto) ltac:(auto) ltac:(auto) ltac:(auto)).
  assert (S3 := Q (zw d) (Izw d) (Aw d) (Iyw d) ltac:(auto) ltac:(auto) ltac:(auto) ltac:(auto)).
  assert (0 < 1 / (2 * wi_Iy d)) by (apply Rdiv_lt_0_compat; lra).
  match goal with |- 0 - ?a * ?b < 0 => assert (0 < a * b) by (apply Rmult_lt_0_compat; lra) end. lra.
Qed.

Lemma flip_lemma d : wi_valid d ->
  wi_area (flip d) = wi_area d /\ zel (flip d) = w_h d - zel d /\ zpl (flip d) = w_h d - zpl d /\
  wi_Iy (flip d) = wi_Iy d /\ wi_Iz (flip d) = wi_Iz d /\ wi_Wely (flip d) = wi_Wely d /\ wi_Welz (flip d) = wi_Welz d /\
  wi_Wply (flip d) = wi_Wply d /\ wi_Wplz (flip d) = wi_Wplz d /\ wi_It (flip d) = wi_It d /\ wi_zs (flip d) = - wi_zs d.
Proof.
  intros V. destruct (wi_area_pos d V) as (p1 & p2 & p3 & p4). pose proof (wi_Iz_pos d V) as PZ.
  assert (Hw : hw (flip d) = hw d) by (unfold hw; cbn; ring).
  assert (HA : Aw (flip d) = Aw d) by (unfold Aw; rewrite Hw; reflexivity).
  assert (A : wi_area (flip d) = wi_area d) by (unfold wi_area; rewrite HA; unfold At, Ab; cbn; ring).
  assert (Z1 : zb (flip d) = w_h d - zt d) by (unfold zb, zt; cbn; ring).
  assert (Z2 : zt (flip d) = w_h d - zb d) by (unfold zb, zt; cbn; ring).
  assert (Z3 : zw (flip d) = w_h d - zw d) by (unfold zw; rewrite Hw; unfold hw; cbn; field).
  assert (ZE : zel (flip d) = w_h d - zel d).
  { unfold zel. rewrite A, HA, Z1, Z2, Z3. change (Ab (flip d)) with (At d). change (At (flip d)) with (Ab d).
    transitivity ((w_h d * wi_area d - (zb d * Ab d + zw d * Aw d + zt d * At d)) / wi_area d); [f_equal; unfold wi_area; ring|field; lra]. }
  assert (IY : wi_Iy (flip d) = wi_Iy d).
  { unfold wi_Iy. rewrite ZE, Z1, Z2, Z3, HA, Hw. change (Ab (flip d)) with (At d). change (At (flip d)) with (Ab d). cbn. ring. }
  assert (IZ : wi_Iz (flip d) = wi_Iz d) by (unfold wi_Iz; rewrite Hw; cbn; ring).
  assert (VF : wi_valid (flip d)) by (destruct V as (v1 & v2 & v3 & v4 & v5 & v6); unfold wi_valid; cbn; repeat split; auto; lra).
  assert (ZP : zpl (flip d) = w_h d - zpl d).
  { unfold zpl. rewrite A. change (Ab (flip d)) with (At d). change (At (flip d)) with (Ab d). cbn [flip w_h w_bt w_bb w_tw w_tb].
    destruct V as (v1 & v2 & v3 & v4 & v5 & v6).
    destruct (Rleb (wi_area d / 2) (At d)) eqn:E1; destruct (Rleb (wi_area d / 2) (Ab d)) eqn:E2;
      try (apply Rleb_true in E1); try (apply Rleb_false in E1); try (apply Rleb_true in E2); try (apply Rleb_false in E2).
    - unfold wi_area in E1, E2. lra.
    - ring.
    - ring.
    - unfold wi_area, At, Ab, Aw, hw. field. lra. }
  split; [exact A|]. split; [exact ZE|]. split; [exact ZP|]. split; [exact IY|]. split; [exact IZ|].
  split. { unfold wi_Wely. rewrite IY, ZE. cbn [flip w_h]. f_equal. rewrite Rmax_comm. f_equal. ring. }
  split. { unfold wi_Welz. rewrite IZ. cbn [flip w_bt w_bb]. rewrite Rmax_comm. reflexivity. }
  split. { rewrite (wpl_lemma d V), (wpl_lemma _ VF), ZP. unfold over, wi_plates. cbn [flip map fold_right w_h w_bt w_bb w_tw w_tb w_tt].
    assert (M : forall w lo hi, lo <= hi -> slab_abs (w_h d - zpl d) (mkSlab w (w_h d - hi) (w_h d - lo)) = slab_abs (zpl d) (mkSlab w lo hi)).
    { intros w lo hi L. destruct (Rle_dec (zpl d) lo) as [q1|q1]; [|destruct (Rle_dec hi (zpl d)) as [q2|q2]].
      - rewrite slab_abs_full by (cbn; lra). rewrite slab_abs_none by (cbn; lra). unfold slab_first. cbn. field.
      - rewrite slab_abs_none by (cbn; lra). rewrite slab_abs_full by (cbn; lra). unfold slab_first. cbn. field.
      - rewrite !slab_abs_part by (cbn; lra). cbn. field. }
    destruct V as (v1 & v2 & v3 & v4 & v5 & v6).
    rewrite <- (M (w_bb d) 0 (w_tb d)) by lra. rewrite <- (M (w_tw d) (w_tb d) (w_h d - w_tt d)) by lra. rewrite <- (M (w_bt d) (w_h d - w_tt d) (w_h d)) by lra.
    replace (w_h d - w_h d) with 0 by ring. replace (w_h d - (w_h d - w_tt d)) with (w_tt d) by ring. replace (w_h d - 0) with (w_h d) by ring. ring. }
  split. { unfold wi_Wplz. rewrite HA. change (Ab (flip d)) with (At d). change (At (flip d)) with (Ab d). cbn. ring. }
  split. { unfold wi_It. rewrite Hw. cbn. ring. }
  unfold wi_zs. rewrite IZ, ZE, Z1, Z2, Z3. unfold Izt, Izb, Izw. rewrite Hw. cbn [flip w_tt w_tb w_bt w_bb w_tw]. field. lra.
Qed.

Lemma flip_paint_refuted_lemma d : wi_paint (flip d) - wi_paint d = w_bt d - w_bb d.
Proof. unfold wi_paint, hw. cbn. ring. Qed.

(* ------------------------------------------------------------ perimeter *)
Lemma wi_paint_lemma d : wi_paint d = i_outline (w_h d) (w_bt d) (w_bb d) (w_tt d) (w_tb d) (w_tw d) - w_bt d.
Proof. unfold wi_paint, i_outline, hw. ring. Qed.
Lemma i_paint_lemma b h tf tw r : I_paint b h tf tw r = i_outline h b b tf tf tw - 4 * (2 * r - PI * r / 2) - 2 * tw.
Proof. unfold I_paint, i_outline. field. Qed.

(* ------------------------------------------------------------ effective area *)
Lemma sqrt43 : 65/100 < sqrt (43/100).
Proof. rewrite <- (sqrt_pow2 (65/100)) by lra. apply sqrt_lt_1_alt. lra. Qed.
Lemma sqrt03 : 17/100 < sqrt (85/1000 - 55/1000 * 1).
Proof. rewrite <- (sqrt_pow2 (17/100)) by lra. apply sqrt_lt_1_alt. lra. Qed.

Lemma eff_flange_full eps c t : 0 < eps -> 0 < t -> c / t <= 10 * eps -> eff_flange eps c t = Some 0.
Proof.
  intros e t0 L. unfold eff_flange, lambda_p, buckling_factor_outstand.
  assert (Reqb 1 1 = true) as -> by (apply Reqb_true; auto).
  rewrite pdiv_ok by lra. cbn [bind]. rewrite pdiv_ok by lra. cbn [bind].
  unfold psqrt. assert (Rltb (43/100) 0 = false) as -> by (apply Rltb_false; lra). cbn [bind].
  pose proof sqrt43. rewrite pdiv_ok by lra. cbn [bind]. f_equal. unfold reduction_factor_outstand.
  assert (Rleb (c / t / (284 / 10) / eps / sqrt (43 / 100)) (748 / 1000) = true) as ->; [|ring].
  apply Rleb_true. apply Rmult_le_reg_r with (sqrt (43/100)); [lra|]. unfold Rdiv at 1. rewrite Rmult_assoc, Rinv_l by lra.
  apply Rmult_le_reg_r with eps; auto. 
  replace (c / t / (284 / 10) / eps * 1 * eps) with (c / t / (284/10)) by (field; lra). nra.
Qed.

Lemma aeff_lemma eps d : wi_valid d -> doubly_symmetric d -> 0 < eps -> 0 <= cw d ->
  cf_top d / w_tt d <= 10 * eps -> cw d / w_tw d <= 38 * eps ->
  exists e, wi_Aeff eps d eff0 = Some (wi_area d + cw d * w_tw d / 2, e).
Proof.
  intros V D e C F W. pose proof (sym_zel d V D) as Z. pose proof D as (s1 & s2).
  assert (F2 : cf_bottom d / w_tb d <= 10 * eps) by (unfold cf_bottom, cf_top in *; rewrite s1, s2 in F; exact F).
  destruct (wi_area_pos d V) as (p1 & p2 & p3 & p4). pose proof V as (v1 & v2 & v3 & v4 & v5 & v6).
  unfold wi_Aeff. rewrite !eff_flange_full by auto. cbn [bind].
  unfold eff_web. unfold buckling_factor_internal. assert (Reqb 1 1 = true) as -> by (apply Reqb_true; auto). cbn [bind].
  unfold lambda_p. rewrite pdiv_ok by lra. cbn [bind]. rewrite pdiv_ok by lra. cbn [bind].
  unfold psqrt. assert (Rltb 4 0 = false) as -> by (apply Rltb_false; lra). cbn [bind].
  assert (S4 : sqrt 4 = 2) by (replace 4 with (2 ^ 2) by ring; apply sqrt_pow2; lra). rewrite S4.
  rewrite pdiv_ok by lra. cbn [bind]. unfold reduction_factor_internal, psqrt.
  assert (Rltb (85 / 1000 - 55 / 1000 * 1) 0 = false) as -> by (apply Rltb_false; lra). cbn [bind].
  pose proof sqrt03.
  assert (Rleb (cw d / w_tw d / (284 / 10) / eps / 2) (1 / 2 + sqrt (85 / 1000 - 55 / 1000 * 1)) = true) as ->.
  { apply Rleb_true. apply Rle_trans with (67/100); [|lra]. apply Rmult_le_reg_r with eps; auto.
    replace (cw d / w_tw d / (284 / 10) / eps / 2 * eps) with (cw d / w_tw d / (284/10) / 2) by (field; lra). lra. }
  cbn [bind]. unfold effective_width_internal.
  assert (Rltb (Rabs (1 - 1)) (1 / 1000000) = true) as ->.
  { apply Rltb_true. replace (1 - 1) with 0 by ring. rewrite Rabs_R0. lra. }
  cbn [bind fst snd e_top e_bot e_web e_be eff0].
  eexists. apply f_equal. apply f_equal2; [|reflexivity].
  assert (X : eff_axis d (mkEff 0 0 0 (1 / 2 * (1 * cw d))) = zel d).
  { unfold eff_axis, zel. cbn [e_top e_bot e_web e_be].
    replace (wi_area d - 2 * 0 * w_tb d - 2 * 0 * w_tt d - 0 * w_tw d) with (wi_area d) by ring. f_equal. ring. }
  rewrite X, Z. unfold cw. rewrite <- s2. unfold hw. rewrite <- s2. field.
Qed.

(* ------------------------------------------------------------ WQ *)
Lemma wq_area_pos d : wq_valid d -> 0 < q_Aw d /\ 0 < q_At d /\ 0 < q_Ab d /\ 0 < wq_area d.
Proof.
  intros (v1 & v2 & v3 & v4 & v5 & v6). unfold wq_area, q_Aw, q_At, q_Ab.
  assert (0 < q_h d * q_tw d) by nra. assert (0 < q_bt d * q_tt d) by nra. assert (0 < q_bb d * q_tb d) by nra. lra.
Qed.
Lemma wq_centroid_lemma d : wq_valid d -> over (slab_first (wq_zel d)) (wq_plates d) = q_zw d * q_Aw d /\ 0 < q_zw d * q_Aw d.
Proof.
  intros V. destruct (wq_area_pos d V) as (p1 & p2 & p3 & p4). destruct V as (v1 & v2 & v3 & v4 & v5 & v6).
  assert (E : wq_zel d * wq_area d = q_zb d * q_Ab d + q_zw d * q_Aw d + q_zt d * q_At d) by (unfold wq_zel; field; lra).
  split.
  - unfold over, wq_plates. cbn [map fold_right]. unfold slab_first. cbn [s_w s_lo s_hi].
    transitivity (q_zb d * q_Ab d + 2 * q_zw d * q_Aw d + q_zt d * q_At d - wq_zel d * wq_area d); [|lra].
    unfold q_zb, q_zw, q_zt, wq_area, q_Aw, q_At, q_Ab. field.
  - apply Rmult_lt_0_compat; auto. unfold q_zw. lra.
Qed.
Lemma wq_pna_lemma d : wq_valid d -> 0 <= wq_zpl d <= q_h d - q_tt d ->
  over (slab_below (q_tb d + q_h d - q_tt d - wq_zpl d)) (wq_plates d) = over (fun s => s_w s * (s_hi s - s_lo s)) (wq_plates d) / 2.
Proof.
  intros (v1 & v2 & v3 & v4 & v5 & v6) Z. set (p := q_tb d + q_h d - q_tt d - wq_zpl d).
  unfold over, wq_plates. cbn [map fold_right].
  rewrite slab_below_full by (cbn; unfold p; lra). rewrite slab_below_part by (cbn; unfold p; lra).
  rewrite slab_below_none by (cbn; unfold p; lra). cbn [s_w s_lo s_hi].
  unfold p, wq_zpl, q_hw, q_At, q_Ab. field. lra.
Qed.
Lemma wq_modulus_lemma d : wq_valid d -> q_tb d < q_bb d -> 0 < wq_zel d -> wq_zel d < q_h d + q_bb d - wq_zel d -> 0 < wq_Iy d ->
  wq_Wely d < wq_Iy d / Rmax (wq_zel d) (q_h d + q_tb d - wq_zel d).
Proof.
  intros V B Z1 Z2 I1. unfold wq_Wely. rewrite (Rmax_right (wq_zel d) (q_h d + q_bb d - wq_zel d)) by lra.
  pose proof (Rmax_l (wq_zel d) (q_h d + q_tb d - wq_zel d)) as M1.
  assert (Rmax (wq_zel d) (q_h d + q_tb d - wq_zel d) < q_h d + q_bb d - wq_zel d) by (apply Rmax_lub_lt; lra).
  unfold Rdiv. apply Rmult_lt_compat_l; auto. apply Rinv_lt_contravar; [|auto]. apply Rmult_lt_0_compat; lra.
Qed.

(* ------------------------------------------------------------ CHS *)
Lemma chs_lemma D T : 0 < T -> 2 * T < D ->
  CHS_torsion_modulus D T = 2 * CHS_second_moment D T /\ CHS_elastic_modulus D T = CHS_second_moment D T / (D / 2) /\
  CHS_elastic_modulus D T < CHS_plastic_modulus D T /\
  0 < CHS_area D T < PI * (D / 2) ^ 2 /\ CHS_area D T = PI * (D / 2) ^ 2 - PI * ((D - 2 * T) / 2) ^ 2 /\
  CHS_area D T = PI * (D - T) * T /\ 0 < CHS_shear_area D T < CHS_area D T.
Proof.
  intros t d. pose proof PI3. pose proof PI_4.
  assert (A1 : CHS_area D T = PI * (D - T) * T) by (unfold CHS_area; field).
  assert (0 < PI * (D - T) * T) by (apply Rmult_lt_0_compat; nra).
  split; [unfold CHS_torsion_modulus, CHS_second_moment; field|].
  split; [unfold CHS_elastic_modulus; f_equal; field|].
  split.
  { unfold CHS_elastic_modulus, CHS_plastic_modulus, CHS_second_moment.
    apply Rmult_lt_reg_r with (1/2 * D); [lra|].
    match goal with |- ?x / ?y * _ < _ => replace (x / y * y) with x by (field; lra) end.
    set (q := D - 2 * T). assert (T = (D - q) / 2) by (unfold q; lra). assert (0 < q < D) by (unfold q; lra). rewrite H2. clearbody q. clear H2.
    assert (P4 : 0 < D ^ 4 - q ^ 4). { replace (D ^ 4 - q ^ 4) with ((D - q) * (D + q) * (D ^ 2 + q ^ 2)) by ring. repeat apply Rmult_lt_0_compat; nra. }
    replace (1 / 4 * PI * ((1 / 2 * D) ^ 4 - (1 / 2 * D - (D - q) / 2) ^ 4)) with (PI * (D ^ 4 - q ^ 4) / 64) by field.
    assert (PI * (D ^ 4 - q ^ 4) <= 4 * (D ^ 4 - q ^ 4)) by (apply Rmult_le_compat_r; lra).
    assert (0 < D * (D ^ 3 - q ^ 3) / 12 - (D ^ 4 - q ^ 4) / 16); [|lra].
    replace (D * (D ^ 3 - q ^ 3) / 12 - (D ^ 4 - q ^ 4) / 16) with ((D - q) * ((D - q) * (D ^ 2 + 2 * D * q + 3 * q ^ 2)) / 48) by field.
    apply Rdiv_lt_0_compat; [|lra]. apply Rmult_lt_0_compat; [lra|]. apply Rmult_lt_0_compat; nra. }
  split. { rewrite A1. split; auto. assert (0 < PI * (D / 2 - T) ^ 2) by (apply Rmult_lt_0_compat; [lra|apply pow_lt; lra]). lra. }
  split; [unfold CHS_area; field|]. split; [exact A1|].
  unfold CHS_shear_area. rewrite A1. split; [apply Rdiv_lt_0_compat; lra|].
  apply Rmult_lt_reg_r with PI; [lra|]. unfold Rdiv. rewrite Rmult_assoc, Rinv_l by lra. nra.
Qed.

(* ------------------------------------------------------------ section class and resistance *)
Lemma class_lemma Ned Med c :
  (Ned < 0 -> Rabs Med < 1/10000 -> section_class Ned Med c = Nat.max (c_comp c) (c_flange c)) /\
  (Ned <= -1/10000 -> 1/10000 <= Rabs Med -> section_class Ned Med c = Nat.max (c_comp_bend c) (c_flange c)) /\
  (Rabs Ned < 1/10000 -> 1/10000 < Rabs Med -> section_class Ned Med c = Nat.max (c_bend c) (c_flange c)) /\
  (0 <= Ned -> Rabs Med < 1/10000 -> section_class Ned Med c = 1%nat).
Proof.
  unfold section_class, Rleb, Rltb, Reqb.
  repeat match goal with |- context[Rle_dec ?a ?b] => destruct (Rle_dec a b) | |- context[Rlt_dec ?a ?b] => destruct (Rlt_dec a b) | |- context[Req_EM_T ?a ?b] => destruct (Req_EM_T a b) end;
  cbn [andb orb]; destruct (Rabs_facts Ned); destruct (Rabs_facts Med); repeat split; intros; try reflexivity; try lra.
Qed.

Lemma class_refuted_lemma Ned Med c : 1/10000 <= Ned -> 1/10000 < Rabs Med -> section_class Ned Med c = 1%nat.
Proof.
  intros N M. assert (Med <> 0) by (intros ->; rewrite Rabs_R0 in M; lra).
  unfold section_class, Rleb, Rltb, Reqb.
  repeat match goal with |- context[Rle_dec ?a ?b] => destruct (Rle_dec a b) | |- context[Rlt_dec ?a ?b] => destruct (Rlt_dec a b) | |- context[Req_EM_T ?a ?b] => destruct (Req_EM_T a b) end;
  cbn [andb orb]; destruct (Rabs_facts Ned); destruct (Rabs_facts Med); try reflexivity; try lra.
Qed.

(** A tiny tension raises the bending resistance of a class 4 section to its plastic one. *)
Lemma class_jump_lemma c Med Wpl Wel fy : (3 <= c_bend c)%nat -> 1/10000 < Rabs Med -> Wel < Wpl -> 0 < fy ->
  section_MRd (section_class 0 Med c) Wpl Wel fy < section_MRd (section_class (1/10000) Med c) Wpl Wel fy.
Proof.
  intros C M W f. rewrite (class_refuted_lemma (1/10000) Med c) by lra.
  destruct (class_lemma 0 Med c) as (_ & _ & H & _). rewrite H by (rewrite ?Rabs_R0; lra).
  unfold section_MRd. assert (Nat.ltb (Nat.max (c_bend c) (c_flange c)) 3 = false) as -> by (apply Nat.ltb_ge; lia).
  cbn [Nat.ltb Nat.leb]. unfold bending_resistance, gammaM0. nra.
Qed.

Lemma div_le1 a b : 0 < b -> (a / b <= 1 <-> a <= b).
Proof.
  intros h. split; intros H.
  - apply Rmult_le_compat_r with (r := b) in H; [|lra]. replace (a / b * b) with a in H by (field; lra). lra.
  - apply Rmult_le_reg_r with b; auto. replace (a / b * b) with a by (field; lra). lra.
Qed.
Lemma div_nn a b : 0 <= a -> 0 < b -> 0 <= a / b.
Proof. intros. unfold Rdiv. apply Rmult_le_pos; [auto|left; apply Rinv_0_lt_compat; auto]. Qed.

Lemma interact_pos aw UN MRd : aw <= 1/2 -> 0 < MRd -> 0 <= UN < 1 -> 0 < interact aw UN MRd.
Proof.
  intros a m u. unfold interact. assert (Rltb 1 UN = false) as -> by (apply Rltb_false; lra).
  apply Rmult_lt_0_compat; auto. apply Rmin_glb_lt; [apply Rdiv_lt_0_compat; lra|lra].
Qed.

Lemma resistance_lemma C aw Ned Ved Med NRd VRd MRd : 0 < NRd -> 0 < VRd -> 0 < MRd -> aw <= 1/2 ->
  (Forall (fun u => u <= 1) (section_resistance C (interact aw) Ned Ved Med NRd VRd MRd) <->
   Rabs Ned <= NRd /\ Rabs Ved <= VRd /\ Rabs Med <= MRd /\
   if Nat.ltb C 3 then Rabs Med <= interact aw (Rabs Ned / NRd) MRd
   else Rabs Ned / NRd + Rabs Med / MRd <= 1).
Proof.
  intros n v m a. unfold section_resistance.
  assert (UN0 : 0 <= Rabs Ned / NRd) by (apply div_nn; [apply Rabs_pos|auto]).
  assert (UM0 : 0 <= Rabs Med / MRd) by (apply div_nn; [apply Rabs_pos|auto]).
  rewrite !Forall_cons_iff.
  rewrite !(div_le1 _ NRd), !(div_le1 _ VRd), !(div_le1 (Rabs Med) MRd) by auto.
  destruct (Nat.ltb C 3) eqn:E.
  - destruct (interact_lemma aw (Rabs Ned / NRd) MRd a UN0) as [[I1 I2] I3]; [lra|].
    destruct (Rltb 0 (interact aw (Rabs Ned / NRd) MRd)) eqn:P.
    + apply Rltb_true in P. rewrite div_le1 by auto. intuition.
    + apply Rltb_false in P.
      split.
      * intros (a1 & a2 & a3 & a4 & _). repeat split; auto.
        assert (1 <= Rabs Ned / NRd). { destruct (Rle_dec 1 (Rabs Ned / NRd)); auto. pose proof (interact_pos aw (Rabs Ned / NRd) MRd). lra. }
        assert (Rabs Med / MRd = 0) by lra. 
        assert (Rabs Med = 0). { replace (Rabs Med) with (Rabs Med / MRd * MRd) by (field; lra). rewrite H0. ring. } lra.
      * intros (a1 & a2 & a3 & a4). repeat split; auto.
        assert (Rabs Med = 0) by (pose proof (Rabs_pos Med); lra). rewrite H. unfold Rdiv at 2. rewrite Rmult_0_l.
        apply (div_le1 _ NRd) in a1; auto. lra.
  - intuition.
Qed.
