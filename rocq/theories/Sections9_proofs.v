(** Exact section properties from the geometry of the parts. *)
From Verif Require Import Base EC3_model Plate_model Bool_tac Sections_proofs Sections2_proofs Sections3_proofs.
From Verif Require Import Sections_model Sections_spec Sections9_spec.
Require Import Reals Lra List Psatz Machin.
Import ListNotations.
Local Open Scope R_scope.

Lemma PI_bounds : 314159/100000 < PI < 31416/10000.
Proof.
  destruct (PI_2_3_7_ineq 4) as [A B]. simpl sum_f_R0 in A, B. unfold tg_alt, PI_2_3_7_tg, Ratan_seq in A, B. simpl in A, B. split; lra.
Qed.

Lemma rolled_area_lemma : forall b h tf tw r,
  I_area b h tf tw r = over (fun s => s_w s * (s_hi s - s_lo s)) (i_plates b h tf tw) + 4 * fillet_area r /\
  I_shear b h tf tw r = tw * (h - 2 * tf) + 4 * fillet_area r + (tw + 2 * r) * tf.
Proof. intros. unfold I_shear, I_area, over, i_plates, fillet_area. cbn. split; field. Qed.
Lemma rolled_plastic_lemma : forall b h tf tw r, 0 < b -> 0 < tw -> 0 < tf -> 2 * tf < h ->
  I_Wply b h tf tw r = over (slab_abs 0) (i_plates b h tf tw) + 4 * fillet_static_y h tf r /\
  I_Wplz b h tf tw r = over (slab_abs 0) (i_plates_z b h tf tw) + 4 * fillet_static_z tw r.
Proof.
  intros b h tf tw r Pb Pw H1 H2. unfold I_Wply, I_Wplz, over, i_plates, i_plates_z, slab_abs, fillet_static_y, fillet_static_z. cbn.
  rewrite (Rmin_right (h / 2) 0), (Rmax_left (h/2 - tf) 0) by lra. rewrite (Rmin_right (h / 2 - tf) 0), (Rmax_right (- (h / 2 - tf)) 0) by lra.
  rewrite (Rmin_left (- (h / 2 - tf)) 0), (Rmax_right (- (h / 2)) (- (h/2 - tf))) by lra.
  rewrite (Rmin_right (b / 2) 0), (Rmin_right (tw / 2) 0), (Rmax_right (- (b / 2)) 0), (Rmax_right (- (tw / 2)) 0) by lra. split; field.
Qed.
Lemma rolled_elastic_lemma : forall b h tf tw r, 0 < b -> 0 < h ->
  I_Iy b h tf tw r = over (slab_second 0) (i_plates b h tf tw) +
    4 * (75/10000 * r ^ 4 + 2146/10000 * r ^ 2 * (h / 2 - tf - 2234/10000 * r) ^ 2) /\
  I_Iz b h tf tw r = over (slab_second 0) (i_plates_z b h tf tw) +
    4 * (75/10000 * r ^ 4 + 2146/10000 * r ^ 2 * (tw / 2 + 2234/10000 * r) ^ 2) /\
  I_Wely b h tf tw r = 2 * I_Iy b h tf tw r / h /\ I_Welz b h tf tw r = 2 * I_Iz b h tf tw r / b /\
  I_Iw b h tf = 2 * (tf * b ^ 3 / 12) * ((h - tf) / 2) ^ 2.
Proof.
  intros b h tf tw r Hb Hh. unfold I_Wely, I_Welz, I_Iy, I_Iz, I_Iw, over, i_plates, i_plates_z, slab_second. cbn. repeat split; field; lra.
Qed.

(** How far the decimal fillet terms are from the exact second moments. *)
Lemma rolled_accuracy_lemma : forall b h tf tw r, 0 < tf -> 0 < tw -> 0 <= r -> 2 * tf + 2 * r <= h -> tw + 2 * r <= b ->
  let c := h - 2 * tf in
  Rabs (I_Iy b h tf tw r - (over (slab_second 0) (i_plates b h tf tw) + 4 * fillet_second_y h tf r)) <= 2/10000 * r ^ 2 * c ^ 2 /\
  Rabs (I_Iz b h tf tw r - (over (slab_second 0) (i_plates_z b h tf tw) + 4 * fillet_second_z tw r)) <= 2/10000 * r ^ 2 * (tw + r) ^ 2.
Proof.
  intros b h tf tw r H1 H2 H3 H4 H5 c. pose proof PI_bounds as P. split.
  - replace (I_Iy b h tf tw r - (over (slab_second 0) (i_plates b h tf tw) + 4 * fillet_second_y h tf r)) with
      (r ^ 2 * (c ^ 2 * (2146/10000 - (1 - PI / 4)) + c * r * (10/3 - PI - 2146/10000 * (8936/10000)) +
        r ^ 2 * (3/100 + 2146/10000 * (4468/10000) ^ 2 - (4 - 5 * PI / 4))))
      by (unfold I_Iy, over, i_plates, slab_second, fillet_second_y, c; cbn; field).
    assert (Cr : 2 * r <= c) by (unfold c; lra). clearbody c.
    assert (R2 : 0 <= r ^ 2) by apply pow2_ge_0. assert (RC : r ^ 2 <= c * r) by nra. assert (CC : c * r <= c ^ 2) by nra. assert (0 <= c * r) by nra.
    rewrite Rabs_mult, (Rabs_right (r ^ 2)) by lra. replace (2/10000 * r ^ 2 * c ^ 2) with (r ^ 2 * (2/10000 * c ^ 2)) by ring.
    apply Rmult_le_compat_l; [exact R2|]. apply Rabs_le. split; nra.
  - replace (I_Iz b h tf tw r - (over (slab_second 0) (i_plates_z b h tf tw) + 4 * fillet_second_z tw r)) with
      (r ^ 2 * (tw ^ 2 * (2146/10000 - (1 - PI / 4)) + tw * r * (2146/10000 * (8936/10000) - (10/3 - PI)) +
        r ^ 2 * (3/100 + 2146/10000 * (4468/10000) ^ 2 - (4 - 5 * PI / 4))))
      by (unfold I_Iz, over, i_plates_z, slab_second, fillet_second_z; cbn; field).
    assert (R2 : 0 <= r ^ 2) by apply pow2_ge_0. assert (0 <= tw * r) by nra.
    rewrite Rabs_mult, (Rabs_right (r ^ 2)) by lra. replace (2/10000 * r ^ 2 * (tw + r) ^ 2) with (r ^ 2 * (2/10000 * (tw ^ 2 + 2 * (tw * r) + r ^ 2))) by ring.
    apply Rmult_le_compat_l; [exact R2|]. assert (0 < tw ^ 2) by nra. apply Rabs_le. split; nra.
Qed.

(** Circular and rectangular hollow sections. *)
Lemma chs_exact_lemma : forall D T, CHS_paint_area D = 2 * PI * (D / 2) /\
  CHS_shear_area D T = 2 * (D - T) * T /\
  CHS_plastic_modulus D T = 4/3 * ((D / 2) ^ 3 - (D / 2 - T) ^ 3) /\
  CHS_second_moment D T = PI * (D / 2) ^ 4 / 4 - PI * (D / 2 - T) ^ 4 / 4.
Proof.
  intros D T. unfold CHS_paint_area, CHS_shear_area, CHS_plastic_modulus, CHS_second_moment, CHS_area. pose proof PI_ne. repeat split; field; auto.
Qed.
Lemma rhs_radius_lemma : forall T, (T <= 6 -> RHS_outer_radius T = 2 * T) /\ (6 < T <= 10 -> RHS_outer_radius T = 5/2 * T) /\
  (10 < T -> RHS_outer_radius T = 3 * T).
Proof.
  intros T. unfold RHS_outer_radius. repeat split; intros.
  - now rewrite leb_t by lra.
  - rewrite leb_f, leb_t by lra. lra.
  - now rewrite !leb_f by lra.
Qed.

(** Welded I-sections. *)
Lemma wi_exact_lemma : forall fy d, wi_valid d ->
  let If b t := t * b ^ 3 / 12 in let hs := w_h d - w_tt d / 2 - w_tb d / 2 in let hwd := w_h d - w_tt d - w_tb d in
  let Iw0 := hwd * w_tw d ^ 3 / 12 in
  wi_It d = (w_bt d * w_tt d ^ 3 + w_bb d * w_tb d ^ 3 + hwd * w_tw d ^ 3) / 3 /\
  wi_Iz d = If (w_bt d) (w_tt d) + If (w_bb d) (w_tb d) + Iw0 /\
  wi_Iw d * wi_Iz d = If (w_bt d) (w_tt d) * (If (w_bb d) (w_tb d) + Iw0) * hs ^ 2 /\ 0 < wi_Iw d /\
  (fy <= 460 -> wi_shear fy d = 12/10 * (hwd * w_tw d)) /\ (460 < fy -> wi_shear fy d = hwd * w_tw d).
Proof.
  intros fy d (H1 & H2 & H3 & H4 & H5 & H6) If hs hwd Iw0.
  assert (P : forall b t, 0 < b -> 0 < t -> 0 < If b t) by (intros; unfold If; apply Rdiv_lt_0_compat; [apply Rmult_lt_0_compat; [|apply pow_lt]|]; lra).
  assert (E : wi_Iz d = If (w_bt d) (w_tt d) + If (w_bb d) (w_tb d) + Iw0) by (unfold wi_Iz, If, Iw0, hwd, hw; field).
  pose proof (P (w_bt d) (w_tt d) H2 H4). pose proof (P (w_bb d) (w_tb d) H3 H5).
  assert (0 < Iw0) by (unfold Iw0, hwd; apply Rdiv_lt_0_compat; [apply Rmult_lt_0_compat; [lra|apply pow_lt; lra]|lra]).
  assert (Q : wi_Iw d * wi_Iz d = If (w_bt d) (w_tt d) * (If (w_bb d) (w_tb d) + Iw0) * hs ^ 2).
  { unfold wi_Iw. cbv zeta. change (w_tt d * w_bt d ^ 3 / 12) with (If (w_bt d) (w_tt d)). rewrite E. fold hs. field. lra. }
  split; [unfold wi_It, hwd, hw; field|]. split; [exact E|]. split; [exact Q|]. split.
  - apply Rmult_lt_reg_r with (wi_Iz d); [lra|]. rewrite Q, Rmult_0_l. apply Rmult_lt_0_compat; [apply Rmult_lt_0_compat; lra|]. apply pow_lt. unfold hs. lra.
  - unfold wi_shear, shear_eta, hwd, hw. split; intros; [rewrite leb_t by lra|rewrite leb_f by lra]; ring.
Qed.
Lemma wi_imp_lemma : forall d, wi_valid d ->
  wi_imp d = ((if Rle_dec (w_tt d) 40 then if Rle_dec (w_tb d) 40 then (34/100, 49/100) else (49/100, 76/100) else (49/100, 76/100)),
              (if Rle_dec (w_h d) (2 * w_bt d) then if Rle_dec (w_h d) (2 * w_bb d) then 49/100 else 76/100 else 76/100)).
Proof.
  intros d (H1 & H2 & H3 & H4 & H5 & H6). unfold wi_imp. cbv zeta. cbn [buckling_curve]. apply f_equal2.
  - destruct (Rle_dec (w_tt d) 40), (Rle_dec (w_tb d) 40); [rewrite leb_t by (apply Rmax_lub; lra)|rewrite leb_f|rewrite leb_f|rewrite leb_f]; try reflexivity;
    pose proof (Rmax_l (w_tt d) (w_tb d)); pose proof (Rmax_r (w_tt d) (w_tb d)); lra.
  - assert (Pm : 0 < Rmin (w_bt d) (w_bb d)) by (apply Rmin_glb_lt; lra).
    assert (K : w_h d / Rmin (w_bt d) (w_bb d) <= 2 <-> w_h d <= 2 * w_bt d /\ w_h d <= 2 * w_bb d).
    { assert (E : w_h d / Rmin (w_bt d) (w_bb d) * Rmin (w_bt d) (w_bb d) = w_h d) by (field; lra).
      split.
      - intros Q. pose proof (Rmin_l (w_bt d) (w_bb d)). pose proof (Rmin_r (w_bt d) (w_bb d)). split; nra.
      - intros [A B]. apply Rmult_le_reg_r with (Rmin (w_bt d) (w_bb d)); [exact Pm|]. rewrite E. unfold Rmin. destruct (Rle_dec (w_bt d) (w_bb d)); lra. }
    destruct (Rle_dec (w_h d) (2 * w_bt d)), (Rle_dec (w_h d) (2 * w_bb d)); [rewrite leb_t by tauto|rewrite leb_f|rewrite leb_f|rewrite leb_f]; try reflexivity;
    (apply Rnot_le_lt; tauto).
Qed.

(** WQ beams: the second moment of the plates about the axis that is used. *)
Lemma wq_second_lemma : forall d, wq_Iy d = over (slab_second (wq_zel d)) (wq_plates d).
Proof.
  intros d. unfold wq_Iy, over, wq_plates, slab_second, q_Ab, q_Aw, q_At, q_zb, q_zw, q_zt. cbn. generalize (wq_zel d). intros z. field.
Qed.

(** Effective area in compression of a doubly symmetric section. *)
Lemma aeff_exact_lemma : forall eps d e s rho, wi_valid d -> doubly_symmetric d ->
  eff_flange eps (cf_top d) (w_tt d) = Some s ->
  bind (buckling_factor_internal 1) (fun ks => bind (lambda_p (cw d) (w_tw d) eps ks) (fun lp => reduction_factor_internal lp 1)) = Some rho ->
  let A1 := wi_area d - 4 * s * w_tt d in
  let hole := e_web e * w_tw d in
  let zhole := w_h d - w_tt d - w_a d * sqrt 2 - rho * cw d / 2 - e_web e / 2 in
  let axis := (A1 * (w_h d / 2) - hole * zhole) / (A1 - hole) in
  exists e', wi_Aeff eps d e = Some (A1 - w_tw d * (w_h d - axis - w_tb d - sqrt 2 * w_a d - rho * cw d), e') /\
    e_web e' = w_h d - axis - w_tb d - sqrt 2 * w_a d - rho * cw d.
Proof.
  intros eps d e s rho (H1 & H2 & H3 & H4 & H5 & H6) (S1 & S2) Es Er A1 hole zhole axis.
  assert (Ef : eff_flange eps (cf_bottom d) (w_tb d) = Some s) by (unfold cf_bottom; rewrite <- S1, <- S2; exact Es).
  unfold wi_Aeff. rewrite Es, Ef. cbn [bind]. unfold eff_web.
  destruct (buckling_factor_internal 1) as [ks|]; [|discriminate]. cbn [bind] in *.
  destruct (lambda_p (cw d) (w_tw d) eps ks) as [lp|]; [|discriminate]. cbn [bind] in *. rewrite Er. cbn [bind].
  unfold effective_width_internal. rewrite ltb_t by (replace (1 - 1) with 0 by ring; rewrite Rabs_R0; lra). cbv zeta. cbn [bind e_top e_bot e_web e_be fst snd].
  assert (Ax : eff_axis d (mkEff s s (e_web e) (1/2 * (rho * cw d))) = axis).
  { unfold eff_axis, axis. cbn [e_top e_bot e_web e_be]. fold hole. replace (wi_area d - 2 * s * w_tb d - 2 * s * w_tt d - hole) with (A1 - hole) by (unfold A1; rewrite S2; ring).
    unfold Rdiv. apply Rmult_eq_compat_r. unfold zhole, A1, wi_area, zb, zt, zw, Ab, At, Aw, hw. rewrite <- S1, <- S2. field. }
  rewrite Ax. eexists (mkEff s s (w_h d - axis - w_tb d - sqrt 2 * w_a d - rho * cw d) _). cbn [e_top e_bot e_web e_be]. split; [|reflexivity]. apply f_equal. apply f_equal2; [|reflexivity]. unfold A1. rewrite S2. ring.
Qed.
(** The first read leaves half of the web in, whatever its class. *)
Lemma aeff_first_lemma : forall eps d s rho, wi_valid d -> doubly_symmetric d ->
  eff_flange eps (cf_top d) (w_tt d) = Some s ->
  bind (buckling_factor_internal 1) (fun ks => bind (lambda_p (cw d) (w_tw d) eps ks) (fun lp => reduction_factor_internal lp 1)) = Some rho ->
  wi_area d - 4 * s * w_tt d <> 0 ->
  exists e', wi_Aeff eps d eff0 = Some (wi_area d - 4 * s * w_tt d - (1 - rho) * cw d * w_tw d + cw d * w_tw d / 2, e').
Proof.
  intros eps d s rho V D Es Er N. destruct (aeff_exact_lemma eps d eff0 s rho V D Es Er) as (e' & E & _). exists e'. rewrite E. apply f_equal. apply f_equal2; [|reflexivity].
  unfold eff0. cbn [e_web]. destruct D as [D1 D2]. replace (0 * w_tw d) with 0 by ring. rewrite Rminus_0_r. unfold cw, hw. rewrite <- D2. field. exact N.
Qed.
