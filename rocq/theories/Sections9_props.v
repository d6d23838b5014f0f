(** C242, C243 and further theorems about C104: exact section properties. *)
From Verif Require Import Base EC3_model Plate_model Bool_tac Sections_proofs Sections2_proofs Sections3_proofs Sections9_proofs.
From Verif Require Import Sections_model Sections_spec Sections9_spec.
Require Import Reals List Lra.
Import ListNotations.
Local Open Scope R_scope.

(** C104: what the effective area is, for every class of web and flanges. *)
Theorem C104_exact_value : forall eps d e s rho, wi_valid d -> doubly_symmetric d ->
  eff_flange eps (cf_top d) (w_tt d) = Some s ->
  bind (buckling_factor_internal 1) (fun ks => bind (lambda_p (cw d) (w_tw d) eps ks) (fun lp => reduction_factor_internal lp 1)) = Some rho ->
  let A1 := wi_area d - 4 * s * w_tt d in
  let hole := e_web e * w_tw d in
  let zhole := w_h d - w_tt d - w_a d * sqrt 2 - rho * cw d / 2 - e_web e / 2 in
  let axis := (A1 * (w_h d / 2) - hole * zhole) / (A1 - hole) in
  exists e', wi_Aeff eps d e = Some (A1 - w_tw d * (w_h d - axis - w_tb d - sqrt 2 * w_a d - rho * cw d), e') /\
    e_web e' = w_h d - axis - w_tb d - sqrt 2 * w_a d - rho * cw d.
Proof. exact aeff_exact_lemma. Qed.
Print Assumptions C104_exact_value.
Theorem C104_first_read_refuted : forall eps d s rho, wi_valid d -> doubly_symmetric d ->
  eff_flange eps (cf_top d) (w_tt d) = Some s ->
  bind (buckling_factor_internal 1) (fun ks => bind (lambda_p (cw d) (w_tw d) eps ks) (fun lp => reduction_factor_internal lp 1)) = Some rho ->
  wi_area d - 4 * s * w_tt d <> 0 ->
  exists e', wi_Aeff eps d eff0 = Some (wi_area d - 4 * s * w_tt d - (1 - rho) * cw d * w_tw d + cw d * w_tw d / 2, e').
Proof. exact aeff_first_lemma. Qed.
Print Assumptions C104_first_read_refuted.

(** C242 *)
Theorem C242_area : forall b h tf tw r,
  I_area b h tf tw r = over (fun s => s_w s * (s_hi s - s_lo s)) (i_plates b h tf tw) + 4 * fillet_area r /\
  I_shear b h tf tw r = tw * (h - 2 * tf) + 4 * fillet_area r + (tw + 2 * r) * tf.
Proof. exact rolled_area_lemma. Qed.
Print Assumptions C242_area.
Theorem C242_plastic : forall b h tf tw r, 0 < b -> 0 < tw -> 0 < tf -> 2 * tf < h ->
  I_Wply b h tf tw r = over (slab_abs 0) (i_plates b h tf tw) + 4 * fillet_static_y h tf r /\
  I_Wplz b h tf tw r = over (slab_abs 0) (i_plates_z b h tf tw) + 4 * fillet_static_z tw r.
Proof. exact rolled_plastic_lemma. Qed.
Print Assumptions C242_plastic.
Theorem C242_elastic : forall b h tf tw r, 0 < b -> 0 < h ->
  I_Iy b h tf tw r = over (slab_second 0) (i_plates b h tf tw) +
    4 * (75/10000 * r ^ 4 + 2146/10000 * r ^ 2 * (h / 2 - tf - 2234/10000 * r) ^ 2) /\
  I_Iz b h tf tw r = over (slab_second 0) (i_plates_z b h tf tw) +
    4 * (75/10000 * r ^ 4 + 2146/10000 * r ^ 2 * (tw / 2 + 2234/10000 * r) ^ 2) /\
  I_Wely b h tf tw r = 2 * I_Iy b h tf tw r / h /\ I_Welz b h tf tw r = 2 * I_Iz b h tf tw r / b /\
  I_Iw b h tf = 2 * (tf * b ^ 3 / 12) * ((h - tf) / 2) ^ 2.
Proof. exact rolled_elastic_lemma. Qed.
Print Assumptions C242_elastic.
Theorem C242_fillets : forall b h tf tw r, 0 < tf -> 0 < tw -> 0 <= r -> 2 * tf + 2 * r <= h -> tw + 2 * r <= b ->
  let c := h - 2 * tf in
  Rabs (I_Iy b h tf tw r - (over (slab_second 0) (i_plates b h tf tw) + 4 * fillet_second_y h tf r)) <= 2/10000 * r ^ 2 * c ^ 2 /\
  Rabs (I_Iz b h tf tw r - (over (slab_second 0) (i_plates_z b h tf tw) + 4 * fillet_second_z tw r)) <= 2/10000 * r ^ 2 * (tw + r) ^ 2.
Proof. exact rolled_accuracy_lemma. Qed.
Print Assumptions C242_fillets.
Example C242_ex : I_Wply 100 200 8 6 0 = 100 * 8 * 192 + 6 * 184 ^ 2 / 4.
Proof. rewrite (proj1 (rolled_plastic_lemma 100 200 8 6 0 ltac:(lra) ltac:(lra) ltac:(lra) ltac:(lra))).
  unfold over, i_plates, slab_abs, fillet_static_y. cbn.
  rewrite (Rmin_right (200 / 2) 0), (Rmax_left (200/2 - 8) 0), (Rmin_right (200 / 2 - 8) 0), (Rmax_right (- (200 / 2 - 8)) 0),
   (Rmin_left (- (200 / 2 - 8)) 0), (Rmax_right (- (200 / 2)) (- (200/2 - 8))) by lra. lra. Qed.

(** C243 *)
Theorem C243_tubes : forall D T, CHS_paint_area D = 2 * PI * (D / 2) /\
  CHS_shear_area D T = 2 * (D - T) * T /\
  CHS_plastic_modulus D T = 4/3 * ((D / 2) ^ 3 - (D / 2 - T) ^ 3) /\
  CHS_second_moment D T = PI * (D / 2) ^ 4 / 4 - PI * (D / 2 - T) ^ 4 / 4.
Proof. exact chs_exact_lemma. Qed.
Print Assumptions C243_tubes.
Theorem C243_corner_radius : forall T, (T <= 6 -> RHS_outer_radius T = 2 * T) /\ (6 < T <= 10 -> RHS_outer_radius T = 5/2 * T) /\
  (10 < T -> RHS_outer_radius T = 3 * T).
Proof. exact rhs_radius_lemma. Qed.
Print Assumptions C243_corner_radius.
Theorem C243_welded_i : forall fy d, wi_valid d ->
  let If b t := t * b ^ 3 / 12 in let hs := w_h d - w_tt d / 2 - w_tb d / 2 in let hwd := w_h d - w_tt d - w_tb d in
  let Iw0 := hwd * w_tw d ^ 3 / 12 in
  wi_It d = (w_bt d * w_tt d ^ 3 + w_bb d * w_tb d ^ 3 + hwd * w_tw d ^ 3) / 3 /\
  wi_Iz d = If (w_bt d) (w_tt d) + If (w_bb d) (w_tb d) + Iw0 /\
  wi_Iw d * wi_Iz d = If (w_bt d) (w_tt d) * (If (w_bb d) (w_tb d) + Iw0) * hs ^ 2 /\ 0 < wi_Iw d /\
  (fy <= 460 -> wi_shear fy d = 12/10 * (hwd * w_tw d)) /\ (460 < fy -> wi_shear fy d = hwd * w_tw d).
Proof. exact wi_exact_lemma. Qed.
Print Assumptions C243_welded_i.
Theorem C243_imperfection : forall d, wi_valid d ->
  wi_imp d = ((if Rle_dec (w_tt d) 40 then if Rle_dec (w_tb d) 40 then (34/100, 49/100) else (49/100, 76/100) else (49/100, 76/100)),
              (if Rle_dec (w_h d) (2 * w_bt d) then if Rle_dec (w_h d) (2 * w_bb d) then 49/100 else 76/100 else 76/100)).
Proof. exact wi_imp_lemma. Qed.
Print Assumptions C243_imperfection.
Theorem C243_wq_inertia : forall d, wq_Iy d = over (slab_second (wq_zel d)) (wq_plates d).
Proof. exact wq_second_lemma. Qed.
Print Assumptions C243_wq_inertia.
Example C243_ex : wi_valid (mkWi 300 6 150 200 10 45 4) /\
  wi_imp (mkWi 300 6 150 200 10 45 4) = ((49/100, 76/100), 49/100).
Proof.
  assert (V : wi_valid (mkWi 300 6 150 200 10 45 4)) by (unfold wi_valid; cbn; lra). split; [exact V|].
  rewrite wi_imp_lemma by exact V. cbn. repeat (destruct Rle_dec; try lra). reflexivity.
Qed.
