(** Further theorems about C140 to C159: tables and exact values. *)
From Verif Require Import Base EC3_model Bool_tac Joint_proofs Joint2_proofs Joint3_proofs Joint4_proofs Joint9_proofs.
From Verif Require Import Joint_model Joint_spec Joint9_spec.
Require Import Reals List Lra.
Import ListNotations.
Local Open Scope R_scope.

Theorem C140_stock : forall size k, stocked size k <-> In k (lengths size).
Proof. exact stock_lemma. Qed.
Print Assumptions C140_stock.
Example C140_stock_ex : stocked 20 300 /\ ~ stocked 20 280.
Proof. split; [|intros H]; [apply stock_lemma|apply stock_lemma in H; revert H]; cbn; intuition discriminate. Qed.
Theorem C142_class_names : forall c, let '(a, b) := class_name c in
  class_fub c = 100 * INR a /\ class_fyb c = class_fub c * INR b / 10.
Proof. exact class_name_lemma. Qed.
Print Assumptions C142_class_names.
Theorem C142_thread_area : forall n d, size_data n = Some d -> exists p, In (n, p) pitch /\
  Rabs (t_As d - PI / 4 * (INR n - 9382/10000 * p) ^ 2) <= 1/2.
Proof. exact thread_area_lemma. Qed.
Print Assumptions C142_thread_area.
Theorem C142_hexagons : forall n d, size_data n = Some d -> In (n, [t_k d; t_s d; t_m d; t_e d; t_h d; t_d2 d]) hexagons.
Proof. exact hexagon_lemma. Qed.
Print Assumptions C142_hexagons.
Theorem C142_sizes : forall n, (exists d, size_data n = Some d) <-> In n [12; 16; 20; 24; 30; 36]%nat.
Proof. exact sizes_lemma. Qed.
Print Assumptions C142_sizes.
Theorem C142_head_diameter : forall b, greatest (dw b) [t_d2 (b_data b); t_s (b_data b); t_e (b_data b)].
Proof. exact dw_lemma. Qed.
Print Assumptions C142_head_diameter.
Theorem C142_functions : forall fub As k2 dm tp fu fy Ant Anv,
  bolt_tension_resistance fub As k2 = 4/5 * (k2 * fub * As) /\
  punching_resistance dm tp fu = 12/25 * (PI * dm * tp * fu) /\
  block_tearing fy fu Ant Anv true = 4/5 * (fu * Ant) + fy * Anv / sqrt 3 /\
  block_tearing fy fu Ant Anv false = 2/5 * (fu * Ant) + fy * Anv / sqrt 3.
Proof. exact bolt_values_lemma. Qed.
Print Assumptions C142_functions.
Example C142_table_ex : exists d, size_data 24 = Some d /\ t_As d = 353.
Proof. eexists. split; reflexivity. Qed.
Theorem C143_table_3_4 : forall b fu t e1 e2 p1 p2 pe le F, 0 < fu -> 0 < b_d0 b -> bearing_resistance b fu t e1 e2 p1 p2 pe le = Some F ->
  let d0 := b_d0 b in
  exists k a, least k (if pe then [28/10 * e2 / d0 - 17/10; 14/10 * p2 / d0 - 17/10; 25/10] else [14/10 * p2 / d0 - 17/10; 25/10]) /\
    least a [if le then e1 / (3 * d0) else p1 / (3 * d0) - 1/4; b_fub b / fu; 1] /\ F = k * a * fu * INR (b_size b) * t / (125/100).
Proof. exact bearing_exact_lemma. Qed.
Print Assumptions C143_table_3_4.
Example C143_table_ex : exists b F, new_bolt 20 B88 70 = Some b /\ bearing_resistance b 360 8 40 50 60 70 true true = Some F.
Proof. destruct (bolt_exists_lemma 20 B88 70 70) as [b E]; [apply stock_lemma; cbn; tauto|cbn; lra|]. exists b. unfold bearing_resistance. rewrite Sections_proofs.pdiv_ok by lra. eexists. split; [exact E|reflexivity]. Qed.
Theorem C146_throat : forall g fy fu, 0 < fu ->
  weld_throat g fy fu = Some (weld_factor g * fy / (fu * sqrt 2)) /\ weld_tube g fy fu = Some (2 * weld_factor g * fy / (fu * sqrt 2)).
Proof. exact weld_values_lemma. Qed.
Print Assumptions C146_throat.
Example C146_throat_ex : weld_throat S235 235 360 = Some (1 * 235 / (360 * sqrt 2)).
Proof. apply (weld_values_lemma S235 235 360). lra. Qed.
Theorem C150_table_6_4 : forall fa e m e1 m2 l, flange_loc l ->
  let inner := orb (loc_eqb l Inner) (loc_eqb l OtherInner) in
  exists cp nc, flange_cp m e1 l = Some cp /\ flange_nc fa e m e1 m2 l = Some nc /\
    least cp (fst (flange_row m e e1 inner)) /\ least nc (snd (flange_row m e e1 inner)).
Proof. exact flange_alone_lemma. Qed.
Print Assumptions C150_table_6_4.
Theorem C150_table_6_4_group : forall fa e m p e1 m2 l, flange_loc l ->
  let inner := orb (loc_eqb l Inner) (loc_eqb l OtherInner) in
  exists cp nc, flange_cp_group m p e1 l = Some cp /\ flange_nc_group fa e m p e1 m2 l = Some nc /\
    least cp (fst (flange_row_group m e p e1 inner)) /\ least nc (snd (flange_row_group m e p e1 inner)).
Proof. exact flange_group_lemma. Qed.
Print Assumptions C150_table_6_4_group.
Theorem C150_table_6_6_outside : forall m m2 e emin w bp, exists cp nc,
  plate_cp m e w Outside = Some cp /\ plate_nc m m2 e emin w bp Outside = Some nc /\
  least cp (fst (plate_outside m emin e w bp)) /\ least nc (snd (plate_outside m emin e w bp)).
Proof. exact plate_outside_lemma. Qed.
Print Assumptions C150_table_6_6_outside.
Theorem C150_table_6_6 : forall m m2 e emin w bp p, 0 < m -> 0 <= e -> 0 < m2 ->
  (forall l, plate_loc l -> plate_cp m e w l = Some (2 * PI * m)) /\
  (forall l, l = OtherInner \/ l = OtherEnd -> plate_nc m m2 e emin w bp l = Some (4 * m + 125/100 * e)) /\
  (exists a, new_alpha e m m2 = Some a /\ plate_nc m m2 e emin w bp FirstBelow = Some (a * m) /\
     plate_nc_group m m2 e p FirstBelow = Some (p / 2 + a * m - (2 * m + 625/1000 * e))) /\
  plate_cp_group m p FirstBelow = Some (PI * m + p) /\ plate_cp_group m p OtherEnd = Some (PI * m + p) /\ plate_cp_group m p OtherInner = Some (2 * p) /\
  plate_nc_group m m2 e p OtherInner = Some p /\ plate_nc_group m m2 e p OtherEnd = Some (2 * m + 625/1000 * e + p / 2).
Proof. exact plate_inner_lemma. Qed.
Print Assumptions C150_table_6_6.
Example C150_table_ex : least (2 * PI * 30) (fst (flange_row 30 40 (Some 60) false)).
Proof. split; [cbn; tauto|]. pose proof PI_4. intros y [<-|[<-|[]]]; lra. Qed.
Theorem C155_compression_value : forall c b tp lo a beta sigma, prof_ok c -> 0 <= s_tf b -> 0 <= tp -> 0 <= a -> sqrt 2 * a <= tp + lo ->
  exists w, min_coeff_w beta (beff_c c b tp lo a) (s_tw c) (s_Av c) = Some w /\
  let beff := s_tf b + 2 * (sqrt 2 * a) + 5 * (s_tf c + s_r c) + Rmin tp (lo - sqrt 2 * a) + tp in
  let lam := 932/1000 * sqrt (beff * s_hw c * s_fy c / (s_E c * s_tw c ^ 2)) in
  let rho := if Rle_dec lam (72/100) then 1 else (lam - 2/10) / lam ^ 2 in
  beff_c c b tp lo a = beff /\
  col_web_trv_comp c b tp lo a beta sigma = Some (Rmin (w * k_wc sigma (s_fy c) * beff * s_tw c * s_fy c) (w * k_wc sigma (s_fy c) * rho * beff * s_tw c * s_fy c)).
Proof. exact web_compression_exact_lemma. Qed.
Print Assumptions C155_compression_value.
Theorem C155_stiffness : forall c b t leff m As L h beta z MRd, 0 < s_hw c -> 0 < m -> 0 < L -> 0 < beta -> 0 < z -> 0 < h - t ->
  col_web_k c leff = Some (7/10 * (leff * s_tw c / s_hw c)) /\ flange_bending_k t leff m = Some (9/10 * leff * (t / m) ^ 3) /\
  bolt_row_k As L = Some (8/5 * (As / L)) /\ col_web_shear_k c beta z = Some (19/50 * (s_Av c / (beta * z))) /\
  beam_web_compression MRd h t = Some (MRd / (h - t)) /\ beam_web_tension b leff = leff * s_tw b * s_fy b /\
  (forall fjd beff, Tstub_compression fjd beff leff = fjd * (beff * leff)).
Proof. exact stiffness_factors_lemma. Qed.
Print Assumptions C155_stiffness.
Theorem C156_value : forall eps tw bs ts lcr fyp, 0 < eps -> 0 < tw -> 0 < bs -> 0 < ts -> 0 <= lcr -> 0 < fyp ->
  let A := (30 * eps * tw + ts) * tw + 2 * bs * ts in
  let i := sqrt (ts * (2 * bs + tw) ^ 3 / 12 / A) in
  let lam := lcr / i / (939/10 * eps) in
  (lam <= 2/10 -> col_web_stiffened eps tw bs ts lcr fyp = Some (A * fyp)) /\
  (2/10 < lam -> exists chi, buckling_reduction_factor lam (49/100) = Some chi /\ col_web_stiffened eps tw bs ts lcr fyp = Some (chi * A * fyp)).
Proof. exact stiffened_exact_lemma. Qed.
Print Assumptions C156_value.
Theorem C158_alpha_value : forall e m m2, 0 <= e -> 0 < m -> 0 < m2 ->
  new_alpha e m m2 = Some (Rmin 8 (Rmax (4 + 5/4 * (e / m)) (4 + 167/100 * (e / m) * Rpower (m / m2) (67/100)))).
Proof. exact alpha_exact_lemma. Qed.
Print Assumptions C158_alpha_value.
Theorem C159_measures : forall j r,
  let bolt_y := j_p j / 2 in let edge_plate := j_bp j / 2 in let edge_col := s_b (j_col j) / 2 in
  let top := s_h (j_beam j) / 2 in
  col_flange_m j = bolt_y - (s_tw (j_col j) / 2 + 4/5 * s_r (j_col j)) /\
  col_flange_e j = j_ebolts j + (edge_col - edge_plate) /\
  (r_pl r <> Outside -> end_plate_m j r = bolt_y - (s_tw (j_beam j) / 2 + 4/5 * (sqrt 2 * j_ww j)) /\ emin_plate j r = j_ebolts j) /\
  (r_pl r = Outside -> end_plate_m j r = r_z r - (top + 4/5 * (sqrt 2 * j_wf j)) /\ emin_plate j r = top + j_etop j - r_z r) /\
  end_plate_m2 j r = (top - s_tf (j_beam j) - 4/5 * (sqrt 2 * j_wf j)) - r_z r /\
  Lb j (r_bolt r) = j_tp j + s_tf (j_col j) + 2 * t_h (b_data (r_bolt r)) + (t_k (b_data (r_bolt r)) + t_m (b_data (r_bolt r))) / 2 /\
  lever j r = r_z r - j_zc j.
Proof. exact row_measures_lemma. Qed.
Print Assumptions C159_measures.
Theorem C159_stiffener : forall j r t a d, j_stiff j = Some (t, a) -> stiff_m2 j r = Some d ->
  let zc := s_h (j_beam j) / 2 - s_tf (j_beam j) / 2 in
  (s_h (j_beam j) / 2 < r_z r -> d = (r_z r - zc) - (t / 2 + 4/5 * (sqrt 2 * a))) /\
  (r_z r <= s_h (j_beam j) / 2 -> d = (zc - r_z r) - (t / 2 + 4/5 * (sqrt 2 * a))).
Proof. exact stiffener_distance_lemma. Qed.
Print Assumptions C159_stiffener.
Theorem C143_bearing_function : forall fub fu d t e1 e2 p1 p2 d0 (pe le : bool), 0 < fu -> 0 < d0 ->
  exists k a, least k (if pe then [28/10 * e2 / d0 - 17/10; 25/10] else [14/10 * p2 / d0 - 17/10; 25/10]) /\
    least a [if le then e1 / (3 * d0) else p1 / (3 * d0) - 1/4; fub / fu; 1] /\
    bolt_bearing_resistance fub fu d t e1 e2 p1 p2 d0 pe le = Some (k * a * fu * d * t).
Proof. exact bearing_function_lemma. Qed.
Print Assumptions C143_bearing_function.
Theorem C158_boundary_curve : forall l2 alfa, 4 <= alfa -> 0 <= l2 ->
  let s1 := 125/100 / (alfa - 275/100) in let s2 := alfa * s1 / 2 in
  (s2 <= l2 -> lambda11 (fun x => x) l2 alfa = Some s1) /\
  (l2 < s2 -> lambda11 (fun x => x) l2 alfa = Some (s1 + (1 - s1) * Rpower (1 - l2 / s2) (alfa / sqrt 2))) /\
  (l2 = 0 -> lambda11 (fun x => x) l2 alfa = Some 1) /\
  (exists v, lambda11 (fun x => x) l2 alfa = Some v /\ s1 <= v <= 1 /\
     forall l2' v', l2 <= l2' -> lambda11 (fun x => x) l2' alfa = Some v' -> v' <= v).
Proof. exact lambda11_lemma. Qed.
Print Assumptions C158_boundary_curve.
Example C158_boundary_ex : lambda11 (fun x => x) 3 5 = Some (125/100 / (5 - 275/100)).
Proof. apply (lambda11_lemma 3 5); lra. Qed.
