(** C244 to C250: concrete, composite beams and concrete filled tubes. *)
From Verif Require Import Tac Bool_tac EC3_proofs Sections_proofs Sections_spec Comp_proofs Comp2_proofs Comp3_proofs Comp9_proofs.
From Verif Require Import Comp_model Comp_spec.
Open Scope R_scope.

(** C244 *)
Theorem C244_modulus_table : forall g, Rabs (Ecm g - match g with C12 => 27000 | C16 => 29000 | C20 => 30000 | C25 => 31000 | C30 => 33000 | C35 => 34000
  | C40 => 35000 | C45 => 36000 | C50 => 37000 end) <= 500.
Proof. exact Ecm_table_lemma. Qed.
Print Assumptions C244_modulus_table.
Theorem C244_strengths : forall g g', fck g < fck g' -> Ecm g < Ecm g' /\ (forall a, 0 < a -> cfcd g a < cfcd g' a) /\ nu_cracked g' < nu_cracked g /\ 0 < nu_cracked g' /\
  cfcd g 1 = 2/3 * fck g /\ cfcd g (85/100) = 17/30 * fck g.
Proof. exact strengths_lemma. Qed.
Print Assumptions C244_strengths.
Theorem C244_creep_annex_B : forall g RH h0 t t0, 0 <= RH <= 100 -> 0 < h0 -> 0 < t0 < t -> creep g RH h0 t t0 = Some (annex_B (fcm g) RH h0 t t0).
Proof. exact creep_lemma. Qed.
Print Assumptions C244_creep_annex_B.
Theorem C244_creep_monotone : forall g RH RH' h0 h0' t t' t0 t0', 0 <= RH' <= RH -> RH <= 100 -> 0 < h0' <= h0 -> 0 < t0' <= t0 -> t0 < t <= t' ->
  exists phi phi', creep g RH h0 t t0 = Some phi /\ creep g RH' h0' t' t0' = Some phi' /\ 0 < phi <= phi'.
Proof. exact creep_mono_lemma. Qed.
Print Assumptions C244_creep_monotone.
Theorem C244_creep_early : forall g RH h0 t t0, 0 <= RH <= 100 -> 0 < h0 -> 0 < t0 ->
  (t = t0 -> creep g RH h0 t t0 = Some 0) /\ (t0 - beta_H g RH h0 < t < t0 -> creep g RH h0 t t0 = None).
Proof. exact creep_early_lemma. Qed.
Print Assumptions C244_creep_early.
Theorem C244_weights : forall h hs g d, l_weight (concrete_slab h g) = 25 * (h / 1000) /\ l_weight (composite_slab h g hs) = 25 * (h / 1000) /\
  l_h0 (concrete_slab h g) = 2 * h /\ l_h0 (composite_slab h g hs) = 2 * (h - hs) /\ l_h (composite_slab h g hs) = h /\
  bar_weight d = 7850 * (PI * (d / 1000 / 2) ^ 2).
Proof. exact weights_lemma. Qed.
Print Assumptions C244_weights.
Theorem C244_cracked_factor : forall g, nu_cracked g = 6/10 - fck g * (24/10000).
Proof. exact concrete_details_lemma. Qed.
Print Assumptions C244_cracked_factor.
Example C244_ex : 0 <= 50 <= 100 /\ 0 < 200 /\ 0 < 28 < 18250 /\ annex_alpha (fcm C25) (7/10) = 1 /\ annex_alpha (fcm C30) (7/10) = Rpower (35/38) (7/10).
Proof. repeat split; try lra; unfold annex_alpha, fcm, fck; destruct Rle_dec; try lra; auto. f_equal. lra. Qed.

(** C245 *)
Theorem C245_elastic : forall c lt e, beam_ok c -> Ec c lt = Some e -> 0 < e ->
  let EAc := e * m_Ac c in let EIc := e * m_Ic c in let a := m_ya c - m_yc c in
  exists y EI, centroid c lt = Some y /\ m_yc c < y < m_ya c /\ m_EAa c * (m_ya c - y) = EAc * (y - m_yc c) /\
    EIcom c lt = Some EI /\ EI = m_EIa c + EIc + m_EAa c * EAc / (m_EAa c + EAc) * a ^ 2 /\ m_EIa c + EIc < EI.
Proof. exact elastic_lemma. Qed.
Print Assumptions C245_elastic.
Theorem C245_composite_coefficient : forall c, beam_ok c -> exists al EI, composite_coefficient c = Some al /\ 0 < al /\
  EIcom c Short = Some EI /\ EI = (1 + al) * (m_EIa c + Ecm (l_g (m_slab c)) * m_Ic c).
Proof. exact composite_coefficient_lemma. Qed.
Print Assumptions C245_composite_coefficient.
Theorem C245_creep : forall c, beam_ok c -> 0 <= m_RH c <= 100 -> 0 < m_t0 c < 10 ^ 8 ->
  exists E1 E2 y1 y2, EIcom c Short = Some E1 /\ EIcom c Creep = Some E2 /\ 0 < E2 < E1 /\
    centroid c Short = Some y1 /\ centroid c Creep = Some y2 /\ y1 < y2.
Proof. exact creep_stiffness_lemma. Qed.
Print Assumptions C245_creep.
Theorem C245_modular_ratios : forall c, 0 < i_E (m_s c) -> 0 <= m_RH c <= 100 -> 0 < l_hc (m_slab c) -> 0 < m_t0 c < 10 ^ 8 ->
  exists e es n0 nC nS, Ec c Creep = Some e /\ Ecs c = Some es /\ n_ratio c (Ecm (l_g (m_slab c))) = Some n0 /\ n_ratio c e = Some nC /\ n_ratio c es = Some nS /\
   0 < n0 < nC /\ n0 < nS.
Proof. exact modular_lemma. Qed.
Print Assumptions C245_modular_ratios.
Theorem C245_built_beam : forall L s sl RH, let c := new_beam L s sl RH in beam_ok c -> exists EI ya yc,
  EIcom c Short = Some EI /\ ya_com c Short = Some ya /\ yc_com c Short = Some yc /\ 0 < ya /\ 0 < yc /\
  ya + yc = i_h s / 2 + l_ha sl + l_hc sl / 2 /\ m_EAa c * ya = Ecm (l_g sl) * (l_hc sl * (L / 4)) * yc /\
  EI = joined (i_E s * i_I s) (i_E s * i_A s) (Ecm (l_g sl) * (L / 4 * l_hc sl ^ 3 / 12)) (Ecm (l_g sl) * (L / 4 * l_hc sl)) (i_h s / 2 + l_ha sl + l_hc sl / 2).
Proof. exact built_beam_lemma. Qed.
Print Assumptions C245_built_beam.
Example C245_ex : beam_ok floor_beam /\ 0 <= m_RH floor_beam <= 100 /\ 0 < m_t0 floor_beam < 10 ^ 8.
Proof. split; [exact floor_beam_ok|]. cbn. lra. Qed.

(** C246 *)
Theorem C246_slab_axis_value : forall c, beam_ok c ->
  i_fy (m_s c) * i_A (m_s c) < 85/100 * (85/100 * fck (l_g (m_slab c)) / (3/2)) * (beff c * l_hc (m_slab c)) ->
  plastic_axis c = Some (i_fy (m_s c) * i_A (m_s c) / (85/100 * (85/100 * fck (l_g (m_slab c)) / (3/2)) * beff c)).
Proof. exact slab_axis_value_lemma. Qed.
Print Assumptions C246_slab_axis_value.
Theorem C246_slab_axis_partial : forall c, beam_ok c -> m_Ra c < m_Rc c -> exists x M, plastic_axis c = Some x /\ MplRd c = Some M /\
  0 < x < l_hc (m_slab c) /\ m_Rc c / l_hc (m_slab c) * x = m_Ra c /\
  M = m_Ra c * (l_h (m_slab c) + i_h (m_s c) / 2) - m_Rc c / l_hc (m_slab c) * x * (x / 2).
Proof. exact slab_axis_lemma. Qed.
Print Assumptions C246_slab_axis_partial.
Theorem C246_steel_axis_refuted : forall c z, beam_ok c -> m_Rc c <= m_Ra c -> block_force c (m_Rc c) z = 0 ->
  let gap := (m_Ra c - m_Rc c - 2 * m_Rf c) ^ 2 / (4 * i_fy (m_s c)) * (1 / i_tw (m_s c) - 1 / i_b (m_s c)) in
  exists x M, plastic_axis c = Some x /\ MplRd c = Some M /\
  (i_tf (m_s c) < z -> M = block_moment c (m_Rc c) z + gap /\ l_h (m_slab c) + i_tf (m_s c) < x /\
     x = l_h (m_slab c) + i_tf (m_s c) + (z - i_tf (m_s c)) * (i_tw (m_s c) / i_b (m_s c))) /\
  (z <= i_tf (m_s c) -> M = block_moment c (m_Rc c) z - gap /\ x <= l_h (m_slab c) + i_tf (m_s c) /\
     x = l_h (m_slab c) + i_tf (m_s c) - (i_tf (m_s c) - z) * (i_b (m_s c) / i_tw (m_s c))).
Proof. exact steel_axis_lemma. Qed.
Print Assumptions C246_steel_axis_refuted.
Theorem C246_axis_unique : forall c Rc z, beam_ok c -> Rc <= m_Ra c -> block_force c Rc z = 0 ->
  let D := m_Ra c - Rc in let fy := i_fy (m_s c) in
  (D <= 2 * m_Rf c -> z = D / (2 * fy * i_b (m_s c)) /\ 0 <= z <= i_tf (m_s c)) /\
  (2 * m_Rf c < D -> z = i_tf (m_s c) + (D - 2 * m_Rf c) / (2 * fy * i_tw (m_s c)) /\ i_tf (m_s c) < z).
Proof. exact block_unique. Qed.
Print Assumptions C246_axis_unique.
Theorem C246_concrete_force : forall c, m_Rc c = 85/100 * (85/100 * fck (l_g (m_slab c)) / (3/2) * m_Ac c).
Proof. exact Rc_lemma. Qed.
Print Assumptions C246_concrete_force.
Theorem C246_web_force : forall c, m_Rw c = i_fy (m_s c) * (i_h (m_s c) * i_tw (m_s c)) - 2 * (i_fy (m_s c) * i_tw (m_s c) * (i_tf (m_s c) + i_r (m_s c))).
Proof. exact web_force_lemma. Qed.
Print Assumptions C246_web_force.
Example C246_ex : beam_ok narrow_beam /\ m_Rc narrow_beam <= m_Ra narrow_beam /\ beam_ok floor_beam /\ m_Ra floor_beam < m_Rc floor_beam.
Proof. split; [apply narrow_beam_ok|]. split; [apply narrow_beam_ok|]. split; [exact floor_beam_ok|]. unfold m_Rc, m_Ra, cfcd, m_Ac, beff, floor_beam, new_beam, composite_slab, ipe200. cbn. lra. Qed.

(** C247 *)
Theorem C247_core : forall c, k_n c = 4 ->
  let As := 4 * (PI * k_d c ^ 2 / 4) in
  k_As c = As /\ k_Ac c = rr_area (core_h c) (core_b c) (core_r c) - As /\
  k_Wps c = As * k_z c /\ k_Wpc c = rr_static (core_h c) (core_b c) (core_r c) - As * k_z c /\
  k_Is c = 4 * (PI * (k_d c / 2) ^ 4 / 4 + PI * k_d c ^ 2 / 4 * k_z c ^ 2).
Proof. exact core_lemma. Qed.
Print Assumptions C247_core.
Theorem C247_second_moment_refuted : forall c,
  let x := core_h c / 2 + 4 * core_r c / (3 * PI) in
  k_Ic c = rr_inertia (core_h c) (core_b c) (core_r c) - k_Is c + PI * core_r c ^ 2 * (x ^ 2 - (x - core_r c) ^ 2) /\
  (0 < core_r c -> 2 * core_r c <= core_h c -> rr_inertia (core_h c) (core_b c) (core_r c) - k_Is c < k_Ic c).
Proof. exact core_I_lemma. Qed.
Print Assumptions C247_second_moment_refuted.
Theorem C247_new_column : forall L t g d fs p, let c := new_col L t g d fs p in
  NEd c = 0 /\ k_nged c = 0 /\ M1 c = 0 /\ M2 c = 0 /\ k_ly c * k_L c = L /\ k_lz c * k_L c = L /\ k_n c * bar_A d = k_As c /\ k_RH c = 50 /\
  match p with
  | Some (y, z) => k_y c = y /\ k_z c = z
  | None => get_u c = 30 /\ get_v c = 30 + d
  end.
Proof. exact new_col_lemma. Qed.
Print Assumptions C247_new_column.
Theorem C247_cover : forall c u v, get_u (set_u u c) = u /\ get_v (set_v v c) = v + k_d c /\
  get_u (set_v v c) = get_u c /\ get_v (set_u u c) = get_v c.
Proof. exact cover_lemma. Qed.
Print Assumptions C247_cover.
Theorem C247_weight : forall c, k_n c = 4 ->
  weight_per_length c = 7850 * (981/100000) * (t_A (k_t c) / 10 ^ 6 + 4 * (PI * (k_d c / 1000 / 2) ^ 2)) +
    24 * (rr_area (core_h c) (core_b c) (core_r c) - 4 * (PI * k_d c ^ 2 / 4)) / 10 ^ 6.
Proof. exact col_weight_lemma. Qed.
Print Assumptions C247_weight.
Example C247_ex : tube_ok cut_col /\ k_n cut_col = 4.
Proof. split; [exact cut_ok | reflexivity]. Qed.

(** C248 *)
Theorem C248_contribution : forall c, tube_ok c -> exists d, delta_a c = Some d /\ 0 < d < 1 /\ d * NplRd c = t_fy (k_t c) * t_A (k_t c) /\
  NplRd c = t_fy (k_t c) * t_A (k_t c) + k_fs c / (115/100) * k_As c + fck (k_g c) / (3/2) * k_Ac c /\
  NplRd c <= NplRk c /\ NplRk c = t_fy (k_t c) * t_A (k_t c) + k_fs c * k_As c + fck (k_g c) * k_Ac c.
Proof. exact contribution_lemma. Qed.
Print Assumptions C248_contribution.
Theorem C248_concrete_modulus : forall c, 0 <= k_RH c <= 100 -> k_ned c <> 0 -> 0 <= k_nged c / k_ned c ->
  exists e phi, Eceff c = Some e /\ creep (k_g c) (k_RH c) (10 ^ 11) (10 ^ 11) 28 = Some phi /\ 0 < phi /\ e = Ecm (k_g c) / (1 + k_nged c / k_ned c * phi) /\ 0 < e <= Ecm (k_g c).
Proof. exact Eceff_lemma. Qed.
Print Assumptions C248_concrete_modulus.
Theorem C248_resistance : forall c, tube_ok c -> 0 < k_Ic c -> 0 < k_L c * k_ly c -> 0 <= k_RH c <= 100 -> k_ned c <> 0 -> 0 <= k_nged c / k_ned c ->
  exists N n, NbRd c true = Some N /\ Ncr c true = Some n /\ 0 < N /\ N <= NplRd c /\ N <= n /\
    (NplRk c <= 4/100 * n -> N = NplRd c).
Proof. exact NbRd_lemma. Qed.
Print Assumptions C248_resistance.
Theorem C248_longer_lasting : forall c c' N N', tube_ok c -> 0 < k_Ic c -> 0 < k_L c -> 0 < k_ly c -> 0 <= k_RH c <= 100 -> k_ned c <> 0 -> 0 <= k_nged c / k_ned c ->
  longer_lasting c c' -> NbRd c true = Some N -> NbRd c' true = Some N' -> N' <= N.
Proof. exact NbRd_mono_lemma. Qed.
Print Assumptions C248_longer_lasting.
Theorem C248_raises : forall c y, 0 <= k_RH c <= 100 -> (k_ned c = 0 -> NbRd c y = None /\ design_moment c = None \/ rho_s c = None) /\ (y = false -> NbRd c y = None).
Proof. exact no_force_lemma. Qed.
Print Assumptions C248_raises.
Example C248_ex : tube_ok cut_col /\ 0 < k_Ic cut_col /\ 0 < k_L cut_col * k_ly cut_col /\ 0 <= k_RH cut_col <= 100 /\ k_ned cut_col <> 0 /\ 0 <= k_nged cut_col / k_ned cut_col.
Proof. split; [exact cut_ok | exact cut_more]. Qed.

(** C249 *)
Theorem C249_plastic_moment : forall c, tube_ok c -> t_T (k_t c) * 2 < t_B (k_t c) ->
  let fy := t_fy (k_t c) in let fs := k_fs c / (115/100) in let fc := fck (k_g c) / (3/2) in
  exists z0 z1 M, h_n c 0 = Some z0 /\ h_n c (k_As c) = Some z1 /\ MplRd_col c = Some M /\ 0 < z0 /\ (fc < 2 * fs -> z1 < z0) /\
  tube_force fy fs fc c false z0 = 0 /\ tube_force fy fs fc c true z1 = 0 /\
  (z0 < k_z c - k_d c / 2 -> M = tube_moment fy fs fc c false z0) /\
  (k_z c - k_d c / 2 <= z0 -> M = tube_moment fy fs fc c true z1).
Proof. exact tube_plastic_lemma. Qed.
Print Assumptions C249_plastic_moment.
Theorem C249_bars_cut_refuted : exists c z0 z1 M, tube_ok c /\ h_n c 0 = Some z0 /\ h_n c (k_As c) = Some z1 /\
  k_z c - k_d c / 2 <= z0 < k_z c + k_d c / 2 /\ z1 < k_z c - k_d c / 2 /\ MplRd_col c = Some M /\
  M = tube_moment (t_fy (k_t c)) (k_fs c / (115/100)) (fck (k_g c) / (3/2)) c true z1 /\
  0 < tube_force (t_fy (k_t c)) (k_fs c / (115/100)) (fck (k_g c) / (3/2)) c false z1.
Proof. exact bars_cut_refuted_lemma. Qed.
Print Assumptions C249_bars_cut_refuted.
Example C249_ex : tube_ok cut_col /\ t_T (k_t cut_col) * 2 < t_B (k_t cut_col).
Proof. split; [exact cut_ok | cbn; lra]. Qed.

(** C250 *)
Theorem C250_end_moments : forall c, (M1 c = k_m0 c /\ M2 c = k_m1 c \/ M1 c = k_m1 c /\ M2 c = k_m0 c) /\ Rabs (M1 c) <= Rabs (M2 c) /\
  (Rabs (k_m0 c) <= Rabs (k_m1 c) -> M2 c = k_m1 c).
Proof. exact end_moments_lemma. Qed.
Print Assumptions C250_end_moments.
Theorem C250_second_order : forall c e, Eceff c = Some e ->
  EIeffII c true = Some (9/10 * (t_E (k_t c) * t_I (k_t c) + 210000 * k_Is c + 1/2 * e * k_Ic c)) /\
  (0 < k_L c -> 0 < k_ly c -> Ncreff c true = Some (9/10 * (t_E (k_t c) * t_I (k_t c) + 210000 * k_Is c + 1/2 * e * k_Ic c) * (PI / (k_L c * k_ly c)) ^ 2)) /\
  (tube_ok c -> e0 c = Some (k_L c / (if Rle_dec (k_As c) (3/100 * k_Ac c) then 300 else 200))).
Proof. exact EIeffII_lemma. Qed.
Print Assumptions C250_second_order.
Theorem C250_design_moment_refuted : forall c n e, Ncreff c true = Some n -> 0 < n -> e0 c = Some e ->
  let N := Rabs (k_ned c) in
  (10 * N <= n -> design_moment c = Some (N * e + M2 c)) /\
  (n < 10 * N -> N < n -> 0 < M2 c -> design_moment c = Some (Rmax (1 / (1 - N / n) * (beta_end (M1 c / M2 c) * M2 c + N * e)) (M2 c))) /\
  (n < N -> 0 < M2 c -> design_moment c = Some (Rmax (beta_end (M1 c / M2 c) * M2 c + N * e) (M2 c))) /\
  (n < 10 * N -> N < n -> M2 c <= 0 -> 0 <= e -> design_moment c = Some (1 / (1 - N / n) * (N * e))).
Proof. exact design_moment_lemma. Qed.
Print Assumptions C250_design_moment_refuted.
Theorem C250_utilisation_refuted : forall c MEd Mp, tube_ok c -> t_T (k_t c) * 2 < t_B (k_t c) -> design_moment c = Some MEd -> MplRd_col c = Some Mp -> 0 < Mp ->
  let N := Rabs (k_ned c) in let al := if Rle_dec (t_fy (k_t c)) 355 then 9/10 else 8/10 in
  (N <= NpmRd c -> utilisation c = Some (MEd / (al * Mp))) /\
  (NpmRd c <= N -> N <> NplRd c -> exists u, utilisation c = Some u /\ u * ((NplRd c - N) / (NplRd c - NpmRd c) * Mp) * al = MEd /\
     (0 < MEd -> NplRd c < N -> u < 0) /\ (0 < MEd -> N < NplRd c -> 0 < u)).
Proof. exact utilisation_lemma. Qed.
Print Assumptions C250_utilisation_refuted.
Example C250_ex : exists c n e, tube_ok c /\ Ncreff c true = Some n /\ 0 < n < Rabs (k_ned c) /\ e0 c = Some e /\ 0 < M2 c.
Proof.
  destruct cut_more as (HI & HL & HR & HN & HQ). destruct (Eceff_lemma cut_col HR HN HQ) as (e & phi & Ee & _ & _ & _ & Pe & _).
  pose (n := 9/10 * (t_E (k_t cut_col) * t_I (k_t cut_col) + 210000 * k_Is cut_col + 1/2 * e * k_Ic cut_col) * (PI / (k_L cut_col * k_ly cut_col)) ^ 2).
  assert (Pn : 0 < n).
  { destruct (col_pos cut_col cut_ok) as (_ & P2 & _). assert (0 < 1/2 * e * k_Ic cut_col) by (apply Rmult_lt_0_compat; lra).
    unfold n. apply Rmult_lt_0_compat; [cbn [cut_col cut_tube k_t t_E t_I]; lra|]. apply pow_lt. apply Rdiv_lt_0_compat; [apply PI_RGT_0|lra]. }
  pose (c := with_forces (n + 1) 0 0 1000 cut_col).
  assert (Ec : Eceff c = Some e). { unfold Eceff in *. change (k_g c) with (k_g cut_col). change (k_RH c) with (k_RH cut_col). change (k_nged c) with 0. change (k_ned c) with (n + 1).
    change (k_nged cut_col) with 0 in Ee. destruct (creep _ _ _ _ _); [|discriminate Ee]. cbn [bind] in *. rewrite pdiv_ok in * by lra. cbn [bind] in *.
    replace (0 / (n + 1)) with (0 / k_ned cut_col) by (field; split; lra). exact Ee. }
  assert (OK : tube_ok c) by exact cut_ok.
  destruct (EIeffII_lemma c e Ec) as (_ & E2 & E3). eexists c, n, _. split; [exact OK|]. split; [apply E2; cbn; lra|]. split; [|split; [apply E3; exact OK|]].
  - change (k_ned c) with (n + 1). rewrite Rabs_right; lra.
  - unfold M2. change (k_m0 c) with 0. change (k_m1 c) with 1000. rewrite Rabs_R0, Rabs_right by lra. rewrite leb_t by lra. lra.
Qed.
