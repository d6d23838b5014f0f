(** C71 to C77, C113 to C118: load combinations, wind loads and timber in fire. *)
From Verif Require Import Loads_spec Loads_proofs Loads2_proofs.

(** C71 *)
Theorem C71_uls_worst : forall c kfi, c_kfi c = Some kfi ->
  exists k, uls_combine c = Some k /\ largest (uls_value kfi (c_G c) (c_Q c)) (k_value k) /\ design_value k = k_value k.
Proof. exact uls_lemma. Qed.
Print Assumptions C71_uls_worst.
Theorem C71_consequence_class : forall cls CC kk, (CC < 1 \/ 3 < CC)%nat -> uls_combine (new_combiner cls CC kk) = None.
Proof. exact uls_kfi_missing_lemma. Qed.
Print Assumptions C71_consequence_class.
Example C71_ex : let c := mkComb 4 (Some 1) 1 [mkLoad kLoad 10 (1,9/10,8/10) dy [0%nat]] [mkLoad kWind 4 (6/10,2/10,0) dy [0%nat]; mkLoad kImposed 6 (1,9/10,8/10) dy [0%nat]] in
  exists k, uls_combine c = Some k /\ 265/10 <= k_value k.
Proof.
  intros c. destruct (uls_lemma c 1 eq_refl) as (k & E & [_ M] & _). exists k. split; auto. apply M. right.
  exists [], (mkLoad kWind 4 (6/10,2/10,0) dy [0%nat]), [mkLoad kImposed 6 (1,9/10,8/10) dy [0%nat]]. split; [reflexivity|]. unfold total, psi. cbn. lra.
Qed.

(** C72 *)
Theorem C72_frequent : forall c, c_Q c <> [] -> let k := snd (fst (sls_combine c)) in
  largest (lead_value (psi 1) 2 (c_G c) (c_Q c)) (k_value k) /\ design_value k = k_value k.
Proof. exact freq_lemma. Qed.
Print Assumptions C72_frequent.
Theorem C72_quasi_permanent : forall c, let k := snd (sls_combine c) in
  k_value k = total l_val (c_G c) + total (fun q => psi 2 q * l_val q) (c_Q c) /\ design_value k = k_value k.
Proof. exact quasi_lemma. Qed.
Print Assumptions C72_quasi_permanent.
Theorem C72_characteristic_partial : forall c, c_Q c <> [] -> let k := fst (fst (sls_combine c)) in
  largest (lead_value (fun _ => 1) 2 (c_G c) (c_Q c)) (k_value k) /\
  lead_value (fun _ => 1) 0 (c_G c) (c_Q c) (design_value k).
Proof. exact char_value_lemma. Qed.
Print Assumptions C72_characteristic_partial.
(** Finding: the leading load is chosen with psi2 on the others but reported with psi0: a
    combination with design value 10.6 is reported (as 10) where another one gives 11. *)
Theorem C72_characteristic_refuted : let k := fst (fst (sls_combine char_ex)) in
  design_value k = 106/10 /\ k_value k = 10 /\ lead_value (fun _ => 1) 0 (c_G char_ex) (c_Q char_ex) 11.
Proof. exact char_refuted_lemma. Qed.
Print Assumptions C72_characteristic_refuted.
Example C72_ex : c_Q char_ex <> [].
Proof. discriminate. Qed.

(** C73 *)
Theorem C73_add_monotone : forall l c c' k k' kfi, c_kfi c = Some kfi -> 0 <= kfi -> 0 <= c_kk c -> load_ok l ->
  add_load l c = Some c' -> uls_combine c = Some k -> uls_combine c' = Some k' -> k_value k <= k_value k'.
Proof. exact add_monotone_lemma. Qed.
Print Assumptions C73_add_monotone.
Example C73_ex : exists c, add_load (mkLoad kImposed 5 (0,0,0) dy [0%nat]) (new_combiner 1 2 1) = Some c /\ exists k, uls_combine c = Some k.
Proof. eexists. split; [reflexivity|]. eexists. reflexivity. Qed.

(** C74 *)
Theorem C74_walls : forall b d h, 0 < b -> 0 < d -> 0 < h ->
  let w := wall_pressure b d h in
  len_A w + len_B w + len_C w = d /\ 0 < len_A w /\ 0 <= len_B w /\ 0 <= len_C w /\
  len_A w <= wind_e b h / 5 /\ len_A w + len_B w <= wind_e b h.
Proof. exact walls_lemma. Qed.
Print Assumptions C74_walls.
Theorem C74_flat_roof : forall d b h, 0 < b -> 0 < d -> 0 < h ->
  let '(F, G, H, J) := flat_zones d b h in
  2 * area F + area G + area H + area J = b * d /\ 0 < area F /\ 0 < area G /\ 0 < area H /\
  (0 <= area J <-> wind_e b h <= 2 * d).
Proof. exact flat_lemma. Qed.
Print Assumptions C74_flat_roof.
Example C74_ex : len_A (wall_pressure 20 10 4) = 16/10.
Proof. unfold wall_pressure, wall_zones, wind_e. rewrite Rmin_right by lra. unfold Rltb. destruct (Rlt_dec (2*4) 10); [|lra]. destruct (Rlt_dec 10 (20*4)); [|lra]. destruct (cpe_DE (4/10)). cbn. lra. Qed.
(** Finding: a roof shorter than half the governing width gets a zone of negative width. *)
Example C74_negative_zone_ex : let '(_, _, _, J) := flat_zones 4 20 10 in area J < 0.
Proof. unfold flat_zones, area, wind_e. cbn [fst snd]. rewrite Rmin_left by lra. lra. Qed.

(** C75 *)
Theorem C75_formula : forall z cat vb z0 zmin, terrain cat = Some (z0, zmin) ->
  exists q L, peak_velocity_pressure z cat vb = Some q /\ 0 < L /\ exp L = Rmax zmin z / z0 /\ q = qp_formula (kr cat z0) L vb.
Proof. exact peak_lemma. Qed.
Print Assumptions C75_formula.
Theorem C75_monotone : forall z z' cat vb vb' q q', z <= z' -> 0 <= vb <= vb' ->
  peak_velocity_pressure z cat vb = Some q -> peak_velocity_pressure z' cat vb' = Some q' -> 0 <= q <= q' /\ (0 < vb -> 0 < q).
Proof. exact peak_mono_lemma. Qed.
Print Assumptions C75_monotone.
Theorem C75_below_minimum_height : forall z z' cat vb z0 zmin, terrain cat = Some (z0, zmin) -> z <= zmin -> z' <= zmin ->
  peak_velocity_pressure z cat vb = peak_velocity_pressure z' cat vb.
Proof. exact peak_low_lemma. Qed.
Print Assumptions C75_below_minimum_height.
Theorem C75_category : forall z cat vb, peak_velocity_pressure z cat vb = None <-> (4 < cat)%nat.
Proof. exact peak_cat_lemma. Qed.
Print Assumptions C75_category.
Example C75_ex : exists q, peak_velocity_pressure 10 2 21 = Some q /\ 0 < q.
Proof.
  destruct (peak_lemma 10 2 21 _ _ eq_refl) as (q & L & E & _ & _ & _). exists q. split; auto.
  apply (peak_mono_lemma 10 10 2 21 21 q q); auto; lra.
Qed.

(** C76 *)
Theorem C76_interpolate : forall x0 x1 y0 y1, x0 < x1 ->
  interpolate x0 x1 y0 y1 x0 = Some y0 /\ interpolate x0 x1 y0 y1 x1 = Some y1 /\
  (forall x, exists y, interpolate x0 x1 y0 y1 x = Some y /\ (y - y0) * (x1 - x0) = (y1 - y0) * (x - x0)) /\
  (forall x y, x0 <= x <= x1 -> interpolate x0 x1 y0 y1 x = Some y -> Rmin y0 y1 <= y <= Rmax y0 y1) /\
  (forall a b ya yb, a <= b -> interpolate x0 x1 y0 y1 a = Some ya -> interpolate x0 x1 y0 y1 b = Some yb ->
     (y0 <= y1 -> ya <= yb) /\ (y1 <= y0 -> yb <= ya)).
Proof. exact interpolate_lemma. Qed.
Print Assumptions C76_interpolate.
Theorem C76_empty_interval : forall x0 y0 y1 x, interpolate x0 x0 y0 y1 x = None.
Proof. exact interpolate_equal_lemma. Qed.
Print Assumptions C76_empty_interval.
Example C76_ex : interpolate 0 2 10 20 1 = Some 15.
Proof. unfold interpolate. unfold pdiv, Reqb. destruct (Req_EM_T (2-0) 0); [lra|]. cbn. f_equal. field. Qed.

(** C77 *)
Theorem C77_before_charring : forall p t beta, t < t_ch p -> d_char_n (Some p) t beta = Some 0.
Proof. exact char_before_lemma. Qed.
Print Assumptions C77_before_charring.
Theorem C77_unprotected : forall t t' beta, 0 <= beta -> 0 <= t -> t <= t' ->
  exists x x', d_char_n None t beta = Some x /\ d_char_n None t' beta = Some x' /\ 0 <= x <= x'.
Proof. exact char_unprotected_lemma. Qed.
Print Assumptions C77_unprotected.
Theorem C77_monotone_partial : forall p tf ta beta t t' x x', prot_ok p tf ta -> 0 <= beta -> 0 <= t -> t <= t' -> t <> tf -> t' <> tf ->
  d_char_n (Some p) t beta = Some x -> d_char_n (Some p) t' beta = Some x' -> 0 <= x <= x'.
Proof. exact char_mono_lemma. Qed.
Print Assumptions C77_monotone_partial.
Theorem C77_standard_times : forall beta tch tf ta, 0 < beta -> 0 <= tch -> set_tf beta tch = Some tf -> set_ta beta tf = Some ta -> tch < tf < ta /\ ta <= 2 * tf.
Proof. exact times_lemma. Qed.
Print Assumptions C77_standard_times.
(** Finding: at exactly the failure time the formula of the last phase is used: the depth reported
    there is larger than a moment later. *)
Theorem C77_failure_time_refuted : forall p tf ta beta, prot_ok p tf ta -> t_ch p < tf -> tf < ta -> 0 < beta ->
  exists x, d_char_n (Some p) tf beta = Some x /\
    forall t, tf < t < ta -> t < tf + (ta - tf) / 2 -> (20 <= tf) -> exists y, d_char_n (Some p) t beta = Some y /\ y < x.
Proof. exact char_at_failure_lemma. Qed.
Print Assumptions C77_failure_time_refuted.
(** Finding: with an unset failure time the depth cannot be computed. *)
Theorem C77_unset : forall p t beta, t_ch p <= t -> t_f p = None -> d_char_n (Some p) t beta = None.
Proof. exact char_unset_lemma. Qed.
Print Assumptions C77_unset.
Example C77_ex : prot_ok (mkProt 10 (Some 30) (Some 45)) 30 45.
Proof. unfold prot_ok. cbn. repeat split; lra. Qed.

(** C113 *)
Theorem C113_accidental : forall c, let k := acc_combine c in
  largest (fun v => v = total l_val (c_G c) \/ lead_value accidental_psi 2 (c_G c) (c_Q c) v) (k_value k) /\ design_value k = k_value k.
Proof. exact accidental_lemma. Qed.
Print Assumptions C113_accidental.
Example C113_ex : 82/10 <= k_value (acc_combine char_ex).
Proof.
  destruct (acc_lemma char_ex) as [[_ M] _]. apply M. right.
  exists [mkLoad kImposed 10 (1, 9/10, 8/10) dy [0%nat]], (mkLoad kWind 1 (6/10, 2/10, 0) dy [0%nat]), []. split; [reflexivity|].
  unfold total, psi, acc_psi. cbn. lra.
Qed.

(** C114 *)
Theorem C114_factor : forall p kk L, 7/10 <= reduction_alpha p kk L <= 1.
Proof. exact alpha_lemma. Qed.
Print Assumptions C114_factor.
Theorem C114_loads_partial : forall L c, c_G (use_reduction L c) = c_G c /\
  Forall2 (fun q q' => l_psi q' = l_psi q /\ (l_kind q <> kImposed -> q' = q) /\ (0 <= l_val q -> 7/10 * l_val q <= l_val q' <= l_val q)) (c_Q c) (c_Q (use_reduction L c)).
Proof. exact reduction_lemma. Qed.
Print Assumptions C114_loads_partial.
(** Finding: calling it twice reduces twice. *)
Theorem C114_twice_refuted : exists c L, 0 < L /\
  use_reduction L (use_reduction L c) <> use_reduction L c.
Proof. exact reduction_twice_lemma. Qed.
Print Assumptions C114_twice_refuted.
Example C114_ex : reduction_alpha (7/10) 1 100 = 7/10.
Proof. unfold reduction_alpha. rewrite Rmax_right by lra. rewrite Rmin_left; lra. Qed.

(** C115 *)
Theorem C115_rounding_partial : forall rnd d id k, (forall x, Rabs (rnd x - x) <= 5/1000) ->
  let n := length (expand id k) in Rabs (id_total rnd d id k - id_total (fun x => x) d id k) <= 5/1000 * INR n.
Proof. exact id_round_lemma. Qed.
Print Assumptions C115_rounding_partial.
(** Finding: loads in direction z are dropped. *)
Theorem C115_direction_z_refuted : forall rnd d id k, Forall (fun lf => l_dir (fst lf) = dz) (k_loads k) -> id_total rnd d id k = 0.
Proof. exact id_z_lemma. Qed.
Print Assumptions C115_direction_z_refuted.
Example C115_ex : id_total (fun x => x) dy 3 (mkCand 0 [(mkLoad kSnow 2 (0,0,0) dy [1%nat;3%nat], 15/10)]) = 3.
Proof. unfold id_total. cbn. field. Qed.

(** C116 *)
Theorem C116_range : forall x, 7/10 <= fst (cpe_DE x) <= 8/10 /\ -7/10 <= snd (cpe_DE x) <= -3/10.
Proof. exact cpe_lemma. Qed.
Print Assumptions C116_range.
Theorem C116_monotone_no_jumps : forall x y, x <= y ->
  0 <= fst (cpe_DE y) - fst (cpe_DE x) <= 2/15 * (y - x) /\ 0 <= snd (cpe_DE x) - snd (cpe_DE y) <= 4/15 * (y - x).
Proof. exact cpe_mono_lemma. Qed.
Print Assumptions C116_monotone_no_jumps.
Theorem C116_table : cpe_DE (1/4) = (7/10, -3/10) /\ cpe_DE 1 = (8/10, -5/10) /\ cpe_DE 5 = (8/10, -7/10).
Proof. exact cpe_table_lemma. Qed.
Print Assumptions C116_table.
Theorem C116_wall_partial : forall b d h, 10 < b * h ->
  let w := wall_pressure b d h in cpe_A w = -12/10 /\ cpe_B w = -8/10 /\ cpe_C w = -5/10 /\ (cpe_D w, cpe_E w) = cpe_DE (h / d).
Proof. exact wall_pressure_lemma. Qed.
Print Assumptions C116_wall_partial.
(** Finding: no pressure at all on walls of 10 square metres or less. *)
Theorem C116_small_wall_refuted : forall b d h, b * h <= 10 -> let w := wall_pressure b d h in
  cpe_A w = 0 /\ cpe_B w = 0 /\ cpe_C w = 0 /\ cpe_D w = 0 /\ cpe_E w = 0.
Proof. exact wall_small_lemma. Qed.
Print Assumptions C116_small_wall_refuted.
Example C116_ex : 10 < 20 * 4. Proof. lra. Qed.

(** C117 *)
Theorem C117_leeward_range : forall a F G H, a <= 90 -> mono180 a = Some (F, G, H) ->
  -25/10 <= F <= -5/10 /\ -13/10 <= G <= -5/10 /\ -9/10 <= H <= -5/10.
Proof. exact mono180_lemma. Qed.
Print Assumptions C117_leeward_range.
Theorem C117_leeward_table_partial : mono180 5 = Some (-23/10, -13/10, -8/10) /\ mono180 15 = Some (-25/10, -13/10, -9/10) /\ mono180 30 = Some (-11/10, -8/10, -8/10) /\
  mono180 45 = Some (-6/10, -5/10, -7/10) /\ mono180 60 = Some (-5/10, -5/10, -5/10) /\ (forall a, a < 5 -> mono180 a = None).
Proof. exact mono180_table_lemma. Qed.
Print Assumptions C117_leeward_table_partial.
Theorem C117_leeward_no_jumps : forall a b F G H F' G' H', a <= b -> mono180 a = Some (F, G, H) -> mono180 b = Some (F', G', H') ->
  Rabs (F' - F) <= 1/10 * (b - a) /\ Rabs (G' - G) <= 1/10 * (b - a) /\ Rabs (H' - H) <= 1/10 * (b - a).
Proof. exact mono180_cont_lemma. Qed.
Print Assumptions C117_leeward_no_jumps.
(** Findings: windward coefficients between 5 and 15 degrees extrapolate the next interval (the
    table has -1.7, -1.2, -0.6 at 5 degrees), and the computed pressures are all zero. *)
Theorem C117_windward_refuted : mono0_low 5 = (-7/6, -1, -11/30) /\ mono0_low 15 = (-9/10, -8/10, -3/10).
Proof. exact mono0_refuted_lemma. Qed.
Print Assumptions C117_windward_refuted.
Theorem C117_pressure_refuted : forall qp, Forall (fun p => p = 0) (monopitch_pressures qp).
Proof. exact monopitch_refuted_lemma. Qed.
Print Assumptions C117_pressure_refuted.
Example C117_ex : mono180 15 = Some (-25/10, -13/10, -9/10).
Proof. apply mono180_table_lemma. Qed.

(** C118 *)
Theorem C118_duration : forall m sc d d' k k', kmod m sc d = Some k -> kmod m sc d' = Some k' ->
  ((dur_rank d < dur_rank d')%nat -> k < k') /\ 1/2 <= k <= 11/10.
Proof. exact kmod_lemma. Qed.
Print Assumptions C118_duration.
Theorem C118_service_class : forall m d sc sc' k k', (sc <= sc')%nat -> kmod m sc d = Some k -> kmod m sc' d = Some k' -> k' <= k.
Proof. exact kmod_service_lemma. Qed.
Print Assumptions C118_service_class.
Theorem C118_design_strength : forall m sc d fk k, 0 < fk -> kmod m sc d = Some k ->
  0 < k_to_d fk k (gammaM_timber m) < fk /\ (forall fk', fk < fk' -> k_to_d fk k (gammaM_timber m) < k_to_d fk' k (gammaM_timber m)).
Proof. exact design_strength_lemma. Qed.
Print Assumptions C118_design_strength.
Theorem C118_panel_partial : forall rhok m sw h h' x x', 0 < rhok -> rhok <= 450 \/ 20 <= h \/ h' < 20 -> 0 < h -> h < h' ->
  wood_tch rhok m sw h = Some x -> wood_tch rhok m sw h' = Some x' -> 0 < x < x'.
Proof. exact tch_thicker_lemma. Qed.
Print Assumptions C118_panel_partial.
(** Finding: in dense wood a 20 mm panel protects for a shorter time than a 19 mm panel. *)
Theorem C118_panel_refuted : exists x x', wood_tch 800 glt true 19 = Some x /\ wood_tch 800 glt true 20 = Some x' /\ x' < x.
Proof. exact tch_refuted_lemma. Qed.
Print Assumptions C118_panel_refuted.
Example C118_ex : kmod glt 1 mt = Some (8/10).
Proof. reflexivity. Qed.
