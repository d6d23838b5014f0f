(** C228 to C233: cold-formed members and sheeting. *)
From Verif Require Import Tac Bool_tac EC3_proofs Sections_proofs Loads2_proofs Cold_proofs Cold2_proofs Cold3_proofs Cold4_proofs Cold5_proofs Cold6_proofs.
From Verif Require Import Cold_model Cold_spec.
Open Scope R_scope.

(** C228 *)
Theorem C228_fya : forall fyb fu t Ag n k, 0 < Ag -> 0 <= k -> 0 <= n -> fyb <= fu ->
  exists v, fya fyb fu t Ag n k = Some v /\ fyb <= v <= (fu + fyb) / 2 /\
    (2 * (k * n * t ^ 2) <= Ag -> v = fyb + (fu - fyb) * (k * n * t ^ 2) / Ag) /\ (Ag <= 2 * (k * n * t ^ 2) -> v = (fu + fyb) / 2).
Proof. exact fya_lemma. Qed.
Print Assumptions C228_fya.
Theorem C228_fya_monotone : forall fyb fu t t' Ag Ag' n n' k v v', 0 < Ag' <= Ag -> 0 <= k -> 0 <= n <= n' -> 0 <= t <= t' -> fyb <= fu ->
  fya fyb fu t Ag n k = Some v -> fya fyb fu t' Ag' n' k = Some v' -> v <= v'.
Proof. exact fya_mono_lemma. Qed.
Print Assumptions C228_fya_monotone.
Theorem C228_corner_partial : forall r t phi, 0 < r + t / 2 -> 0 < phi < 90 ->
  0 < gr r t phi /\ (r + t / 2) * (tan (radians phi / 2) - sin (radians phi / 2)) < gr r t phi.
Proof. exact gr_lemma. Qed.
Print Assumptions C228_corner_partial.
Theorem C228_corner_refuted : forall r t, 0 < r + t / 2 -> forall B, exists phi, 0 < phi < 90 /\ B < gr r t phi.
Proof. exact gr_unbounded_lemma. Qed.
Print Assumptions C228_corner_refuted.
Theorem C228_notional_width : forall b rm phi, length rm = length phi -> Forall (fun r => 0 <= r) rm -> Forall (fun p => 0 <= p <= 180) phi ->
  exists w, notional_width b (Lst rm) (Lst phi) = Some w /\ b <= w <= b + Rsum rm /\
    w = b + Rsum (map (fun q => fst q * sin (snd q * PI / 360)) (combine rm phi)).
Proof. exact notional_width_lemma. Qed.
Print Assumptions C228_notional_width.
Theorem C228_one_corner_refuted : forall b rm, notional_width b (Lst [rm]) (Lst [90]) = Some (b + rm * (sqrt 2 / 2)) /\
  notional_width b (Num rm) (Lst [90; 90]) = Some (b + 2 * (rm * (sqrt 2 / 2))) /\ (forall phi, notional_width b (Num rm) (Num phi) = None).
Proof. exact one_corner_lemma. Qed.
Print Assumptions C228_one_corner_refuted.
Theorem C228_rounding : forall r phi bp, length r = length phi -> 0 < Rsum bp ->
  exists d, rounding_factor (Lst r) (Lst phi) bp = Some d /\ d * Rsum bp * 90 = 43/100 * Rsum (map (fun q => fst q * snd q) (combine r phi)) /\
    (Forall (fun x => 0 <= x) r -> Forall (fun p => 0 <= p <= 90) phi -> 0 <= d <= 43/100 * Rsum r / Rsum bp).
Proof. exact rounding_factor_lemma. Qed.
Print Assumptions C228_rounding.
Theorem C228_rounding_right_angles : forall r bp, 0 < Rsum bp -> rounding_factor (Lst r) (Num 90) bp = Some (43/100 * Rsum r / Rsum bp).
Proof. exact rounding_right_lemma. Qed.
Print Assumptions C228_rounding_right_angles.
Example C228_ex : exists v, fya 350 420 (196/100) 800 4 7 = Some v /\ 350 < v < 385.
Proof.
  destruct (fya_lemma 350 420 (196/100) 800 4 7) as (v & E & B & L & H); try lra. exists v. split; [exact E|]. rewrite L by lra. lra.
Qed.

(** C229 *)
Theorem C229_reduction_factor : forall l, (l <= 65/100 -> chi_dist l = Some 1) /\ (65/100 < l <= 138/100 -> chi_dist l = Some (147/100 - 723/1000 * l)) /\
  (138/100 < l -> exists c, chi_dist l = Some c /\ c * l = 66/100) /\
  (exists c, chi_dist l = Some c /\ 0 < c < 100006/100000 /\ (470/723 <= l -> c <= 1)).
Proof. exact chi_dist_lemma. Qed.
Print Assumptions C229_reduction_factor.
Theorem C229_decreasing_partial : forall l l' c c', l <= l' -> chi_dist l = Some c -> chi_dist l' = Some c' ->
  (l' <= 65/100 \/ (470/723 <= l /\ l' <= 138/100) \/ (l <= 65/100 /\ 470/723 <= l') \/ 138/100 < l \/ 1398/1000 <= l') -> c' <= c.
Proof. exact chi_dist_anti_lemma. Qed.
Print Assumptions C229_decreasing_partial.
Theorem C229_decreasing_refuted : (exists l c, 65/100 < l /\ chi_dist l = Some c /\ 1 < c) /\
  (exists l l' c c', 65/100 < l /\ l < l' /\ chi_dist l = Some c /\ chi_dist l' = Some c' /\ c + 5/1000 < c').
Proof. exact chi_dist_refuted_lemma. Qed.
Print Assumptions C229_decreasing_refuted.
Theorem C229_edge_stiffener : forall b, (b <= 35/100 -> ksigma_edge b = Some (1/2)) /\
  (35/100 <= b <= 6/10 -> exists k, ksigma_edge b = Some k /\ 1/2 <= k < 83/100 /\ ((k - 1/2) / (83/100)) ^ 3 = (b - 35/100) ^ 2) /\
  (6/10 < b -> ksigma_edge b = None).
Proof. exact ksigma_lemma. Qed.
Print Assumptions C229_edge_stiffener.
Theorem C229_edge_stiffener_monotone : forall b b' k k', b <= b' -> ksigma_edge b = Some k -> ksigma_edge b' = Some k' -> k <= k'.
Proof. exact ksigma_mono_lemma. Qed.
Print Assumptions C229_edge_stiffener_monotone.
Theorem C229_critical_stress : forall Is As E K, 0 < Is -> 0 < As -> 0 < E -> 0 < K ->
  exists s, sigma_dist Is As E K = Some s /\ 0 < s /\ (s * As) ^ 2 = 4 * K * E * Is.
Proof. exact sigma_dist_lemma. Qed.
Print Assumptions C229_critical_stress.
Theorem C229_axial : forall Ned A fa fb Ae lr, 0 < A -> 0 < fb <= fa -> 0 <= Ae -> 
  (0 <= Ned -> axial_force_resistance Ned A (all_kw fa fb Ae lr) = fa * A) /\
  (Ned < 0 -> Ae < A -> axial_force_resistance Ned A (all_kw fa fb Ae lr) = fb * Ae) /\
  (Ned < 0 -> A <= Ae -> lr <= 1 -> fb * A <= axial_force_resistance Ned A (all_kw fa fb Ae lr) <= fa * A) /\
  (Ned < 0 -> A <= Ae -> lr <= 3/4 -> axial_force_resistance Ned A (all_kw fa fb Ae lr) = fa * A) /\
  (Ned < 0 -> A <= Ae -> 3/4 <= lr -> axial_force_resistance Ned A (all_kw fa fb Ae lr) = (fb + 4 * (fa - fb) * (1 - lr)) * A).
Proof. exact axial_lemma. Qed.
Print Assumptions C229_axial.
Theorem C229_axial_keywords : forall Ned A k, (0 <= Ned -> k_fya k = None -> axial_force_resistance Ned A k = 0) /\ (Ned < 0 -> k_Aeff k = None -> axial_force_resistance Ned A k = 0) /\
  (Ned < 0 -> k_fyb k = None -> axial_force_resistance Ned A k = 0).
Proof. exact axial_missing_lemma. Qed.
Print Assumptions C229_axial_keywords.
Theorem C229_axial_slender_refuted : forall fa fb A, 0 < A -> 0 < fb < fa -> exists lr, 1 < lr /\ axial_force_resistance (-1) A (all_kw fa fb A lr) < 0.
Proof. exact axial_slender_refuted_lemma. Qed.
Print Assumptions C229_axial_slender_refuted.
Example C229_ex : chi_dist 1 = Some (147/100 - 723/1000 * 1) /\ axial_force_resistance (-1) 500 (all_kw 385 350 500 (9/10)) = (350 + 4 * (385 - 350) * (1 - 9/10)) * 500.
Proof. split; [apply chi_dist_lemma; lra | apply axial_lemma; lra]. Qed.

(** C230 *)
Theorem C230_eurocode_refuted : forall fyb t hw ss c r phi e st, 0 < t ->
  exists v, RwRd fyb t hw ss c r phi e st false = Some v /\ v * en_k3 phi = en_resistance fyb t hw ss c r phi e st * (7/10 + 3/10 * (phi / 8100)) /\
    (phi = 90 -> v = (7/10 + 1/300) * en_resistance fyb t hw ss c r phi e st).
Proof. exact RwRd_code_lemma. Qed.
Print Assumptions C230_eurocode_refuted.
Theorem C230_positive : forall fyb t hw ss c r phi e st, web_range fyb t hw ss r phi -> 1 <= phi ->
  exists v, RwRd fyb t hw ss c r phi e st false = Some v /\ 0 < v <= en_resistance fyb t hw ss c r phi e st.
Proof. exact RwRd_range_lemma. Qed.
Print Assumptions C230_positive.
Theorem C230_support_width_partial : forall fyb t hw ss ss' c r phi e st v v', web_range fyb t hw ss r phi -> web_range fyb t hw ss' r phi -> ss <= ss' ->
  (c <= 15/10 * hw \/ 1/1000000 <= Rabs e \/ ss' <= 60 * t \/ 60 * t < ss) ->
  RwRd fyb t hw ss c r phi e st false = Some v -> RwRd fyb t hw ss' c r phi e st false = Some v' -> v <= v'.
Proof. exact RwRd_mono_ss_lemma. Qed.
Print Assumptions C230_support_width_partial.
Theorem C230_support_width_refuted : forall fyb t hw c r phi, 0 < t -> 0 < fyb < 912 -> 0 <= hw <= 200 * t -> 0 <= r <= 6 * t -> 0 <= phi -> 15/10 * hw < c ->
  exists ss ss' v v', 0 <= ss < ss' /\ ss' <= 210 * t /\ RwRd fyb t hw ss c r phi 0 false false = Some v /\ RwRd fyb t hw ss' c r phi 0 false false = Some v' /\ v' < v.
Proof. exact RwRd_drop_lemma. Qed.
Print Assumptions C230_support_width_refuted.
Theorem C230_interior : forall fyb t hw ss c c' r phi v v', web_range fyb t hw ss r phi -> c <= 15/10 * hw -> 15/10 * hw < c' ->
  RwRd fyb t hw ss c r phi 0 false false = Some v -> RwRd fyb t hw ss c' r phi 0 false false = Some v' -> v < v'.
Proof. exact RwRd_interior_lemma. Qed.
Print Assumptions C230_interior.
Theorem C230_stiffened_flange : forall fyb t hw ss c r phi v v', web_range fyb t hw ss r phi -> c <= 15/10 * hw ->
  RwRd fyb t hw ss c r phi 0 false false = Some v -> RwRd fyb t hw ss c r phi 0 true false = Some v' -> v < v'.
Proof. exact RwRd_flange_lemma. Qed.
Print Assumptions C230_stiffened_flange.
Example C230_ex : web_range 350 (3/2) 200 60 3 90 /\ exists v, RwRd 350 (3/2) 200 60 100 3 90 0 false false = Some v /\ 0 < v.
Proof.
  assert (W : web_range 350 (3/2) 200 60 3 90) by (unfold web_range; lra). split; [exact W|]. destruct (RwRd_range_lemma _ _ _ _ 100 _ _ 0 false W) as (v & E & B); [lra|]. exists v. split; [exact E|lra].
Qed.

(** C231 *)
Theorem C231_internal : forall fyb r t phi hw ss V la, 0 < t -> 0 <= fyb -> 0 <= r -> 0 <= hw -> bearing_length true ss (Some V) = Some la -> 0 <= la ->
  RwRd_two_webs fyb r t phi hw ss true [WV V] = Some (en_sheet (15/100) (Rmin la 200) fyb r t phi).
Proof. exact internal_lemma. Qed.
Print Assumptions C231_internal.
Theorem C231_near_end : forall fyb r t phi hw ss c kw, 0 < t -> 0 <= fyb -> 0 <= r -> 0 <= c <= 15/10 * hw -> kw = [Wc c] \/ (exists V, kw = [Wc c; WV V]) ->
  RwRd_two_webs fyb r t phi hw ss true kw = Some (en_sheet (75/1000) 10 fyb r t phi).
Proof. exact near_end_lemma. Qed.
Print Assumptions C231_near_end.
Theorem C231_opposite : forall fyb r t phi hw ss e old, 0 < t -> 0 <= fyb -> 0 <= r -> 0 < e <= 15/10 * hw ->
  RwRd_two_webs fyb r t phi hw ss old [We e] = Some (en_sheet (75/1000) 10 fyb r t phi).
Proof. exact opposite_lemma. Qed.
Print Assumptions C231_opposite.
Theorem C231_far : forall fyb r t phi hw ss c V, 0 <= hw -> 15/10 * hw < c -> RwRd_two_webs fyb r t phi hw ss true [Wc c; WV V] = RwRd_two_webs fyb r t phi hw ss true [WV V].
Proof. exact far_lemma. Qed.
Print Assumptions C231_far.
Theorem C231_bearing_length : forall ss a b, 10 <= ss -> 0 < Rabs a + Rabs b ->
  exists la, bearing_length true ss (Some (a, b)) = Some la /\ 10 <= la <= ss /\
    (Rabs a - Rabs b <= 2/10 * (Rabs a + Rabs b) -> la = ss) /\ (3/10 * (Rabs a + Rabs b) <= Rabs a - Rabs b -> la = 10) /\
    (2/10 * (Rabs a + Rabs b) <= Rabs a - Rabs b <= 3/10 * (Rabs a + Rabs b) -> la = ss - ((Rabs a - Rabs b) / (Rabs a + Rabs b) - 2/10) * 10 * (ss - 10)).
Proof. exact web_bearing_lemma. Qed.
Print Assumptions C231_bearing_length.
Theorem C231_bearing_length_antitone : forall ss a b a' b' la la', 10 <= ss -> 0 < Rabs a + Rabs b -> 0 < Rabs a' + Rabs b' ->
  (Rabs a - Rabs b) / (Rabs a + Rabs b) <= (Rabs a' - Rabs b') / (Rabs a' + Rabs b') ->
  bearing_length true ss (Some (a, b)) = Some la -> bearing_length true ss (Some (a', b')) = Some la' -> la' <= la.
Proof. exact bearing_anti_lemma. Qed.
Print Assumptions C231_bearing_length_antitone.
Theorem C231_internal_above_end : forall fyb r t phi hw ss c V v v', 0 < t -> 0 < fyb -> 0 <= r < 100 * t -> 10 <= ss -> 0 <= c <= 15/10 * hw -> 0 < Rabs (fst V) + Rabs (snd V) ->
  RwRd_two_webs fyb r t phi hw ss true [Wc c] = Some v -> RwRd_two_webs fyb r t phi hw ss true [WV V] = Some v' -> 0 < v /\ 2 * v <= v'.
Proof. exact internal_vs_end_lemma. Qed.
Print Assumptions C231_internal_above_end.
Theorem C231_monotone : forall fyb r t phi hw ss ss' V v v', 0 < t -> 0 < fyb -> 0 <= r < 100 * t -> 10 <= ss <= ss' -> 0 <= hw -> 0 < Rabs (fst V) + Rabs (snd V) ->
  RwRd_two_webs fyb r t phi hw ss true [WV V] = Some v -> RwRd_two_webs fyb r t phi hw ss' true [WV V] = Some v' -> v <= v' /\ (200 <= ss -> Rabs (fst V) <= Rabs (snd V) -> v = v').
Proof. exact internal_mono_lemma. Qed.
Print Assumptions C231_monotone.
Theorem C231_new_end : forall fyb r t phi hw ss c, 0 < t -> 0 <= fyb -> 0 <= r -> 0 < hw -> 0 <= c <= 15/10 * hw -> 0 <= ss ->
  RwRd_two_webs fyb r t phi hw ss false [Wc c] = Some (en_sheet (Rmin (18/100 * sqrt ((c + ss) / (15/10 * hw))) (15/100)) 10 fyb r t phi).
Proof. exact new_end_lemma. Qed.
Print Assumptions C231_new_end.
Theorem C231_order_refuted : forall ss a b, 10 < ss -> 0 < Rabs b -> 2 * Rabs b <= Rabs a -> bearing_length true ss (Some (a, b)) = Some 10 /\ bearing_length true ss (Some (b, a)) = Some ss.
Proof. exact swapped_lemma. Qed.
Print Assumptions C231_order_refuted.
Theorem C231_forces_refuted : forall fyb r t phi hw ss, 0 <= hw ->
  RwRd_two_webs fyb r t phi hw ss true [] = None /\ RwRd_two_webs fyb r t phi hw ss true [WV (0, 0)] = None /\ (forall c, 15/10 * hw < c -> RwRd_two_webs fyb r t phi hw ss true [Wc c] = None).
Proof. exact forces_needed_lemma. Qed.
Print Assumptions C231_forces_refuted.
Theorem C231_negative_refuted : forall fyb r t phi hw ss V c, 0 <= hw -> c < 0 -> RwRd_two_webs fyb r t phi hw ss true [Wc c; WV V] = RwRd_two_webs fyb r t phi hw ss true [WV V].
Proof. exact negative_c_lemma. Qed.
Print Assumptions C231_negative_refuted.
Example C231_ex : exists la, bearing_length true 100 (Some (5, 3)) = Some la /\ la = 100 - ((5 - 3) / (5 + 3) - 2/10) * 10 * (100 - 10) /\
  RwRd_two_webs 350 3 1 70 130 100 true [WV (5, 3)] = Some (en_sheet (15/100) (Rmin la 200) 350 3 1 70).
Proof.
  destruct (web_bearing_lemma 100 5 3) as (la & E & B & _ & _ & L); try (rewrite !Rabs_pos_eq by lra; lra); try lra. rewrite !(Rabs_pos_eq 5), !(Rabs_pos_eq 3) in L by lra. exists la. split; [exact E|]. split; [apply L; lra|].
  apply internal_lemma; auto; lra.
Qed.

(** C232 *)
Theorem C232_validity : forall e1 e2 p1 p2 d, screw_validity e1 e2 p1 p2 d = true <-> 3 * d <= e1 /\ 3/2 <= e2 /\ 3 * d <= p1 /\ 3 * d <= p2 /\ 3 <= d <= 8.
Proof. exact screw_validity_lemma. Qed.
Print Assumptions C232_validity.
Theorem C232_validity_refuted : forall d, 3 <= d <= 8 -> exists e1 e2 p1 p2, screw_validity e1 e2 p1 p2 d = true /\ e2 < 3/2 * d /\ e2 < d / 2 + 1/100.
Proof. exact screw_edge_lemma. Qed.
Print Assumptions C232_validity_refuted.
Theorem C232_alfa : forall d t t1, 0 < d -> 0 < t <= t1 ->
  exists a, screw_alfa d t t1 = Some a /\ en_alfa_low t d <= a <= 21/10 /\ (t < 1 -> a = en_alfa_low t d) /\ (t1 = t -> a = en_alfa_low t d) /\
    (1 <= t -> 25/10 * t <= t1 -> a = 21/10) /\ (1 <= t -> t1 <= 25/10 * t -> a = en_alfa_low t d + (21/10 - en_alfa_low t d) * (t1 - t) / (15/10 * t)).
Proof. exact screw_alfa_lemma. Qed.
Print Assumptions C232_alfa.
Theorem C232_alfa_monotone : forall d t t1 t1' a a', 0 < d -> 0 < t <= t1 -> t1 <= t1' -> screw_alfa d t t1 = Some a -> screw_alfa d t t1' = Some a' -> a <= a'.
Proof. exact screw_alfa_mono_lemma. Qed.
Print Assumptions C232_alfa_monotone.
Theorem C232_bearing : forall fu d t t1 F a, 0 < fu -> 0 < d -> 0 < t <= t1 -> screw_bearing fu d t t1 = Some (F, a) ->
  screw_alfa d t t1 = Some a /\ 125 * F = 100 * (a * fu * d * t) /\ 0 < F <= 168/100 * fu * d * t.
Proof. exact screw_bearing_lemma. Qed.
Print Assumptions C232_bearing.
Theorem C232_fire_partial : forall fu d t fub e1 e2 T fuT kb, 0 < d -> fyT T fu carbon = Some fuT -> kbT T = Some kb -> 0 < fuT ->
  exists v, screw_bearing_fire fu d t fub e1 e2 T = Some v /\ v * fuT = en_bearing_fire fuT (kb * fub) d t e1 e2 * (kb * fub).
Proof. exact screw_fire_lemma. Qed.
Print Assumptions C232_fire_partial.
Theorem C232_fire_refuted : forall fu d t fub e1 e2 T fuT kb v, 0 < d -> 0 < t -> 0 < e1 -> d / 2 < e2 -> fyT T fu carbon = Some fuT -> kbT T = Some kb -> 0 < fuT < kb * fub ->
  screw_bearing_fire fu d t fub e1 e2 T = Some v -> 0 < en_bearing_fire fuT (kb * fub) d t e1 e2 < v.
Proof. exact screw_fire_high_lemma. Qed.
Print Assumptions C232_fire_refuted.
Theorem C232_table : forall d, (forall m v, screw_shear d m = Some v -> d = 48/10 \/ d = 55/10 \/ d = 63/10 \/ d = 8) /\
  (forall h s, screw_shear d hardened = Some h -> screw_shear d stainless_screw = Some s -> 0 < s < h) /\
  (forall m, m <> other_screw -> d = 48/10 \/ d = 55/10 \/ d = 63/10 \/ d = 8 -> screw_shear d m <> None).
Proof. exact screw_table_lemma. Qed.
Print Assumptions C232_table.
Theorem C232_table_monotone : forall d d' m v v', d < d' -> screw_shear d m = Some v -> screw_shear d' m = Some v' -> v < v'.
Proof. exact screw_table_mono_lemma. Qed.
Print Assumptions C232_table_monotone.
Example C232_ex : screw_validity 30 10 30 30 (63/10) = true /\ (exists a, screw_alfa (63/10) 1 2 = Some a /\ a = en_alfa_low 1 (63/10) + (21/10 - en_alfa_low 1 (63/10)) * (2 - 1) / (15/10 * 1)) /\ screw_shear 8 hardened = Some 16300.
Proof.
  split; [apply screw_validity_lemma; lra|]. split.
  - destruct (screw_alfa_lemma (63/10) 1 2) as (a & E & _ & _ & _ & _ & L); try lra. exists a. split; [exact E|]. apply L; lra.
  - unfold screw_shear. cbn [screw_table find fst]. rewrite !eqb_f by lra. rewrite eqb_t by reflexivity. reflexivity.
Qed.
Example C232_fire_ex : fyT 20 420 carbon = Some (1 * 420) /\ kbT 20 = Some 1.
Proof.
  assert (S0 : special 20 = Some 20%Z) by (unfold special, SPECIAL_TEMPS; cbn [find]; rewrite eqb_t by reflexivity; reflexivity).
  unfold fyT, kbT, reduce_property. rewrite S0. split; cbn; repeat f_equal; lra.
Qed.

(** C233 *)
Theorem C233_rotational_partial : forall ba tnom A bT bR, 0 < tnom ->
  (tnom = 75/100 -> CD_A ba tnom true A bT bR true = Some (52/10 * cd_kba ba * cd_kbR bR * (1 + 8/100 * (A - 1)) * (if Rltb 40 bT then sqrt (40 / bT) else 1))) /\
  (1 <= tnom -> CD_A ba tnom true A bT bR true = Some (52/10 * cd_kba ba * Rpower (tnom / (75/100)) (11/10) * cd_kbR bR * (1 + 95/1000 * (A - 1)) * (if Rltb 40 bT then sqrt (40 / bT) else 1))) /\
  (forall pos, CD_A ba tnom pos A bT bR false = Some (26/10 * cd_kba ba * Rpower (tnom / (75/100)) (if andb (Rltb (75/100) tnom) pos then 11/10 else 15/10) * cd_kbR bR * (if Rltb 40 bT then sqrt (40 / bT) else 1))).
Proof. exact CD_A_lemma. Qed.
Print Assumptions C233_rotational_partial.
Theorem C233_rotational_refuted : forall ba tnom A bT bR pos, (pos = false \/ (tnom < 1 /\ tnom <> 75/100)) -> CD_A ba tnom pos A bT bR true = None.
Proof. exact CD_A_fails_lemma. Qed.
Print Assumptions C233_rotational_refuted.
Theorem C233_rotational_monotone : forall ba ba' tnom tnom' pos A A' bT bT' bR bR' g v v', 0 < ba <= ba' -> 0 < tnom <= tnom' -> 1 <= A <= A' -> bT' <= bT -> bR' <= bR ->
  (g = false \/ tnom = tnom' \/ 1 <= tnom \/ A = 1) ->
  CD_A ba tnom pos A bT bR g = Some v -> CD_A ba' tnom' pos A' bT' bR' g = Some v' -> 0 < v <= v'.
Proof. exact CD_A_mono_lemma. Qed.
Print Assumptions C233_rotational_monotone.
Theorem C233_flange_factor : forall ba, 0 <= ba -> (ba <= 125 -> cd_kba ba = (ba / 100) ^ 2) /\ (125 <= ba -> cd_kba ba = ba / 80).
Proof. exact kba_lemma. Qed.
Print Assumptions C233_flange_factor.
Theorem C233_shear_stiffness : forall t s hw broof, 0 <= t -> 0 <= s -> 0 < hw -> 0 <= broof ->
  exists v q c, sheeting_stiffness t s hw broof = Some v /\ 0 <= q /\ q ^ 2 = t ^ 3 /\ 0 <= c /\ c ^ 3 = broof /\ v = 1000 * q * (50 + 10 * c) * s / hw.
Proof. exact sheeting_lemma. Qed.
Print Assumptions C233_shear_stiffness.
Theorem C233_shear_stiffness_monotone : forall t t' s s' hw hw' b b' v v', 0 <= t <= t' -> 0 <= s <= s' -> 0 < hw' <= hw -> 0 <= b <= b' ->
  sheeting_stiffness t s hw b = Some v -> sheeting_stiffness t' s' hw' b' = Some v' -> v <= v'.
Proof. exact sheeting_mono_lemma. Qed.
Print Assumptions C233_shear_stiffness_monotone.
Theorem C233_sheet_refuted : forall s, 0 < s_angle s < 90 -> 4/100 < s_tnom s < s_h s -> 0 < s_n s ->
  sheet_sw s < sheet_hw s /\ sheet_hw s < web_length (sheet_hw s) (radians (s_angle s)) /\
  sheet_pitch s < s_bb s + s_bt s + 2 * web_run (s_h s) (radians (s_angle s)) /\
  sheet_A s < s_n s * sheet_t s * (s_bt s + s_bb s + 2 * web_length (sheet_hw s) (radians (s_angle s))).
Proof. exact sheet_refuted_lemma. Qed.
Print Assumptions C233_sheet_refuted.
Theorem C233_sheet_partial : forall s, s_angle s = 90 ->
  sheet_sw s = s_h s - s_tnom s /\ sheet_pitch s = s_bb s + s_bt s /\ sheet_width s = s_n s * (s_bb s + s_bt s) /\ sheet_A s = s_n s * (s_tnom s - 4/100) * (s_bt s + s_bb s + 2 * (s_h s - s_tnom s)).
Proof. exact sheet_right_lemma. Qed.
Print Assumptions C233_sheet_partial.
Example C233_ex : exists v, CD_A 60 (75/100) true 1 40 150 true = Some v /\ v = 52/10 * (9/25).
Proof.
  eexists. split; [apply (proj1 (CD_A_lemma 60 (75/100) 1 40 150 ltac:(lra)) eq_refl)|]. unfold cd_kba, cd_kbR. rewrite !leb_t, ltb_f by lra. field.
Qed.

(** Strengths of the screws against the table of the guide, for every diameter. *)
Theorem C232_screw_strength : forall d F, 0 < F ->
  (screw_shear d stainless_screw = Some F <-> (d = 48/10 /\ F = 4600) \/ (d = 55/10 /\ F = 6500) \/ (d = 63/10 /\ F = 8500) \/ (d = 8 /\ F = 14300))
  /\ (screw_shear d hardened = Some F <-> (d = 48/10 /\ F = 5200) \/ (d = 55/10 /\ F = 7200) \/ (d = 63/10 /\ F = 9800) \/ (d = 8 /\ F = 16300)).
Proof.
  intros d F HF. unfold screw_shear, screw_table. cbn [find fst snd].
  destruct (Reqb (48/10) d) eqn:A; [apply Reqb_true in A|apply Reqb_false in A; destruct (Reqb (55/10) d) eqn:B; [apply Reqb_true in B|apply Reqb_false in B;
    destruct (Reqb (63/10) d) eqn:C; [apply Reqb_true in C|apply Reqb_false in C; destruct (Reqb 8 d) eqn:D; [apply Reqb_true in D|apply Reqb_false in D]]]];
  cbn [option_map snd].
  all: split; split; intros H; first [discriminate H|injection H as <-; lra|f_equal; lra|exfalso; lra].
Qed.
Print Assumptions C232_screw_strength.
Theorem C232_net_section : forall A fu, screw_net_section A fu = 8/10 * (A * fu).
Proof. intros. unfold screw_net_section, gammaM2. lra. Qed.
Print Assumptions C232_net_section.
(** A list with one entry is paired with every entry of the other one. *)
Theorem C228_one_entry : forall l w, length l <> 1%nat -> sum_prod (Lst l) (Lst [w]) = Some (Rsum l * w) /\ sum_prod (Lst [w]) (Lst l) = Some (w * Rsum l).
Proof.
  intros l w L. unfold sum_prod. cbn [length]. rewrite (proj2 (Nat.eqb_neq _ _)) by exact L. rewrite (proj2 (Nat.eqb_neq 1 _)) by (intro X; apply L; symmetry; exact X).
  assert (M : forall f : R -> R, (forall x, f x = x * w) -> Rsum (map f l) = Rsum l * w).
  { intros f Hf. clear L. induction l as [|x r IH]; [cbn; ring|]. cbn [map]. rewrite !Rsum_cons, IH, Hf. ring. }
  split; [|f_equal; rewrite M by (intros; ring); ring].
  destruct l as [|x [|y r]]; [|cbn in L; congruence|]; f_equal; [cbn; ring|apply M; reflexivity].
Qed.
Print Assumptions C228_one_entry.
