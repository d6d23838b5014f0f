(** C186 to C202: timber members. *)
From Coq Require Import Permutation.
From Verif Require Import EC3_model Timber_proofs Timber2_proofs Timber3_proofs Timber4_proofs Timber5_proofs Timber6_proofs.
From Verif Require Import Loads_model Timber_model Timber_spec.
Require Import Psatz.

(** C186 *)
Theorem C186_positive : forall s, (forall h, sec_H s = Some h -> 0 < h) /\ (forall b, sec_B s = Some b -> 0 < b) /\
  (forall A, sec_A s = Some A -> 0 < A) /\ (forall I, sec_I s = Some I -> 0 < fst I /\ 0 < snd I) /\
  (forall W, sec_W s = Some W -> 0 < fst W /\ 0 < snd W).
Proof. exact dims_positive_lemma. Qed.
Print Assumptions C186_positive.
Theorem C186_start : forall s, ts_R s = 0 -> sides_ok s 0 -> 0 < ts_H s -> 0 < ts_B s ->
  sec_H s = Some (ts_H s) /\ sec_B s = Some (ts_B s) /\ sec_A s = Some (ts_B s * ts_H s).
Proof. exact fire_start_lemma. Qed.
Print Assumptions C186_start.
Theorem C186_shrinks : forall s t t' h, 0 <= ts_beta s -> 0 <= t -> t <= t' -> sides_ok s t -> sides_ok s t' ->
  exists x x' b b', char_H (at_time s t) h = Some x /\ char_H (at_time s t') h = Some x' /\
    sec_B (at_time s t) = Some b /\ sec_B (at_time s t') = Some b' /\
    x' <= Rmax x (1/100000) /\ b' <= Rmax b (1/100000) /\
    (1/100000 <= h -> x <= h) /\ (1/100000 <= ts_B s -> b <= ts_B s).
Proof. exact fire_mono_lemma. Qed.
Print Assumptions C186_shrinks.
Theorem C186_four_sides : forall s h x y, (exists u, d_char_n (ts_top s) (ts_R s) (ts_beta s) = Some u /\ 0 <= u) ->
  ts_four s = true -> char_H s h = Some x ->
  char_H (mkTS (ts_H s) (ts_B s) (ts_beta s) (ts_R s) (ts_right s) (ts_left s) (ts_bottom s) (ts_top s) false) h = Some y ->
  x <= Rmax y (1/100000).
Proof. exact four_sides_lemma. Qed.
Print Assumptions C186_four_sides.
Theorem C186_dimensions : forall s db dt dr dl, d_char_n (ts_bottom s) (ts_R s) (ts_beta s) = Some db -> d_char_n (ts_top s) (ts_R s) (ts_beta s) = Some dt ->
  d_char_n (ts_right s) (ts_R s) (ts_beta s) = Some dr -> d_char_n (ts_left s) (ts_R s) (ts_beta s) = Some dl ->
  let h := left_of (ts_H s) db (if ts_four s then dt else 0) in let b := left_of (ts_B s) dr dl in
  sec_H s = Some h /\ sec_B s = Some b /\ sec_A s = Some (b * h) /\ sec_I s = Some (b * h ^ 3 / 12, h * b ^ 3 / 12) /\ sec_W s = Some (b * h ^ 2 / 6, h * b ^ 2 / 6).
Proof. exact left_dims_lemma. Qed.
Print Assumptions C186_dimensions.
Theorem C186_unprotected_depth : forall t beta, 0 <= t -> d_char_n None t beta = Some (beta * t + 7 * Rmin 1 (t / 20)).
Proof. exact unprotected_depth_lemma. Qed.
Print Assumptions C186_unprotected_depth.
Example C186_ex : sides_ok (mkTS 600 140 (7/10) 30 None None None None true) 30 /\ d_char_n None 30 (7/10) = Some 28.
Proof. split; [repeat split|]. rewrite unprotected_depth_lemma by lra. rewrite Rmin_left by lra. f_equal. lra. Qed.

(** C187 *)
Theorem C187_gypsum : forall k gap g, exists p tf ta, prepare (td_rhok (gdata g)) (gtype g) true (gypsum_board k gap) = Some p /\
  t_f p = Some tf /\ t_a p = Some ta /\ 0 < t_ch p <= tf /\ tf < ta <= 2 * tf /\ t_ch p = bd_tch (gypsum_board k gap).
Proof. exact gypsum_lemma. Qed.
Print Assumptions C187_gypsum.
Theorem C187_gap : forall k gap gap', gap < 2 -> 2 <= gap' -> bd_tch (gypsum_board k gap') + 9 = bd_tch (gypsum_board k gap) /\
  bd_hp (gypsum_board k gap') = bd_hp (gypsum_board k gap) /\ bd_F (gypsum_board k gap') = bd_F (gypsum_board k gap).
Proof. exact gypsum_gap_lemma. Qed.
Print Assumptions C187_gap.
Theorem C187_assignment_partial : forall A (r l t b g : option A) sides, assign_protection r l t b g sides =
  (match r with Some _ => r | None => g end, match l with Some _ => l | None => g end, match b with Some _ => b | None => g end,
   if Nat.eqb sides 3 then t else match t with Some _ => t | None => g end).
Proof. exact @assign_lemma. Qed.
Print Assumptions C187_assignment_partial.
(** Finding: the generic protection set after construction is not prepared, and the section then raises. *)
Theorem C187_late_generic_refuted : forall s k gap h, bd_tch (gypsum_board k gap) <= ts_R s ->
  ts_bottom s = Some (unprepared (gypsum_board k gap)) -> char_H s h = None.
Proof. exact late_generic_lemma. Qed.
Print Assumptions C187_late_generic_refuted.
Example C187_ex : assign_protection (Some 1%nat) None None None (Some 2%nat) 3 = (Some 1%nat, Some 2%nat, Some 2%nat, None).
Proof. reflexivity. Qed.

(** C188 *)
Theorem C188_grades_partial : forall g, 0 < td_ft90 (gdata g) < td_fv (gdata g) + 2 /\ 0 < td_ft0 (gdata g) <= td_fm (gdata g) /\ 0 < td_fc0 (gdata g) /\
  0 < td_fc90 (gdata g) < td_fc0 (gdata g) /\ 0 < td_fv (gdata g) < td_ft0 (gdata g) /\ 0 < td_E005 (gdata g) < td_E0 (gdata g) /\
  0 < td_G005 (gdata g) < td_G (gdata g) /\ 0 < td_rhok (gdata g) < td_rhomean (gdata g) /\
  14 * td_G (gdata g) < td_E0 (gdata g) < 26 * td_G (gdata g).
Proof. exact grade_positive_lemma. Qed.
Print Assumptions C188_grades_partial.
Theorem C188_design_values : forall g sc d k, kmod (gtype g) sc d = Some k ->
  0 < k_to_d (td_fm (gdata g)) k (gammaM_timber (gtype g)) < td_fm (gdata g) /\
  0 < k_to_d (td_fc0 (gdata g)) k (gammaM_timber (gtype g)) < td_fc0 (gdata g) /\
  0 < k_to_d (td_ft0 (gdata g)) k (gammaM_timber (gtype g)) <= k_to_d (td_fm (gdata g)) k (gammaM_timber (gtype g)).
Proof. exact grade_design_lemma. Qed.
Print Assumptions C188_design_values.
Theorem C188_classes : forall l i j a b, l = c_classes \/ l = d_classes -> nth_error l i = Some a -> nth_error l j = Some b -> (i < j)%nat -> weaker a b.
Proof. exact classes_ordered_lemma. Qed.
Print Assumptions C188_classes.
(** Finding: GL30h is listed weaker than GL30c, and GL32c weaker in tension and shear than GL30c. *)
Theorem C188_glulam_order_refuted : td_fm (gdata GL30c) = td_fm (gdata GL30h) /\ td_ft0 (gdata GL30h) < td_ft0 (gdata GL30c) /\
  td_fc0 (gdata GL30h) < td_fc0 (gdata GL30c) /\ td_fc90 (gdata GL30h) < td_fc90 (gdata GL30c) /\
  td_fm (gdata GL30c) < td_fm (gdata GL32c) /\ td_ft0 (gdata GL32c) < td_ft0 (gdata GL30c) /\ td_fv (gdata GL32c) < td_fv (gdata GL30c).
Proof. exact glulam_order_refuted_lemma. Qed.
Print Assumptions C188_glulam_order_refuted.
Example C188_ex : nth_error c_classes 5 = Some C24 /\ nth_error c_classes 7 = Some C30 /\ weaker C24 C30.
Proof. split; [reflexivity|]. split; [reflexivity|]. apply (classes_ordered_lemma c_classes 5 7); auto. Qed.

(** C189 *)
Theorem C189_range : forall m rhok s N M B H, 0 < B -> 0 < H -> 0 <= s ->
  (m = solid -> 1 <= k_h m rhok s N M B H <= 13/10) /\ (m = glt -> 1 <= k_h m rhok s N M B H <= 11/10) /\
  (m = lvl -> 0 < k_h m rhok s N M B H <= 12/10 /\ (H <= 300 -> 1 <= k_h m rhok s N M B H) /\ (300 <= H -> k_h m rhok s N M B H <= 1)).
Proof. exact k_h_range_lemma. Qed.
Print Assumptions C189_range.
Theorem C189_side : forall m rhok s N M B H B' H', 0 < B <= B' -> 0 < H <= H' -> 0 <= s <= 1 ->
  H * k_h m rhok s N M B H <= H' * k_h m rhok s N M B H' /\ B * k_h m rhok s N M B H <= B' * k_h m rhok s N M B' H.
Proof. exact k_h_resist_lemma. Qed.
Print Assumptions C189_side.
Theorem C189_resistance : forall m rhok s N M B H B' H' f, 0 < B <= B' -> 0 < H <= H' -> 0 <= s <= 1 -> 0 <= f ->
  k_h m rhok s N M B H * f * (B * H ^ 2 / 6) <= k_h m rhok s N M B' H' * f * (B' * H' ^ 2 / 6) /\
  k_h m rhok s N M B H * f * (B * H) <= k_h m rhok s N M B' H' * f * (B' * H').
Proof. exact bending_resist_lemma. Qed.
Print Assumptions C189_resistance.
Theorem C189_length : forall m s N L, 0 < L -> 0 <= s -> 0 < k_L m s N L <= 11/10 /\ (m <> lvl -> k_L m s N L = 1) /\
  (m = lvl -> 0 < N -> L <> 3000 -> k_L m s N L = Rmin (11/10) (exp (s / 2 * ln (3000 / L)))) /\
  (m = lvl -> 3000 <= L -> k_L m s N L <= 1).
Proof. exact k_L_lemma. Qed.
Print Assumptions C189_length.
(** The factor itself is not monotone: it rises where the code changes the reference dimension. *)
Theorem C189_factor_refuted : k_h solid 350 0 1 1 100 149 < k_h solid 350 0 1 1 100 150.
Proof. exact k_h_grows_lemma. Qed.
Print Assumptions C189_factor_refuted.
Example C189_ex : 0 < 140 <= 150 /\ 0 < 600 <= 700 /\ 0 <= 12/100 <= 1 /\ 0 <= 20.
Proof. lra. Qed.

(** C190 *)
Theorem C190_single_taper : forall h0 hap, pulpetti_h h0 hap 0 = h0 /\ pulpetti_h h0 hap 1 = hap /\
  (forall x y z, (pulpetti_h h0 hap y - pulpetti_h h0 hap x) * (z - x) = (pulpetti_h h0 hap z - pulpetti_h h0 hap x) * (y - x)) /\
  (forall x, 0 <= x <= 1 -> Rmin h0 hap <= pulpetti_h h0 hap x <= Rmax h0 hap).
Proof. exact pulpetti_lemma. Qed.
Print Assumptions C190_single_taper.
Theorem C190_ridge_partial : forall h0 hap xap, 0 < xap < 1 -> h0 <= hap ->
  harja_h h0 hap xap 0 = h0 /\ harja_h h0 hap xap xap = hap /\ harja_h h0 hap xap 1 = h0 /\
  (forall x, 0 <= x <= 1 -> h0 <= harja_h h0 hap xap x <= hap) /\
  (forall x y, x <= y <= xap -> harja_h h0 hap xap x <= harja_h h0 hap xap y) /\
  (forall x y, xap <= x <= y -> harja_h h0 hap xap y <= harja_h h0 hap xap x) /\
  (forall x, 0 <= x <= xap -> harja_h h0 hap xap x = pulpetti_h h0 hap (x / xap)) /\
  (forall x, xap <= x <= 1 -> harja_h h0 hap xap x = pulpetti_h h0 hap ((1 - x) / (1 - xap))).
Proof. exact harja_lemma. Qed.
Print Assumptions C190_ridge_partial.
Theorem C190_belly : forall h0 alpha xap L, 0 < L -> 0 < xap < 1 -> 0 <= alpha < PI / 2 ->
  maha_h h0 alpha xap L 0 = h0 / cos alpha /\ maha_h h0 alpha xap L 1 = h0 / cos alpha /\
  maha_h h0 alpha xap L xap = (h0 + xap * L * tan alpha) / cos alpha /\
  (forall x, 0 <= x <= 1 -> h0 / cos alpha <= maha_h h0 alpha xap L x <= (h0 + xap * L * tan alpha) / cos alpha).
Proof. exact maha_lemma. Qed.
Print Assumptions C190_belly.
Theorem C190_volume : forall B L h0 hap, 0 < L -> V_tot B L h0 hap = B * L * ((h0 + hap) / 2).
Proof. exact volume_lemma. Qed.
Print Assumptions C190_volume.
Theorem C190_elements : forall h n, length (element_heights h n) = n /\
  forall i, (i < n)%nat -> nth i (element_heights h n) 0 = h ((INR i + 1/2) / INR n) /\ 0 < (INR i + 1/2) / INR n < 1.
Proof. exact elements_lemma. Qed.
Print Assumptions C190_elements.
(** Findings: a ridge lower than the supports, and the end height of a belly beam. *)
Theorem C190_low_ridge_refuted : forall h0 hap xap, 0 < xap < 1 -> hap < h0 -> harja_h h0 hap xap 0 < hap /\ harja_h h0 hap xap 1 < hap.
Proof. exact harja_low_lemma. Qed.
Print Assumptions C190_low_ridge_refuted.
Theorem C190_belly_end_refuted : forall h0 alpha xap L, 0 < L -> 0 < xap < 1 -> 0 < alpha < PI / 2 -> 0 < h0 -> h0 < maha_h h0 alpha xap L 0.
Proof. exact maha_end_lemma. Qed.
Print Assumptions C190_belly_end_refuted.
Example C190_ex : 0 < 1/2 < 1 /\ 600 <= 1200 /\ 0 < 20000 /\ 0 <= PI / 4 < PI / 2.
Proof. pose proof PI_RGT_0. lra. Qed.

(** C191 *)
Theorem C191_curved : forall L h0 alpha beta r, arc_ok L h0 alpha beta r ->
  kaareva_h L h0 alpha beta r 0 = h0 /\ kaareva_h L h0 alpha beta r 1 = h0 /\
  (forall x, 0 <= x <= 1 -> kaareva_h L h0 alpha beta r (1 - x) = kaareva_h L h0 alpha beta r x) /\
  (forall x, 0 <= x <= 1 -> h0 <= kaareva_h L h0 alpha beta r x) /\
  (forall x, L / 2 - r * sin beta <= x * L <= L / 2 + r * sin beta -> 0 <= x <= 1 ->
     kaareva_h L h0 alpha beta r x = kaareva_h L h0 alpha beta r (1/2)).
Proof. exact kaareva_lemma. Qed.
Print Assumptions C191_curved.
Theorem C191_curved_ridge : forall L h0 alpha beta r, arc_ok L h0 alpha beta r ->
  kaarevaharja_h L h0 alpha beta r 0 = h0 /\ kaarevaharja_h L h0 alpha beta r 1 = h0 /\
  (forall x, 0 <= x <= 1 -> kaarevaharja_h L h0 alpha beta r (1 - x) = kaarevaharja_h L h0 alpha beta r x) /\
  (forall x, 0 <= x <= 1 -> h0 <= kaarevaharja_h L h0 alpha beta r x).
Proof. exact kaarevaharja_lemma. Qed.
Print Assumptions C191_curved_ridge.
Example C191_ex : arc_ok 20 (6/10) (PI / 4) (PI / 6) 10.
Proof.
  pose proof PI_RGT_0. constructor; try lra. rewrite sin_PI4. assert (1 < sqrt 2). { rewrite <- sqrt_1. apply sqrt_lt_1_alt. lra. }
  apply Rmult_lt_reg_r with (sqrt 2); [lra|]. unfold Rdiv. rewrite !Rmult_assoc. rewrite Rinv_l by lra. lra.
Qed.

(** C192 *)
Theorem C192_lengths : forall L sup, length (l_c L sup) = S (length sup) /\ total (l_c L sup) = L /\
  (0 <= L -> Forall (fun x => 0 <= x <= 1) sup -> Forall (fun d => 0 <= d <= L) (l_c L sup)) /\
  (exists s, Permutation s sup /\ ascending s /\ l_c L sup = map (fun ab => L * (snd ab - fst ab)) (pairs (0 :: s ++ [1]))).
Proof. exact l_c_lemma. Qed.
Print Assumptions C192_lengths.
Theorem C192_segments : forall L sup, Forall (fun x => 0 <= x <= 1) sup ->
  l_c L sup = map (fun ab => L * (snd ab - fst ab)) (pairs (with_ends sup)).
Proof. exact l_c_segments_lemma. Qed.
Print Assumptions C192_segments.
Example C192_ex : Forall (fun x => 0 <= x <= 1) [3/4; 1/4] /\ l_c 8 [3/4; 1/4] = [2; 4; 2].
Proof.
  split; [repeat constructor; lra|]. unfold l_c. cbn [rsort rinsert]. destruct (Rleb (3/4) (1/4)) eqn:E; [apply Rleb_true in E; lra|]. cbn [l_c_from]. repeat f_equal; lra.
Qed.

(** C193; for a relative slenderness below 0.3 the factor exceeds one (by less than 6.4 percent). *)
Theorem C193_factor : forall m l, 0 <= l ->
  0 < k_c (beta_c m) l /\
  (1 - k_c (beta_c m) l) * (1 - l ^ 2 * k_c (beta_c m) l) = (match m with solid => 2/10 | _ => 1/10 end) * (l - 3/10) * k_c (beta_c m) l /\
  l ^ 2 * k_c (beta_c m) l <= 1 /\ k_c (beta_c m) l <= 50/47 /\
  (k_c (beta_c m) l <= 1 <-> 3/10 <= l) /\
  (forall l', l < l' -> k_c (beta_c m) l' < k_c (beta_c m) l).
Proof. exact k_c_lemma. Qed.
Print Assumptions C193_factor.
Theorem C193_length : forall m i fc E l1 l2, 0 < i -> 0 < fc -> 0 < E -> 0 <= l1 -> l1 < l2 ->
  k_c (beta_c m) (lamda_rel l2 i fc E) < k_c (beta_c m) (lamda_rel l1 i fc E) /\
  k_c (beta_c m) (lamda_rel l1 i fc E) * fc * l1 ^ 2 <= PI ^ 2 * E * i ^ 2.
Proof. exact k_c_length_lemma. Qed.
Print Assumptions C193_length.
Example C193_ex : 0 <= 1/2 /\ 3/10 <= 1/2 /\ 0 < 115 /\ 0 < 24 /\ 0 < 9600.
Proof. lra. Qed.

(** C194 *)
Theorem C194_k_crit_partial : forall l, 0 <= l -> 0 < k_crit l <= 1 /\ l ^ 2 * k_crit l <= 1 /\
  (l <= 75/100 -> k_crit l = 1) /\ (75/100 < l <= 14/10 -> k_crit l = 156/100 - 75/100 * l) /\ (14/10 < l -> l ^ 2 * k_crit l = 1) /\
  (forall l', l <= l' -> k_crit l' <= k_crit l + 3/10000).
Proof. exact k_crit_lemma. Qed.
Print Assumptions C194_k_crit_partial.
Theorem C194_effective_length : forall Lc h, 0 < Lc -> 0 < h ->
  l_ef Compression Lc h = 9/10 * Lc + 2 * h /\ l_ef Tension Lc h = 9/10 * Lc - h / 2 /\ l_ef OtherEdge Lc h = 9/10 * Lc /\
  (0 < l_ef Tension Lc h <-> h < 18/10 * Lc).
Proof. exact l_ef_lemma. Qed.
Print Assumptions C194_effective_length.
Theorem C194_critical_stress : forall E G h b fmk l1 l2, 0 < E -> 0 < G -> 0 < h -> 0 < b -> 0 < fmk -> 0 < l1 -> l1 < l2 ->
  0 < sigma_mcrit E G h b l2 < sigma_mcrit E G h b l1 /\
  sigma_mcrit E G h b l1 * l1 = sigma_mcrit E G h b l2 * l2 /\
  k_crit (lamda_relm fmk (sigma_mcrit E G h b l2)) <= k_crit (lamda_relm fmk (sigma_mcrit E G h b l1)) + 3/10000 /\
  k_crit (lamda_relm fmk (sigma_mcrit E G h b l1)) * fmk <= sigma_mcrit E G h b l1.
Proof. exact sigma_mcrit_lemma. Qed.
Print Assumptions C194_critical_stress.
Theorem C194_jump : exists l1 l2, l1 < l2 /\ k_crit l1 < k_crit l2.
Proof. exact k_crit_jump_lemma. Qed.
Print Assumptions C194_jump.
(** Finding: loaded on the tension edge a deep short segment gets a negative effective length. *)
Theorem C194_negative_length_refuted : exists Lc h, 0 < Lc /\ 0 < h /\ l_ef Tension Lc h < 0 /\ forall E G b, 0 < E -> 0 < G -> 0 < b -> sigma_mcrit E G h b (l_ef Tension Lc h) < 0.
Proof. exact l_ef_negative_lemma. Qed.
Print Assumptions C194_negative_length_refuted.
Example C194_ex : 0 < 2000 /\ 0 < 600 /\ 0 < l_ef Tension 2000 600 /\ l_ef Tension 2000 600 < l_ef Compression 2000 600.
Proof. unfold l_ef. lra. Qed.

(** C195 *)
Theorem C195_torsion_partial : forall T h b, 0 < b -> b <= h ->
  3 * Rabs T / (h * b ^ 2) <= Rabs (tau_tor T h b) <= 5 * Rabs T / (h * b ^ 2).
Proof. exact tau_tor_lemma. Qed.
Print Assumptions C195_torsion_partial.
Theorem C195_shape : forall h b, 0 < h -> 0 < b -> 1 < k_shape h b <= 13/10 /\ (h <= 6 * b -> k_shape h b = 1 + h / (20 * b)).
Proof. exact k_shape_lemma. Qed.
Print Assumptions C195_shape.
(** Findings: a section wider than high, the jump past a tabulated ratio, the torsional constant. *)
Theorem C195_rotated_refuted : forall T h b, 0 < T -> 0 < h -> h < b -> tau_tor T h b < tau_tor T b h /\ tau_tor T h b * b = tau_tor T b h * h.
Proof. exact tau_tor_rotate_lemma. Qed.
Print Assumptions C195_rotated_refuted.
Theorem C195_jump_refuted : tor_beta 5 = 299/1000 /\ tor_beta (51/10) < 28/100 /\ tor_beta (51/10) < tor_beta 5.
Proof. exact tor_beta_jump_lemma. Qed.
Print Assumptions C195_jump_refuted.
Theorem C195_square_refuted : forall a, 0 < a -> I_tor a a = 5344/10000 * a ^ 4.
Proof. exact I_tor_square_lemma. Qed.
Print Assumptions C195_square_refuted.
Theorem C195_constant_refuted : forall q, 1 <= q <= 9 ->
  (tor_alpha q <= 1/3 <-> (1 < q < 105/100 \/ 145/100 < q < 155/100 \/ 195/100 < q < 205/100 \/ 245/100 < q < 255/100 \/ 295/100 < q < 305/100 \/
    395/100 < q < 405/100 \/ 495/100 < q < 505/100 \/ 595/100 < q < 605/100 \/ 795/100 < q < 805/100)).
Proof. exact tor_alpha_fallback_lemma. Qed.
Print Assumptions C195_constant_refuted.
Example C195_ex : 0 < 140 /\ 140 <= 600 /\ 1 <= 600 / 140 <= 9.
Proof. lra. Qed.

(** C196 *)
Theorem C196_axial : forall m f, tmem_ok m ->
  check_normal m f = ax (t_B m) (t_H m (f_loc f)) (f_N f) / (if Rle_dec (f_N f) 0 then t_fc m else t_ft m) /\
  0 <= check_normal m f /\
  (check_normal m f <= 1 <-> - (t_fc m * (t_B m * t_H m (f_loc f))) <= f_N f <= t_ft m * (t_B m * t_H m (f_loc f))).
Proof. exact check_normal_lemma. Qed.
Print Assumptions C196_axial.
Theorem C196_crack : forall m, k_cr m = if t_varnished m then 1 else match t_type m with lvl => if Nat.eqb (t_sc m) 1 then 67/100 else 1 | _ => 67/100 end.
Proof. exact k_cr_lemma. Qed.
Print Assumptions C196_crack.
Theorem C196_shear : forall m f, tmem_ok m ->
  check_shear_at m f = 3/2 * Rmax (Rabs (f_Vy f)) (Rabs (f_Vz f)) / (k_cr m * (t_B m * t_H m (f_loc f)) * t_fv m) /\
  0 <= check_shear_at m f.
Proof. exact shear_at_lemma. Qed.
Print Assumptions C196_shear.
Theorem C196_bending_partial : forall m f, tmem_ok m ->
  0 <= check_bending m f <= en_biaxial (sigma_my m f) (sigma_mz m f) (t_fm m) /\
  (0 <= f_My f * f_Mz f -> check_bending m f =
     Rmax (by_ (t_B m) (t_H m (f_loc f)) (f_My f) / t_fm m + 7/10 * (bz_ (t_B m) (t_H m (f_loc f)) (f_Mz f) / t_fm m))
          (7/10 * (by_ (t_B m) (t_H m (f_loc f)) (f_My f) / t_fm m) + bz_ (t_B m) (t_H m (f_loc f)) (f_Mz f) / t_fm m)) /\
  (f_My f * f_Mz f < 0 -> check_bending m f <
     Rmax (by_ (t_B m) (t_H m (f_loc f)) (f_My f) / t_fm m + 7/10 * (bz_ (t_B m) (t_H m (f_loc f)) (f_Mz f) / t_fm m))
          (7/10 * (by_ (t_B m) (t_H m (f_loc f)) (f_My f) / t_fm m) + bz_ (t_B m) (t_H m (f_loc f)) (f_Mz f) / t_fm m)).
Proof. exact check_bending_lemma. Qed.
Print Assumptions C196_bending_partial.
Theorem C196_tension_partial : forall m f, tmem_ok m ->
  (0 <= f_N f -> 0 <= f_Mz f -> check_bt m f = en_bt (t_B m) (t_H m (f_loc f)) (t_ft m) (t_fm m) (f_N f) (f_My f) (f_Mz f)) /\
  check_bt m f <= en_bt (t_B m) (t_H m (f_loc f)) (t_ft m) (t_fm m) (f_N f) (f_My f) (f_Mz f) /\
  (f_N f < 0 \/ f_Mz f < 0 -> check_bt m f < en_bt (t_B m) (t_H m (f_loc f)) (t_ft m) (t_fm m) (f_N f) (f_My f) (f_Mz f)).
Proof. exact check_bt_lemma. Qed.
Print Assumptions C196_tension_partial.
Theorem C196_compression_partial : forall m f, tmem_ok m ->
  (0 <= f_Mz f -> check_bc m f = en_bc (t_B m) (t_H m (f_loc f)) (t_fc m) (t_fm m) (f_N f) (f_My f) (f_Mz f)) /\
  check_bc m f <= en_bc (t_B m) (t_H m (f_loc f)) (t_fc m) (t_fm m) (f_N f) (f_My f) (f_Mz f) /\
  (f_Mz f < 0 -> check_bc m f < en_bc (t_B m) (t_H m (f_loc f)) (t_fc m) (t_fm m) (f_N f) (f_My f) (f_Mz f)).
Proof. exact check_bc_lemma. Qed.
Print Assumptions C196_compression_partial.
(** Finding: a negative torsional moment gives a negative utilisation. *)
Theorem C196_torsion_refuted : forall m f, tmem_ok m ->
  (0 <= f_T f -> 0 <= check_torsion m f) /\ check_torsion m (with_T f (- f_T f)) = - check_torsion m f /\
  (f_T f < 0 -> check_torsion m f < 0) /\
  (t_B m <= t_H m (f_loc f) -> Rabs (check_torsion m f) <= 5 * Rabs (f_T f) / (t_H m (f_loc f) * t_B m ^ 2 * t_fv m)).
Proof. exact check_torsion_lemma. Qed.
Print Assumptions C196_torsion_refuted.
Example C196_ex : tmem_ok xtim /\ check_normal xtim (mkTF (-151200) 0 0 0 0 0 (1/2)) = 1/10.
Proof.
  split; [exact xtim_ok|]. destruct (check_normal_lemma xtim (mkTF (-151200) 0 0 0 0 0 (1/2)) xtim_ok) as [-> _]. cbn [f_N f_loc]. destruct (Rle_dec (-151200) 0); [|lra].
  unfold ax, xtim; cbn. rewrite Rabs_left by lra. field.
Qed.

(** C197 *)
Theorem C197_section : forall loc n s e, ascending loc -> (n < length loc)%nat -> s <= 1 - e ->
  exists k, shear_section loc n s e = Some (Z.of_nat k) /\ (k < length loc)%nat /\
  (s <= nth n loc 0 <= 1 - e -> k = n) /\
  (nth n loc 0 < s -> (n <= k)%nat /\ nth k loc 0 <= s /\
     ((S k < length loc)%nat /\ s < nth (S k) loc 0 \/ k = n /\ forall j, (n <= j < length loc)%nat -> nth j loc 0 <= s)) /\
  (1 - e < nth n loc 0 -> (k <= n)%nat /\ 1 - e <= nth k loc 0 /\
     ((0 < k)%nat /\ nth (k - 1) loc 0 < 1 - e \/ k = n /\ forall j, (j <= n)%nat -> 1 - e <= nth j loc 0)).
Proof. exact shear_section_lemma. Qed.
Print Assumptions C197_section.
Theorem C197_check : forall m secs n s e, ascending (map f_loc secs) -> (n < length secs)%nat -> s <= 1 - e ->
  exists k f, nth_error secs k = Some f /\ shear_section (map f_loc secs) n s e = Some (Z.of_nat k) /\ check_shear m secs n s e = Some (check_shear_at m f).
Proof. exact check_shear_lemma. Qed.
Print Assumptions C197_check.
Example C197_ex : ascending [0; 1/10; 2/10; 1] /\ (0 < length [0; 1/10; 2/10; 1])%nat /\ nth 0 [0; 1/10; 2/10; 1] 0 < 15/100 <= 1 - 15/100.
Proof. cbn. repeat split; try lra. lia. Qed.

(** C198 *)
Theorem C198_segment : forall m z secs kc, tmem_ok m -> 0 < kc -> secs <> [] ->
  exists u, seg_buckling m z secs kc = Some u /\
  ((forall f, In f secs -> 0 <= f_N f) -> u = 0) /\
  ((forall f, In f secs -> 0 <= f_Mz f) -> 0 <= u /\
     forall f, In f secs -> f_N f < 0 -> en_buck z (t_B m) (t_H m (f_loc f)) kc (t_fc m) (t_fm m) (f_N f) (f_My f) (f_Mz f) <= u) /\
  ((exists f, In f secs /\ f_N f < 0) -> (forall f, In f secs -> 0 <= f_Mz f) -> exists f g h, In f secs /\ In g secs /\ In h secs /\
     u = ax (t_B m) (t_H m (f_loc f)) (f_N f) / (kc * t_fc m) + if z then 7/10 * (by_ (t_B m) (t_H m (f_loc g)) (f_My g) / t_fm m) + bz_ (t_B m) (t_H m (f_loc h)) (f_Mz h) / t_fm m
         else by_ (t_B m) (t_H m (f_loc g)) (f_My g) / t_fm m + 7/10 * (bz_ (t_B m) (t_H m (f_loc h)) (f_Mz h) / t_fm m)).
Proof. exact seg_lemma. Qed.
Print Assumptions C198_segment.
Theorem C198_buckling_partial : forall m z secs sup kc, tmem_ok m -> length kc = S (length sup) ->
  Forall (fun k => 0 < k) kc -> (forall ab, In ab (pairs (with_ends sup)) -> in_seg secs ab <> []) ->
  exists r, check_buckling m z secs sup kc = Some r /\
  ((forall f, In f secs -> 0 <= f_N f) -> r = 0) /\
  ((forall f, In f secs -> 0 <= f_Mz f) -> 0 <= r /\
    forall ab k f, In (ab, k) (combine (pairs (with_ends sup)) kc) -> In f secs -> fst ab <= f_loc f <= snd ab -> f_N f < 0 ->
    en_buck z (t_B m) (t_H m (f_loc f)) k (t_fc m) (t_fm m) (f_N f) (f_My f) (f_Mz f) <= r).
Proof. exact buckling_lemma. Qed.
Print Assumptions C198_buckling_partial.
Theorem C198_lateral_torsional_partial : forall m kcrit kcz f, tmem_ok m -> 0 < kcrit -> 0 < kcz ->
  lt_ratio m false kcrit kcz f = (by_ (t_B m) (t_H m (f_loc f)) (f_My f) / (kcrit * t_fm m)) ^ 2 + ax (t_B m) (t_H m (f_loc f)) (f_N f) / (kcz * t_fc m) /\
  (0 <= f_My f -> lt_ratio m true kcrit kcz f = by_ (t_B m) (t_H m (f_loc f)) (f_My f) / (kcrit * t_fm m)) /\
  (f_My f < 0 -> lt_ratio m true kcrit kcz f = - (by_ (t_B m) (t_H m (f_loc f)) (f_My f) / (kcrit * t_fm m)) /\ lt_ratio m true kcrit kcz f < 0).
Proof. exact lt_lemma. Qed.
Print Assumptions C198_lateral_torsional_partial.
(** Finding: a weak-axis moment of negative sign lowers the utilisation. *)
Theorem C198_sign_refuted : forall m z f kc, tmem_ok m -> 0 < kc -> f_N f < 0 -> f_Mz f < 0 ->
  exists u u', seg_buckling m z [f] kc = Some u /\ seg_buckling m z [with_Mz f (- f_Mz f)] kc = Some u' /\ u < u' /\
  u < en_buck z (t_B m) (t_H m (f_loc f)) kc (t_fc m) (t_fm m) (f_N f) (f_My f) (f_Mz f).
Proof. exact buckling_sign_lemma. Qed.
Print Assumptions C198_sign_refuted.
Example C198_ex : tmem_ok xtim /\ length [8/10; 7/10] = S (length [1/2]) /\ Forall (fun k => 0 < k) [8/10; 7/10].
Proof. split; [exact xtim_ok|]. split; [reflexivity|]. repeat constructor; lra. Qed.

(** C199 *)
Theorem C199_sections : forall m secs, (check_sections m secs = None <-> secs = []) /\
  forall r, check_sections m secs = Some r -> length r = 6%nat /\ forall j, (j < 6)%nat ->
  (forall f, In f secs -> nth j [check_normal m f; check_shear_at m f; check_bending m f; check_torsion m f; check_bt m f; check_bc m f] 0 <= nth j r 0) /\
  0 <= nth j r 0 /\
  (nth j r 0 = 0 \/ exists f, In f secs /\ nth j r 0 = nth j [check_normal m f; check_shear_at m f; check_bending m f; check_torsion m f; check_bt m f; check_bc m f] 0).
Proof. exact sections_lemma_t. Qed.
Print Assumptions C199_sections.
Theorem C199_design : forall beam sections buckling lt90 perp r, design beam sections buckling lt90 perp = Some r ->
  (r <= 1 <-> (forall x, In x (sections ++ buckling) -> x <= 1) /\ (beam = true -> lt90 <= 1 /\ perp <= 1)).
Proof. exact design_lemma_t. Qed.
Print Assumptions C199_design.
Theorem C199_strong_enough : forall sections buckling lt90 v, strong_enough sections buckling lt90 = Some v ->
  (v = true <-> (forall x, In x (sections ++ buckling) -> x <= 1) /\ lt90 <= 1).
Proof. exact strong_lemma. Qed.
Print Assumptions C199_strong_enough.
Theorem C199_verdict_partial : forall sections buckling lt90 perp r v, design true sections buckling lt90 perp = Some r -> strong_enough sections buckling lt90 = Some v ->
  (r <= 1 <-> v = true /\ perp <= 1).
Proof. exact verdict_lemma. Qed.
Print Assumptions C199_verdict_partial.
(** Findings: the flag ignores compression perpendicular to the grain, and for columns it includes lateral-torsional buckling. *)
Theorem C199_perpendicular_refuted : exists sections buckling lt90 perp, strong_enough sections buckling lt90 = Some true /\ design true sections buckling lt90 perp = Some 2.
Proof. exact verdict_perp_lemma. Qed.
Print Assumptions C199_perpendicular_refuted.
Theorem C199_column_refuted : exists sections buckling lt90 perp, strong_enough sections buckling lt90 = Some false /\ design false sections buckling lt90 perp = Some (1/2).
Proof. exact verdict_column_lemma. Qed.
Print Assumptions C199_column_refuted.
Example C199_ex : exists r, check_sections xtim [mkTF (-151200) 0 0 0 0 0 (1/2)] = Some r /\ 0 <= nth 0 r 0.
Proof. eexists. split; [reflexivity|]. cbn [map nth seq fold_left]. apply Rmax_l. Qed.

(** C200 *)
Theorem C200_k_p : forall alfa r hap, 0 < r + 1/2 * hap ->
  k_p SHarja alfa r hap = Some (en_kp (tan alfa) 0) /\ k_p SMaha alfa r hap = Some (en_kp (tan alfa) 0) /\
  k_p SKaareva alfa r hap = Some (en_kp 0 (hap / (r + 1/2 * hap))) /\ k_p SKaarevaHarja alfa r hap = Some (en_kp (tan alfa) (hap / (r + 1/2 * hap))).
Proof. exact k_p_lemma. Qed.
Print Assumptions C200_k_p.
Theorem C200_k_dis : forall k v, k_dis k = Some v -> v = match k with SKaareva | SKaarevaHarja => 17/10 | _ => 14/10 end /\ k <> SPrismatic.
Proof. exact k_dis_lemma. Qed.
Print Assumptions C200_k_dis.
Theorem C200_k_vol : forall m V Vtot, 0 < V -> 0 < Vtot ->
  k_vol m None V Vtot = Rpower (10000000 / Rmin V (2/3 * Vtot)) (2/10) /\
  (Rmin V (2/3 * Vtot) = 10000000 -> k_vol m None V Vtot = 1) /\
  (forall V' Vtot', V <= V' -> Vtot <= Vtot' -> k_vol m None V' Vtot' <= k_vol m None V Vtot) /\ (forall f, k_vol m (Some f) V Vtot = f).
Proof. exact k_vol_lemma. Qed.
Print Assumptions C200_k_vol.
Theorem C200_k_m_alpha : forall flipped s tn fm fv fc90, 0 < fm -> 0 < fv -> 0 < fc90 ->
  0 < k_m_alpha flipped s tn fm fv fc90 <= 1 /\
  (s <> 0 -> k_m_alpha flipped s tn fm fv fc90 = if Rlt_dec 0 (if flipped then - s else s) then en_kma_tension tn fm fv fc90 else en_kma_compression tn fm fv fc90) /\
  k_m_alpha flipped 0 tn fm fv fc90 = en_kma_tension tn fm fv fc90.
Proof. exact k_m_alpha_lemma. Qed.
Print Assumptions C200_k_m_alpha.
Theorem C200_k_r_partial : forall k r t, 0 < t -> (k = SKaareva \/ k = SKaarevaHarja) -> 0 <= r ->
  k_r k r t = Some (en_kr (1000 * r) t) /\ exists v, k_r k r t = Some v /\ 76/100 <= v <= 1.
Proof. exact k_r_lemma. Qed.
Print Assumptions C200_k_r_partial.
Theorem C200_k_l_partial : forall alfa r hap, 0 < r + 1/2 * hap ->
  k_l SHarja alfa r hap = Some (en_kl (tan alfa) 0) /\ k_l SMaha alfa r hap = Some (en_kl (tan alfa) 0) /\
  k_l SKaareva alfa r hap = Some (en_kl 0 (hap / (r + 1/2 * hap))) /\
  k_l SKaarevaHarja alfa r hap = Some (en_kl (tan alfa) (hap / (r + 1/2 * hap)) + (52/10 * tan alfa - 35/100) * (hap / (r + 1/2 * hap))).
Proof. exact k_l_lemma. Qed.
Print Assumptions C200_k_l_partial.
(** Findings against EN 1995-1-1 (6.49), (6.45), (6.51) and (6.39). *)
Theorem C200_k_r_refuted : forall r t, 0 < t -> 24/100 * t <= r -> r < 240 * t -> k_r SKaareva r t = Some 1 /\ en_kr r t < 1.
Proof. exact k_r_unit_lemma. Qed.
Print Assumptions C200_k_r_refuted.
Theorem C200_k_l_refuted : forall alfa r hap, 0 < r -> 0 < hap -> tan alfa < 35/520 -> exists v, k_l SKaarevaHarja alfa r hap = Some v /\ v < en_kl (tan alfa) (hap / (r + 1/2 * hap)).
Proof. exact k_l_wrong_lemma. Qed.
Print Assumptions C200_k_l_refuted.
Theorem C200_k_vol_refuted : forall V Vtot, 10000000 < V -> 15000000 < Vtot -> k_vol solid None V Vtot < 1.
Proof. exact k_vol_solid_lemma. Qed.
Print Assumptions C200_k_vol_refuted.
Theorem C200_k_m_alpha_refuted : forall s tn fm fv ft90 fc90, 0 < s -> 0 < fm -> 0 < fv -> 0 < ft90 -> ft90 < fc90 -> tn <> 0 ->
  en_kma_tension tn fm fv ft90 < k_m_alpha false s tn fm fv fc90.
Proof. exact k_m_alpha_tension_lemma. Qed.
Print Assumptions C200_k_m_alpha_refuted.
Example C200_ex : 0 < 33 /\ 24/100 * 33 <= 5000 /\ 5000 < 240 * 33 /\ 0 < 5000 + 1/2 * 1000 /\ 10000000 < 20000000.
Proof. lra. Qed.

(** C201 *)
Theorem C201_apex_moment : forall secs xap, NoDup (map f_loc secs) ->
  (forall f, In f secs -> f_loc f = xap -> M_apd secs xap = Some (f_My f)) /\
  (~ In xap (map f_loc secs) -> forall f0 fl, hd_error secs = Some f0 -> hd_error (rev secs) = Some fl -> f_loc f0 <= xap -> xap <= f_loc fl ->
     exists a b, In a secs /\ In b secs /\ M_apd secs xap = Some ((f_My a + f_My b) / 2) /\ f_loc a < xap < f_loc b /\
     forall g, In g secs -> f_loc g <= f_loc a \/ f_loc b <= f_loc g).
Proof. exact M_apd_lemma. Qed.
Print Assumptions C201_apex_moment.
Example C201_ex : NoDup (map f_loc [mkTF 0 1 0 0 0 0 0; mkTF 0 5 0 0 0 0 (1/4); mkTF 0 7 0 0 0 0 1]) /\ ~ In (1/2) (map f_loc [mkTF 0 1 0 0 0 0 0; mkTF 0 5 0 0 0 0 (1/4); mkTF 0 7 0 0 0 0 1]).
Proof. cbn. split; [|lra]. repeat constructor; cbn; intros H; lra. Qed.

(** C202 *)
Theorem C202_bracing_partial : forall mat L m ks Nds n r, 0 < L -> (0 < m)%nat -> bracing mat L m ks Nds n = Some r ->
  exists Nd, In Nd Nds /\ (forall x, In x Nds -> x <= Nd) /\
  fst (fst r) = en_C 1 Nd (L / INR m) /\ snd (fst r) = (match mat with solid => Nd / 50 | _ => Nd / 80 end) /\
  snd r = Rmin 1 (sqrt (15 / L)) * (n * Nd / (50 * L)) /\ forall ks', bracing mat L m ks' Nds n = Some r.
Proof. exact bracing_lemma. Qed.
Print Assumptions C202_bracing_partial.
Theorem C202_bracing_refuted : forall mat L m ks Nds n r, 15 < L -> (0 < m)%nat -> 1 < ks -> 0 < n -> (exists x, In x Nds /\ 0 < x) -> bracing mat L m ks Nds n = Some r ->
  exists Nd, list_max Nds = Some Nd /\ fst (fst r) < en_C ks Nd (L / INR m) /\ snd r < en_qd n Nd L.
Proof. exact bracing_wrong_lemma. Qed.
Print Assumptions C202_bracing_refuted.
Theorem C202_bearing_refuted : forall x y pts ned at_end H B Bown, pts <> [] -> length ned = length pts -> 0 < H -> 0 < B -> 0 < Bown ->
  exists N, nth_error ned (length ned - 1) = Some N /\
  bearing x y pts ned at_end H B Bown = Some (if Rle_dec 0 N then 0 else N / ((H + (if at_end then 0 else Rmin 30 H) + Rmin 30 H) * Rmin B Bown)) /\
  forall x' y', bearing x' y' pts ned at_end H B Bown = bearing x y pts ned at_end H B Bown.
Proof. exact bearing_lemma. Qed.
Print Assumptions C202_bearing_refuted.
Theorem C202_bearing_force_refuted : exists pts ned, nth_error pts 0 = Some (0, 0) /\ nth_error ned 0 = Some (-100) /\ bearing 0 0 pts ned false 100 100 100 = Some 0.
Proof. exact bearing_wrong_lemma. Qed.
Print Assumptions C202_bearing_force_refuted.
Theorem C202_k_c90 : forall m H l1 l, 1 <= k_c90 m H l1 l <= 25/10 /\ (l1 < 2 * H -> k_c90 m H l1 l = 1) /\
  (2 * H <= l1 -> k_c90 m H l1 l = match m with solid => 25/10 | glt => if Rle_dec l 400 then 175/100 else 1 | lvl => 1 end).
Proof. exact k_c90_lemma. Qed.
Print Assumptions C202_k_c90.
Example C202_ex : exists r, bracing glt 20000 4 3 [100; 300] 5 = Some r /\ 15 < 20000 /\ 1 < 3.
Proof. eexists. split; [reflexivity|lra]. Qed.

(** Charring rate of a section of a softwood or LVL grade: the notional rates of EN 1995-1-2 Table 3.1. *)
Theorem C186_notional_rate : forall g B H, 20 <= B -> 20 <= H ->
  (gtype g = glt -> sec_beta g B H = Some (7/10)) /\ (gtype g = solid -> sec_beta g B H = Some (8/10))
  /\ (gtype g = lvl -> sec_beta g B H = if Rle_dec 480 (td_rhok (gdata g)) then Some (7/10) else if Rle_dec 410 (td_rhok (gdata g)) then Some (75/100) else None).
Proof.
  intros g B H HB HH. unfold sec_beta, charring_speed. assert (M : 20 <= Rmin B H) by (apply Rmin_glb; auto).
  replace (Rltb (Rmin B H) 20) with false by (symmetry; apply Rltb_false; lra).
  split; [|split]; intros G; rewrite G.
  - replace (Rleb 290 (td_rhok (gdata g))) with true; [reflexivity|]. symmetry. apply Rleb_true. destruct g; try discriminate G; simpl; lra.
  - replace (Rleb 290 (td_rhok (gdata g))) with true; [reflexivity|]. symmetry. apply Rleb_true. destruct g; try discriminate G; simpl; lra.
  - destruct (Rle_dec 480 (td_rhok (gdata g))) as [A|A]; [rewrite (proj2 (Rleb_true _ _) A); reflexivity|].
    rewrite (proj2 (Rleb_false _ _)) by lra. destruct (Rle_dec 410 (td_rhok (gdata g))) as [C|C]; [rewrite (proj2 (Rleb_true _ _) C); reflexivity|].
    rewrite (proj2 (Rleb_false _ _)) by lra. reflexivity.
Qed.
Print Assumptions C186_notional_rate.
(** The generic board replaces those of the charred sides. *)
Theorem C187_generic_board : forall (A : Type) (old : option A * option A * option A * option A) (v w : option A) n k,
  set_generic (set_generic old v n) w k = set_generic old w k <-> (k = 3%nat -> n = 3%nat \/ v = snd old).
Proof.
  intros A [[[a b] c] d] v w n k. unfold set_generic. cbn [snd].
  destruct (Nat.eqb_spec k 3) as [->|K]; destruct (Nat.eqb_spec n 3) as [->|M]; cbn [snd]; split; intros H; try reflexivity; auto.
  - intros _. right. congruence.
  - destruct (H eq_refl) as [X|X]; [congruence|]. rewrite X. reflexivity.
  - intros X. congruence.
Qed.
Print Assumptions C187_generic_board.
(** Flatwise values of LVL in tenths and the exponent in hundredths. *)
Theorem C188_lvl_flatwise : forall g f c s, lvl_flat g = Some (f, c, s) ->
  gtype g = lvl /\ In (f, 10 * c, 100 * s) [(50, 18, 12); (32, 10, 15); (32, 22, 12); (36, 22, 12)] /\ (g = KertoS -> f = 50) /\ (g = KertoT -> 100 * s = 15) /\ (g = KertoQ27 -> f = 36).
Proof.
  intros g f c s H. destruct g; try discriminate H; injection H as <- <- <-; (split; [reflexivity|]);
  (split; [simpl|repeat split; intros X; try discriminate X; lra]).
  all: try (left; repeat f_equal; lra); try (right; left; repeat f_equal; lra); try (right; right; left; repeat f_equal; lra); right; right; right; left; repeat f_equal; lra.
Qed.
Print Assumptions C188_lvl_flatwise.
(** Above 8.05 times as deep as wide: a parabola up to 9, a constant beyond. *)
Theorem C195_slender_rectangles : forall q, (805/100 <= q <= 9 -> 10000 * tor_beta q = 1923 + 193 * q - 7 * q ^ 2) /\ (9 < q -> 3 * tor_beta q = 999/1000).
Proof.
  intros q. unfold tor_beta, btw.
  assert (K : forall a b, b <= 805/100 -> 805/100 <= q -> andb (Rltb a q) (Rltb q b) = false).
  { intros a b Hb Hq. rewrite (proj2 (Rltb_false q b)) by lra. apply andb_false_r. }
  split; intros H; rewrite !K by lra.
  - rewrite (proj2 (Rltb_false 9 q)) by lra. lra.
  - rewrite (proj2 (Rltb_true 9 q)) by lra. lra.
Qed.
Print Assumptions C195_slender_rectangles.
(** The strengths of the lowest class. *)
Theorem C188_lowest_class : 10 * td_fm (gdata C14) = 140 /\ (forall g, td_fm (gdata C14) <= td_fm (gdata g)).
Proof. split; [simpl; lra|]. intros g. destruct g; simpl; lra. Qed.
Print Assumptions C188_lowest_class.
(** Each check reports the largest of its values over the sections, and not less than zero. *)
Theorem C199_largest_of_sections : forall m secs l j, check_sections m secs = Some l -> (j < 6)%nat ->
  0 <= nth j l 1 /\ (forall f, In f secs -> nth j (section_resistance m f) 0 <= nth j l 1)
  /\ (nth j l 1 = 0 \/ exists f, In f secs /\ nth j l 1 = nth j (section_resistance m f) 0).
Proof.
  intros m secs l j H J. unfold check_sections in H. destruct secs as [|f0 r]; [discriminate|]. set (secs := f0 :: r) in *. assert (L : l = map (fun j => fold_left Rmax (map (fun f => nth j (section_resistance m f) 0) secs) 0) (seq 0 6)) by (injection H; intros; subst l; reflexivity). clear H. subst l.
  rewrite (nth_indep _ 1 (fold_left Rmax (map (fun f => nth 0 (section_resistance m f) 0) secs) 0)) by (rewrite map_length, seq_length; exact J).
  rewrite (map_nth (fun j => fold_left Rmax (map (fun f => nth j (section_resistance m f) 0) secs) 0) (seq 0 6) 0%nat j). rewrite seq_nth by exact J. simpl plus.
  assert (G : forall l a, a <= fold_left Rmax l a /\ (forall x, In x l -> x <= fold_left Rmax l a) /\ (fold_left Rmax l a = a \/ In (fold_left Rmax l a) l)).
  { induction l as [|x l IH]; intros a; cbn [fold_left]; [split; [lra|split; [intros x []|left; reflexivity]]|].
    destruct (IH (Rmax a x)) as [I1 [I2 I3]]. pose proof (Rmax_l a x). pose proof (Rmax_r a x). split; [lra|]. split.
    - intros y [->|Y]; [lra|auto].
    - destruct I3 as [I3|I3]; [|right; right; exact I3]. rewrite I3. unfold Rmax. destruct (Rle_dec a x); [right; left; reflexivity|left; reflexivity]. }
  destruct (G (map (fun f => nth j (section_resistance m f) 0) secs) 0) as [G1 [G2 G3]]. split; [exact G1|]. split.
  - intros f F. apply G2. apply (in_map (fun f => nth j (section_resistance m f) 0)). exact F.
  - destruct G3 as [G3|G3]; [left; exact G3|right]. apply in_map_iff in G3. destruct G3 as [f [F1 F2]]. exists f. split; [exact F2|symmetry; exact F1].
Qed.
Print Assumptions C199_largest_of_sections.
