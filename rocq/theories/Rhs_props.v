(** C160 to C171: lines in the plane and joints of hollow sections. *)
From Coq Require Import Rpower.
From Verif Require Import EC3_proofs Plate_proofs Rhs_proofs Rhs2_proofs Rhs3_proofs Rhs4_proofs.
From Verif Require Import Rhs_model Rhs_spec.

(** C160 *)
Theorem C160_intersect : forall l k,
  (forall t0 t1 x, intersect l k = Some ((t0, t1), x) ->
     line_at l t0 = x /\ line_at k t1 = x /\ on_line l x /\ on_line k x /\
     (forall y, on_line l y -> on_line k y -> y = x)) /\
  (intersect l k = None <-> fst (l_v l) * snd (l_v k) = snd (l_v l) * fst (l_v k)).
Proof. exact intersect_lemma. Qed.
Print Assumptions C160_intersect.
Example C160_ex : exists t x, intersect (line_pv (0,0) (1,0)) (line_pv (2,2) (0,1)) = Some (t, x) /\ x = (2, 0).
Proof.
  destruct (intersect (line_pv (0,0) (1,0)) (line_pv (2,2) (0,1))) as [[t x]|] eqn:E.
  - exists t, x. split; auto. destruct t as [t0 t1]. apply (proj1 (intersect_lemma _ _)) in E. destruct E as [_ [_ [_ [_ U]]]]. symmetry. apply U.
    + exists 2. cbn. f_equal; lra.
    + exists (-2). cbn. f_equal; lra.
  - apply (proj2 (intersect_lemma _ _)) in E. cbn in E. lra.
Qed.

(** C161 *)
Theorem C161_distance_partial : forall l x, fst (l_v l) ^ 2 + snd (l_v l) ^ 2 = 1 ->
  let (d, c) := distance l x in on_line l c /\ d = dist2 c x /\ (forall y, on_line l y -> d <= dist2 y x) /\
  (forall y, on_line l y -> dist2 y x = d -> y = c) /\ (on_line l x <-> d = 0).
Proof. exact distance_lemma. Qed.
Print Assumptions C161_distance_partial.
(** Finding: the direction given by the caller is not normalised. *)
Theorem C161_distance_refuted : exists l x y, on_line l y /\ dist2 y x < fst (distance l x).
Proof. exact distance_refuted_lemma. Qed.
Print Assumptions C161_distance_refuted.
Theorem C161_through_points : forall p q, (p <> q -> exists l, line_pp p q = Some l /\ fst (l_v l) ^ 2 + snd (l_v l) ^ 2 = 1 /\
   on_line l p /\ on_line l q /\ line_at l (dist2 q p) = q) /\ line_pp p p = None.
Proof. exact line_pp_lemma. Qed.
Print Assumptions C161_through_points.
Theorem C161_rotate : forall v a b,
  vlen (rotate v a) = vlen v /\ rotate (rotate v a) b = rotate v (a + b) /\ rotate v 0 = v /\ rotate v 360 = v /\
  rotate (1, 0) 90 = (0, 1) /\ vdot (rotate v a) v = cos (rad a) * vdot v v.
Proof. exact rotate_lemma. Qed.
Print Assumptions C161_rotate.
Example C161_ex : fst (l_v (line_pv (0,0) (3/5,4/5))) ^ 2 + snd (l_v (line_pv (0,0) (3/5,4/5))) ^ 2 = 1 /\ ((0,0) <> (1,1) :> pt).
Proof. split; [cbn; lra|]. intros E. injection E as E1 _. lra. Qed.

(** C162 *)
Theorem C162_eccentricity : forall h0 h1 h2 t1 t2 g, 0 < t1 -> 0 < t2 -> t1 + t2 < 180 ->
  exists e s u x, eccentricity h0 h1 h2 t1 t2 g = Some e /\
    intersect (brace_axis true h0 h1 t1 g) (brace_axis false h0 h2 t2 g) = Some ((s, u), (x, - e)) /\
    (forall g', g <= g' -> exists e', eccentricity h0 h1 h2 t1 t2 g' = Some e' /\ e <= e' /\
       e' - e = (g' - g) * (sin (rad t1) * sin (rad t2) / sin (rad (t1 + t2)))).
Proof. exact eccentricity_lemma. Qed.
Print Assumptions C162_eccentricity.
Theorem C162_of_joint : forall j, k_eccentricity j = eccentricity (c_h (k_c j)) (br_h (k_b1 j)) (br_h (k_b2 j)) (k_a1 j) (k_a2 j) (k_gap j).
Proof. exact k_eccentricity_lemma. Qed.
Print Assumptions C162_of_joint.
Example C162_ex : 0 < 45 /\ 0 < 50 /\ 45 + 50 < 180.
Proof. lra. Qed.

(** C163 *)
Theorem C163_reduction_partial : forall r fy fy', 0 <= r -> 0 < fy -> fy <= fy' ->
  0 < strength_reduction r fy /\ strength_reduction r fy' <= strength_reduction r fy /\
  (r = 0 -> strength_reduction r fy <= 1 /\ 8/10 <= strength_reduction r fy /\ (fy <= 355 -> strength_reduction r fy = 1) /\
     (355 < fy <= 460 -> strength_reduction r fy = 9/10) /\ (460 < fy -> strength_reduction r fy = 8/10)) /\ (r <> 0 -> strength_reduction r fy = r).
Proof. exact rhs_reduction_lemma. Qed.
Print Assumptions C163_reduction_partial.
(** Finding: a stronger steel can have a lower reduced strength. *)
Theorem C163_reduced_strength_refuted : exists fy fy', fy < fy' /\ strength_reduction 0 fy' * fy' < strength_reduction 0 fy * fy.
Proof. exact reduction_refuted_lemma. Qed.
Print Assumptions C163_reduced_strength_refuted.
Example C163_ex : strength_reduction 0 420 = 9/10.
Proof. destruct (rhs_reduction_lemma 0 420 420 ltac:(lra) ltac:(lra) ltac:(lra)) as [_ [_ [A _]]]. destruct (A eq_refl) as [_ [_ [_ [B _]]]]. apply B. lra. Qed.

(** C164 *)
Theorem C164_stress : forall c N0 M0 N0' M0', chord_ok c -> N0' <= N0 -> M0 <= M0' ->
  eval_N c N0 M0 <= eval_N c N0' M0' /\ (elastic c N0 M0 <-> eval_N c N0 M0 <= 1) /\ (0 <= N0 -> M0 <= 0 -> eval_N c N0 M0 <= 0).
Proof. exact rhs_stress_lemma. Qed.
Print Assumptions C164_stress.
Theorem C164_stress_function : forall n n' b, 0 < b -> n <= n' -> eval_KN n' b <= eval_KN n b /\ eval_KN n b <= 1 /\ (n <= 0 -> eval_KN n b = 1) /\
  (35/100 <= b -> n <= 1 -> 15/100 <= eval_KN n b) /\ (eval_KN n b < 0 <-> 325/100 * b < n).
Proof. exact kn_lemma. Qed.
Print Assumptions C164_stress_function.
Theorem C164_value : forall n b, 0 < b -> eval_KN n b = Rmin 1 (13/10 - 4/10 * n / b).
Proof. exact kn_form. Qed.
Print Assumptions C164_value.
Example C164_ex : eval_KN (7/10) (1/2) = 74/100.
Proof. rewrite kn_form by lra. rewrite Rmin_right; lra. Qed.

(** A K gap joint for the examples. *)
Definition ex_chord : chord := mkChord 100 100 5 355 1900 60000 200000.
Definition ex_K : kjoint := mkK ex_chord (mkBrace 80 80 4 355 [-50000]) (mkBrace 80 80 4 355 [50000]) 45 45 20 (-100000) 0 0 0.
Lemma ex_K_ok : k_ok ex_K /\ 35/100 <= k_beta ex_K /\ elastic (k_c ex_K) (k_N0 ex_K) (k_M0 ex_K).
Proof.
  split; [|split]. - unfold k_ok, chord_ok, brace_ok, angle_ok; cbn. lra. - unfold k_beta; cbn. lra. - unfold elastic; cbn. lra.
Qed.

(** C165 *)
Theorem C165_positive : forall j b a, k_ok j -> brace_ok b -> angle_ok a -> 35/100 <= k_beta j -> elastic (k_c j) (k_N0 j) (k_M0 j) ->
  0 < k_face j a /\ 0 < k_shear j a /\ 0 < k_brace j b /\ 0 < k_punch j b a /\ 0 < k_NjRd j b a /\
  k_NjRd j b a <= k_face j a /\ k_NjRd j b a <= k_shear j a /\ k_NjRd j b a <= k_brace j b /\
  (k_beta j <= 1 - 1 / gamma (k_c j) -> k_NjRd j b a <= k_punch j b a) /\
  k_brace j b <= k_red j * br_fy b * (2 * br_t b * (br_h b + br_b b - 2 * br_t b)).
Proof. exact k_positive_lemma. Qed.
Print Assumptions C165_positive.
Theorem C165_angle : forall j b a a', k_ok j -> brace_ok b -> 0 < a <= a' -> a' <= 90 -> 35/100 <= k_beta j -> elastic (k_c j) (k_N0 j) (k_M0 j) ->
  k_face j a' <= k_face j a /\ k_shear j a' <= k_shear j a /\ k_punch j b a' <= k_punch j b a /\ k_NjRd j b a' <= k_NjRd j b a.
Proof. exact k_monotone_lemma. Qed.
Print Assumptions C165_angle.
Theorem C165_chord_force : forall j b a N0' M0', k_ok j -> angle_ok a -> N0' <= k_N0 j -> k_M0 j <= M0' ->
  let j' := k_forces j N0' M0' in
  k_face j' a <= k_face j a /\ k_shear j' a = k_shear j a /\ k_brace j' b = k_brace j b /\ k_punch j' b a = k_punch j b a /\ k_NjRd j' b a <= k_NjRd j b a.
Proof. exact k_compression_lemma. Qed.
Print Assumptions C165_chord_force.
Theorem C165_values : forall j b a, k_ok j -> brace_ok b -> angle_ok a -> k_tp j = 0 ->
  let c := k_c j in let s := sin (rad a) in
  k_face j a = k_red j * std_face (k_kn j) (c_fy c) (c_t c) (c_b c) (k_beta j) s /\
  k_shear j a = k_red j * std_shear (c_fy c) (c_h c) (c_b c) (c_t c) (k_gap j) s /\
  k_brace j b = k_red j * std_brace (c_fy c) (c_b c) (c_t c) (br_fy b) (br_h b) (br_b b) (br_t b) /\
  k_punch j b a = k_red j * std_punch (c_fy c) (c_b c) (c_t c) (br_h b) (br_b b) s.
Proof. exact k_values_lemma. Qed.
Print Assumptions C165_values.
Example C165_ex : k_ok ex_K /\ 35/100 <= k_beta ex_K /\ elastic (k_c ex_K) (k_N0 ex_K) (k_M0 ex_K).
Proof. exact ex_K_ok. Qed.

(** C166 *)
Theorem C166_shear_area : forall c g, chord_ok c -> 0 <= g -> 2 * c_h c * c_t c < a_eta c g <= (2 * c_h c + c_b c) * c_t c.
Proof. exact a_eta_bounds. Qed.
Print Assumptions C166_shear_area.
Theorem C166_shear_area_gap : forall c g g', chord_ok c -> 0 <= g <= g' -> a_eta c g' <= a_eta c g.
Proof. exact a_eta_anti. Qed.
Print Assumptions C166_shear_area_gap.
Theorem C166_axial : forall j v, k_ok j -> 0 <= v -> a_eta (k_c j) (k_gap j) <= c_A (k_c j) ->
  0 <= k_N0Rd j v <= k_red j * (c_fy (k_c j) * c_A (k_c j)) /\ k_N0Rd j 0 = k_red j * (c_fy (k_c j) * c_A (k_c j)) /\
  (c_V (k_c j) < v -> k_N0Rd j v = 0) /\ (forall v', v <= v' -> k_N0Rd j v' <= k_N0Rd j v) /\
  (forall a g', angle_ok a -> k_gap j <= g' ->
     k_shear (mkK (k_c j) (k_b1 j) (k_b2 j) (k_a1 j) (k_a2 j) g' (k_N0 j) (k_M0 j) (k_r j) (k_tp j)) a <= k_shear j a).
Proof. exact chord_shear_lemma. Qed.
Print Assumptions C166_axial.
Example C166_ex : a_eta (k_c ex_K) (k_gap ex_K) <= c_A (k_c ex_K).
Proof. apply Rle_trans with ((2 * c_h (k_c ex_K) + c_b (k_c ex_K)) * c_t (k_c ex_K)); [apply a_eta_bounds; [apply ex_K_ok|cbn; lra]|cbn; lra]. Qed.

(** C167 *)
Theorem C167_compression_partial : forall j F1 F2, uniform (k_b1 j) F1 -> uniform (k_b2 j) F2 -> F1 * F2 < 0 ->
  (F1 < 0 -> k_N1 j = Some (- F1) /\ k_angle1 j = Some (k_a1 j)) /\
  (F2 < 0 -> k_N1 j = Some (- F2) /\ k_angle1 j = Some (k_a2 j)) /\
  exists V, k_V0gap j = Some V /\ 0 <= V /\
   (F1 * sin (rad (k_a1 j)) + F2 * sin (rad (k_a2 j)) = 0 -> V = Rabs (F1 * sin (rad (k_a1 j))) /\ V = Rabs (F2 * sin (rad (k_a2 j)))).
Proof. exact forces_lemma. Qed.
Print Assumptions C167_compression_partial.
(** Finding: the tension brace force is reported as zero when the first brace is in compression. *)
Theorem C167_tension_refuted : forall j F1 F2, uniform (k_b1 j) F1 -> uniform (k_b2 j) F2 ->
  (F1 < 0 -> 0 < F2 -> k_N2 j = Some 0) /\ (0 < F1 -> F2 < 0 -> k_N2 j = Some (- F2)).
Proof. exact tension_force_lemma. Qed.
Print Assumptions C167_tension_refuted.
(** Finding: the chord force in the gap cannot be evaluated for a compressed chord. *)
Theorem C167_gap_force_refuted : forall j, k_N0 j < 0 -> k_N0gap j = None.
Proof. exact gap_force_lemma. Qed.
Print Assumptions C167_gap_force_refuted.
Example C167_ex : uniform (k_b1 ex_K) (-50000) /\ uniform (k_b2 ex_K) 50000 /\ -50000 * 50000 < 0 /\ k_N0 ex_K < 0.
Proof. repeat split; cbn; try congruence; try lra; intros x [<-|[]]; auto. Qed.

(** A Y joint for the examples. *)
Definition ex_Y : yjoint := mkY ex_chord (mkBrace 80 80 4 355 [-50000]) 60 (-100000) 0 (-50000) 0 (49/100).
Lemma ex_Y_ok : y_ok ex_Y.
Proof. unfold y_ok, chord_ok, brace_ok, angle_ok; cbn. lra. Qed.

(** C168 *)
(** Finding: the chord stress has no effect, or increases the resistance. *)
Theorem C168_chord_stress_refuted : forall j N0' M0', y_ok j -> N0' <= y_N0 j -> y_M0 j <= M0' -> let j' := y_forces j N0' M0' in
  (y_red j = 1 -> y_face j' = y_face j /\ y_web j' = y_web j /\ y_design j' = y_design j) /\
  (y_red j < 1 -> y_face j <= y_face j' /\ (y_kn j' < y_kn j -> y_face j < y_face j')).
Proof. exact y_stress_lemma. Qed.
Print Assumptions C168_chord_stress_refuted.
Theorem C168_positive_partial : forall j, y_ok j -> 0 < y_face j /\ 0 < y_brace j /\ 0 < y_punch j /\
  y_brace j <= y_red j * br_fy (y_b j) * (2 * br_t (y_b j) * (br_h (y_b j) + br_b (y_b j) - 2 * br_t (y_b j))) /\
  (0 <= y_N1 j -> exists w, y_web j = Some w /\ 0 < w).
Proof. exact y_positive_lemma. Qed.
Print Assumptions C168_positive_partial.
Theorem C168_angle_partial : forall j a, y_ok j -> y_a j <= a -> a <= 90 -> y_beta j < 1 ->
  y_face (y_angle j a) <= y_face j /\ y_punch (y_angle j a) <= y_punch j /\ y_brace (y_angle j a) = y_brace j.
Proof. exact y_angle_lemma. Qed.
Print Assumptions C168_angle_partial.
Theorem C168_values_partial : forall j, y_ok j -> let c := y_c j in let b := y_b j in let s := sin (rad (y_a j)) in
  y_brace j = y_red j * std_y_brace (c_fy c) (c_b c) (c_t c) (br_fy b) (br_h b) (br_b b) (br_t b) /\
  y_punch j = y_red j * std_y_punch (c_fy c) (c_b c) (c_t c) (br_h b) (br_b b) s /\
  (y_beta j < 1 -> y_face j = Rpower (y_red j) (y_kn j) * c_fy c * c_t c ^ 2 / ((1 - br_b b / c_b c) * s) * (2 * (br_h b / c_b c) / s + 4 * sqrt (1 - br_b b / c_b c))) /\
  (0 <= y_N1 j -> y_web j = Some (Rpower (y_red j) (y_kn j) * (c_fy c * c_t c / s * (2 * br_h b / s + 10 * c_t c)))).
Proof. exact y_values_lemma. Qed.
Print Assumptions C168_values_partial.
Example C168_ex : y_ok ex_Y /\ y_beta ex_Y < 1.
Proof. split; [apply ex_Y_ok|unfold y_beta; cbn; lra]. Qed.

(** C169 *)
Theorem C169_utilisation_partial : forall j, y_ok j -> y_beta j < 85/100 ->
  exists u, y_design j = Some u /\ 0 <= u /\ (u <= 1 <-> Rabs (y_N1 j) <= y_face j) /\
  (forall k, 0 <= k -> y_design (set_N1 j (k * y_N1 j)) = Some (k * u)).
Proof. exact y_util_lemma. Qed.
Print Assumptions C169_utilisation_partial.
Theorem C169_interpolation_refuted : forall j w, y_ok j -> y_web j = Some w -> y_red j = 1 -> 
  (y_beta j < 85/100 -> y_NjRd_with j (y_web j) = Some (y_face j)) /\
  (y_beta j = 1 -> exists n, y_NjRd_with j (y_web j) = Some n /\ n <= w /\ n <= y_brace j /\ (n = w \/ n = y_brace j \/ n = y_punch j)) /\
  (85/100 <= y_beta j <= 1 -> exists n, y_NjRd_with j (y_web j) = Some n /\ n <= Rmax (y_face j) w /\ n <= y_brace j /\
     (y_beta j <= 1 - 1 / gamma (y_c j) -> n <= y_punch j)) /\
  (85/100 < y_beta j < 1 -> w < y_brace j -> w < y_face j -> 1 - 1 / gamma (y_c j) < y_beta j ->
     exists n, y_NjRd_with j (y_web j) = Some n /\ w < n /\
       (n < y_brace j -> interp (y_beta j) (y_face (y_width j (85/100 * c_b (y_c j)))) w < n)).
Proof. exact y_interp_lemma. Qed.
Print Assumptions C169_interpolation_refuted.
Theorem C169_wide_brace_refuted : y_ok wide_y /\ 1 < y_beta wide_y /\ exists u, y_design wide_y = Some u /\ u < 0.
Proof. exact y_wide_refuted_lemma. Qed.
Print Assumptions C169_wide_brace_refuted.
Example C169_ex : y_ok ex_Y /\ y_beta ex_Y < 85/100.
Proof. split; [apply ex_Y_ok|unfold y_beta; cbn; lra]. Qed.

(** C170 *)
Theorem C170_side_wall_partial : forall j, y_ok j -> 2 * c_t (y_c j) <= c_h (y_c j) ->
  (0 <= y_N1 j -> y_fb j = Some (c_fy (y_c j))) /\
  (y_N1 j < 0 -> exists f, y_fb j = Some f /\ 0 < f /\ (2/10 <= y_slend j -> f <= c_fy (y_c j)) /\
     (y_slend j < 2/10 -> 0 < y_imp j -> c_fy (y_c j) < f)).
Proof. exact y_fb_lemma. Qed.
Print Assumptions C170_side_wall_partial.
Theorem C170_new_joint_refuted : forall c b a N0 M0 imp j, new_y c b a N0 M0 imp = Some j ->
  0 <= y_N1 j /\ (forall x, In x (br_ned b) -> Rabs x <= y_N1 j) /\ y_fb j = Some (c_fy c) /\
  forall v, v < 0 -> y_fb (set_N1 j v) = bind (y_chi j) (fun chi => Some (chi * c_fy c)).
Proof. exact new_y_lemma. Qed.
Print Assumptions C170_new_joint_refuted.
Example C170_ex : y_ok ex_Y /\ 2 * c_t (y_c ex_Y) <= c_h (y_c ex_Y) /\ y_N1 ex_Y < 0.
Proof. split; [apply ex_Y_ok|cbn; lra]. Qed.

(** C171 *)
Theorem C171_x_joint_partial : forall j, y_ok j ->
  (y_beta j < 85/100 -> x_design j = y_design j) /\
  (85/100 <= y_beta j -> y_N1 j < 0 -> x_design j = None) /\
  (85/100 <= y_beta j -> br_h (y_b j) / c_h (y_c j) < cos (rad (y_a j)) -> x_design j = None) /\
  (0 <= y_N1 j -> cos (rad (y_a j)) <= br_h (y_b j) / c_h (y_c j) -> x_design j = y_design j).
Proof. exact x_lemma. Qed.
Print Assumptions C171_x_joint_partial.
Example C171_ex : y_ok ex_Y.
Proof. apply ex_Y_ok. Qed.

(** Equal square braces: the width ratio is their width over that of the chord. *)
Theorem C165_beta_square : forall j b, c_b (k_c j) <> 0 -> br_b (k_b1 j) = b -> br_h (k_b1 j) = b -> br_b (k_b2 j) = b -> br_h (k_b2 j) = b -> k_beta j * c_b (k_c j) = b.
Proof. intros j b H A B C D. unfold k_beta. rewrite A, B, C, D. field. exact H. Qed.
Print Assumptions C165_beta_square.
(** The slenderness of the side wall squared. *)
Theorem C170_slenderness_squared : forall j, 0 < sin (rad (y_a j)) -> 0 < c_fy (y_c j) -> 0 < c_t (y_c j) ->
  y_slend j ^ 2 * (PI ^ 2 * 210000 * sin (rad (y_a j)) * c_t (y_c j) ^ 2) = (346/100) ^ 2 * (c_h (y_c j) - 2 * c_t (y_c j)) ^ 2 * c_fy (y_c j).
Proof.
  intros j S F T. unfold y_slend. pose proof PI_RGT_0 as P. set (s := sin (rad (y_a j))) in *. set (f := c_fy (y_c j)) in *. set (t := c_t (y_c j)) in *.
  assert (A : sqrt (1 / s) ^ 2 = 1 / s) by (apply pow2_sqrt; apply Rlt_le, Rdiv_lt_0_compat; lra).
  assert (B : sqrt (210000 / f) ^ 2 = 210000 / f) by (apply pow2_sqrt; apply Rlt_le, Rdiv_lt_0_compat; lra).
  assert (C : 0 < sqrt (210000 / f)) by (apply sqrt_lt_R0, Rdiv_lt_0_compat; lra).
  set (q := sqrt (1 / s)) in *. set (r := sqrt (210000 / f)) in *.
  transitivity ((346/100) ^ 2 * (c_h (y_c j) / t - 2) ^ 2 * q ^ 2 / r ^ 2 * 210000 * s * t ^ 2); [field; lra|]. rewrite A, B. field. lra.
Qed.
Print Assumptions C170_slenderness_squared.
(** A new joint takes the reduction of the grade of the chord. *)
Theorem C163_new_joint_reduction : forall c b a N0 M0 imp j fy, new_y c b a N0 M0 imp = Some j ->
  (fy <= 355 -> strength_reduction (y_r j) fy = 1) /\ (355 < fy <= 460 -> strength_reduction (y_r j) fy = 9/10) /\ (460 < fy -> strength_reduction (y_r j) fy = 8/10).
Proof.
  intros c b a N0 M0 imp j fy H. unfold new_y in H. destruct (NEd b); cbn [bind] in H; [|discriminate]. injection H as <-. cbn [y_r]. unfold strength_reduction.
  rewrite (proj2 (Reqb_true 0 0) eq_refl). repeat split; intros K.
  - rewrite (proj2 (Rleb_true _ _)) by lra. reflexivity.
  - rewrite (proj2 (Rleb_false _ _)) by lra. rewrite (proj2 (Rleb_true _ _)) by lra. reflexivity.
  - rewrite !(proj2 (Rleb_false _ _)) by lra. reflexivity.
Qed.
Print Assumptions C163_new_joint_reduction.
