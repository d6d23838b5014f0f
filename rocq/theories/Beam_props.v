(** C39 to C47, C91 to C95: finite elements. *)
From Verif Require Import Tac Beam_spec Fem2_proofs Beam_proofs Beam2_proofs Beam3_proofs Beam4_proofs Beam5_proofs Beam6_proofs.

Lemma grid_5 : on_grid (dist2 3 4).
Proof.
  exists 5000%Z. split; [|lia]. unfold dist2. replace (3 * 3 + 4 * 4) with (5 ^ 2) by ring. rewrite sqrt_pow2; lra.
Qed.

(** C39: local frame, then global frame. *)
Theorem C39_local_symmetric : forall E A I L, sym (k_local E A I L).
Proof. exact k_local_sym. Qed.
Print Assumptions C39_local_symmetric.
Theorem C39_local_semidefinite : forall E A I L, 0 < E -> 0 <= A -> 0 <= I -> 0 < L -> psd 6 (k_local E A I L).
Proof. exact k_local_psd_lemma. Qed.
Print Assumptions C39_local_semidefinite.
Theorem C39_local_rigid : forall E A I L a b th i, L <> 0 -> (i < 6)%nat -> mvec 6 (k_local E A I L) (rigid_local L a b th) i = 0.
Proof. exact k_local_rigid_lemma. Qed.
Print Assumptions C39_local_rigid.
Theorem C39_global_symmetric : forall E A I dx dy, sym (beam_k E A I dx dy).
Proof. exact beam_k_sym_lemma. Qed.
Print Assumptions C39_global_symmetric.
Theorem C39_global_semidefinite : forall E A I dx dy, 0 < E -> 0 <= A -> 0 <= I -> elem_length dx dy <> 0 -> psd 6 (beam_k E A I dx dy).
Proof. exact beam_k_psd_lemma. Qed.
Print Assumptions C39_global_semidefinite.
Theorem C39_global_rigid : forall E A I dx dy a b th i, on_grid (dist2 dx dy) -> (i < 6)%nat ->
  mvec 6 (beam_k E A I dx dy) (rigid_global dx dy a b th) i = 0.
Proof. exact beam_k_rigid_lemma. Qed.
Print Assumptions C39_global_rigid.
Example C39_ex : 0 < 210000 /\ on_grid (dist2 3 4) /\ elem_length 3 4 <> 0 /\ rigid_global 3 4 1 2 3 4%nat = 11.
Proof. repeat split; try lra; [apply grid_5| |unfold rigid_global, vlist; cbn [nth]; lra]. rewrite length_on_grid by apply grid_5. pose proof (on_grid_pos _ grid_5). lra. Qed.

(** C40 *)
Theorem C40_local_only_rigid : forall E A I L u, 0 < E -> 0 < A -> 0 < I -> 0 < L ->
  quad 6 (k_local E A I L) u = 0 ->
  exists a b th, forall i, (i < 6)%nat -> u i = rigid_local L a b th i.
Proof. exact k_local_zero_energy_lemma. Qed.
Print Assumptions C40_local_only_rigid.
Theorem C40_global_only_rigid : forall E A I dx dy u, 0 < E -> 0 < A -> 0 < I -> on_grid (dist2 dx dy) ->
  quad 6 (beam_k E A I dx dy) u = 0 ->
  exists a b th, forall i, (i < 6)%nat -> u i = rigid_global dx dy a b th i.
Proof. exact beam_k_zero_energy_lemma. Qed.
Print Assumptions C40_global_only_rigid.
Example C40_ex : quad 6 (beam_k 1 1 1 3 4) (rigid_global 3 4 1 2 3) = 0.
Proof. unfold quad. apply sumn_zero. intros i Hi. change (rigid_global 3 4 1 2 3 i * mvec 6 (beam_k 1 1 1 3 4) (rigid_global 3 4 1 2 3) i = 0). rewrite beam_k_rigid_lemma; [ring|apply grid_5|auto]. Qed.

(** C41 *)
Theorem C41_orthogonal_partial : forall dx dy, on_grid (dist2 dx dy) -> orthogonal 6 (beam_T (cosines dx dy)).
Proof. exact T_orthogonal_lemma. Qed.
Print Assumptions C41_orthogonal_partial.
Theorem C41_length_preserved_partial : forall dx dy u, on_grid (dist2 dx dy) -> norm2 6 (mvec 6 (beam_T (cosines dx dy)) u) = norm2 6 u.
Proof. exact T_norm_lemma. Qed.
Print Assumptions C41_length_preserved_partial.
Theorem C41_energy_frame : forall E A I dx dy u, quad 6 (beam_k E A I dx dy) u = quad 6 (k_local E A I (elem_length dx dy)) (mvec 6 (beam_T (cosines dx dy)) u).
Proof. exact T_energy_lemma. Qed.
Print Assumptions C41_energy_frame.
Theorem C41_scale : forall dx dy a b, elem_length dx dy <> 0 ->
  let u := vlist [a; b; 0; 0; 0; 0] in
  norm2 6 (mvec 6 (beam_T (cosines dx dy)) u) = (dist2 dx dy / elem_length dx dy) ^ 2 * norm2 6 u /\
  Rabs (dist2 dx dy / elem_length dx dy - 1) <= 1 / 2000 / Rabs (elem_length dx dy).
Proof. exact T_scale_lemma. Qed.
Print Assumptions C41_scale.
(** Finding: a member of length 1.0004. *)
Theorem C41_rounded_length_refuted : exists dx dy, 1 <= dist2 dx dy /\ ~ orthogonal 6 (beam_T (cosines dx dy)) /\
  exists E A I i, 0 < E /\ 0 < A /\ 0 < I /\ (i < 6)%nat /\ mvec 6 (beam_k E A I dx dy) (rigid_global dx dy 0 0 1) i <> 0.
Proof. exact T_refuted_lemma. Qed.
Print Assumptions C41_rounded_length_refuted.
Example C41_ex : on_grid (dist2 3 4).
Proof. apply grid_5. Qed.

(** C42: loads in local y, any factor; loads in global directions, factor 1. *)
Theorem C42_integral_unique : forall f L v w, 0 < L -> integral f L v -> integral f L w -> v = w.
Proof. exact integral_unique_lemma. Qed.
Print Assumptions C42_integral_unique.
Theorem C42_local_load_partial : forall T L ld, L <> 0 -> ll_local ld = true -> ll_dirx ld = false ->
  let f := vlist (beam_floc T L ld) in
  let q := fun x => ll_f ld * lin_load (ll_q1 ld) (ll_q2 ld) L x in
  integral q L (f 1%nat + f 4%nat) /\ integral (fun x => x * q x) L (f 2%nat + f 5%nat + L * f 4%nat) /\
  f 0%nat = 0 /\ f 3%nat = 0 /\
  forall w1 t1 w2 t2, integral (fun x => q x * cubic L w1 t1 w2 t2 x) L (f 1%nat * w1 + f 2%nat * t1 + f 4%nat * w2 + f 5%nat * t2).
Proof. exact local_resultant_lemma. Qed.
Print Assumptions C42_local_load_partial.
Theorem C42_global_load_partial : forall dx dy ld, on_grid (dist2 dx dy) -> ll_local ld = false -> ll_f ld = 1 ->
  let L := dist2 dx dy in
  let f := beam_fglob (beam_T (cosines dx dy)) (elem_length dx dy) ld in
  let q := lin_load (ll_q1 ld) (ll_q2 ld) L in
  (* force in the direction of the load, none across *)
  integral q L (if ll_dirx ld then f 0%nat + f 3%nat else f 1%nat + f 4%nat) /\
  (if ll_dirx ld then f 1%nat + f 4%nat else f 0%nat + f 3%nat) = 0 /\
  (* moment about the first node *)
  integral (fun x => if ll_dirx ld then - (dy / L * x) * q x else dx / L * x * q x) L
    (f 2%nat + f 5%nat + dx * f 4%nat - dy * f 3%nat).
Proof. exact global_resultant_lemma. Qed.
Print Assumptions C42_global_load_partial.
Example C42_ex : on_grid (dist2 3 4) /\ ll_local (mkLl 1 2 5 (0, 1) true false) = false /\ ll_f (mkLl 1 2 5 (0, 1) true false) = 1.
Proof. split; [apply grid_5|auto]. Qed.
Theorem C42_axial_load_refuted : forall T L, let ld := mkLl 1 1 1 (0, 1) true true in
  forall i, vlist (beam_floc T L ld) i = 0.
Proof. exact local_x_refuted_lemma. Qed.
Print Assumptions C42_axial_load_refuted.
Theorem C42_factor_squared_refuted : forall T L f q1 q2 dirx i, vlist (beam_floc T L (mkLl f q1 q2 (0, 1) dirx false)) i = f ^ 2 * vlist (beam_floc T L (mkLl 1 q1 q2 (0, 1) dirx false)) i.
Proof. exact factor_refuted_lemma. Qed.
Print Assumptions C42_factor_squared_refuted.
Theorem C42_extent_ignored_refuted : forall T L f q1 q2 x1 x2 y1 y2 dirx loc, beam_floc T L (mkLl f q1 q2 (x1, x2) dirx loc) = beam_floc T L (mkLl f q1 q2 (y1, y2) dirx loc).
Proof. exact extent_refuted_lemma. Qed.
Print Assumptions C42_extent_ignored_refuted.
Theorem C42_3d_local_y : forall L q1 q2, L <> 0 ->
  let f := vlist (floc3 L 1 q1 q2 false) in
  integral (lin_load q1 q2 L) L (f 1%nat + f 7%nat) /\
  integral (fun x => x * lin_load q1 q2 L x) L (f 5%nat + f 11%nat + L * f 7%nat).
Proof. exact floc3_y_lemma. Qed.
Print Assumptions C42_3d_local_y.
Theorem C42_3d_local_z_refuted : exists L q1 q2, 0 < L /\
  let f := vlist (floc3 L 1 q1 q2 true) in
  ~ integral (fun x => - x * lin_load q1 q2 L x) L (f 4%nat + f 10%nat - L * f 8%nat).
Proof. exact floc3_z_refuted_lemma. Qed.
Print Assumptions C42_3d_local_z_refuted.
Theorem C42_3d_factor_refuted : forall L f q1 q2 z, floc3 L f q1 q2 z = floc3 L 1 q1 q2 z.
Proof. exact floc3_factor_refuted_lemma. Qed.
Print Assumptions C42_3d_factor_refuted.

(** C43 *)
Theorem C43_end_values : forall L, L <> 0 ->
  shape_fun L 0 = [1; 0; 0; 0] /\ firstn 3 (shape_fun L L) = [0; 0; 1].
Proof. exact shape_ends_lemma. Qed.
Print Assumptions C43_end_values.
Theorem C43_end_slopes_partial : forall L, L <> 0 -> forall k, (k < 3)%nat ->
  derivable_pt_lim (fun x => nth k (shape_fun L x) 0) 0 (nth k [0; 1; 0] 0) /\
  derivable_pt_lim (fun x => nth k (shape_fun L x) 0) L (nth k [0; 0; 0] 0).
Proof. exact shape_slopes_lemma. Qed.
Print Assumptions C43_end_slopes_partial.
Theorem C43_translation : forall L x w, L <> 0 -> nth 0 (shape_fun L x) 0 * w + nth 2 (shape_fun L x) 0 * w = w.
Proof. exact shape_translation_lemma. Qed.
Print Assumptions C43_translation.
Theorem C43_unit_length_partial : forall w1 t1 w2 t2 x, let N := fun k => nth k (shape_fun 1 x) 0 in
  N 0%nat * w1 + N 1%nat * t1 + N 2%nat * w2 + N 3%nat * t2 = cubic 1 w1 t1 w2 t2 x.
Proof. exact shape_unit_lemma. Qed.
Print Assumptions C43_unit_length_partial.
Theorem C43_other_lengths_refuted : forall L, 0 < L -> L <> 1 ->
  (exists l, derivable_pt_lim (fun x => nth 3 (shape_fun L x) 0) L l /\ l <> 1) /\
  (* rigid rotation by 1 is not reproduced *)
  exists x, 0 < x < L /\ nth 1 (shape_fun L x) 0 * 1 + nth 2 (shape_fun L x) 0 * L + nth 3 (shape_fun L x) 0 * 1 <> x.
Proof. exact shape_refuted_lemma. Qed.
Print Assumptions C43_other_lengths_refuted.
Example C43_ex : shape_fun 2 1 = [1 / 2; 1 / 4; 1 / 2; 0].
Proof. unfold shape_fun. repeat (apply f_equal2; [field|]). reflexivity. Qed.

(** C44 *)
Theorem C44_symmetric : forall d k c, sym (rod_k d k c).
Proof. exact rod_sym_lemma. Qed.
Print Assumptions C44_symmetric.
Theorem C44_energy : forall d k c u, quad (2 * d) (rod_k d k c) u = k * (sumn d (fun j => c j * (u (d + j)%nat - u j))) ^ 2.
Proof. exact rod_energy_lemma. Qed.
Print Assumptions C44_energy.
Theorem C44_semidefinite : forall d k c, 0 <= k -> psd (2 * d) (rod_k d k c).
Proof. exact rod_psd_lemma. Qed.
Print Assumptions C44_semidefinite.
Theorem C44_end_forces : forall d k c u j, (j < d)%nat ->
  let N := rod_force d k c u in
  N = k * sumn d (fun j => c j * (u (d + j)%nat - u j)) /\
  mvec (2 * d) (rod_k d k c) u j = - (N * c j) /\ mvec (2 * d) (rod_k d k c) u (d + j)%nat = N * c j.
Proof. exact rod_forces_lemma. Qed.
Print Assumptions C44_end_forces.
Example C44_ex : rod_force 2 10 (vlist [3 / 5; 4 / 5]) (vlist [0; 0; 1; 2]) = 22.
Proof. unfold rod_force, mvec, rod_T, vlist. cbn. field. Qed.

(** C45 *)
Theorem C45_stiffness_kept : forall r, stiff_ok (rot_clamp r).
Proof. exact clamp_ok. Qed.
Print Assumptions C45_stiffness_kept.
Theorem C45_symmetric : forall E A I L r1 r2 i j, 0 < E -> 0 < I -> 0 < L -> stiff_ok r1 -> stiff_ok r2 -> (i < 6)%nat -> (j < 6)%nat ->
  sr_k E A I L r1 r2 i j = sr_k E A I L r1 r2 j i.
Proof. exact sr_sym_lemma. Qed.
Print Assumptions C45_symmetric.
Theorem C45_semidefinite : forall E A I L r1 r2, 0 < E -> 0 <= A -> 0 < I -> 0 < L -> stiff_ok r1 -> stiff_ok r2 -> psd 6 (sr_k E A I L r1 r2).
Proof. exact sr_psd_lemma. Qed.
Print Assumptions C45_semidefinite.
Theorem C45_rigid_motion : forall E A I L r1 r2 a b th i, 0 < E -> 0 < I -> 0 < L -> stiff_ok r1 -> stiff_ok r2 -> (i < 6)%nat ->
  mvec 6 (sr_k E A I L r1 r2) (rigid_local L a b th) i = 0.
Proof. exact sr_rigid_motion_lemma. Qed.
Print Assumptions C45_rigid_motion.
Theorem C45_rigid_joints : forall E A I L i j, 0 < E -> 0 < I -> 0 < L -> (i < 6)%nat -> (j < 6)%nat ->
  sr_k E A I L (rot_clamp None) (rot_clamp None) i j = k_local E A I L i j.
Proof. exact sr_equals_rigid_lemma. Qed.
Print Assumptions C45_rigid_joints.
Theorem C45_approaches_rigid : forall E A I L r1 r2 i j, 0 < E -> 0 < I -> 0 < L -> stiff_ok r1 -> stiff_ok r2 -> (i < 6)%nat -> (j < 6)%nat ->
  let g1 := E * I / L / r1 in let g2 := E * I / L / r2 in
  Rabs (k_local E A I L i j - sr_k E A I L r1 r2 i j) <= Rabs (k_local E A I L i j) * (4 * g1 + 4 * g2 + 12 * g1 * g2).
Proof. exact sr_approach_lemma. Qed.
Print Assumptions C45_approaches_rigid.
Theorem C45_joint_limits_moment : forall E A I L r1 r2, 0 < E -> 0 < I -> 0 < L -> stiff_ok r1 -> stiff_ok r2 -> r1 < kRigid ->
  0 < sr_k E A I L r1 r2 2%nat 2%nat <= r1 /\ 0 < sr_k E A I L r1 r2 2%nat 5%nat <= r1 / 2 /\
  0 < sr_k E A I L r1 r2 2%nat 1%nat <= 3 / 2 * r1 / L.
Proof. exact sr_joint_bound_lemma. Qed.
Print Assumptions C45_joint_limits_moment.
Example C45_ex : stiff_ok (rot_clamp (Some 5000)) /\ rot_clamp (Some 5000) < kRigid.
Proof.
  split; [apply clamp_ok|]. unfold rot_clamp. pose proof kHR.
  assert (kHinge < 1). { unfold kHinge. rewrite <- Rinv_1. apply Rinv_lt_contravar; simpl; lra. }
  assert (5000 < kRigid) by (unfold kRigid; simpl; lra).
  replace (Rleb 5000 kHinge) with false by (symmetry; apply Rleb_false; lra).
  replace (Rleb kRigid 5000) with false by (symmetry; apply Rleb_false; lra). auto.
Qed.

(** C46: the attribute in the returned matrix is the present one when it was not set
    since the cache was last empty; the condensed matrix is right. *)
Theorem C46_releases_seen_partial : forall H (h0 : H) k0 ops, Forall no_set ops ->
  let s := fold_left cstep ops (mkCe h0 k0 []) in fst (eval_cached s) = ce_h s.
Proof. exact @cache_coherent_lemma. Qed.
Print Assumptions C46_releases_seen_partial.
Theorem C46_releases_seen_after_drop_partial : forall H (h0 : H) k0 ops1 ops2, Forall no_set ops2 ->
  let s := fold_left cstep (ops1 ++ EvictAll :: ops2) (mkCe h0 k0 []) in fst (eval_cached s) = ce_h s.
Proof. exact @set_before_eval_lemma. Qed.
Print Assumptions C46_releases_seen_after_drop_partial.
Theorem C46_release_after_analysis_refuted : forall inv, exists s ops, s = mkCe [] (1, 1, 1, 1) [] /\
  let s' := fold_left cstep ops s in ce_h s' = [2%nat] /\
  k_cached inv s' 2%nat 2%nat <> k_rel inv (ce_h s') 1 1 1 1 2%nat 2%nat.
Proof. exact release_refuted_lemma. Qed.
Print Assumptions C46_release_after_analysis_refuted.
Theorem C46_condensation : forall (inv : mat -> mat) (rel : list nat) (k0 : mat) (f q : vec), NoDup rel -> Forall (fun i => (i < 6)%nat) rel ->
  right_inverse (length rel) (fun i j => k0 (nth i rel 0%nat) (nth j rel 0%nat))
     (inv (fun i j => k0 (nth i rel 0%nat) (nth j rel 0%nat))) ->
  exists q' : vec, (forall i, (i < 6)%nat -> ~ In i rel -> q' i = q i) /\
  forall i, (i < 6)%nat ->
    mvec 6 (condense inv (unreleased rel) rel k0) q i - condense_v inv (unreleased rel) rel k0 f i = mvec 6 k0 q' i - f i /\
    (In i rel -> mvec 6 k0 q' i - f i = 0).
Proof. exact condense_lemma. Qed.
Print Assumptions C46_condensation.
Example C46_ex : NoDup [2%nat] /\ Forall (fun i => (i < 6)%nat) [2%nat] /\
  right_inverse 1 (fun i j => k_local 1 1 1 1 (nth i [2%nat] 0%nat) (nth j [2%nat] 0%nat)) (fun _ _ => / 4).
Proof.
  split; [repeat constructor; auto|]. split; [repeat constructor|]. intros i j Hi Hj. destruct i, j; try lia.
  unfold mmul. cbn [sumn nth]. unfold k_local, put. mx. field.
Qed.
Example C46_ops_ex : Forall (@no_set (list nat)) [Eval; SetKey (1, 2, 3, 4); Eval].
Proof. repeat constructor. Qed.

(** C47 *)
Theorem C47_union : forall l1 l2 sid i, load_vector (l1 ++ l2) sid i = load_vector l1 sid i + load_vector l2 sid i.
Proof. exact load_union_lemma. Qed.
Print Assumptions C47_union.
Theorem C47_point_load_scales_partial : forall sid nd v f c i, load_vector [point_load sid nd v (c * f)] sid i = c * load_vector [point_load sid nd v f] sid i.
Proof. exact point_scale_lemma. Qed.
Print Assumptions C47_point_load_scales_partial.
Theorem C47_point_load_value : forall sid nd v f k i, NoDup nd -> nth_error nd k = Some (Z.of_nat i) -> 
  load_vector [point_load sid nd v f] sid i = f * nth k v 0.
Proof. exact point_value_lemma. Qed.
Print Assumptions C47_point_load_value.
Theorem C47_other_cases : forall loads sid i, Forall (fun l => l_sid l <> sid) loads -> load_vector loads sid i = 0.
Proof. exact other_case_lemma. Qed.
Print Assumptions C47_other_cases.
Theorem C47_local_line_load : forall T L ld ld' f g i, ll_local ld = true -> ll_local ld' = true -> ll_dirx ld = ll_dirx ld' ->
  vlist (beam_floc T L (mkLl f (ll_q1 ld) (ll_q2 ld) (ll_xloc ld) (ll_dirx ld) true)) i * g +
  vlist (beam_floc T L (mkLl f (ll_q1 ld') (ll_q2 ld') (ll_xloc ld) (ll_dirx ld) true)) i * g =
  vlist (beam_floc T L (mkLl (f * g) (ll_q1 ld + ll_q1 ld') (ll_q2 ld + ll_q2 ld') (ll_xloc ld) (ll_dirx ld) true)) i.
Proof. exact local_linear_lemma. Qed.
Print Assumptions C47_local_line_load.
Theorem C47_global_line_load_refuted : forall T L f q1 q2 dirx i, vlist (beam_floc T L (mkLl f q1 q2 (0, 1) dirx false)) i = f ^ 2 * vlist (beam_floc T L (mkLl 1 q1 q2 (0, 1) dirx false)) i.
Proof. exact factor_refuted_lemma. Qed.
Print Assumptions C47_global_line_load_refuted.
Example C47_ex : NoDup [0%Z; 1%Z; 2%Z] /\ nth_error [0%Z; 1%Z; 2%Z] 1 = Some (Z.of_nat 1).
Proof. split; [|reflexivity]. repeat constructor; cbn; intuition discriminate. Qed.

(** C91: geometric stiffness. *)
Theorem C91_symmetric : forall P L, sym (kg_local P L).
Proof. exact kg_sym_lemma. Qed.
Print Assumptions C91_symmetric.
Theorem C91_sign : forall P L u, 0 < L -> (0 <= P -> 0 <= quad 6 (kg_local P L) u) /\ (P <= 0 -> quad 6 (kg_local P L) u <= 0).
Proof. exact kg_sign_lemma. Qed.
Print Assumptions C91_sign.
Theorem C91_translation : forall P L a b i, L <> 0 -> (i < 6)%nat -> mvec 6 (kg_local P L) (rigid_local L a b 0) i = 0.
Proof. exact kg_translation_lemma. Qed.
Print Assumptions C91_translation.
Theorem C91_rotation : forall P L a b th i, L <> 0 -> (i < 6)%nat ->
  mvec 6 (kg_local P L) (rigid_local L a b th) i = vlist [0; - (P * th); 0; 0; P * th; 0] i.
Proof. exact kg_rotation_lemma. Qed.
Print Assumptions C91_rotation.

(** C92: second order stiffness. *)
Theorem C92_symmetric : forall E A I L P, sym (k_second E A I L P).
Proof. exact k_second_sym_lemma. Qed.
Print Assumptions C92_symmetric.
Theorem C92_rigid_motion : forall E A I L P a b th i, 0 < E -> 0 < I -> 0 < L -> P < 0 ->
  sqrt (- P / E / I) * L < 2 * PI -> (i < 6)%nat ->
  mvec 6 (k_second E A I L P) (rigid_local L a b th) i = vlist [0; - (P * th); 0; 0; P * th; 0] i.
Proof. exact k_second_rigid_lemma. Qed.
Print Assumptions C92_rigid_motion.
Example C92_ex : -1 < 0 /\ sqrt (- -1 / 1 / 1) * 1 < 2 * PI.
Proof. split; [lra|]. replace (- -1 / 1 / 1) with 1 by field. rewrite sqrt_1. pose proof PI_RGT_0. pose proof PI2_3_2. lra. Qed.

(** C93: 3D beam. *)
Theorem C93_symmetric : forall E G A I1 I2 J L, sym (k_local3 E G A I1 I2 J L).
Proof. exact k3_sym_lemma. Qed.
Print Assumptions C93_symmetric.
Theorem C93_energy : forall E G A I1 I2 J L u, L <> 0 ->
  quad 12 (k_local3 E G A I1 I2 J L) u =
    E * A / L * (u 0%nat - u 6%nat) ^ 2 + G * J / L * (u 3%nat - u 9%nat) ^ 2
    + E * I2 / L * ((u 5%nat - u 11%nat) ^ 2 + 3 * (u 5%nat + u 11%nat - 2 * (u 7%nat - u 1%nat) / L) ^ 2)
    + E * I1 / L * ((u 4%nat - u 10%nat) ^ 2 + 3 * (u 4%nat + u 10%nat + 2 * (u 8%nat - u 2%nat) / L) ^ 2).
Proof. exact k3_energy_lemma. Qed.
Print Assumptions C93_energy.
Theorem C93_semidefinite : forall E G A I1 I2 J L, 0 <= E -> 0 <= G -> 0 <= A -> 0 <= I1 -> 0 <= I2 -> 0 <= J -> 0 < L ->
  psd 12 (k_local3 E G A I1 I2 J L).
Proof. exact k3_psd_lemma. Qed.
Print Assumptions C93_semidefinite.
Theorem C93_rigid_motion : forall E G A I1 I2 J L a b c rx ry rz i, L <> 0 -> (i < 12)%nat ->
  mvec 12 (k_local3 E G A I1 I2 J L)
    (vlist [a; b; c; rx; ry; rz; a; b + rz * L; c - ry * L; rx; ry; rz]) i = 0.
Proof. exact k3_rigid_lemma. Qed.
Print Assumptions C93_rigid_motion.

(** C94: end forces. *)
Theorem C94_member_equilibrium : forall E A I L q q1 q2, L <> 0 ->
  let '((n1, n2), (m1, m2), (v1, v2)) := fint (end_forces (k_local E A I L) q (Some (floc_perp q1 q2 L))) in
  n1 = n2 /\ v1 - v2 = - ((q1 + q2) / 2 * L) /\ m2 - m1 = v2 * L - (q1 + 2 * q2) / 6 * L ^ 2.
Proof. exact end_forces_lemma. Qed.
Print Assumptions C94_member_equilibrium.
Theorem C94_single_load_partial : forall T L k q sid ld others i, (forall s l, In (s, l) others -> s <> sid) ->
  end_forces k q (stored_floc T L ((sid, ld) :: others) sid None) i = mvec 6 k q i - nth i (beam_floc T L ld) 0.
Proof. exact one_load_lemma. Qed.
Print Assumptions C94_single_load_partial.
Theorem C94_two_loads_refuted : exists T L ld1 ld2 k q i, (i < 6)%nat /\ 0 < L /\
  end_forces k q (stored_floc T L [(0%nat, ld1); (0%nat, ld2)] 0%nat None) i <>
  mvec 6 k q i - nth i (beam_floc T L ld1) 0 - nth i (beam_floc T L ld2) 0.
Proof. exact two_loads_refuted_lemma. Qed.
Print Assumptions C94_two_loads_refuted.
Example C94_ex : forall (s : nat) (l : lload), In (s, l) [(1%nat, mkLl 1 1 1 (0, 1) false true)] -> s <> 0%nat.
Proof. intros s l [[= <- _]|[]]. lia. Qed.

(** C95: joint stiffness. *)
Theorem C95_joint_after_analysis_refuted : exists s ops, 
  let s' := fold_left cstep ops s in ce_cache s = [] /\ ce_h s' = (1, kRigid) /\
  sr_cached s' 2%nat 2%nat <> sr_k 1 1 1 1 (fst (ce_h s')) (snd (ce_h s')) 2%nat 2%nat.
Proof. exact rot_stale_refuted_lemma. Qed.
Print Assumptions C95_joint_after_analysis_refuted.
Theorem C95_joint_seen_partial : forall H (h0 : H) k0 ops1 ops2, Forall no_set ops2 ->
  let s := fold_left cstep (ops1 ++ EvictAll :: ops2) (mkCe h0 k0 []) in fst (eval_cached s) = ce_h s.
Proof. exact @set_before_eval_lemma. Qed.
Print Assumptions C95_joint_seen_partial.
