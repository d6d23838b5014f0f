(** C222 to C227: cross-section properties of open thin-walled profiles. *)
From Verif Require Import Tac EC3_proofs Sections_proofs Loads2_proofs Prof_proofs Prof2_proofs Prof3_proofs Prof4_proofs Prof5_proofs Prof6_proofs.
From Verif Require Import Prof_model Prof_spec.
Open Scope R_scope.

(** A hat profile used as the example. *)
Definition hat : prof := mkProf [(-10, 0); (-10, 20); (10, 20); (10, 0)] [1; 1; 1] [1; 1; 1].
Lemma hat_lens : map seg_area (segs hat) = [20; 20; 20].
Proof.
  unfold segs, hat. cbn [pn pst segs_of map]. unfold seg_area, seg_len. cbn [fst snd].
  replace ((-10 - -10) ^ 2 + (20 - 0) ^ 2) with (20 * 20) by ring. replace ((10 - -10) ^ 2 + (20 - 20) ^ 2) with (20 * 20) by ring.
  replace ((10 - 10) ^ 2 + (0 - 20) ^ 2) with (20 * 20) by ring. rewrite sqrt_square by lra. repeat f_equal; ring.
Qed.
Lemma hat_area : area hat = 60.
Proof. unfold area. rewrite hat_lens. cbn. ring. Qed.
Lemma hat_det : inertia_det hat (8000 / 3 * (14000 / 3)).
Proof.
  assert (A : area hat <> 0) by (rewrite hat_area; lra). apply det_eq; [exact A|]. unfold dd, dAs, Np. rewrite hat_lens. unfold hat. cbn [pn Nw fst snd]. unfold Cc, M, yy, zz, one. cbn [fst snd]. field.
Qed.
Lemma hat_wf : wf hat /\ symmetric hat.
Proof. repeat split. cbn. repeat f_equal; unfold flip; cbn; f_equal; ring. Qed.

(** C222 *)
Theorem C222_integrals : forall p c0 c1 c2 c3 c4 c5, area_integral (fun x => c0 + c1 * fst x + c2 * snd x + c3 * fst x ^ 2 + c4 * (fst x * snd x) + c5 * snd x ^ 2) p
    (c0 * area p + c1 * snd (first_moments p) + c2 * fst (first_moments p) + c3 * snd (second_moments p) + c4 * product_moment p + c5 * fst (second_moments p)).
Proof. exact quad_integral. Qed.
Print Assumptions C222_integrals.
Theorem C222_central : forall p yc zc A Iy Iz Iyz, centroid p = Some (yc, zc, A) -> second_moments_gc p = Some (Iy, Iz) -> product_moment_gc p = Some Iyz ->
  area_integral (fun _ => 1) p A /\ area_integral (fun x => fst x - yc) p 0 /\ area_integral (fun x => snd x - zc) p 0 /\
  area_integral (fun x => (snd x - zc) ^ 2) p Iy /\ area_integral (fun x => (fst x - yc) ^ 2) p Iz /\ area_integral (fun x => (fst x - yc) * (snd x - zc)) p Iyz.
Proof. exact central_lemma. Qed.
Print Assumptions C222_central.
Theorem C222_constructor : forall nodes t p, new_prof nodes (Tone t) = Some p -> wf p /\ pn p = nodes /\ parr p = pst p /\ (forall sg, In sg (segs p) -> snd sg = t).
Proof. exact new_prof_lemma. Qed.
Print Assumptions C222_constructor.
Theorem C222_constructor_list : forall nodes ts, nodes <> [] ->
  ((length nodes - 1 <= length ts)%nat -> exists p, new_prof nodes (Tmany ts) = Some p /\ wf p /\ pn p = nodes /\ pst p = firstn (length nodes - 1) ts) /\
  ((length ts < length nodes - 1)%nat -> new_prof nodes (Tmany ts) = None).
Proof. exact new_prof_many_lemma. Qed.
Print Assumptions C222_constructor_list.
Example C222_ex : exists Iy Iz Iyz, second_moments_gc hat = Some (Iy, Iz) /\ product_moment_gc hat = Some Iyz /\ Iy * Iz - Iyz ^ 2 = 8000 / 3 * (14000 / 3).
Proof. destruct hat_det as (Iy & Iz & Iyz & A & B & C). exists Iy, Iz, Iyz. auto. Qed.

(** C223 *)
Theorem C223_centroid : forall c s a b p yc zc A, c ^ 2 + s ^ 2 = 1 -> wf p -> centroid p = Some (yc, zc, A) ->
  centroid (moved (rigid c s a b) p) = Some (c * yc - s * zc + a, s * yc + c * zc + b, A).
Proof. exact centroid_rigid. Qed.
Print Assumptions C223_centroid.
Theorem C223_moments : forall c s a b p Iy Iz Iyz, c ^ 2 + s ^ 2 = 1 -> wf p -> second_moments_gc p = Some (Iy, Iz) -> product_moment_gc p = Some Iyz ->
  second_moments_gc (moved (rigid c s a b) p) = Some (s ^ 2 * Iz + 2 * c * s * Iyz + c ^ 2 * Iy, c ^ 2 * Iz - 2 * c * s * Iyz + s ^ 2 * Iy) /\
  product_moment_gc (moved (rigid c s a b) p) = Some (c * s * (Iz - Iy) + (c ^ 2 - s ^ 2) * Iyz).
Proof. exact moments_rigid. Qed.
Print Assumptions C223_moments.
Theorem C223_shear_centre : forall c s a b p d ys zs, c ^ 2 + s ^ 2 = 1 -> wf p -> inertia_det p d -> 1/100000000 < d -> shear_center p = Some (ys, zs) ->
  shear_center (moved (rigid c s a b) p) = Some (c * ys - s * zs + a, s * ys + c * zs + b).
Proof. exact shear_rigid. Qed.
Print Assumptions C223_shear_centre.
Theorem C223_warping : forall c s a b p d Iw, c ^ 2 + s ^ 2 = 1 -> wf p -> inertia_det p d -> 1/100000000 < d -> warping_constant p = Some Iw ->
  warping_constant (moved (rigid c s a b) p) = Some Iw.
Proof. exact warp_rigid. Qed.
Print Assumptions C223_warping.
Theorem C223_isometry : forall c s a b, c ^ 2 + s ^ 2 = 1 -> isometry (rigid c s a b).
Proof. exact rigid_iso. Qed.
Print Assumptions C223_isometry.
Theorem C223_torsion : forall f p, isometry f -> torsion_constant (moved f p) = torsion_constant p /\ torsion_modulus (moved f p) = torsion_modulus p.
Proof. exact torsion_moved. Qed.
Print Assumptions C223_torsion.
Theorem C223_backwards : forall p, wf p -> same_api p (backwards p).
Proof. exact back_lemma. Qed.
Print Assumptions C223_backwards.
Example C223_ex : (3/5) ^ 2 + (4/5) ^ 2 = 1 /\ wf hat /\ inertia_det hat (8000 / 3 * (14000 / 3)) /\ 1/100000000 < 8000 / 3 * (14000 / 3).
Proof. split; [field|]. split; [apply hat_wf|]. split; [exact hat_det|lra]. Qed.

(** C224 *)
Theorem C224_split : forall n s p q, wf p -> 0 <= s <= 1 -> split_segment n s p = Some q ->
  wf q /\ same_api p q.
Proof. exact split_lemma. Qed.
Print Assumptions C224_split.
Theorem C224_torsion_refuted : forall n s p q, wf p -> length (parr p) = length (pst p) -> (2 <= length (pst p))%nat -> split_segment n s p = Some q ->
  torsion_constant p <> None /\ torsion_constant q = None.
Proof. exact split_torsion_lemma. Qed.
Print Assumptions C224_torsion_refuted.
Example C224_ex : exists q, split_segment 1 (1/4) hat = Some q /\ length (pn q) = 5%nat /\ wf hat.
Proof. eexists. split; [reflexivity|]. split; reflexivity. Qed.

(** C225 *)
Theorem C225_pole : forall p d ys zs, wf p -> inertia_det p d -> 1/100000000 < d -> shear_center p = Some (ys, zs) ->
  exists Iw, warping_constant p = Some Iw /\ sectorial_constants (moved (shift (- ys) (- zs)) p) = Some (0, 0, Iw).
Proof. exact pole_lemma. Qed.
Print Assumptions C225_pole.
Theorem C225_unique : forall p d a b k, wf p -> inertia_det p d -> 1/100000000 < d -> sectorial_constants (moved (shift (- a) (- b)) p) = Some (0, 0, k) ->
  shear_center p = Some (a, b).
Proof. exact pole_unique_lemma. Qed.
Print Assumptions C225_unique.
Theorem C225_minimal : forall p d Iw a b, wf p -> Forall (fun t => 0 <= t) (pst p) -> inertia_det p d -> 1/100000000 < d -> warping_constant p = Some Iw ->
  exists u v k, sectorial_constants (moved (shift a b) p) = Some (u, v, k) /\ 0 <= Iw <= k.
Proof. exact warp_min_lemma. Qed.
Print Assumptions C225_minimal.
Example C225_ex : exists ys zs Iw, shear_center hat = Some (ys, zs) /\ warping_constant hat = Some Iw.
Proof.
  assert (A : area hat <> 0) by (rewrite hat_area; lra). assert (W : wf hat) by apply hat_wf.
  destruct (shear_center hat) as [[ys zs]|] eqn:E; [|rewrite shear_eq in E by auto; discriminate].
  exists ys, zs. eexists. split; [reflexivity|]. apply (warp_eq hat W A _ _ E).
Qed.

(** C226 *)
Theorem C226_shear_centre : forall p ys zs, wf p -> symmetric p -> shear_center p = Some (ys, zs) -> ys = 0.
Proof. exact symmetric_lemma. Qed.
Print Assumptions C226_shear_centre.
Theorem C226_centroid : forall p yc zc A Iyz, wf p -> symmetric p -> centroid p = Some (yc, zc, A) -> product_moment_gc p = Some Iyz -> yc = 0 /\ Iyz = 0.
Proof. exact symmetric_centroid_lemma. Qed.
Print Assumptions C226_centroid.
Theorem C226_mirrored : forall p ys zs, wf p -> shear_center p = Some (ys, zs) -> shear_center (moved flip p) = Some (- ys, zs) /\ warping_constant (moved flip p) = warping_constant p.
Proof. exact prof_flip_lemma. Qed.
Print Assumptions C226_mirrored.
Theorem C226_determinant : forall p Iy Iz Iyz, Forall (fun t => 0 <= t) (pst p) -> second_moments_gc p = Some (Iy, Iz) -> product_moment_gc p = Some Iyz ->
  0 <= Iy /\ 0 <= Iz /\ Iyz ^ 2 <= Iy * Iz.
Proof. exact det_nonneg_lemma. Qed.
Print Assumptions C226_determinant.
Example C226_ex : wf hat /\ symmetric hat /\ Forall (fun t => 0 <= t) (pst hat) /\ centroid hat <> None.
Proof.
  destruct hat_wf as (W & Y). split; [exact W|]. split; [exact Y|]. split; [cbn; repeat constructor; lra|]. rewrite centroid_eq by (rewrite hat_area; lra). discriminate.
Qed.

(** C227 *)
Theorem C227_scaled : forall k p yc zc A Iy Iz Iyz, 0 < k -> wf p -> centroid p = Some (yc, zc, A) -> second_moments_gc p = Some (Iy, Iz) -> product_moment_gc p = Some Iyz ->
  centroid (enlarged k p) = Some (k * yc, k * zc, k ^ 2 * A) /\ second_moments_gc (enlarged k p) = Some (k ^ 4 * Iy, k ^ 4 * Iz) /\
  product_moment_gc (enlarged k p) = Some (k ^ 4 * Iyz).
Proof. exact scaled_lemma. Qed.
Print Assumptions C227_scaled.
Theorem C227_shear_centre : forall k p d ys zs Iw, 0 < k -> wf p -> inertia_det p d -> 1/100000000 < d -> shear_center p = Some (ys, zs) -> warping_constant p = Some Iw ->
  (1/100000000 < k ^ 8 * d -> shear_center (enlarged k p) = Some (k * ys, k * zs) /\ warping_constant (enlarged k p) = Some (k ^ 6 * Iw)) /\
  (k ^ 8 * d <= 1/100000000 -> shear_center (enlarged k p) = Some (0, 0)).
Proof. exact scaled_shear_lemma. Qed.
Print Assumptions C227_shear_centre.
Theorem C227_units_refuted : forall p d ys zs, wf p -> inertia_det p d -> 1/100000000 < d -> shear_center p = Some (ys, zs) ->
  exists k, 0 < k /\ shear_center (enlarged k p) = Some (0, 0).
Proof. exact scaled_lost_lemma. Qed.
Print Assumptions C227_units_refuted.
Theorem C227_torsion : forall p, wf p -> parr p = pst p -> torsion_constant p = Some (Rsum (map (fun sg => seg_len sg * snd sg ^ 3 / 3) (segs p))).
Proof. exact torsion_lemma. Qed.
Print Assumptions C227_torsion.
Theorem C227_torsion_modulus : forall p It, wf p -> parr p = pst p -> Forall (fun t => 0 < t) (pst p) -> torsion_constant p = Some It -> pst p <> [] ->
  exists t, In t (pst p) /\ (forall u, In u (pst p) -> t <= u) /\ torsion_modulus p = Some (It / t).
Proof. exact torsion_modulus_lemma. Qed.
Print Assumptions C227_torsion_modulus.
Example C227_ex : torsion_constant hat = Some 20 /\ wf hat /\ inertia_det hat (8000 / 3 * (14000 / 3)).
Proof.
  split; [|split; [apply hat_wf | exact hat_det]]. unfold torsion_constant. rewrite hat_lens. cbn. f_equal. field.
Qed.
