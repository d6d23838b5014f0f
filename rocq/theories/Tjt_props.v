(** Properties C345-C350: joints of tubular trusses. *)
From Verif Require Import Base EC3_model Bool_tac EC3_proofs Plate_proofs Tjt_proofs Tjt2_proofs.
Require Import Reals List Bool Lra Lia Psatz PeanoNat.
Import ListNotations.
From Verif Require Import Base Rhs_model Tjt_model Tjt_spec.
Local Open Scope R_scope.

(** C345 *)
Theorem C345_acute : forall vc vb, unit_vec vc -> unit_vec vb ->
  let t := brace_angle vc vb in
  0 <= t <= 90 /\ cos (rad t) = Rabs (vdot vc vb) /\ sin (rad t) = Rabs (fst vc * snd vb - snd vc * fst vb).
Proof. exact brace_angle_lemma. Qed.
Print Assumptions C345_acute.
Theorem C345_reversed : forall vc vb, unit_vec vc -> unit_vec vb ->
  brace_angle vc (- fst vb, - snd vb) = brace_angle vc vb /\ brace_angle (- fst vc, - snd vc) vb = brace_angle vc vb /\ brace_angle vb vc = brace_angle vc vb.
Proof. exact angle_reversed_lemma. Qed.
Print Assumptions C345_reversed.
Theorem C345_value : forall v d, unit_vec v -> 0 <= d <= 180 -> brace_angle v (turned v (rad d)) = Rmin d (180 - d).
Proof. exact angle_turned_lemma. Qed.
Print Assumptions C345_value.
Theorem C345_direction : forall a b, (a = b -> dir_vector a b = None) /\
  (a <> b -> exists v, dir_vector a b = Some v /\ unit_vec v /\ b = (fst a + pdist a b * fst v, snd a + pdist a b * snd v)).
Proof. exact dir_vector_lemma. Qed.
Print Assumptions C345_direction.
Theorem C345_chord_angle : forall a b, 0 <= chord_angle a b < PI /\
  (Rabs (fst b - fst a) < 1/1000000 -> chord_angle a b = PI / 2) /\
  (1/1000000 <= Rabs (fst b - fst a) -> cos (chord_angle a b) * (snd b - snd a) = sin (chord_angle a b) * (fst b - fst a)).
Proof. exact chord_angle_lemma. Qed.
Print Assumptions C345_chord_angle.
Theorem C345_face_point : forall j h0 ang b, unit_vec (j_v j) -> j_ridge j = false -> j_xp j = local_point j (j_x j) (j_y j) ->
  vdot b (perp (j_top j) (j_v j)) <> 0 ->
  exists x c t, face_point j h0 ang b = Some (x, c) /\
    x = (fst (j_xp j) + t * fst b, snd (j_xp j) + t * snd b) /\
    along (j_node j) (perp (j_top j) (j_v j)) x = - (1/2 * h0) /\
    along (j_node j) (j_v j) x = j_x j - (j_y j + 1/2 * h0) * (vdot b (j_v j) / vdot b (perp (j_top j) (j_v j))) /\
    c = (fst (j_node j) + along (j_node j) (j_v j) x * fst (j_v j), snd (j_node j) + along (j_node j) (j_v j) x * snd (j_v j)).
Proof. exact face_point_lemma. Qed.
Print Assumptions C345_face_point.
Example C345_ex : unit_vec (3/5, 4/5) /\ 0 <= 135 <= 180 /\ brace_angle (3/5, 4/5) (turned (3/5, 4/5) (rad 135)) = 45.
Proof.
  assert (U : unit_vec (3/5, 4/5)) by (unfold unit_vec; cbn [fst snd]; lra). split; auto. split; [lra|].
  rewrite angle_turned_lemma by (auto; lra). rewrite Rmin_right; lra.
Qed.

(** C346 *)
Theorem C346_gap : forall j h0 h1 h2 ang b1 b2, unit_vec (j_v j) -> unit_vec b1 -> unit_vec b2 -> j_ridge j = false ->
  j_xp j = local_point j (j_x j) (j_y j) -> 0 <= j_y j + 1/2 * h0 ->
  let p := perp (j_top j) (j_v j) in let v := j_v j in
  vdot b1 p <> 0 -> vdot b2 p <> 0 ->
  exists x1 c1 x2 c2, face_point j h0 ang b1 = Some (x1, c1) /\ face_point j h0 ang b2 = Some (x2, c2) /\
  let t1 := brace_angle v b1 in let t2 := brace_angle v b2 in
  let real := pdist x1 x2 - 1/2 * (h1 / sin (rad t1) + h2 / sin (rad t2)) in
  ((vdot b1 v / vdot b1 p) * (vdot b2 v / vdot b2 p) <= 0 -> calc_gap (j_y j) h0 h1 h2 t1 t2 = real) /\
  ((vdot b1 v / vdot b1 p) * (vdot b2 v / vdot b2 p) > 0 -> 0 < j_y j + 1/2 * h0 -> real < calc_gap (j_y j) h0 h1 h2 t1 t2).
Proof. exact tube_gap_lemma. Qed.
Print Assumptions C346_gap.
Theorem C346_eccentricity : forall e h0 h1 h2 t1 t2, sin (rad t1) <> 0 -> sin (rad t2) <> 0 -> sin (rad t1 + rad t2) <> 0 ->
  eccentricity h0 h1 h2 t1 t2 (calc_gap e h0 h1 h2 t1 t2) = Some e.
Proof. exact gap_back_lemma. Qed.
Print Assumptions C346_eccentricity.
Theorem C346_grows : forall e e' h0 h1 h2 t1 t2, 0 < t1 -> 0 < t2 -> t1 + t2 < 180 -> e < e' ->
  calc_gap e h0 h1 h2 t1 t2 < calc_gap e' h0 h1 h2 t1 t2.
Proof. exact gap_grows_lemma. Qed.
Print Assumptions C346_grows.
Theorem C346_same_side_refuted : exists j h0 h1 h2 ang b1 b2 x1 c1 x2 c2, unit_vec (j_v j) /\ unit_vec b1 /\ unit_vec b2 /\ j_ridge j = false /\
  j_xp j = local_point j (j_x j) (j_y j) /\ 0 < j_y j + 1/2 * h0 /\
  face_point j h0 ang b1 = Some (x1, c1) /\ face_point j h0 ang b2 = Some (x2, c2) /\
  let t1 := brace_angle (j_v j) b1 in let t2 := brace_angle (j_v j) b2 in
  pdist x1 x2 - 1/2 * (h1 / sin (rad t1) + h2 / sin (rad t2)) < calc_gap (j_y j) h0 h1 h2 t1 t2.
Proof.
  set (j := mkKj (0, 0) (1, 0) true false 0 25 (0, 25)).
  assert (P : j_xp j = local_point j (j_x j) (j_y j)). { unfold local_point, vadd, vscale, perp; cbn. f_equal; ring. }
  assert (U : unit_vec (1, 0)) by (unfold unit_vec; cbn [fst snd]; lra). assert (V : unit_vec (3/5, 4/5)) by (unfold unit_vec; cbn [fst snd]; lra).
  assert (W : unit_vec (4/5, 3/5)) by (unfold unit_vec; cbn [fst snd]; lra).
  destruct (tube_gap_lemma j 100 50 50 0 (3/5, 4/5) (4/5, 3/5)) as (x1&c1&x2&c2&F1&F2&_&G); auto; try (unfold vdot, perp; unfold j; cbn [j_top j_v fst snd]; lra); try (unfold j; cbn [j_y]; lra).
  exists j, 100, 50, 50, 0, (3/5, 4/5), (4/5, 3/5), x1, c1, x2, c2. split; [auto|]. split; [auto|]. split; [auto|]. split; [auto|]. split; [auto|]. split; [unfold j; cbn [j_y]; lra|]. split; [auto|]. split; [auto|]. apply G.
  unfold vdot, perp, j; cbn [j_top j_v fst snd]. field_simplify. lra. unfold j; cbn [j_y]; lra.
Qed.
Print Assumptions C346_same_side_refuted.
Example C346_ex : let b1 := (3/5, 4/5) in let b2 := (-4/5, 3/5) in let p := perp true (1, 0) in
  unit_vec b1 /\ unit_vec b2 /\ (vdot b1 (1, 0) / vdot b1 p) * (vdot b2 (1, 0) / vdot b2 p) <= 0 /\ vdot b1 p <> 0 /\ vdot b2 p <> 0.
Proof. 
  cbv zeta. unfold unit_vec, vdot, perp; cbn [fst snd]. split; [lra|]. split; [lra|]. split; [|split; intro; lra].
  field_simplify; lra.
Qed.

(** C347 *)
Theorem C347_ridge : forall v, unit_vec v -> is_ridge v None = false /\
  forall a, is_ridge v (Some (turned v a)) = true <-> Rabs (cos a) < 1 - 1/100000000.
Proof. exact is_ridge_lemma. Qed.
Print Assumptions C347_ridge.
Theorem C347_frame : forall l sym js k, j_node (assigns sym js l k) = j_node (js k) /\ j_v (assigns sym js l k) = j_v (js k) /\ j_top (assigns sym js l k) = j_top (js k) /\ j_ridge (assigns sym js l k) = j_ridge (js k).
Proof. exact assigns_frame_lemma. Qed.
Print Assumptions C347_frame.
Theorem C347_point : forall l sym js, (forall k, j_ridge (js k) = false -> j_xp (js k) = local_point (js k) (j_x (js k)) (j_y (js k))) ->
  forall k, j_ridge (js k) = false -> let j := assigns sym js l k in j_xp j = local_point j (j_x j) (j_y j).
Proof. exact assigns_placed_lemma. Qed.
Print Assumptions C347_point.
Theorem C347_created : forall node v top w h0, let j := new_kj node v top w h0 in
  j_x j = 0 /\ j_y j = 1/4 * h0 /\ j_xp j = (if is_ridge v w then (fst node, snd node + 1/4 * h0) else (fst node + 1/4 * h0 * fst (perp top v), snd node + 1/4 * h0 * snd (perp top v))).
Proof. exact new_placed_lemma. Qed.
Print Assumptions C347_created.
Theorem C347_mirrored : forall l sym s js, (forall i k, sym i = Some k -> sym k = Some i /\ i <> k /\ j_ridge (js i) = false /\ mirrored_joints s (js i) (js k)) ->
  (forall k, j_ridge (js k) = false -> j_xp (js k) = local_point (js k) (j_x (js k)) (j_y (js k))) ->
  (forall i k, sym i = Some k -> j_x (js k) = - j_x (js i) /\ j_y (js k) = j_y (js i)) ->
  forall i k, sym i = Some k -> let r := assigns sym js l in
  j_x (r k) = - j_x (r i) /\ j_y (r k) = j_y (r i) /\ j_xp (r k) = mirror_pt s (j_xp (r i)).
Proof. exact mirrored_lemma. Qed.
Print Assumptions C347_mirrored.
Theorem C347_ridge_refuted : forall sym js i a b, j_ridge (js i) = true ->
  j_xp (assigns sym js [SetX i a; SetY i b] i) = (fst (j_node (js i)), snd (j_node (js i)) + b) /\
  j_x (assigns sym js [SetX i a; SetY i b] i) = a /\
  j_xp (assigns sym js [SetY i b; SetX i a] i) = local_point (js i) a b.
Proof. exact tube_ridge_lemma. Qed.
Print Assumptions C347_ridge_refuted.
Theorem C347_ridge_face : forall j h0 a b, j_ridge j = true -> 0 < h0 -> fst b - fst a >= 1/1000000 -> snd a <> snd b ->
  (snd a < snd b -> snd (xc_face j h0 (chord_angle a b)) < snd (j_node j)) /\
  (snd b < snd a -> snd (j_node j) < snd (xc_face j h0 (chord_angle a b))).
Proof. exact ridge_face_lemma. Qed.
Print Assumptions C347_ridge_face.
Theorem C347_ridge_face_refuted : exists j h0 a b, j_ridge j = true /\ 0 < h0 /\ j_top j = true /\ fst a < fst b /\ snd (j_node j) < snd (xc_face j h0 (chord_angle a b)).
Proof.
  exists (mkKj (0, 1) (1, 0) true true 0 0 (0, 1)), 1, (0, 1), (1, 0). split; [auto|]. split; [lra|]. split; [auto|]. split; [cbn; lra|].
  apply ridge_face_lemma; cbn [fst snd]; auto; lra.
Qed.
Print Assumptions C347_ridge_face_refuted.
Example C347_ex : let j := new_kj (0, 0) (1, 0) true (Some (1, 0)) 100 in let k := new_kj (10, 0) (1, 0) true (Some (1, 0)) 100 in
  mirrored_joints 5 j k /\ j_ridge j = false /\ j_ridge k = false /\ j_x k = - j_x j /\ j_y k = j_y j.
Proof.
  assert (E : is_ridge (1, 0) (Some (1, 0)) = false). { unfold is_ridge, vdot; cbn [fst snd]. apply Rltb_false. replace (1 * 1 + 0 * 0) with 1 by ring. rewrite (Rabs_pos_eq 1) by lra. replace (1 - 1) with 0 by ring. rewrite Rabs_R0. lra. }
  cbv zeta. unfold mirrored_joints, new_kj, own_y. rewrite E. cbn [j_ridge put_point j_node j_v j_top j_x j_y]. unfold mirror_pt, mirror_vec; cbn [fst snd]. repeat split; try (f_equal; lra); lra.
Qed.

(** C348 *)
Theorem C348_exact : forall sy jn, (forall a b, sy a = Some b -> a <> b) -> (forall p q n, nth_error jn p = Some n -> nth_error jn q = Some n -> p = q) ->
  forall p q, symmetry_joint sy jn p = Some q <-> exists a b, nth_error jn p = Some a /\ nth_error jn q = Some b /\ sy a = Some b.
Proof. exact symmetry_joint_lemma. Qed.
Print Assumptions C348_exact.
Theorem C348_mutual : forall sy jn, (forall a b, sy a = Some b -> sy b = Some a /\ a <> b) -> (forall p q n, nth_error jn p = Some n -> nth_error jn q = Some n -> p = q) ->
  forall p q, symmetry_joint sy jn p = Some q -> symmetry_joint sy jn q = Some p.
Proof. exact symmetry_joint_mutual_lemma. Qed.
Print Assumptions C348_mutual.
Theorem C348_two_joints_refuted : exists sy jn p q, (forall a b, sy a = Some b -> sy b = Some a /\ a <> b) /\ symmetry_joint sy jn p = Some q /\ symmetry_joint sy jn q <> Some p.
Proof.
  exists (fun n => match n with 0%nat => Some 1%nat | 1%nat => Some 0%nat | _ => None end), [0; 0; 1]%nat, 1%nat, 2%nat. split.
  - intros [|[|a]] b H; try discriminate; injection H as <-; auto.
  - split; [reflexivity|cbn; congruence].
Qed.
Print Assumptions C348_two_joints_refuted.
Example C348_ex : let sy := fun n => match n with 3%nat => Some 5%nat | 5%nat => Some 3%nat | _ => None end in symmetry_joint sy [3; 4; 5]%nat 0 = Some 2%nat.
Proof. reflexivity. Qed.

(** C349 *)
Theorem C349_chord_force : forall n0 n1, (k_chord_force n0 n1 = n0 \/ k_chord_force n0 n1 = n1) /\ Rabs (k_chord_force n0 n1) = Rmin (Rabs n0) (Rabs n1).
Proof. exact chord_force_lemma. Qed.
Print Assumptions C349_chord_force.
Theorem C349_stress_underestimated : forall c b n0 n1, 0 < c_A c -> 0 < c_fy c -> 0 < b -> n0 <= 0 -> n1 <= 0 ->
  eval_KN (eval_N c n0 0) b <= eval_KN (eval_N c (k_chord_force n0 n1) 0) b /\ eval_KN (eval_N c n1 0) b <= eval_KN (eval_N c (k_chord_force n0 n1) 0) b.
Proof. exact chord_stress_used_lemma. Qed.
Print Assumptions C349_stress_underestimated.
Theorem C349_moment_left_out : forall c b b1 b2 a t1 t2 e n0 n1 r tp imp, 0 < c_A c -> 0 < c_fy c ->
  let nk := - k_chord_force n0 n1 / (c_A c * c_fy c) in let ny := - n0 / (c_A c * c_fy c) in
  let jk := truss_k c b1 b2 t1 t2 e n0 n1 r tp in let jy := truss_y c b a n0 n1 r imp in
  k_kn jk = (if Rlt_dec 0 nk then Rmin (13/10 - 4/10 * nk / k_beta jk) 1 else 1) /\
  y_kn jy = (if Rlt_dec 0 ny then Rmin (13/10 - 4/10 * ny / y_beta jy) 1 else 1).
Proof. exact moment_free_lemma. Qed.
Print Assumptions C349_moment_left_out.
Theorem C349_gap_shear : forall j v, 0 < c_V (k_c j) ->
  (v < - c_V (k_c j) -> gap_N0Rd j v = None) /\
  (c_V (k_c j) < v -> gap_N0Rd j v = Some 0) /\
  (- c_V (k_c j) <= v <= c_V (k_c j) -> gap_N0Rd j v = Some (k_N0Rd j (Rabs v))).
Proof. exact gap_shear_lemma. Qed.
Print Assumptions C349_gap_shear.
Theorem C349_shear : forall l m, V0gap l = Some m <-> In m l /\ forall x, In x l -> x <= m.
Proof. exact V0gap_lemma. Qed.
Print Assumptions C349_shear.
Theorem C349_y_design : forall j, 0 < c_fy (y_c j) -> 0 < c_t (y_c j) -> 0 < c_b (y_c j) -> 0 < br_b (y_b j) -> 0 < br_h (y_b j) -> 0 < y_a j < 180 -> 
  (85/100 <= br_b (y_b j) / c_b (y_c j) -> y_design j = None) /\
  (br_b (y_b j) / c_b (y_c j) < 85/100 -> exists u, y_design j = Some u /\ 0 <= u /\
     let be := br_b (y_b j) / c_b (y_c j) in let s := sin (rad (y_a j)) in
     Rabs (y_N1 j) = u * (Rpower (y_red j) (y_kn j) * (c_fy (y_c j) * c_t (y_c j) ^ 2 / ((1 - be) * s) * (2 * (br_h (y_b j) / c_b (y_c j)) / s + 4 * sqrt (1 - be))))).
Proof. exact y_design_lemma. Qed.
Print Assumptions C349_y_design.
Theorem C349_y_ignores_chord : forall c b a n0 n0' n1 imp, c_fy c <= 355 -> y_design (truss_y c b a n0 n1 0 imp) = y_design (truss_y c b a n0' n1 0 imp).
Proof. exact y_ignores_lemma. Qed.
Print Assumptions C349_y_ignores_chord.
Theorem C349_y_high_grade : forall c b a n0 n0' n1 r imp u u', 0 < c_A c -> 0 < c_fy c -> 0 < c_t c -> 0 < c_b c -> 0 < br_b b -> 0 < br_h b -> 0 < a < 180 ->
  0 < strength_reduction r (c_fy c) < 1 -> n0' <= n0 ->
  y_design (truss_y c b a n0 n1 r imp) = Some u -> y_design (truss_y c b a n0' n1 r imp) = Some u' -> u' <= u.
Proof. exact y_inverse_lemma. Qed.
Print Assumptions C349_y_high_grade.
Theorem C349_shear_refuted : exists j l v, 0 < c_V (k_c j) /\ V0gap l = Some v /\ gap_N0Rd j v = Some (k_N0Rd j 0) /\ exists x, In x l /\ gap_N0Rd j (Rabs x) = Some 0.
Proof.
  set (c := mkChord 100 100 5 355 1900 60000 200). set (b := mkBrace 50 50 3 355 []). exists (mkK c b b 45 45 20 0 0 0 0), [-300; 0], 0. split; [cbn; lra|].
  split. apply V0gap_lemma. split; [simpl; auto|]. intros x [<-|[<-|[]]]; lra.
  split. destruct (gap_shear_lemma (mkK c b b 45 45 20 0 0 0 0) 0) as (_&_&G). cbn; lra. rewrite G by (cbn; lra). rewrite Rabs_R0. reflexivity.
  exists (-300). split; [simpl; auto|]. rewrite (Rabs_left (-300)) by lra. destruct (gap_shear_lemma (mkK c b b 45 45 20 0 0 0 0) (- -300)) as (_&G&_). cbn; lra. apply G. cbn; lra.
Qed.
Print Assumptions C349_shear_refuted.
Example C349_ex : let c := mkChord 100 100 5 460 1900 60000 200 in 0 < strength_reduction 0 (c_fy c) < 1 /\ k_chord_force (-5) (-700) = -5.
Proof.
  cbv zeta. unfold strength_reduction; cbn [c_fy]. rewrite (proj2 (Reqb_true 0 0) eq_refl), (proj2 (Rleb_false 460 355)), (proj2 (Rleb_true 460 460)) by lra. split; [lra|].
  unfold k_chord_force. rewrite (Rabs_left (-5)), (Rabs_left (-700)) by lra. rewrite (proj2 (Rltb_true _ _)) by lra. reflexivity.
Qed.

(** C350 *)
Theorem C350_weld_length : forall H B r t, 0 < H -> 0 < t <= 90 ->
  weld_length H B r 90 <= weld_length H B r t /\ weld_length H B r 90 = 2 * (H - 2 * r) + 2 * (B - 2 * r) + 2 * PI * r /\
  (forall u, t < u <= 90 -> weld_length H B r u < weld_length H B r t).
Proof. exact tube_weld_lemma. Qed.
Print Assumptions C350_weld_length.
Example C350_ex : weld_length 50 40 5 90 = 2 * 40 + 2 * 30 + 2 * PI * 5.
Proof. destruct (tube_weld_lemma 50 40 5 90 ltac:(lra) ltac:(lra)) as (_&E&_). rewrite E. lra. Qed.
