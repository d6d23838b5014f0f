(** Proofs: gap, intersection points, symmetry of joints, forces, welds. *)
Require Import Reals List Bool Lra Lia Psatz PeanoNat.
Import ListNotations.
From Verif Require Import Base EC3_model Bool_tac EC3_proofs Plate_proofs Tjt_proofs.
From Verif Require Import Rhs_model Tjt_model Tjt_spec.
Local Open Scope R_scope.

Lemma dist_along : forall o top v p q, unit_vec v -> along o (perp top v) p = along o (perp top v) q ->
  pdist p q = Rabs (along o v q - along o v p).
Proof.
  intros [ox oy] top [vx vy] [px py] [qx qy] U H. unfold pdist, along, unit_vec in *. rewrite <- sqrt_Rsqr_abs. f_equal.
  assert (E : (qx - px) * - vy + (qy - py) * vx = 0) by (destruct top; unfold perp in H; cbn [fst snd] in *; lra).
  cbn [fst snd] in *. unfold Rsqr.
  replace ((qx - px) ^ 2 + (qy - py) ^ 2) with (((qx - px) ^ 2 + (qy - py) ^ 2) * (vx * vx + vy * vy)) by (rewrite U; ring).
  replace (((qx - px) ^ 2 + (qy - py) ^ 2) * (vx * vx + vy * vy)) with ((((qx - px) * - vy + (qy - py) * vx) * ((qx - px) * - vy + (qy - py) * vx)) + ((qx - px) * vx + (qy - py) * vy) * ((qx - px) * vx + (qy - py) * vy)) by ring.
  rewrite E. ring.
Qed.
Lemma cot_sum : forall t1 t2, sin (rad t1) <> 0 -> sin (rad t2) <> 0 ->
  sin (rad (t1 + t2)) / (sin (rad t1) * sin (rad t2)) = cos (rad t1) / sin (rad t1) + cos (rad t2) / sin (rad t2).
Proof.
  intros. replace (rad (t1 + t2)) with (rad t1 + rad t2) by (unfold rad; field). rewrite sin_plus. field. auto.
Qed.
Lemma angle_parts : forall top v b, unit_vec v -> unit_vec b -> let t := brace_angle v b in
  cos (rad t) = Rabs (vdot b v) /\ sin (rad t) = Rabs (vdot b (perp top v)).
Proof.
  intros top v b U V t. destruct (brace_angle_lemma v b U V) as (_&C&S). fold t in C, S. rewrite C, S. split. f_equal; unfold vdot; ring.
  rewrite perp_dot, Rabs_mult. destruct top; [rewrite (Rabs_pos_eq 1) by lra|rewrite (Rabs_left (-1)) by lra]; ring.
Qed.
Lemma tube_gap_lemma : forall j h0 h1 h2 ang b1 b2, unit_vec (j_v j) -> unit_vec b1 -> unit_vec b2 -> j_ridge j = false ->
  j_xp j = local_point j (j_x j) (j_y j) -> 0 <= j_y j + 1/2 * h0 ->
  let p := perp (j_top j) (j_v j) in let v := j_v j in
  vdot b1 p <> 0 -> vdot b2 p <> 0 ->
  exists x1 c1 x2 c2, face_point j h0 ang b1 = Some (x1, c1) /\ face_point j h0 ang b2 = Some (x2, c2) /\
  let t1 := brace_angle v b1 in let t2 := brace_angle v b2 in
  let real := pdist x1 x2 - 1/2 * (h1 / sin (rad t1) + h2 / sin (rad t2)) in
  ((vdot b1 v / vdot b1 p) * (vdot b2 v / vdot b2 p) <= 0 -> calc_gap (j_y j) h0 h1 h2 t1 t2 = real) /\
  ((vdot b1 v / vdot b1 p) * (vdot b2 v / vdot b2 p) > 0 -> 0 < j_y j + 1/2 * h0 -> real < calc_gap (j_y j) h0 h1 h2 t1 t2).
Proof.
  intros j h0 h1 h2 ang b1 b2 U U1 U2 Hr Hx Hy p v N1 N2.
  destruct (face_point_lemma j h0 ang b1 U Hr Hx N1) as (x1&c1&s1&F1&_&P1&A1&_).
  destruct (face_point_lemma j h0 ang b2 U Hr Hx N2) as (x2&c2&s2&F2&_&P2&A2&_).
  exists x1, c1, x2, c2. split; auto. split; auto. cbv zeta.
  rewrite (dist_along (j_node j) (j_top j) (j_v j) x1 x2) by (auto; lra). rewrite A1, A2. fold p v.
  destruct (angle_parts (j_top j) v b1 U U1) as (C1&S1). destruct (angle_parts (j_top j) v b2 U U2) as (C2&S2). fold p in S1, S2.
  set (t1 := brace_angle v b1) in *. set (t2 := brace_angle v b2) in *.
  assert (Z1 : sin (rad t1) <> 0) by (rewrite S1; apply Rabs_no_R0; auto). assert (Z2 : sin (rad t2) <> 0) by (rewrite S2; apply Rabs_no_R0; auto).
  unfold calc_gap. cbv zeta. replace ((j_y j + 1/2 * h0) * sin (rad (t1 + t2)) / (sin (rad t1) * sin (rad t2))) with ((j_y j + 1/2 * h0) * (sin (rad (t1 + t2)) / (sin (rad t1) * sin (rad t2)))) by (field; auto).
  rewrite cot_sum by auto.
  assert (D : forall x y, y <> 0 -> Rabs x / Rabs y = Rabs (x / y)) by (intros x y Hn; unfold Rdiv; rewrite Rabs_mult, Rabs_inv; reflexivity).
  replace (cos (rad t1) / sin (rad t1)) with (Rabs (vdot b1 v / vdot b1 p)) by (rewrite C1, S1; symmetry; apply D; auto).
  replace (cos (rad t2) / sin (rad t2)) with (Rabs (vdot b2 v / vdot b2 p)) by (rewrite C2, S2; symmetry; apply D; auto).
  set (q1 := vdot b1 v / vdot b1 p). set (q2 := vdot b2 v / vdot b2 p). set (e := j_y j + 1/2 * h0) in *.
  replace (j_x j - e * q2 - (j_x j - e * q1)) with (e * (q1 - q2)) by ring. rewrite (Rabs_mult e), (Rabs_pos_eq e) by auto.
  split; intro Q.
  - assert (Rabs (q1 - q2) = Rabs q1 + Rabs q2) by (unfold Rabs; repeat destruct Rcase_abs; nra). rewrite H. reflexivity.
  - intro Pe. assert (Rabs (q1 - q2) < Rabs q1 + Rabs q2) by (unfold Rabs; repeat destruct Rcase_abs; nra). nra.
Qed.
Lemma gap_back_lemma : forall e h0 h1 h2 t1 t2, sin (rad t1) <> 0 -> sin (rad t2) <> 0 -> sin (rad t1 + rad t2) <> 0 ->
  eccentricity h0 h1 h2 t1 t2 (calc_gap e h0 h1 h2 t1 t2) = Some e.
Proof.
  intros e h0 h1 h2 t1 t2 A B C. unfold eccentricity. cbv zeta. unfold pdiv. rewrite !(proj2 (Reqb_false _ _)) by auto. cbn [bind]. f_equal.
  unfold calc_gap. cbv zeta. replace (rad (t1 + t2)) with (rad t1 + rad t2) by (unfold rad; field). set (s := sin (rad t1 + rad t2)) in *. field. auto.
Qed.
Lemma gap_grows_lemma : forall e e' h0 h1 h2 t1 t2, 0 < t1 -> 0 < t2 -> t1 + t2 < 180 -> e < e' ->
  calc_gap e h0 h1 h2 t1 t2 < calc_gap e' h0 h1 h2 t1 t2.
Proof.
  intros e e' h0 h1 h2 t1 t2 A B C H.
  assert (P : forall t, 0 < t < 180 -> 0 < sin (rad t)). { intros t (T1&T2). apply sin_gt_0. rewrite <- rad_0. apply (proj1 (rad_lt _ _)); auto. replace PI with (rad 180) by (unfold rad; field). apply (proj1 (rad_lt _ _)); auto. }
  pose proof (P t1 ltac:(lra)). pose proof (P t2 ltac:(lra)). pose proof (P (t1 + t2) ltac:(lra)). unfold calc_gap. cbv zeta.
  apply Rplus_lt_compat_r. unfold Rdiv. apply Rmult_lt_compat_r. apply Rinv_0_lt_compat. apply Rmult_lt_0_compat; auto. apply Rmult_lt_compat_r; auto. lra.
Qed.

(** Intersection points. *)
Definition frame_of (j : kj) := (j_node j, j_v j, j_top j, j_ridge j).
Lemma put_frame : forall j x y, frame_of (put_point j x y) = frame_of j.
Proof. reflexivity. Qed.
Lemma own_frame : forall j v, frame_of (own_y j v) = frame_of j.
Proof. intros. unfold own_y, frame_of. destruct (j_ridge j) eqn:E; cbn; auto. rewrite E; auto. Qed.
Lemma assign_frame : forall sym js a k, frame_of (assign sym js a k) = frame_of (js k).
Proof.
  intros sym js [i v|i v] k; cbn [assign].
  - destruct (Nat.eqb_spec k i). subst; reflexivity. destruct (match sym i with Some q => Nat.eqb k q | None => false end); auto.
  - destruct (Nat.eqb_spec k i). subst; apply own_frame. destruct (_ && _); auto.
Qed.
Lemma assigns_frame_lemma : forall l sym js k, j_node (assigns sym js l k) = j_node (js k) /\ j_v (assigns sym js l k) = j_v (js k) /\ j_top (assigns sym js l k) = j_top (js k) /\ j_ridge (assigns sym js l k) = j_ridge (js k).
Proof.
  assert (G : forall l sym js k, frame_of (assigns sym js l k) = frame_of (js k)).
  { induction l; intros; auto. unfold assigns in *. cbn [fold_left]. rewrite IHl. apply assign_frame. }
  intros l sym js k. specialize (G l sym js k). unfold frame_of in G. injection G as -> -> -> ->. auto.
Qed.
Definition placed (j : kj) : Prop := j_ridge j = false -> j_xp j = local_point j (j_x j) (j_y j).
Lemma put_placed : forall j x y, placed (put_point j x y).
Proof. intros j x y _. reflexivity. Qed.
Lemma own_placed : forall j v, placed (own_y j v).
Proof. intros j v H. unfold own_y in *. destruct (j_ridge j) eqn:E; cbn in *; [discriminate|]. reflexivity. Qed.
Lemma assign_placed : forall sym js a, (forall k, placed (js k)) -> forall k, placed (assign sym js a k).
Proof.
  intros sym js [i v|i v] H k; cbn [assign].
  - destruct (Nat.eqb k i). apply put_placed. destruct (match sym i with Some q => Nat.eqb k q | None => false end); auto. apply put_placed.
  - destruct (Nat.eqb k i). apply own_placed. destruct (_ && _); auto. apply put_placed.
Qed.
Lemma assigns_placed_lemma : forall l sym js, (forall k, j_ridge (js k) = false -> j_xp (js k) = local_point (js k) (j_x (js k)) (j_y (js k))) ->
  forall k, j_ridge (js k) = false -> let j := assigns sym js l k in j_xp j = local_point j (j_x j) (j_y j).
Proof.
  assert (G : forall l sym js, (forall k, placed (js k)) -> forall k, placed (assigns sym js l k)).
  { induction l; intros; auto. unfold assigns in *. cbn [fold_left]. apply IHl. apply assign_placed; auto. }
  intros l sym js H k Hr j. apply (G l sym js H k). destruct (assigns_frame_lemma l sym js k) as (_&_&_&->). auto.
Qed.
Lemma new_placed_lemma : forall node v top w h0, let j := new_kj node v top w h0 in
  j_x j = 0 /\ j_y j = 1/4 * h0 /\ j_xp j = (if is_ridge v w then (fst node, snd node + 1/4 * h0) else (fst node + 1/4 * h0 * fst (perp top v), snd node + 1/4 * h0 * snd (perp top v))).
Proof.
  intros. unfold j, new_kj, own_y. cbn [j_ridge]. destruct (is_ridge v w); cbn [put_point j_x j_y j_xp j_node]; split; auto; split; auto.
  - unfold vadd; cbn [fst snd]. f_equal; ring.
  - unfold local_point, vadd, vscale; cbn [j_node j_v j_top fst snd]. f_equal; ring.
Qed.
Lemma mirror_point : forall s j k x y, mirrored_joints s j k -> local_point k (- x) y = mirror_pt s (local_point j x y).
Proof.
  intros s j k x y (A&B&C). unfold local_point. rewrite A, B, C. unfold mirror_pt, mirror_vec, vadd, vscale, perp. cbn [fst snd]. destruct (j_top j); cbn [fst snd]; f_equal; ring.
Qed.
Lemma mirrored_lemma : forall l sym s js, (forall i k, sym i = Some k -> sym k = Some i /\ i <> k /\ j_ridge (js i) = false /\ mirrored_joints s (js i) (js k)) ->
  (forall k, j_ridge (js k) = false -> j_xp (js k) = local_point (js k) (j_x (js k)) (j_y (js k))) ->
  (forall i k, sym i = Some k -> j_x (js k) = - j_x (js i) /\ j_y (js k) = j_y (js i)) ->
  forall i k, sym i = Some k -> let r := assigns sym js l in
  j_x (r k) = - j_x (r i) /\ j_y (r k) = j_y (r i) /\ j_xp (r k) = mirror_pt s (j_xp (r i)).
Proof.
  intros l sym s js M P E i k S r.
  assert (G : forall l js, (forall i k, sym i = Some k -> sym k = Some i /\ i <> k /\ j_ridge (js i) = false) ->
    (forall i k, sym i = Some k -> j_x (js k) = - j_x (js i) /\ j_y (js k) = j_y (js i)) ->
    forall i k, sym i = Some k -> j_x (assigns sym js l k) = - j_x (assigns sym js l i) /\ j_y (assigns sym js l k) = j_y (assigns sym js l i)).
  { clear. induction l as [|a l]; intros js M E i k S. apply E; auto.
    unfold assigns in *. cbn [fold_left]. apply IHl; auto.
    - intros i0 k0 S0. destruct (M i0 k0 S0) as (A&B&C). split; auto. split; auto.
      pose proof (assign_frame sym js a i0) as F. unfold frame_of in F. injection F as _ _ _ ->. auto.
    - clear i k S. intros i k S. destruct (M i k S) as (S'&N&R). destruct (M k i S') as (_&_&R').
      destruct (E i k S) as (E1&E2). destruct a as [m v|m v]; cbn [assign].
      + destruct (Nat.eqb_spec k m).
        * subst m. destruct (Nat.eqb_spec i k); [congruence|]. rewrite S', Nat.eqb_refl. cbn [put_point j_x j_y]. split; [ring|auto].
        * destruct (Nat.eqb_spec i m).
          -- subst m. rewrite S, Nat.eqb_refl. cbn [put_point j_x j_y]. auto.
          -- destruct (sym m) as [q|] eqn:Sm; auto. destruct (M m q Sm) as (Sq&_).
             destruct (Nat.eqb_spec k q). subst; congruence. destruct (Nat.eqb_spec i q). subst; congruence. auto.
      + destruct (Nat.eqb_spec k m).
        * subst m. destruct (Nat.eqb_spec i k); [congruence|]. rewrite S', Nat.eqb_refl. unfold own_y. rewrite R'. cbn [negb andb put_point j_x j_y]. auto.
        * destruct (Nat.eqb_spec i m).
          -- subst m. rewrite S, Nat.eqb_refl, R. unfold own_y. rewrite R. cbn [negb andb put_point j_x j_y]. auto.
          -- destruct (sym m) as [q|] eqn:Sm. 2: rewrite !andb_false_r; auto. destruct (M m q Sm) as (Sq&_).
             destruct (Nat.eqb_spec k q). subst; congruence. destruct (Nat.eqb_spec i q). subst; congruence. rewrite !andb_false_r; auto. }
  assert (M' : forall i k, sym i = Some k -> sym k = Some i /\ i <> k /\ j_ridge (js i) = false) by (intros a b Q; destruct (M a b Q) as (?&?&?&?); auto).
  destruct (G l js M' E i k S) as (X&Y). fold r in X, Y. split; auto. split; auto.
  destruct (M i k S) as (S'&N&R&Mi). destruct (M k i S') as (_&_&R'&_).
  unfold r. rewrite (assigns_placed_lemma l sym js P k R'), (assigns_placed_lemma l sym js P i R). fold r. rewrite X, Y.
  apply mirror_point. unfold mirrored_joints in *. destruct (assigns_frame_lemma l sym js i) as (F1&F2&F3&_). destruct (assigns_frame_lemma l sym js k) as (K1&K2&K3&_).
  unfold r. rewrite F1, F2, F3, K1, K2, K3. auto.
Qed.
Lemma tube_ridge_lemma : forall sym js i a b, j_ridge (js i) = true ->
  j_xp (assigns sym js [SetX i a; SetY i b] i) = (fst (j_node (js i)), snd (j_node (js i)) + b) /\
  j_x (assigns sym js [SetX i a; SetY i b] i) = a /\
  j_xp (assigns sym js [SetY i b; SetX i a] i) = local_point (js i) a b.
Proof.
  intros sym js i a b H. unfold assigns. cbn [fold_left assign]. rewrite !Nat.eqb_refl. unfold own_y. cbn [put_point j_ridge]. rewrite H. cbn [j_xp j_x j_node put_point j_y].
  split. unfold vadd; cbn [fst snd]; f_equal; ring. split; auto.
Qed.

(** Chord face at the ridge. *)
Lemma cos_atan_pos : forall x, 0 < cos (atan x).
Proof. intros. pose proof (atan_bound x). apply cos_gt_0; lra. Qed.
Lemma chord_cos : forall a b, fst b - fst a >= 1/1000000 -> snd a <> snd b ->
  (snd a < snd b -> 0 < cos (chord_angle a b)) /\ (snd b < snd a -> cos (chord_angle a b) < 0).
Proof.
  intros a b H N. unfold chord_angle. rewrite (proj2 (Rltb_false _ _)) by (rewrite Rabs_pos_eq; lra). cbv zeta.
  set (m := (snd b - snd a) / (fst b - fst a)). assert (P : forall x, (x < 0 -> atan x < 0) /\ (0 <= x -> 0 <= atan x)).
  { intro x. pose proof atan_0 as Z. split; intro K. pose proof (atan_increasing _ _ K). lra. destruct K as [K|K]. pose proof (atan_increasing _ _ K). lra. subst x; lra. }
  split; intro L.
  - assert (0 <= m) by (apply Rmult_le_pos; [lra|left; apply Rinv_0_lt_compat; lra]). rewrite (proj2 (Rltb_false _ _)) by (apply P; auto). apply cos_atan_pos.
  - assert (m < 0). { unfold m. assert (0 < / (fst b - fst a)) by (apply Rinv_0_lt_compat; lra). unfold Rdiv. nra. }
    rewrite (proj2 (Rltb_true _ _)) by (apply P; auto). rewrite cos_plus, cos_PI, sin_PI. pose proof (cos_atan_pos m). lra.
Qed.
Lemma ridge_face_lemma : forall j h0 a b, j_ridge j = true -> 0 < h0 -> fst b - fst a >= 1/1000000 -> snd a <> snd b ->
  (snd a < snd b -> snd (xc_face j h0 (chord_angle a b)) < snd (j_node j)) /\
  (snd b < snd a -> snd (j_node j) < snd (xc_face j h0 (chord_angle a b))).
Proof.
  intros j h0 a b R H L N. unfold xc_face. rewrite R. unfold vminus; cbn [fst snd]. destruct (chord_cos a b L N) as (P&Q). split; intro K.
  - specialize (P K). assert (0 < 1/2 * h0 / cos (chord_angle a b)) by (apply Rdiv_lt_0_compat; lra). lra.
  - specialize (Q K). assert (1/2 * h0 / cos (chord_angle a b) < 0). { unfold Rdiv. assert (/ cos (chord_angle a b) < 0) by (apply Rinv_lt_0_compat; auto). nra. } lra.
Qed.

(** Symmetry of joints. *)
Lemma joint_at_spec : forall k n jn i, match joint_at k n i jn with
  | Some q => (i <= q)%nat /\ nth_error jn (q - i) = Some n /\ q <> k
  | None => forall q, nth_error jn q = Some n -> (i + q)%nat = k end.
Proof.
  induction jn as [|m jn]; intros i; cbn [joint_at]. intros [|q]; discriminate.
  destruct (Nat.eqb_spec i k); cbn [negb andb].
  - specialize (IHjn (S i)). destruct (joint_at k n (S i) jn) as [q|].
    + destruct IHjn as (A&B&C). split; [lia|]. split; auto. replace (q - i)%nat with (S (q - S i)) by lia. auto.
    + intros [|q] H. lia. specialize (IHjn q H). lia.
  - destruct (Nat.eqb_spec m n).
    + subst. split; [lia|]. rewrite Nat.sub_diag. auto.
    + specialize (IHjn (S i)). destruct (joint_at k n (S i) jn) as [q|].
      * destruct IHjn as (A&B&C). split; [lia|]. split; auto. replace (q - i)%nat with (S (q - S i)) by lia. auto.
      * intros [|q] H. cbn in H. congruence. specialize (IHjn q H). lia.
Qed.
Lemma symmetry_joint_lemma : forall sy jn, (forall a b, sy a = Some b -> a <> b) -> (forall p q n, nth_error jn p = Some n -> nth_error jn q = Some n -> p = q) ->
  forall p q, symmetry_joint sy jn p = Some q <-> exists a b, nth_error jn p = Some a /\ nth_error jn q = Some b /\ sy a = Some b.
Proof.
  intros sy jn Ir U p q. unfold symmetry_joint. split.
  - destruct (nth_error jn p) as [a|] eqn:Ea; [|discriminate]. destruct (sy a) as [b|] eqn:Es; [|discriminate]. intro H.
    pose proof (joint_at_spec p b jn 0) as J. rewrite H in J. destruct J as (_&J&_). rewrite Nat.sub_0_r in J. eauto.
  - intros (a&b&Ea&Eb&Es). rewrite Ea, Es. pose proof (joint_at_spec p b jn 0) as J. destruct (joint_at p b 0 jn) as [x|].
    + destruct J as (_&J&_). rewrite Nat.sub_0_r in J. f_equal. eapply U; eauto.
    + specialize (J q Eb). cbn in J. subst. rewrite Ea in Eb. injection Eb as <-. exfalso. eapply Ir; eauto.
Qed.
Lemma symmetry_joint_mutual_lemma : forall sy jn, (forall a b, sy a = Some b -> sy b = Some a /\ a <> b) -> (forall p q n, nth_error jn p = Some n -> nth_error jn q = Some n -> p = q) ->
  forall p q, symmetry_joint sy jn p = Some q -> symmetry_joint sy jn q = Some p.
Proof.
  intros sy jn M U p q H. assert (Ir : forall a b, sy a = Some b -> a <> b) by (intros x y Q; exact (proj2 (M x y Q))).
  apply symmetry_joint_lemma in H; auto. apply symmetry_joint_lemma; auto. destruct H as (a&b&A&B&C). exists b, a. repeat split; auto. apply M; auto.
Qed.

(** Forces. *)
Lemma chord_force_lemma : forall n0 n1, (k_chord_force n0 n1 = n0 \/ k_chord_force n0 n1 = n1) /\ Rabs (k_chord_force n0 n1) = Rmin (Rabs n0) (Rabs n1).
Proof.
  intros. unfold k_chord_force. destruct (Rltb (Rabs n0) (Rabs n1)) eqn:E. apply Rltb_true in E. rewrite Rmin_left by lra. auto. apply Rltb_false in E. rewrite Rmin_right by lra. auto.
Qed.
Lemma kn_anti : forall b n n', 0 < b -> n <= n' -> eval_KN n' b <= eval_KN n b.
Proof.
  intros b n n' B H. unfold eval_KN. assert (forall x, Rmin (13/10 - 4/10 * x / b) 1 <= 1) by (intro; apply Rmin_r).
  destruct (Rltb 0 n) eqn:E. apply Rltb_true in E. rewrite (proj2 (Rltb_true 0 n')) by lra. unfold Rmin at 2. destruct (Rle_dec (13/10 - 4/10 * n / b) 1); auto.
  eapply Rle_trans. apply Rmin_l. assert (4/10 * n / b <= 4/10 * n' / b). { unfold Rdiv. apply Rmult_le_compat_r. left; apply Rinv_0_lt_compat; auto. lra. } lra.
  destruct (Rltb 0 n'); auto. lra.
Qed.
Lemma chord_stress_used_lemma : forall c b n0 n1, 0 < c_A c -> 0 < c_fy c -> 0 < b -> n0 <= 0 -> n1 <= 0 ->
  eval_KN (eval_N c n0 0) b <= eval_KN (eval_N c (k_chord_force n0 n1) 0) b /\ eval_KN (eval_N c n1 0) b <= eval_KN (eval_N c (k_chord_force n0 n1) 0) b.
Proof.
  intros c b n0 n1 A F B H0 H1.
  assert (G : forall x y, x <= y -> eval_KN (eval_N c x 0) b <= eval_KN (eval_N c y 0) b).
  { intros x y L. apply kn_anti; auto. unfold eval_N, chord_stress.
    assert (- y / c_A c <= - x / c_A c) by (unfold Rdiv; apply Rmult_le_compat_r; [left; apply Rinv_0_lt_compat; auto|lra]).
    unfold Rdiv at 1 4 5. rewrite !Rinv_1, !Rmult_1_r. unfold Rdiv at 1 3. apply Rmult_le_compat_r. left; apply Rinv_0_lt_compat; auto. lra. }
  unfold k_chord_force. rewrite (Rabs_left1 n0), (Rabs_left1 n1) by auto. destruct (Rltb (- n0) (- n1)) eqn:E. apply Rltb_true in E. split; apply G; lra. apply Rltb_false in E. split; apply G; lra.
Qed.
Lemma gap_shear_lemma : forall j v, 0 < c_V (k_c j) ->
  (v < - c_V (k_c j) -> gap_N0Rd j v = None) /\
  (c_V (k_c j) < v -> gap_N0Rd j v = Some 0) /\
  (- c_V (k_c j) <= v <= c_V (k_c j) -> gap_N0Rd j v = Some (k_N0Rd j (Rabs v))).
Proof.
  intros j v P. set (c := k_c j) in *. unfold gap_N0Rd. fold c. cbv zeta.
  assert (Q : (v / c_V c) ^ 2 = (Rabs v / c_V c) ^ 2). { unfold Rdiv. rewrite !Rpow_mult_distr, pow2_abs. reflexivity. }
  split; [|split].
  - intro H. assert (v / c_V c < -1). { apply (Rmult_lt_reg_r (c_V c)); auto. unfold Rdiv. rewrite Rmult_assoc, Rinv_l by lra. lra. }
    rewrite (proj2 (Rltb_false _ _)) by lra. unfold psqrt. rewrite (proj2 (Rltb_true _ _)) by nra. reflexivity.
  - intro H. assert (1 < v / c_V c). { apply (Rmult_lt_reg_r (c_V c)); auto. unfold Rdiv. rewrite Rmult_assoc, Rinv_l by lra. lra. }
    rewrite (proj2 (Rltb_true _ _)) by lra. f_equal. ring.
  - intros (H1&H2). assert (E : -1 <= v / c_V c <= 1). { split; apply (Rmult_le_reg_r (c_V c)); auto; unfold Rdiv; rewrite Rmult_assoc, Rinv_l by lra; lra. }
    rewrite (proj2 (Rltb_false _ _)) by lra. unfold psqrt. rewrite (proj2 (Rltb_false _ _)) by nra. cbn [option_map]. f_equal. unfold k_N0Rd. fold c.
    assert (A : Rabs v / c_V c <= 1). { apply (Rmult_le_reg_r (c_V c)); auto. unfold Rdiv. rewrite Rmult_assoc, Rinv_l by lra. rewrite Rmult_1_r, Rmult_1_l. apply Rabs_le; lra. }
    rewrite (proj2 (Rltb_false _ _)) by lra. rewrite Q. reflexivity.
Qed.
Lemma y_design_lemma : forall j, 0 < c_fy (y_c j) -> 0 < c_t (y_c j) -> 0 < c_b (y_c j) -> 0 < br_b (y_b j) -> 0 < br_h (y_b j) -> 0 < y_a j < 180 -> 
  (85/100 <= br_b (y_b j) / c_b (y_c j) -> y_design j = None) /\
  (br_b (y_b j) / c_b (y_c j) < 85/100 -> exists u, y_design j = Some u /\ 0 <= u /\
     let be := br_b (y_b j) / c_b (y_c j) in let s := sin (rad (y_a j)) in
     Rabs (y_N1 j) = u * (Rpower (y_red j) (y_kn j) * (c_fy (y_c j) * c_t (y_c j) ^ 2 / ((1 - be) * s) * (2 * (br_h (y_b j) / c_b (y_c j)) / s + 4 * sqrt (1 - be))))).
Proof.
  intros j F T B Bb Bh (A1&A2). unfold y_design, y_beta. split; intro H. rewrite (proj2 (Rltb_false _ _)) by auto. reflexivity.
  rewrite (proj2 (Rltb_true _ _)) by auto. set (be := br_b (y_b j) / c_b (y_c j)) in *.
  assert (S : 0 < sin (rad (y_a j))). { apply sin_gt_0. rewrite <- rad_0. apply (proj1 (rad_lt _ _)); auto. replace PI with (rad 180) by (unfold rad; field). apply (proj1 (rad_lt _ _)); auto. }
  set (s := sin (rad (y_a j))) in *.
  assert (E : y_face j = Rpower (y_red j) (y_kn j) * (c_fy (y_c j) * c_t (y_c j) ^ 2 / ((1 - be) * s) * (2 * (br_h (y_b j) / c_b (y_c j)) / s + 4 * sqrt (1 - be)))).
  { unfold y_face, capped. cbv zeta. unfold y_beta. fold be. rewrite (proj2 (Rleb_false 1 be)) by lra. fold s. unfold y_eta. field. repeat split; lra. }
  assert (P : 0 < y_face j). { rewrite E. apply Rmult_lt_0_compat. apply exp_pos. apply Rmult_lt_0_compat.
    apply Rdiv_lt_0_compat. apply Rmult_lt_0_compat; auto. apply pow_lt; auto. apply Rmult_lt_0_compat; lra.
    apply Rplus_lt_le_0_compat. apply Rdiv_lt_0_compat; auto. apply Rmult_lt_0_compat; [lra|]. apply Rdiv_lt_0_compat; auto. pose proof (sqrt_pos (1 - be)). lra. }
  unfold pdiv. rewrite (proj2 (Reqb_false _ _)) by lra. exists (Rabs (y_N1 j) / y_face j). split; auto. split.
  apply Rmult_le_pos. apply Rabs_pos. left; apply Rinv_0_lt_compat; auto. cbv zeta. rewrite <- E. field. lra.
Qed.
Lemma y_ignores_lemma : forall c b a n0 n0' n1 imp, c_fy c <= 355 -> y_design (truss_y c b a n0 n1 0 imp) = y_design (truss_y c b a n0' n1 0 imp).
Proof.
  intros. unfold y_design, truss_y, y_beta. cbn [y_c y_b y_N1]. destruct (Rltb _ _); auto. f_equal. unfold y_face, y_red, strength_reduction. cbn [y_c y_b y_r y_a].
  rewrite (proj2 (Reqb_true 0 0) eq_refl), (proj2 (Rleb_true _ _)) by auto. unfold Rpower at 1 2. rewrite ln_1, !Rmult_0_r. reflexivity.
Qed.

(** Welds. *)
Lemma tube_weld_lemma : forall H B r t, 0 < H -> 0 < t <= 90 ->
  weld_length H B r 90 <= weld_length H B r t /\ weld_length H B r 90 = 2 * (H - 2 * r) + 2 * (B - 2 * r) + 2 * PI * r /\
  (forall u, t < u <= 90 -> weld_length H B r u < weld_length H B r t).
Proof.
  intros H B r t PH (T1&T2).
  assert (G : forall x y, 0 < x -> x < y -> y <= 90 -> 0 < sin (rad x) < sin (rad y)).
  { intros x y X XY Y. assert (rad 0 < rad x) by (apply (proj1 (rad_lt _ _)); auto). assert (rad x < rad y) by (apply (proj1 (rad_lt _ _)); auto). assert (rad y <= rad 90) by (apply (proj1 (rad_le _ _)); auto).
    rewrite rad_0 in *. rewrite rad_90 in *. pose proof PI_RGT_0. split. apply sin_gt_0; lra. apply sin_increasing_1; lra. }
  assert (M : forall x y, 0 < x -> x < y -> y <= 90 -> weld_length H B r y < weld_length H B r x).
  { intros x y X XY Y. destruct (G x y X XY Y) as (P&Q). unfold weld_length. assert (H / sin (rad y) < H / sin (rad x)). { unfold Rdiv. apply Rmult_lt_compat_l; auto. apply Rinv_lt_contravar; auto. apply Rmult_lt_0_compat; lra. } lra. }
  split; [|split].
  - destruct (Req_dec t 90). subst; lra. left; apply M; lra.
  - unfold weld_length. rewrite rad_90, sin_PI2. field.
  - intros u (U1&U2). apply M; auto.
Qed.
Lemma y_inverse_lemma : forall c b a n0 n0' n1 r imp u u', 0 < c_A c -> 0 < c_fy c -> 0 < c_t c -> 0 < c_b c -> 0 < br_b b -> 0 < br_h b -> 0 < a < 180 ->
  0 < strength_reduction r (c_fy c) < 1 -> n0' <= n0 ->
  y_design (truss_y c b a n0 n1 r imp) = Some u -> y_design (truss_y c b a n0' n1 r imp) = Some u' -> u' <= u.
Proof.
  intros c b a n0 n0' n1 r imp u u' A F T B Bb Bh Ha Hr L E E'.
  destruct (Rle_dec (85/100) (br_b b / c_b c)) as [K|K].
  { destruct (y_design_lemma (truss_y c b a n0 n1 r imp)) as (X&_); auto. cbn [truss_y y_c y_b] in X. rewrite (X K) in E. discriminate. }
  apply Rnot_le_lt in K.
  destruct (y_design_lemma (truss_y c b a n0 n1 r imp)) as (_&X); auto. destruct (X K) as (w&Ew&Pw&Q). rewrite Ew in E. injection E as ->.
  destruct (y_design_lemma (truss_y c b a n0' n1 r imp)) as (_&X'); auto. destruct (X' K) as (w'&Ew'&Pw'&Q'). rewrite Ew' in E'. injection E' as ->.
  cbv zeta in Q, Q'. cbn [truss_y y_c y_b y_N1 y_a] in Q, Q'. rewrite Q in Q'.
  set (kn := y_kn (truss_y c b a n0 n1 r imp)) in *. set (kn' := y_kn (truss_y c b a n0' n1 r imp)) in *.
  change (y_red (truss_y c b a n0 n1 r imp)) with (strength_reduction r (c_fy c)) in Q'. change (y_red (truss_y c b a n0' n1 r imp)) with (strength_reduction r (c_fy c)) in Q'.
  set (rr := strength_reduction r (c_fy c)) in *. set (be := br_b b / c_b c) in *. set (s := sin (rad a)) in *.
  assert (Pb : 0 < be) by (apply Rdiv_lt_0_compat; auto).
  assert (S : 0 < s). { apply sin_gt_0. rewrite <- rad_0. apply (proj1 (rad_lt _ _)); lra. replace PI with (rad 180) by (unfold rad; field). apply (proj1 (rad_lt _ _)); lra. }
  set (W := c_fy c * c_t c ^ 2 / ((1 - be) * s) * (2 * (br_h b / c_b c) / s + 4 * sqrt (1 - be))) in *.
  assert (PW : 0 < W). { apply Rmult_lt_0_compat. apply Rdiv_lt_0_compat. apply Rmult_lt_0_compat; auto. apply pow_lt; auto. apply Rmult_lt_0_compat; lra.
    apply Rplus_lt_le_0_compat. apply Rdiv_lt_0_compat; auto. apply Rmult_lt_0_compat; [lra|]. apply Rdiv_lt_0_compat; auto. pose proof (sqrt_pos (1 - be)). lra. }
  assert (KN : kn' <= kn). { unfold kn, kn', y_kn. cbn [truss_y y_c y_N0 y_M0]. apply kn_anti; [exact Pb|]. unfold eval_N, chord_stress.
    assert (- n0 / c_A c <= - n0' / c_A c) by (unfold Rdiv; apply Rmult_le_compat_r; [left; apply Rinv_0_lt_compat; auto|lra]).
    unfold Rdiv. rewrite !Rinv_1, !Rmult_1_r. apply Rmult_le_compat_r. left; apply Rinv_0_lt_compat; auto. unfold Rdiv in H. lra. }
  assert (PP : Rpower rr kn <= Rpower rr kn'). { unfold Rpower. assert (ln rr < 0) by (rewrite <- ln_1; apply ln_increasing; lra).
    destruct (Rle_lt_or_eq_dec _ _ KN) as [G|G]. left. apply exp_increasing. nra. rewrite G. lra. }
  assert (0 < Rpower rr kn) by apply exp_pos. assert (0 < Rpower rr kn') by apply exp_pos.
  assert (Q2 : u * Rpower rr kn = u' * Rpower rr kn') by (apply (Rmult_eq_reg_r W); [|lra]; lra).
  apply (Rmult_le_reg_r (Rpower rr kn')); auto. rewrite <- Q2. apply Rmult_le_compat_l; auto.
Qed.
Lemma V0gap_lemma : forall l m, V0gap l = Some m <-> In m l /\ forall x, In x l -> x <= m.
Proof.
  intros. unfold V0gap. apply list_max_spec.
Qed.
Lemma dir_vector_lemma : forall a b, (a = b -> dir_vector a b = None) /\
  (a <> b -> exists v, dir_vector a b = Some v /\ unit_vec v /\ b = (fst a + pdist a b * fst v, snd a + pdist a b * snd v)).
Proof.
  intros [ax ay] [bx by_]. unfold dir_vector, vlen, vdot, vminus, pdist, unit_vec. cbn [fst snd]. unfold pdiv. split.
  - intro E. injection E as -> ->. replace ((bx - bx) * (bx - bx) + (by_ - by_) * (by_ - by_)) with 0 by ring. rewrite sqrt_0, (proj2 (Reqb_true 0 0) eq_refl). reflexivity.
  - intro N. set (q := (bx - ax) * (bx - ax) + (by_ - ay) * (by_ - ay)). replace ((bx - ax) ^ 2 + (by_ - ay) ^ 2) with q by (unfold q; ring).
    assert (P : 0 < q). { unfold q. destruct (Req_dec ax bx) as [E|E]; [destruct (Req_dec ay by_) as [F|F]; [subst; congruence|]|].
      - apply Rplus_le_lt_0_compat. apply Rle_0_sqr. apply Rsqr_pos_lt. lra.
      - apply Rplus_lt_le_0_compat. apply Rsqr_pos_lt; lra. apply Rle_0_sqr. }
    assert (S : 0 < sqrt q) by (apply sqrt_lt_R0; auto). rewrite (proj2 (Reqb_false _ _)) by lra. cbn [bind]. eexists. split; [reflexivity|]. cbn [fst snd]. split.
    + replace ((bx - ax) / sqrt q * ((bx - ax) / sqrt q) + (by_ - ay) / sqrt q * ((by_ - ay) / sqrt q)) with (q / (sqrt q * sqrt q)) by (unfold q at 1; field; lra).
      rewrite sqrt_sqrt by lra. field. lra.
    + f_equal; field; lra.
Qed.
Lemma chord_angle_lemma : forall a b, 0 <= chord_angle a b < PI /\
  (Rabs (fst b - fst a) < 1/1000000 -> chord_angle a b = PI / 2) /\
  (1/1000000 <= Rabs (fst b - fst a) -> cos (chord_angle a b) * (snd b - snd a) = sin (chord_angle a b) * (fst b - fst a)).
Proof.
  intros a b. pose proof PI_RGT_0 as PP. unfold chord_angle. destruct (Rltb (Rabs (fst b - fst a)) (1/1000000)) eqn:E.
  - apply Rltb_true in E. split; [lra|]. split; [intros; lra|intro; lra].
  - apply Rltb_false in E. cbv zeta. set (m := (snd b - snd a) / (fst b - fst a)). pose proof (atan_bound m) as B.
    assert (D : fst b - fst a <> 0). { intro Z. rewrite Z, Rabs_R0 in E. lra. }
    assert (C : 0 < cos (atan m)) by (apply cos_gt_0; lra).
    assert (T : sin (atan m) = cos (atan m) * m). { pose proof (atan_right_inv m) as T. unfold tan in T. rewrite <- T at 3. field. lra. }
    assert (M : m * (fst b - fst a) = snd b - snd a) by (unfold m; field; auto).
    destruct (Rltb (atan m) 0) eqn:G; [apply Rltb_true in G|apply Rltb_false in G]; (split; [lra|]; split; [intro; lra|]; intros _).
    + rewrite cos_plus, sin_plus, cos_PI, sin_PI, T, <- M. ring.
    + rewrite T, <- M. ring.
Qed.
Lemma is_ridge_lemma : forall v, unit_vec v -> is_ridge v None = false /\
  forall a, is_ridge v (Some (turned v a)) = true <-> Rabs (cos a) < 1 - 1/100000000.
Proof.
  intros v U. split; [reflexivity|]. intro a. unfold is_ridge.
  replace (vdot v (turned v a)) with (cos a) by (unfold unit_vec in U; unfold vdot, turned; cbn [fst snd]; transitivity (cos a * (fst v * fst v + snd v * snd v)); [rewrite U; ring|ring]).
  assert (B : Rabs (cos a) <= 1) by (apply Rabs_le; apply COS_bound). rewrite (Rabs_left1 (Rabs (cos a) - 1)) by lra. rewrite Rltb_true. split; intro; lra.
Qed.

Lemma moment_free_lemma : forall c b b1 b2 a t1 t2 e n0 n1 r tp imp, 0 < c_A c -> 0 < c_fy c ->
  let nk := - k_chord_force n0 n1 / (c_A c * c_fy c) in let ny := - n0 / (c_A c * c_fy c) in
  let jk := truss_k c b1 b2 t1 t2 e n0 n1 r tp in let jy := truss_y c b a n0 n1 r imp in
  k_kn jk = (if Rlt_dec 0 nk then Rmin (13/10 - 4/10 * nk / k_beta jk) 1 else 1) /\
  y_kn jy = (if Rlt_dec 0 ny then Rmin (13/10 - 4/10 * ny / y_beta jy) 1 else 1).
Proof.
  intros c b b1 b2 a t1 t2 e n0 n1 r tp imp A F nk ny jk jy.
  assert (G : forall x be, eval_KN (eval_N c x 0) be = if Rlt_dec 0 (- x / (c_A c * c_fy c)) then Rmin (13/10 - 4/10 * (- x / (c_A c * c_fy c)) / be) 1 else 1).
  { intros x be. assert (E : eval_N c x 0 = - x / (c_A c * c_fy c)). { unfold eval_N, chord_stress. replace (0 / c_W c) with 0 by (unfold Rdiv; ring). field. lra. }
    rewrite E. unfold eval_KN. destruct (Rlt_dec 0 (- x / (c_A c * c_fy c))). rewrite (proj2 (Rltb_true _ _)) by auto. reflexivity. rewrite (proj2 (Rltb_false _ _)) by lra. reflexivity. }
  split; apply G.
Qed.
