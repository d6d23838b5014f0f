(** Proofs: brace angles, gap, chord faces. *)
Require Import Reals List Bool Lra Lia Psatz PeanoNat.
Import ListNotations.
From Verif Require Import Base EC3_model Bool_tac EC3_proofs Plate_proofs.
From Verif Require Import Rhs_model Tjt_model Tjt_spec.
Local Open Scope R_scope.

Lemma cauchy2 : forall a b, unit_vec a -> unit_vec b -> vdot a b * vdot a b + (fst a * snd b - snd a * fst b) * (fst a * snd b - snd a * fst b) = 1.
Proof.
  intros [a b] [c d] U V. unfold unit_vec, vdot in *. cbn [fst snd] in *.
  replace ((a * c + b * d) * (a * c + b * d) + (a * d - b * c) * (a * d - b * c)) with ((a * a + b * b) * (c * c + d * d)) by ring. rewrite U, V. ring.
Qed.
Lemma dot_bound : forall a b, unit_vec a -> unit_vec b -> -1 <= vdot a b <= 1.
Proof.
  intros a b U V. pose proof (cauchy2 a b U V) as C. set (x := vdot a b) in *. set (y := _ - _) in *. assert (0 <= y * y) by apply Rle_0_sqr. split; nra.
Qed.
Lemma rad_degrees : forall x, rad (degrees x) = x.
Proof. intros. unfold rad, degrees. field. apply PI_neq0. Qed.
Lemma rad_180 : forall x, rad (180 - x) = PI - rad x.
Proof. intros. unfold rad. field. Qed.
Lemma rad_90 : rad 90 = PI / 2.
Proof. unfold rad. field. Qed.
Lemma rad_le : forall a b, a <= b <-> rad a <= rad b.
Proof. intros. unfold rad. pose proof PI_RGT_0. split; intro; nra. Qed.
Lemma rad_lt : forall a b, a < b <-> rad a < rad b.
Proof. intros. unfold rad. pose proof PI_RGT_0. split; intro; nra. Qed.
Lemma rad_inj : forall a b, rad a = rad b -> a = b.
Proof. intros a b H. apply Rle_antisym; apply (proj2 (rad_le _ _)); lra. Qed.
Lemma rad_0 : rad 0 = 0.
Proof. unfold rad. field. Qed.

Lemma brace_angle_lemma : forall vc vb, unit_vec vc -> unit_vec vb ->
  let t := brace_angle vc vb in
  0 <= t <= 90 /\ cos (rad t) = Rabs (vdot vc vb) /\ sin (rad t) = Rabs (fst vc * snd vb - snd vc * fst vb).
Proof.
  intros vc vb U V t. pose proof (dot_bound vc vb U V) as B. pose proof (acos_bound (vdot vc vb)) as A. pose proof (cos_acos (vdot vc vb) B) as C.
  pose proof PI_RGT_0 as P.
  assert (H : 0 <= t <= 90 /\ cos (rad t) = Rabs (vdot vc vb)).
  { unfold t, brace_angle. set (a := acos (vdot vc vb)) in *. destruct (Rltb 90 (degrees a)) eqn:E.
    - apply Rltb_true in E. apply rad_lt in E. rewrite rad_90, rad_degrees in E.
      rewrite (rad_180 (degrees a)), rad_degrees. split.
      + split; apply (proj2 (rad_le _ _)); rewrite ?rad_0, ?rad_90, rad_180, rad_degrees; lra.
      + assert (cos a <= 0) by (left; apply cos_lt_0; lra).
        assert (Q : cos (PI - a) = - cos a) by (rewrite cos_minus, cos_PI, sin_PI; ring). rewrite Q, C. rewrite C in H. rewrite Rabs_left1; auto.
    - apply Rltb_false in E. apply rad_le in E. rewrite rad_90, rad_degrees in E. rewrite rad_degrees. split.
      + split; apply (proj2 (rad_le _ _)); rewrite ?rad_0, ?rad_90, rad_degrees; lra.
      + assert (0 <= cos a) by (apply cos_ge_0; lra). rewrite C in *. rewrite Rabs_pos_eq; auto. }
  destruct H as (H1&H2). split; auto. split; auto.
  assert (S : 0 <= sin (rad t)). { apply sin_ge_0. rewrite <- rad_0. apply (proj1 (rad_le _ _)); lra. assert (rad t <= rad 90) by (apply (proj1 (rad_le _ _)); lra). rewrite rad_90 in H. lra. }
  pose proof (sin2_cos2 (rad t)) as Q. unfold Rsqr in Q. rewrite H2 in Q. pose proof (cauchy2 vc vb U V) as K. set (y := _ - _) in *.
  assert (Rabs (vdot vc vb) * Rabs (vdot vc vb) = vdot vc vb * vdot vc vb) by (rewrite <- Rabs_mult; apply Rabs_pos_eq; apply Rle_0_sqr).
  assert (E : Rsqr (sin (rad t)) = Rsqr (Rabs y)). { rewrite <- Rsqr_abs. unfold Rsqr. lra. }
  apply Rsqr_inj in E; auto. apply Rabs_pos.
Qed.
Lemma angle_by_cos : forall a b, 0 <= a <= 90 -> 0 <= b <= 90 -> cos (rad a) = cos (rad b) -> a = b.
Proof.
  intros a b A B H. apply rad_inj. pose proof PI_RGT_0.
  assert (forall x, 0 <= x <= 90 -> 0 <= rad x <= PI). { intros x X. rewrite <- rad_0. assert (rad x <= rad 90) by (apply (proj1 (rad_le _ _)); lra). rewrite rad_90 in H1. split; [apply (proj1 (rad_le _ _)); lra|lra]. }
  rewrite <- (acos_cos (rad a)), <- (acos_cos (rad b)) by auto. congruence.
Qed.
Lemma angle_reversed_lemma : forall vc vb, unit_vec vc -> unit_vec vb ->
  brace_angle vc (- fst vb, - snd vb) = brace_angle vc vb /\ brace_angle (- fst vc, - snd vc) vb = brace_angle vc vb /\ brace_angle vb vc = brace_angle vc vb.
Proof.
  intros vc vb U V. assert (N : forall v, unit_vec v -> unit_vec (- fst v, - snd v)) by (intros v W; unfold unit_vec in *; cbn [fst snd]; rewrite <- W; ring).
  destruct (brace_angle_lemma vc vb U V) as (A&B&_). destruct (brace_angle_lemma vc _ U (N _ V)) as (A1&B1&_). destruct (brace_angle_lemma _ vb (N _ U) V) as (A2&B2&_). destruct (brace_angle_lemma _ _ V U) as (A3&B3&_).
  split; [|split]; apply angle_by_cos; auto; rewrite B.
  - rewrite B1. rewrite <- (Rabs_Ropp (vdot vc vb)). f_equal. unfold vdot; cbn [fst snd]; ring.
  - rewrite B2. rewrite <- (Rabs_Ropp (vdot vc vb)). f_equal. unfold vdot; cbn [fst snd]; ring.
  - rewrite B3. f_equal. unfold vdot; ring.
Qed.
Lemma turned_unit : forall v a, unit_vec v -> unit_vec (turned v a).
Proof.
  intros v a U. unfold unit_vec, turned in *. cbn [fst snd]. pose proof (sin2_cos2 a) as Q. unfold Rsqr in Q.
  replace (_ + _) with ((fst v * fst v + snd v * snd v) * (sin a * sin a + cos a * cos a)) by ring. rewrite U, Q. ring.
Qed.
Lemma angle_turned_lemma : forall v d, unit_vec v -> 0 <= d <= 180 -> brace_angle v (turned v (rad d)) = Rmin d (180 - d).
Proof.
  intros v d U D. destruct (brace_angle_lemma v (turned v (rad d)) U (turned_unit v _ U)) as (A&B&_).
  assert (E : vdot v (turned v (rad d)) = cos (rad d)). { unfold vdot, turned; cbn [fst snd]. unfold unit_vec in U. replace (_ + _) with ((fst v * fst v + snd v * snd v) * cos (rad d)) by ring. rewrite U. ring. }
  rewrite E in B. pose proof PI_RGT_0 as P. apply angle_by_cos; auto. unfold Rmin. destruct (Rle_dec d (180 - d)); lra.
  rewrite B. unfold Rmin. destruct (Rle_dec d (180 - d)).
  - apply Rabs_pos_eq. assert (rad 0 <= rad d) by (apply (proj1 (rad_le _ _)); lra). assert (rad d <= rad 90) by (apply (proj1 (rad_le _ _)); lra). rewrite rad_0 in *. rewrite rad_90 in *. apply cos_ge_0; lra.
  - rewrite rad_180. rewrite cos_minus, cos_PI, sin_PI.
    assert (rad 90 < rad d) by (apply (proj1 (rad_lt _ _)); lra). assert (rad d <= rad 180) by (apply (proj1 (rad_le _ _)); lra). rewrite rad_90 in *. replace (rad 180) with PI in * by (unfold rad; field).
    rewrite Rabs_left. ring. apply cos_lt_0; lra.
Qed.

(** Chord face points and gap. *)
Lemma perp_dot : forall top v w, vdot w (perp top v) = (if top then 1 else -1) * (fst v * snd w - snd v * fst w).
Proof. intros [|] v w; unfold vdot, perp; cbn [fst snd]; ring. Qed.
Lemma perp_unit : forall top v, unit_vec v -> unit_vec (perp top v).
Proof. intros [|] v U; unfold unit_vec, perp in *; cbn [fst snd]; lra. Qed.

Lemma face_point_lemma : forall j h0 ang b, unit_vec (j_v j) -> j_ridge j = false -> j_xp j = local_point j (j_x j) (j_y j) ->
  vdot b (perp (j_top j) (j_v j)) <> 0 ->
  exists x c t, face_point j h0 ang b = Some (x, c) /\
    x = (fst (j_xp j) + t * fst b, snd (j_xp j) + t * snd b) /\
    along (j_node j) (perp (j_top j) (j_v j)) x = - (1/2 * h0) /\
    along (j_node j) (j_v j) x = j_x j - (j_y j + 1/2 * h0) * (vdot b (j_v j) / vdot b (perp (j_top j) (j_v j))) /\
    c = (fst (j_node j) + along (j_node j) (j_v j) x * fst (j_v j), snd (j_node j) + along (j_node j) (j_v j) x * snd (j_v j)).
Proof.
  intros j h0 ang b U Hr Hx Hn. unfold face_point, intersect, line_pv. cbn [l_p l_v]. unfold xc_face. rewrite Hr, Hx.
  unfold unit_vec in U. destruct j as [nd v top rg jx jy xp]. cbn [j_node j_v j_top j_x j_y j_ridge j_xp] in *.
  destruct v as [vx vy], b as [bx by_], nd as [nx ny]. cbn [fst snd] in *. unfold local_point. cbn [j_node j_v j_top j_x j_y j_ridge j_xp].
  assert (D : bx * - vy - - vx * by_ <> 0). { rewrite perp_dot in Hn. cbn [fst snd] in Hn. intro Q. apply Hn. replace (vx * by_ - vy * bx) with 0 by lra. ring. }
  unfold vminus, vadd, vscale, perp, vdot in *.
  assert (Hv : vx * vx = 1 - vy * vy) by lra.
  unfold pdiv at 1. rewrite (proj2 (Reqb_false _ _) D). cbn [bind]. unfold pdiv. rewrite (proj2 (Reqb_false _ _) D). cbn [bind fst snd].
  do 2 eexists. exists (- (jy + 1/2 * h0) / ((if top then 1 else -1) * (vx * by_ - vy * bx))).
  split; [reflexivity|]. unfold distance, line_at, along, vminus, vadd, vscale, vdot. cbn [l_p l_v fst snd].
  assert (D' : vx * by_ - vy * bx <> 0) by (intro Q; apply D; lra).
  destruct top; cbn [fst snd] in *.
  - set (T := ((nx - 1 / 2 * h0 * - vy - (nx + jx * vx + jy * - vy)) * - vy - - vx * (ny - 1 / 2 * h0 * vx - (ny + jx * vy + jy * vx))) / (bx * - vy - - vx * by_)).
    assert (ET : T = - (jy + 1/2 * h0) / (1 * (vx * by_ - vy * bx))).
    { unfold T. replace (bx * - vy - - vx * by_) with (vx * by_ - vy * bx) by ring.
      replace ((nx - 1 / 2 * h0 * - vy - (nx + jx * vx + jy * - vy)) * - vy - - vx * (ny - 1 / 2 * h0 * vx - (ny + jx * vy + jy * vx))) with (- (jy + 1/2 * h0) * (vx * vx + vy * vy)) by ring.
      rewrite U. field. auto. }
    rewrite ET. set (DD := vx * by_ - vy * bx) in *. split; [reflexivity|]. split; [|split].
    + replace (_ + _) with (jy * (vx * vx + vy * vy) + - (jy + 1 / 2 * h0) / (1 * DD) * DD) by (unfold DD; ring). rewrite U. field. auto.
    + replace (_ * vx + _ * vy) with (jx * (vx * vx + vy * vy) + - (jy + 1 / 2 * h0) / (1 * DD) * (bx * vx + by_ * vy)) by (unfold DD; ring). rewrite U.
      replace (bx * - vy + by_ * vx) with DD by (unfold DD; ring). field. auto.
    + f_equal; ring.
  - set (T := ((nx - 1 / 2 * h0 * vy - (nx + jx * vx + jy * vy)) * - vy - - vx * (ny - 1 / 2 * h0 * - vx - (ny + jx * vy + jy * - vx))) / (bx * - vy - - vx * by_)).
    assert (ET : T = - (jy + 1/2 * h0) / (-1 * (vx * by_ - vy * bx))).
    { unfold T. replace (bx * - vy - - vx * by_) with (vx * by_ - vy * bx) by ring.
      replace ((nx - 1 / 2 * h0 * vy - (nx + jx * vx + jy * vy)) * - vy - - vx * (ny - 1 / 2 * h0 * - vx - (ny + jx * vy + jy * - vx))) with ((jy + 1/2 * h0) * (vx * vx + vy * vy)) by ring.
      rewrite U. field. auto. }
    rewrite ET. set (DD := vx * by_ - vy * bx) in *. split; [reflexivity|]. split; [|split].
    + replace (_ + _) with (jy * (vx * vx + vy * vy) - (- (jy + 1 / 2 * h0) / (-1 * DD)) * DD) by (unfold DD; ring). rewrite U. field. auto.
    + replace (_ * vx + _ * vy) with (jx * (vx * vx + vy * vy) + - (jy + 1 / 2 * h0) / (-1 * DD) * (bx * vx + by_ * vy)) by (unfold DD; ring). rewrite U.
      replace (bx * vy + by_ * - vx) with (- DD) by (unfold DD; ring). field. auto.
    + f_equal; ring.
Qed.
