From Coq Require Import Rpower.
From Verif Require Import EC3_proofs Sections_proofs Sections3_proofs Plate_proofs Loads2_proofs.
From Verif Require Import Rhs_model Rhs_spec.

(* ------------------------------------------------------------- lines *)
Lemma pdiv_eq : forall x y z, pdiv x y = Some z -> y <> 0 /\ z * y = x.
Proof. intros x y z H. apply pdiv_inv in H. destruct H as [A ->]. split; auto. field; auto. Qed.
Lemma pdiv_none : forall x y, pdiv x y = None <-> y = 0.
Proof. intros. unfold pdiv. destruct (Reqb y 0) eqn:E; [apply Reqb_true in E|apply Reqb_false in E]; split; intros; congruence. Qed.
Lemma intersect_lemma : forall l k,
  (forall t0 t1 x, intersect l k = Some ((t0, t1), x) ->
     line_at l t0 = x /\ line_at k t1 = x /\ on_line l x /\ on_line k x /\
     (forall y, on_line l y -> on_line k y -> y = x)) /\
  (intersect l k = None <-> fst (l_v l) * snd (l_v k) = snd (l_v l) * fst (l_v k)).
Proof.
  intros [[p1 p2] [v1 v2]] [[r1 r2] [u1 u2]]. unfold intersect, line_at, on_line, vadd, vscale, vminus; cbn [l_p l_v fst snd].
  split.
  - intros t0 t1 x H. apply bind_inv in H. destruct H as [a [A H]]. apply bind_inv in H. destruct H as [b [B H]].
    injection H as <- <- <-. apply pdiv_eq in A. apply pdiv_eq in B. destruct A as [D A]. destruct B as [_ B].
    set (det := v1 * - u2 - - u1 * v2) in *.
    assert (E1 : p1 + a * v1 = r1 + b * u1).
    { apply (Rmult_eq_reg_r det); auto. replace ((p1 + a * v1) * det) with (p1 * det + (a * det) * v1) by ring.
      replace ((r1 + b * u1) * det) with (r1 * det + (b * det) * u1) by ring. rewrite A, B. unfold det. ring. }
    assert (E2 : p2 + a * v2 = r2 + b * u2).
    { apply (Rmult_eq_reg_r det); auto. replace ((p2 + a * v2) * det) with (p2 * det + (a * det) * v2) by ring.
      replace ((r2 + b * u2) * det) with (r2 * det + (b * det) * u2) by ring. rewrite A, B. unfold det. ring. }
    split; auto. split. { rewrite E1, E2. auto. } split. { exists a. auto. } split. { exists b. rewrite E1, E2. auto. }
    intros y [s ->] [s' Y]. injection Y as Y1 Y2.
    assert (s = a). { apply (Rmult_eq_reg_r det); auto. unfold det in *. nra. }
    subst. auto.
  - unfold bind. split.
    + intros H. destruct (pdiv _ _) as [a|] eqn:A.
      * destruct (pdiv (v1 * (r2 - p2) - _) _) as [b|] eqn:B; [discriminate|]. apply pdiv_none in B. lra.
      * apply pdiv_none in A. lra.
    + intros H. destruct (pdiv _ _) as [a|] eqn:A; auto. apply pdiv_eq in A. destruct A as [D _]. exfalso. apply D. lra.
Qed.
Lemma vlen_dist : forall a b, vlen (vminus a b) = dist2 a b.
Proof. intros [a1 a2] [b1 b2]. unfold vlen, vminus, vdot, dist2; cbn. f_equal. ring. Qed.
Lemma sqrt_le_iff' : forall a b, 0 <= a -> 0 <= b -> a <= b -> sqrt a <= sqrt b.
Proof. intros. apply sqrt_le_1; auto. Qed.
Lemma distance_lemma : forall l x, fst (l_v l) ^ 2 + snd (l_v l) ^ 2 = 1 ->
  let (d, c) := distance l x in on_line l c /\ d = dist2 c x /\ (forall y, on_line l y -> d <= dist2 y x) /\
  (forall y, on_line l y -> dist2 y x = d -> y = c) /\ (on_line l x <-> d = 0).
Proof.
  intros [[p1 p2] [v1 v2]] [x1 x2] U. cbn [l_v fst snd] in U. unfold distance, line_at. cbv zeta.
  set (t := - vdot _ _). assert (T : t = - (v1 * (p1 - x1) + v2 * (p2 - x2))) by reflexivity. clearbody t.
  rewrite vlen_dist. unfold vadd, vscale; cbn [l_p l_v fst snd].
  assert (Q : forall s, (p1 + s * v1 - x1) ^ 2 + (p2 + s * v2 - x2) ^ 2 = (p1 + t * v1 - x1) ^ 2 + (p2 + t * v2 - x2) ^ 2 + (s - t) ^ 2).
  { intros s. assert (t + v1 * (p1 - x1) + v2 * (p2 - x2) = 0) by lra.
    replace ((p1 + s * v1 - x1) ^ 2 + (p2 + s * v2 - x2) ^ 2) with ((p1 - x1) ^ 2 + (p2 - x2) ^ 2 + 2 * s * (v1 * (p1 - x1) + v2 * (p2 - x2)) + s ^ 2 * (v1 ^ 2 + v2 ^ 2)) by ring.
    replace ((p1 + t * v1 - x1) ^ 2 + (p2 + t * v2 - x2) ^ 2) with ((p1 - x1) ^ 2 + (p2 - x2) ^ 2 + 2 * t * (v1 * (p1 - x1) + v2 * (p2 - x2)) + t ^ 2 * (v1 ^ 2 + v2 ^ 2)) by ring.
    rewrite U. replace (v1 * (p1 - x1) + v2 * (p2 - x2)) with (- t) by lra. ring. }
  assert (NN : forall a b : R, 0 <= a ^ 2 + b ^ 2) by (intros; pose proof (pow2_ge_0 a); pose proof (pow2_ge_0 b); lra).
  split; [exists t; reflexivity|]. split; [reflexivity|]. unfold dist2; cbn [fst snd]. split; [|split].
  - intros y [s ->]. cbn [fst snd l_p l_v]. apply sqrt_le_iff'; auto. rewrite (Q s). pose proof (pow2_ge_0 (s - t)). lra.
  - intros y [s ->]. cbn [fst snd l_p l_v]. intros E. apply sqrt_inj in E; auto. rewrite (Q s) in E.
    assert ((s - t) ^ 2 = 0) by lra. assert (s - t = 0) by (destruct (Req_dec (s - t) 0); auto; exfalso; apply (pow_nonzero (s - t) 2); auto).
    replace s with t by lra. reflexivity.
  - split.
    + intros [s E]. cbn [l_p l_v fst snd] in E. injection E as E1 E2. rewrite <- sqrt_0. f_equal.
      pose proof (Q s) as G. rewrite <- E1, <- E2 in G. pose proof (NN (p1 + t * v1 - x1) (p2 + t * v2 - x2)). pose proof (pow2_ge_0 (s - t)).
      replace (x1 - x1) with 0 in G by ring. replace (x2 - x2) with 0 in G by ring. lra.
    + intros E. apply sqrt_eq_0 in E; auto. pose proof (pow2_ge_0 (p1 + t * v1 - x1)). pose proof (pow2_ge_0 (p2 + t * v2 - x2)).
      assert (Z : forall a : R, a ^ 2 = 0 -> a = 0) by (intros a A; destruct (Req_dec a 0); auto; exfalso; apply (pow_nonzero a 2); auto).
      exists t. cbn. f_equal; [assert (p1 + t * v1 - x1 = 0) by (apply Z; lra)|assert (p2 + t * v2 - x2 = 0) by (apply Z; lra)]; lra.
Qed.
Lemma distance_refuted_lemma : exists l x y, on_line l y /\ dist2 y x < fst (distance l x).
Proof.
  exists (mkLine (0, 0) (2, 0)), (1, 1), (1, 0). split. { exists (1/2). cbn. f_equal; lra. }
  unfold distance, line_at. cbv zeta. rewrite vlen_dist. unfold vadd, vscale, vminus, vdot, dist2; cbn [fst snd l_p l_v]. apply sqrt_lt_1; simpl; lra.
Qed.
Lemma line_pp_lemma : forall p q, (p <> q -> exists l, line_pp p q = Some l /\ fst (l_v l) ^ 2 + snd (l_v l) ^ 2 = 1 /\
   on_line l p /\ on_line l q /\ line_at l (dist2 q p) = q) /\ line_pp p p = None.
Proof.
  intros [p1 p2] [q1 q2]. split.
  - intros N. unfold line_pp. set (d := vlen _).
    assert (E : d = dist2 (q1, q2) (p1, p2)) by (unfold d; rewrite vlen_dist; auto).
    assert (S0 : 0 < (q1 - p1) ^ 2 + (q2 - p2) ^ 2).
    { pose proof (pow2_ge_0 (q1 - p1)). pose proof (pow2_ge_0 (q2 - p2)). destruct (Req_dec q1 p1).
      - destruct (Req_dec q2 p2); [exfalso; apply N; congruence|]. assert ((q2 - p2) ^ 2 <> 0) by (apply pow_nonzero; lra). lra.
      - assert ((q1 - p1) ^ 2 <> 0) by (apply pow_nonzero; lra). lra. }
    assert (D : 0 < d) by (rewrite E; apply sqrt_lt_R0; auto).
    assert (D2 : d * d = (q1 - p1) ^ 2 + (q2 - p2) ^ 2) by (rewrite E; unfold dist2; cbn [fst snd]; apply sqrt_sqrt; lra).
    unfold vminus; cbn [fst snd]. rewrite !pdiv_ok by lra. cbn [bind]. eexists; split; [reflexivity|]. cbn [l_v l_p fst snd].
    split. { replace (((q1 - p1) / d) ^ 2 + ((q2 - p2) / d) ^ 2) with (((q1 - p1) ^ 2 + (q2 - p2) ^ 2) / (d * d)) by (field; lra). rewrite D2. field. lra. }
    split. { exists 0. cbn. f_equal; ring. } split. { exists d. cbn. f_equal; field; lra. }
    rewrite <- E. unfold line_at, vadd, vscale; cbn. f_equal; field; lra.
  - unfold line_pp, vminus; cbn [fst snd]. replace (vlen _) with 0; [rewrite (proj2 (pdiv_none _ 0) eq_refl); reflexivity|].
    unfold vlen, vdot; cbn. replace ((p1 - p1) * (p1 - p1) + (p2 - p2) * (p2 - p2)) with 0 by ring. rewrite sqrt_0. auto.
Qed.
Lemma rotate_lemma : forall v a b,
  vlen (rotate v a) = vlen v /\ rotate (rotate v a) b = rotate v (a + b) /\ rotate v 0 = v /\ rotate v 360 = v /\
  rotate (1, 0) 90 = (0, 1) /\ vdot (rotate v a) v = cos (rad a) * vdot v v.
Proof.
  intros [x y] a b. unfold rotate, vlen, vdot; cbn [fst snd].
  pose proof (sin2_cos2 (rad a)) as SC. unfold Rsqr in SC.
  assert (R0 : rad 0 = 0) by (unfold rad; field). assert (R3 : rad 360 = 2 * PI) by (unfold rad; field).
  assert (R9 : rad 90 = PI / 2) by (unfold rad; field). assert (RA : rad (a + b) = rad a + rad b) by (unfold rad; field).
  repeat match goal with |- _ /\ _ => split end.
  - f_equal. replace ((cos (rad a) * x - sin (rad a) * y) * (cos (rad a) * x - sin (rad a) * y) + (sin (rad a) * x + cos (rad a) * y) * (sin (rad a) * x + cos (rad a) * y))
      with ((sin (rad a) * sin (rad a) + cos (rad a) * cos (rad a)) * (x * x + y * y)) by ring. rewrite SC. ring.
  - rewrite RA, sin_plus, cos_plus. f_equal; ring.
  - rewrite R0, sin_0, cos_0. f_equal; ring.
  - rewrite R3, sin_2PI, cos_2PI. f_equal; ring.
  - rewrite R9, sin_PI2, cos_PI2. f_equal; ring.
  - ring.
Qed.

(* ------------------------------------------------------------- eccentricity *)
Lemma rad_pos : forall a, 0 < a -> 0 < rad a. Proof. intros. unfold rad. pose proof PI3. nra. Qed.
Lemma sin_angle : forall a, 0 < a < 180 -> 0 < sin (rad a).
Proof. intros a [A B]. apply sin_gt_0; [apply rad_pos; auto|]. unfold rad. pose proof PI3. nra. Qed.
Lemma sin_mono_angle : forall a b, 0 < a <= b -> b <= 90 -> 0 < sin (rad a) <= sin (rad b) /\ sin (rad b) <= 1.
Proof.
  intros a b [A B] C. pose proof PI3. split; [split; [apply sin_angle; lra|]|apply SIN_bound].
  destruct B as [B| ->]; [|lra]. left. apply sin_increasing_1; unfold rad; nra.
Qed.
Lemma eccentricity_lemma : forall h0 h1 h2 t1 t2 g, 0 < t1 -> 0 < t2 -> t1 + t2 < 180 ->
  exists e s u x, eccentricity h0 h1 h2 t1 t2 g = Some e /\
    intersect (brace_axis true h0 h1 t1 g) (brace_axis false h0 h2 t2 g) = Some ((s, u), (x, - e)) /\
    (forall g', g <= g' -> exists e', eccentricity h0 h1 h2 t1 t2 g' = Some e' /\ e <= e' /\
       e' - e = (g' - g) * (sin (rad t1) * sin (rad t2) / sin (rad (t1 + t2)))).
Proof.
  intros h0 h1 h2 t1 t2 g A B C. pose proof (sin_angle t1 ltac:(lra)) as S1. pose proof (sin_angle t2 ltac:(lra)) as S2.
  pose proof (sin_angle (t1 + t2) ltac:(lra)) as S3. assert (RA : rad (t1 + t2) = rad t1 + rad t2) by (unfold rad; field).
  rewrite RA in S3.
  assert (EF : forall g, eccentricity h0 h1 h2 t1 t2 g = Some ((1/2 * h1 / sin (rad t1) + 1/2 * h2 / sin (rad t2) + g) * sin (rad t1) * sin (rad t2) / sin (rad t1 + rad t2) - 1/2 * h0)).
  { intros. unfold eccentricity. rewrite !pdiv_ok by lra. cbn [bind]. rewrite pdiv_ok by lra. reflexivity. }
  pose proof S3 as S4. rewrite sin_plus in S4.
  assert (DD : -1 * cos (rad t1) * - sin (rad t2) - - (1 * cos (rad t2)) * sin (rad t1) = sin (rad t1 + rad t2)) by (rewrite sin_plus; ring).
  eexists _, _, _, _. split; [apply EF|]. split.
  - unfold intersect, brace_axis; cbn [l_v l_p fst snd]. rewrite DD. rewrite !pdiv_ok by lra. cbn [bind]. f_equal. f_equal.
    unfold vadd, vscale, vminus; cbn [fst snd l_p l_v]. f_equal. field. lra.
  - intros g' G. eexists. split; [apply EF|]. rewrite RA. split.
    + apply Rplus_le_compat_r. apply div_le; [auto|]. apply Rmult_le_compat_r; [lra|]. apply Rmult_le_compat_r; [lra|]. lra.
    + field. lra.
Qed.
Lemma k_eccentricity_lemma : forall j, k_eccentricity j = eccentricity (c_h (k_c j)) (br_h (k_b1 j)) (br_h (k_b2 j)) (k_a1 j) (k_a2 j) (k_gap j).
Proof. intros. unfold k_eccentricity, eccentricity. replace (rad (k_a1 j + k_a2 j)) with (rad (k_a1 j) + rad (k_a2 j)) by (unfold rad; field). reflexivity. Qed.

(* ------------------------------------------------------------- stress function and strength reduction *)
Lemma rhs_reduction_lemma : forall r fy fy', 0 <= r -> 0 < fy -> fy <= fy' ->
  0 < strength_reduction r fy /\ strength_reduction r fy' <= strength_reduction r fy /\
  (r = 0 -> strength_reduction r fy <= 1 /\ 8/10 <= strength_reduction r fy /\ (fy <= 355 -> strength_reduction r fy = 1) /\
     (355 < fy <= 460 -> strength_reduction r fy = 9/10) /\ (460 < fy -> strength_reduction r fy = 8/10)) /\ (r <> 0 -> strength_reduction r fy = r).
Proof.
  intros r fy fy' P Q L. unfold strength_reduction.
  destruct (Reqb r 0) eqn:E; [apply Reqb_true in E|apply Reqb_false in E].
  - repeat match goal with |- context [Rleb ?a ?b] => let X := fresh in destruct (Rleb a b) eqn:X; [apply Rleb_true in X|apply Rleb_false in X] end; lra.
  - lra.
Qed.
Lemma reduction_refuted_lemma : exists fy fy', fy < fy' /\ strength_reduction 0 fy' * fy' < strength_reduction 0 fy * fy.
Proof.
  exists 355, 360. split; [lra|]. destruct (rhs_reduction_lemma 0 355 355 ltac:(lra) ltac:(lra) ltac:(lra)) as [_ [_ [A _]]].
  destruct (rhs_reduction_lemma 0 360 360 ltac:(lra) ltac:(lra) ltac:(lra)) as [_ [_ [B _]]].
  destruct (A eq_refl) as [_ [_ [A1 _]]]. destruct (B eq_refl) as [_ [_ [_ [B1 _]]]]. rewrite A1, B1 by lra. lra.
Qed.
Lemma kn_form : forall n b, 0 < b -> eval_KN n b = Rmin 1 (13/10 - 4/10 * n / b).
Proof.
  intros n b B. unfold eval_KN. destruct (Rltb 0 n) eqn:E; [apply Rltb_true in E|apply Rltb_false in E].
  - apply Rmin_comm.
  - rewrite Rmin_left; auto. assert (4/10 * n / b <= 0). { apply div_le_iff; lra. } lra.
Qed.
Lemma kn_lemma : forall n n' b, 0 < b -> n <= n' -> eval_KN n' b <= eval_KN n b /\ eval_KN n b <= 1 /\ (n <= 0 -> eval_KN n b = 1) /\
  (35/100 <= b -> n <= 1 -> 15/100 <= eval_KN n b) /\ (eval_KN n b < 0 <-> 325/100 * b < n).
Proof.
  intros n n' b B N. rewrite !kn_form by auto. assert (L : 4/10 * n / b <= 4/10 * n' / b) by (apply div_le; lra).
  split. { unfold Rmin; repeat destruct Rle_dec; lra. } split. { apply Rmin_l. }
  split. { intros. rewrite Rmin_left; auto. assert (4/10 * n / b <= 0) by (apply div_le_iff; lra). lra. }
  split. { intros. assert (4/10 * n / b <= 115/100) by (apply div_le_iff; lra). unfold Rmin; destruct Rle_dec; lra. }
  split.
  - intros H. destruct (Rle_dec n (325/100 * b)) as [Q|Q]; [|lra]. exfalso. assert (4/10 * n / b <= 13/10) by (apply div_le_iff; lra).
    unfold Rmin in H; destruct Rle_dec; lra.
  - intros H. assert (13/10 < 4/10 * n / b). { apply Rnot_le_lt. intros Q. apply (proj1 (div_le_iff _ _ _ B)) in Q; lra. } unfold Rmin; destruct Rle_dec; lra.
Qed.
Lemma rhs_stress_lemma : forall c N0 M0 N0' M0', chord_ok c -> N0' <= N0 -> M0 <= M0' ->
  eval_N c N0 M0 <= eval_N c N0' M0' /\ (elastic c N0 M0 <-> eval_N c N0 M0 <= 1) /\ (0 <= N0 -> M0 <= 0 -> eval_N c N0 M0 <= 0).
Proof.
  intros c N0 M0 N0' M0' [_ [_ [_ [F [A [W _]]]]]] LN LM. unfold eval_N, chord_stress, elastic.
  assert (- N0 / c_A c <= - N0' / c_A c) by (apply div_le; lra). assert (M0 / c_W c <= M0' / c_W c) by (apply div_le; lra).
  split. { apply div_le; [lra|]. apply div_le; lra. }
  replace ((- N0 / c_A c + M0 / c_W c) / c_fy c / 1) with ((- N0 / c_A c + M0 / c_W c) / c_fy c) by (field; lra).
  split. { split; intros Q; [apply div_le_iff; lra|apply (proj1 (div_le_iff _ _ _ F)) in Q; lra]. }
  intros. assert (- N0 / c_A c <= 0) by (apply div_le_iff; lra). assert (M0 / c_W c <= 0) by (apply div_le_iff; lra). apply div_le_iff; lra.
Qed.
