From Verif Require Import Sections_proofs Plate_proofs Loads2_proofs Timber_proofs.
From Verif Require Import Timber_model Timber_spec.
Require Import Psatz.

(* ------------------------------------------------------------ straight tapers *)
Lemma pulpetti_lemma h0 hap : pulpetti_h h0 hap 0 = h0 /\ pulpetti_h h0 hap 1 = hap /\
  (forall x y z, (pulpetti_h h0 hap y - pulpetti_h h0 hap x) * (z - x) = (pulpetti_h h0 hap z - pulpetti_h h0 hap x) * (y - x)) /\
  (forall x, 0 <= x <= 1 -> Rmin h0 hap <= pulpetti_h h0 hap x <= Rmax h0 hap).
Proof.
  unfold pulpetti_h. split; [ring|]. split; [ring|]. split; [intros; ring|]. intros x X.
  unfold Rmin, Rmax. destruct (Rle_dec h0 hap); nra.
Qed.
Lemma harja_eq h0 hap xap x : 0 < xap < 1 -> h0 <= hap ->
  harja_h h0 hap xap x = if Rle_dec x xap then h0 + (hap - h0) * (x / xap) else h0 + (hap - h0) * ((1 - x) / (1 - xap)).
Proof.
  intros X H. unfold harja_h. set (up := (hap - h0) / xap * x + h0).
  assert (D : up - ((h0 - hap) / (1 - xap) * x + hap + (hap - h0) / (1 - xap) * xap) = (hap - h0) * (x - xap) / (xap * (1 - xap))).
  { unfold up. field. lra. }
  rewrite D. assert (P : 0 < xap * (1 - xap)) by nra.
  destruct (Rle_dec x xap) as [L|L].
  - rewrite Rmax_right; [unfold up; field; lra|]. apply Rmult_le_reg_r with (xap * (1 - xap)); [auto|].
    unfold Rdiv. rewrite Rmult_assoc, Rinv_l by lra. nra.
  - rewrite Rmax_left; [unfold up; field; lra|]. unfold Rdiv. apply Rmult_le_pos; [nra|left; apply Rinv_0_lt_compat; auto].
Qed.
Lemma harja_lemma h0 hap xap : 0 < xap < 1 -> h0 <= hap ->
  harja_h h0 hap xap 0 = h0 /\ harja_h h0 hap xap xap = hap /\ harja_h h0 hap xap 1 = h0 /\
  (forall x, 0 <= x <= 1 -> h0 <= harja_h h0 hap xap x <= hap) /\
  (forall x y, x <= y <= xap -> harja_h h0 hap xap x <= harja_h h0 hap xap y) /\
  (forall x y, xap <= x <= y -> harja_h h0 hap xap y <= harja_h h0 hap xap x) /\
  (forall x, 0 <= x <= xap -> harja_h h0 hap xap x = pulpetti_h h0 hap (x / xap)) /\
  (forall x, xap <= x <= 1 -> harja_h h0 hap xap x = pulpetti_h h0 hap ((1 - x) / (1 - xap))).
Proof.
  intros X H.
  assert (A : forall x, 0 <= x <= xap -> 0 <= x / xap <= 1) by (intros x B; split; [apply le_div_iff; lra|apply div_le_iff; lra]).
  assert (A' : forall x, xap <= x <= 1 -> 0 <= (1 - x) / (1 - xap) <= 1) by (intros x B; split; [apply le_div_iff; lra|apply div_le_iff; lra]).
  assert (M : forall x y, x <= y -> x / xap <= y / xap) by (intros; apply Rmult_le_compat_r; [left; apply Rinv_0_lt_compat; lra|lra]).
  assert (M' : forall x y, x <= y -> (1 - y) / (1 - xap) <= (1 - x) / (1 - xap)) by (intros; apply Rmult_le_compat_r; [left; apply Rinv_0_lt_compat; lra|lra]).
  assert (E1 : xap / xap = 1) by (field; lra). assert (E2 : (1 - xap) / (1 - xap) = 1) by (field; lra).
  repeat split; intros; rewrite ?harja_eq by auto; unfold pulpetti_h; repeat destruct Rle_dec; try lra;
  try match goal with |- context [?a / xap] => assert (a / xap = 1) by (replace a with xap by lra; lra) end;
  try match goal with |- context [(1 - ?a) / (1 - xap)] => assert ((1 - a) / (1 - xap) = 1) by (replace a with xap by lra; lra) end; try nra.
  all: try (pose proof (A x ltac:(lra)); nra). all: try (pose proof (A' x ltac:(lra)); nra).
  all: try (pose proof (M x y ltac:(lra)); nra). all: try (pose proof (M' x y ltac:(lra)); nra).
  all: try (assert (x = xap) by lra; subst x); try (pose proof (M' xap y ltac:(lra)); nra).
Qed.
Lemma harja_low_lemma h0 hap xap : 0 < xap < 1 -> hap < h0 -> harja_h h0 hap xap 0 < hap /\ harja_h h0 hap xap 1 < hap.
Proof.
  intros X H. unfold harja_h. assert (I1 : 0 < / xap) by (apply Rinv_0_lt_compat; lra). assert (I2 : 0 < / (1 - xap)) by (apply Rinv_0_lt_compat; lra).
  assert (0 < (h0 - hap) * / (1 - xap) * xap) by (repeat apply Rmult_lt_0_compat; lra).
  assert (0 < (h0 - hap) * / xap * (1 - xap)) by (repeat apply Rmult_lt_0_compat; lra).
  assert (E : (hap - h0) / xap * 1 + h0 = hap - (h0 - hap) * / xap * (1 - xap)) by (field; lra).
  split.
  - apply Rle_lt_trans with (hap + (hap - h0) / (1 - xap) * xap).
    + match goal with |- ?u - Rmax (?u - ?d) 0 <= _ => pose proof (Rmax_l (u - d) 0) end. unfold Rdiv in *. lra.
    + unfold Rdiv. lra.
  - rewrite E. match goal with |- ?u - Rmax ?v 0 < _ => pose proof (Rmax_r v 0) end. lra.
Qed.
Lemma volume_lemma B L h0 hap : 0 < L -> V_tot B L h0 hap = B * L * ((h0 + hap) / 2).
Proof. intros P. unfold V_tot. rewrite tan_atan. field. lra. Qed.
Lemma maha_lemma h0 alpha xap L : 0 < L -> 0 < xap < 1 -> 0 <= alpha < PI / 2 ->
  maha_h h0 alpha xap L 0 = h0 / cos alpha /\ maha_h h0 alpha xap L 1 = h0 / cos alpha /\
  maha_h h0 alpha xap L xap = (h0 + xap * L * tan alpha) / cos alpha /\
  (forall x, 0 <= x <= 1 -> h0 / cos alpha <= maha_h h0 alpha xap L x <= (h0 + xap * L * tan alpha) / cos alpha).
Proof.
  intros PL X A. assert (C : 0 < cos alpha) by (apply cos_gt_0; lra).
  assert (T : 0 <= tan alpha). { destruct (Req_dec alpha 0) as [->|N]; [rewrite tan_0; lra|]. left. apply tan_gt_0; lra. }
  assert (B : L * tan alpha / (L - xap * L) = tan alpha / (1 - xap)) by (field; split; nra).
  unfold maha_h. rewrite !tan_atan, B. set (tb := tan alpha / (1 - xap)).
  assert (TB : tb * (1 - xap) = tan alpha) by (unfold tb; field; lra).
  assert (P : 0 <= tb) by (unfold tb; apply Rmult_le_pos; [auto|left; apply Rinv_0_lt_compat; lra]).
  assert (LT : 0 <= L * tan alpha) by nra. assert (LB : 0 <= L * tb) by nra.
  assert (DM : forall a b, a <= b -> a / cos alpha <= b / cos alpha) by (intros; apply Rmult_le_compat_r; [left; apply Rinv_0_lt_compat; lra|lra]).
  split; [|split; [|split]].
  - rewrite Rmax_left by nra. field. lra.
  - rewrite Rmax_right by nra. replace (1 * L * tb - xap * L * tb) with (L * (tb * (1 - xap))) by ring. rewrite TB. field. lra.
  - rewrite Rmax_left by nra. field. lra.
  - intros x X'. unfold Rdiv. rewrite <- Rmult_minus_distr_r. fold (Rdiv h0 (cos alpha)).
    match goal with |- _ <= ?a * / cos alpha <= ?b * / cos alpha => fold (Rdiv a (cos alpha)); fold (Rdiv b (cos alpha)) end.
    assert (X1 : 0 <= xap * (1 - x)) by nra.
    destruct (Rle_dec x xap) as [Lx|Lx].
    + assert (0 <= (xap - x) * (L * tb)) by (apply Rmult_le_pos; lra). assert (0 <= (xap - x) * (L * tan alpha)) by (apply Rmult_le_pos; lra).
      assert (0 <= x * (L * tan alpha)) by (apply Rmult_le_pos; lra).
      rewrite Rmax_left by lra. split; apply DM; lra.
    + assert (0 <= (x - xap) * (L * tb)) by (apply Rmult_le_pos; lra).
      rewrite Rmax_right by lra.
      assert (EQ : tan alpha * (x * L) - (x * L * tb - xap * L * tb) = L * tb * (xap * (1 - x))) by (rewrite <- TB; ring).
      assert (0 <= L * tb * (xap * (1 - x))) by (apply Rmult_le_pos; auto).
      assert (EQ2 : xap * L * tan alpha - L * tb * (xap * (1 - x)) = xap * ((x - xap) * (L * tb))) by (rewrite <- TB; ring).
      assert (0 <= xap * ((x - xap) * (L * tb))) by (apply Rmult_le_pos; lra). split; apply DM; lra.
Qed.
Lemma maha_end_lemma h0 alpha xap L : 0 < L -> 0 < xap < 1 -> 0 < alpha < PI / 2 -> 0 < h0 -> h0 < maha_h h0 alpha xap L 0.
Proof.
  intros PL X A H. destruct (maha_lemma h0 alpha xap L PL X ltac:(lra)) as (E & _). rewrite E.
  assert (C : 0 < cos alpha) by (apply cos_gt_0; lra). assert (C1 : cos alpha < 1). { rewrite <- cos_0. apply cos_decreasing_1; lra. }
  apply Rmult_lt_reg_r with (cos alpha); [auto|]. unfold Rdiv. rewrite Rmult_assoc, Rinv_l by lra. nra.
Qed.

(* ------------------------------------------------------------ curved beams *)
Lemma sin_mono a b : 0 <= a -> a <= b -> b < PI / 2 -> 0 <= sin a <= sin b.
Proof.
  intros A AB B. split; [apply sin_ge_0; lra|]. destruct (Req_dec a b) as [->|N]; [lra|]. left. apply sin_increasing_1; lra.
Qed.
(** Height of an arc at its ends. *)
Lemma arc_root r a : 0 < r -> 0 <= a < PI / 2 -> sqrt (r ^ 2 - (r * sin a) ^ 2) = r * cos a.
Proof.
  intros P A. assert (C : 0 < cos a) by (apply cos_gt_0; lra).
  replace (r ^ 2 - (r * sin a) ^ 2) with ((r * cos a) * (r * cos a)).
  - apply sqrt_square. nra.
  - pose proof (sin2_cos2 a) as S2. unfold Rsqr in S2. replace (r ^ 2 - (r * sin a) ^ 2) with (r ^ 2 * (1 - sin a * sin a)) by ring. rewrite <- S2. ring.
Qed.
Lemma arc_end1 L r a c : 0 < r -> 0 <= a < PI / 2 -> f56 L r a c (arc_x1 L r a) = tan a * arc_x1 L r a + c.
Proof. intros P A. unfold f56, arc_x1, arc_y. replace (L / 2 - (L / 2 - r * sin a)) with (r * sin a) by ring. rewrite arc_root by auto. field. Qed.
Lemma arc_end2 L r a c : 0 < r -> 0 <= a < PI / 2 -> f56 L r a c (arc_x2 L r a) = tan a * (L - arc_x2 L r a) + c.
Proof.
  intros P A. unfold f56, arc_x2, arc_y. replace (L / 2 - (L / 2 - r * sin a + 2 * (r * sin a))) with (- (r * sin a)) by ring.
  replace ((- (r * sin a)) ^ 2) with ((r * sin a) ^ 2) by ring. rewrite arc_root by auto. field.
Qed.
Lemma arc_sym L r a c x : f56 L r a c (L - x) = f56 L r a c x.
Proof. unfold f56. replace ((L / 2 - (L - x)) ^ 2) with ((L / 2 - x) ^ 2) by field. reflexivity. Qed.
(** The edge of a curved beam: line, arc, line. *)
Definition edge_y (L r a c x : R) : R :=
  if Rle_dec x (arc_x1 L r a) then tan a * x + c
  else if Rle_dec x (arc_x2 L r a) then f56 L r a c x else tan a * (L - x) + c.
Lemma edge_sym L r a c x : 0 < r -> 0 <= a < PI / 2 -> edge_y L r a c (L - x) = edge_y L r a c x.
Proof.
  intros P A. assert (SN : 0 <= sin a) by (apply sin_ge_0; lra). assert (X2 : arc_x2 L r a = L - arc_x1 L r a) by (unfold arc_x2, arc_x1; field).
  assert (X1 : arc_x1 L r a <= L / 2) by (unfold arc_x1; nra).
  pose proof (arc_end1 L r a c P A) as E1. pose proof (arc_end2 L r a c P A) as E2.
  unfold edge_y. rewrite X2 in *. rewrite arc_sym. destruct (Rle_dec (L - x) (arc_x1 L r a)); destruct (Rle_dec x (arc_x1 L r a));
  destruct (Rle_dec (L - x) (L - arc_x1 L r a)); destruct (Rle_dec x (L - arc_x1 L r a)); try lra.
  all: try (ring); try (replace (L - x) with x by lra; reflexivity); try (replace x with (L - arc_x1 L r a) by lra; rewrite E2; ring);
    try (replace x with (arc_x1 L r a) by lra; rewrite E1; ring); try (exfalso; lra).
Qed.
Lemma edge_cases L r a c y : 0 < r -> 0 <= a < PI / 2 ->
  (y <= arc_x1 L r a -> edge_y L r a c y = tan a * y + c) /\
  (arc_x1 L r a <= y <= arc_x2 L r a -> edge_y L r a c y = f56 L r a c y) /\
  (arc_x2 L r a <= y -> edge_y L r a c y = tan a * (L - y) + c).
Proof.
  intros P A. pose proof (arc_end1 L r a c P A) as E1. pose proof (arc_end2 L r a c P A) as E2.
  assert (SN : 0 <= sin a) by (apply sin_ge_0; lra). assert (O : arc_x1 L r a <= arc_x2 L r a) by (unfold arc_x1, arc_x2; nra).
  unfold edge_y. repeat split; intros H; repeat destruct Rle_dec; try lra; try reflexivity.
  - replace y with (arc_x1 L r a) by lra. rewrite E1. reflexivity.
  - assert (Q : arc_x1 L r a = arc_x2 L r a) by lra. replace y with (arc_x2 L r a) by lra. rewrite <- E2, <- Q, E1. reflexivity.
  - replace y with (arc_x2 L r a) by lra. rewrite E2. reflexivity.
Qed.
Lemma kaareva_edges L h0 alpha beta r x : arc_ok L h0 alpha beta r -> 0 <= x <= 1 ->
  kaareva_h L h0 alpha beta r x = edge_y L r alpha h0 (x * L) - edge_y L r beta 0 (x * L).
Proof.
  intros [PL PR PB PBA PA FIT] X. destruct (sin_mono beta alpha) as [S0 S1]; auto.
  assert (Y : 0 <= x * L <= L) by nra. unfold kaareva_h. set (y := x * L) in *. clearbody y.
  destruct (edge_cases L r alpha h0 y PR ltac:(lra)) as (U1 & U2 & U3). destruct (edge_cases L r beta 0 y PR ltac:(lra)) as (D1 & D2 & D3).
  assert (O1 : arc_x1 L r alpha <= arc_x1 L r beta) by (unfold arc_x1; nra).
  assert (O2 : arc_x1 L r beta <= arc_x2 L r beta) by (unfold arc_x1, arc_x2; nra).
  assert (O3 : arc_x2 L r beta <= arc_x2 L r alpha) by (unfold arc_x2; nra).
  destruct (Rltb y (arc_x1 L r alpha)) eqn:E1; [apply Rltb_true in E1|apply Rltb_false in E1].
  { destruct (Rleb 0 y) eqn:E; [|apply Rleb_false in E; lra]. cbn [andb]. rewrite U1, D1 by lra. unfold f1, f2. ring. }
  rewrite Bool.andb_false_r. destruct (Rleb (arc_x1 L r alpha) y) eqn:E1'; [|apply Rleb_false in E1'; lra].
  destruct (Rltb y (arc_x1 L r beta)) eqn:E2; [apply Rltb_true in E2|apply Rltb_false in E2]; cbn [andb].
  { rewrite U2, D1 by lra. unfold f2. ring. }
  destruct (Rleb (arc_x1 L r beta) y) eqn:E2'; [|apply Rleb_false in E2'; lra].
  destruct (Rltb y (arc_x2 L r beta)) eqn:E3; [apply Rltb_true in E3|apply Rltb_false in E3]; cbn [andb].
  { rewrite U2, D2 by lra. reflexivity. }
  destruct (Rleb (arc_x2 L r beta) y) eqn:E3'; [|apply Rleb_false in E3'; lra].
  destruct (Rltb y (arc_x2 L r alpha)) eqn:E4; [apply Rltb_true in E4|apply Rltb_false in E4]; cbn [andb].
  { rewrite U2, D3 by lra. unfold f4. field. }
  rewrite U3, D3 by lra. unfold f3, f4. field.
Qed.
Lemma kaarevaharja_edges L h0 alpha beta r x : arc_ok L h0 alpha beta r -> 0 <= x <= 1 ->
  kaarevaharja_h L h0 alpha beta r x = (h0 + tan alpha * Rmin (x * L) (L - x * L)) - edge_y L r beta 0 (x * L).
Proof.
  intros [PL PR PB PBA PA FIT] X. destruct (sin_mono beta alpha) as [S0 S1]; auto.
  assert (Y : 0 <= x * L <= L) by nra. unfold kaarevaharja_h. set (y := x * L) in *. clearbody y.
  destruct (edge_cases L r beta 0 y PR ltac:(lra)) as (D1 & D2 & D3).
  assert (X2 : arc_x2 L r beta = L / 2 + r * sin beta) by (unfold arc_x2; field). rewrite <- X2.
  assert (O1 : arc_x1 L r beta <= L / 2) by (unfold arc_x1; nra). assert (O2 : L / 2 <= arc_x2 L r beta) by (unfold arc_x2; nra).
  destruct (Rltb y (arc_x1 L r beta)) eqn:E2; [apply Rltb_true in E2|apply Rltb_false in E2].
  { destruct (Rleb 0 y) eqn:E; [|apply Rleb_false in E; lra]. cbn [andb]. rewrite D1, Rmin_left by lra. unfold f1, f2. ring. }
  rewrite Bool.andb_false_r. destruct (Rleb (arc_x1 L r beta) y) eqn:E2'; [|apply Rleb_false in E2'; lra].
  destruct (Rltb y (L / 2)) eqn:E3; [apply Rltb_true in E3|apply Rltb_false in E3]; cbn [andb].
  { rewrite D2, Rmin_left by lra. unfold f1. ring. }
  destruct (Rleb (L / 2) y) eqn:E3'; [|apply Rleb_false in E3'; lra].
  destruct (Rltb y (arc_x2 L r beta)) eqn:E4; [apply Rltb_true in E4|apply Rltb_false in E4]; cbn [andb].
  { rewrite D2, Rmin_right by lra. unfold f3. ring. }
  rewrite D3, Rmin_right by lra. unfold f3, f4. field.
Qed.
(** A point of the arc by its angle. *)
Lemma arc_point L r a c y b : 0 < r -> 0 <= b < PI / 2 -> y = L / 2 - r * sin b -> f56 L r a c y = r * cos b + arc_y L r a c.
Proof. intros P B ->. unfold f56. replace (L / 2 - (L / 2 - r * sin b)) with (r * sin b) by ring. rewrite arc_root by auto. reflexivity. Qed.
Lemma angle_of L r a y : 0 < r -> 0 <= a < PI / 2 -> arc_x1 L r a <= y <= L / 2 -> exists b, 0 <= b <= a /\ y = L / 2 - r * sin b.
Proof.
  intros P A Y. unfold arc_x1 in Y. set (q := (L / 2 - y) / r).
  assert (Q : 0 <= q <= sin a) by (unfold q; split; [apply le_div_iff; lra|apply div_le_iff; lra]).
  assert (SA : sin a < 1). { rewrite <- sin_PI2. apply sin_increasing_1; lra. }
  exists (asin q). assert (SQ : sin (asin q) = q) by (apply sin_asin; lra). pose proof (asin_bound q) as AB.
  assert (R1 : r * q = L / 2 - y) by (unfold q; field; lra).
  split; [|rewrite SQ; lra]. split.
  - destruct (Rle_dec 0 (asin q)) as [|N]; [auto|]. exfalso. assert (sin (asin q) < 0). { apply sin_lt_0_var; lra. } lra.
  - destruct (Rle_dec (asin q) a) as [|N]; [auto|]. exfalso. assert (sin a < sin (asin q)) by (apply sin_increasing_1; lra). lra.
Qed.
(** The arc lies below its tangent of slope tan b, and its distance from a flatter line grows. *)
Lemma arc_tangent L r a b y : 0 < r -> 0 <= b <= a -> a < PI / 2 -> arc_x1 L r a <= y <= L / 2 ->
  (y <= arc_x1 L r b -> f56 L r a 0 (arc_x1 L r a) - tan b * arc_x1 L r a <= f56 L r a 0 y - tan b * y) /\
  (b = a -> f56 L r a 0 y <= tan b * y).
Proof.
  intros P B A Y. destruct (angle_of L r a y P ltac:(lra) Y) as (t & T & E).
  assert (CB : 0 < cos b) by (apply cos_gt_0; lra). assert (CA : 0 < cos a) by (apply cos_gt_0; lra).
  assert (TB : tan b * cos b = sin b) by (unfold tan; field; lra).
  rewrite (arc_point L r a 0 y t P ltac:(lra) E), (arc_point L r a 0 (arc_x1 L r a) a P ltac:(lra) eq_refl).
  split.
  - intros YB. assert (TB' : b <= t).
    { destruct (Rle_dec b t) as [|N]; [auto|]. exfalso. assert (sin t < sin b) by (apply sin_increasing_1; lra). unfold arc_x1 in YB. nra. }
    assert (C : cos (a - b) <= cos (t - b)). { destruct (Req_dec a t) as [->|N]; [lra|]. left. apply cos_decreasing_1; lra. }
    rewrite !cos_minus in C. unfold arc_x1. rewrite E.
    assert (K : 0 <= r * ((cos t - cos a) * cos b - sin b * (sin a - sin t))) by (apply Rmult_le_pos; lra).
    assert (K2 : 0 <= r * ((cos t - cos a) - tan b * (sin a - sin t))).
    { apply Rmult_le_reg_r with (cos b); [auto|]. rewrite Rmult_0_l. replace (r * (cos t - cos a - tan b * (sin a - sin t)) * cos b) with (r * ((cos t - cos a) * cos b - (tan b * cos b) * (sin a - sin t))) by ring. rewrite TB. exact K. }
    lra.
  - intros ->. unfold arc_y. rewrite E. pose proof (COS_bound (t - a)) as [_ C]. rewrite cos_minus in C.
    assert (TA : tan a * cos a = sin a) by (unfold tan; field; lra).
    pose proof (sin2_cos2 a) as S2. unfold Rsqr in S2.
    assert (K : 0 <= r * (1 - (cos t * cos a + sin t * sin a))) by (apply Rmult_le_pos; lra).
    assert (K2 : 0 <= r * (cos a - cos t + tan a * (sin a - sin t))).
    { apply Rmult_le_reg_r with (cos a); [auto|]. rewrite Rmult_0_l.
      replace (r * (cos a - cos t + tan a * (sin a - sin t)) * cos a) with (r * ((cos a - cos t) * cos a + (tan a * cos a) * (sin a - sin t))) by ring. rewrite TA.
      replace (r * ((cos a - cos t) * cos a + sin a * (sin a - sin t))) with (r * ((sin a * sin a + cos a * cos a) - (cos t * cos a + sin t * sin a))) by ring. rewrite S2. exact K. }
    lra.
Qed.
Lemma f56_shift L r a c y : f56 L r a c y = f56 L r a 0 y + c.
Proof. unfold f56, arc_y. ring. Qed.
Lemma tan_le a b : 0 <= b <= a -> a < PI / 2 -> tan b <= tan a.
Proof. intros H K. destruct (Req_dec a b) as [->|N]; [lra|]. left. apply tan_increasing; lra. Qed.
Lemma kaareva_lemma L h0 alpha beta r : arc_ok L h0 alpha beta r ->
  kaareva_h L h0 alpha beta r 0 = h0 /\ kaareva_h L h0 alpha beta r 1 = h0 /\
  (forall x, 0 <= x <= 1 -> kaareva_h L h0 alpha beta r (1 - x) = kaareva_h L h0 alpha beta r x) /\
  (forall x, 0 <= x <= 1 -> h0 <= kaareva_h L h0 alpha beta r x) /\
  (forall x, L / 2 - r * sin beta <= x * L <= L / 2 + r * sin beta -> 0 <= x <= 1 ->
     kaareva_h L h0 alpha beta r x = kaareva_h L h0 alpha beta r (1/2)).
Proof.
  intros OK. pose proof OK as [PL PR PB PBA PA FIT]. destruct (sin_mono beta alpha) as [S0 S1]; auto.
  assert (O1 : arc_x1 L r alpha <= arc_x1 L r beta) by (unfold arc_x1; nra).
  assert (O2 : arc_x1 L r beta <= L / 2 <= arc_x2 L r beta) by (unfold arc_x1, arc_x2; split; nra).
  assert (SYM : forall x, 0 <= x <= 1 -> kaareva_h L h0 alpha beta r (1 - x) = kaareva_h L h0 alpha beta r x).
  { intros x X. rewrite !kaareva_edges by (auto; lra). replace ((1 - x) * L) with (L - x * L) by ring. rewrite !edge_sym by lra. reflexivity. }
  assert (E0 : kaareva_h L h0 alpha beta r 0 = h0).
  { rewrite kaareva_edges by (auto; lra). destruct (edge_cases L r alpha h0 (0 * L) PR ltac:(lra)) as (U1 & _). destruct (edge_cases L r beta 0 (0 * L) PR ltac:(lra)) as (D1 & _).
    rewrite U1, D1 by (unfold arc_x1 in *; lra). ring. }
  split; [exact E0|]. split; [rewrite <- E0 at 2; rewrite <- (SYM 0) by lra; f_equal; lra|]. split; [exact SYM|].
  assert (HALF : forall x, 0 <= x <= 1/2 -> h0 <= kaareva_h L h0 alpha beta r x).
  { intros x X. rewrite kaareva_edges by (auto; lra). assert (Y : 0 <= x * L <= L / 2) by nra. set (y := x * L) in *. clearbody y.
    destruct (edge_cases L r alpha h0 y PR ltac:(lra)) as (U1 & U2 & _). destruct (edge_cases L r beta 0 y PR ltac:(lra)) as (D1 & D2 & _).
    pose proof (tan_le alpha beta ltac:(lra) PA) as TL.
    assert (START : forall z, 0 <= z -> z <= arc_x1 L r alpha -> h0 <= tan alpha * z + h0 - tan beta * z) by (intros; nra).
    assert (X1 : 0 <= arc_x1 L r alpha) by (unfold arc_x1; lra).
    assert (MID : forall z, arc_x1 L r alpha <= z -> z <= arc_x1 L r beta -> h0 <= f56 L r alpha h0 z - tan beta * z).
    { intros z Z1 Z2. destruct (arc_tangent L r alpha beta z PR ltac:(lra) PA ltac:(lra)) as [K _]. specialize (K Z2).
      rewrite (f56_shift L r alpha h0 z). rewrite (arc_end1 L r alpha 0 PR ltac:(lra)) in K. specialize (START (arc_x1 L r alpha) X1 ltac:(lra)). lra. }
    destruct (Rle_dec y (arc_x1 L r alpha)) as [C|C].
    - rewrite U1, D1 by lra. specialize (START y ltac:(lra) C). lra.
    - destruct (Rle_dec y (arc_x1 L r beta)) as [C2|C2].
      + rewrite U2, D1 by (unfold arc_x2 in *; nra). specialize (MID y ltac:(lra) C2). lra.
      + rewrite U2, D2 by (unfold arc_x2 in *; nra). specialize (MID (arc_x1 L r beta) O1 ltac:(lra)).
        pose proof (arc_end1 L r beta 0 PR ltac:(lra)) as B1. rewrite (f56_shift L r beta 0) in *. unfold f56 in *. lra. }
  split.
  - intros x X. destruct (Rle_dec x (1/2)); [apply HALF; lra|]. rewrite <- SYM by lra. apply HALF. lra.
  - intros x Y X. rewrite !kaareva_edges by (auto; lra).
    assert (Z1 : arc_x1 L r beta <= x * L <= arc_x2 L r beta) by (unfold arc_x1, arc_x2; lra).
    assert (Z2 : arc_x1 L r beta <= 1 / 2 * L <= arc_x2 L r beta) by lra.
    assert (O3 : arc_x2 L r beta <= arc_x2 L r alpha) by (unfold arc_x2; nra).
    destruct (edge_cases L r alpha h0 (x * L) PR ltac:(lra)) as (_ & U2 & _). destruct (edge_cases L r beta 0 (x * L) PR ltac:(lra)) as (_ & D2 & _).
    destruct (edge_cases L r alpha h0 (1 / 2 * L) PR ltac:(lra)) as (_ & U2' & _). destruct (edge_cases L r beta 0 (1 / 2 * L) PR ltac:(lra)) as (_ & D2' & _).
    rewrite U2, D2, U2', D2' by lra. unfold f56. ring.
Qed.
Lemma kaarevaharja_lemma L h0 alpha beta r : arc_ok L h0 alpha beta r ->
  kaarevaharja_h L h0 alpha beta r 0 = h0 /\ kaarevaharja_h L h0 alpha beta r 1 = h0 /\
  (forall x, 0 <= x <= 1 -> kaarevaharja_h L h0 alpha beta r (1 - x) = kaarevaharja_h L h0 alpha beta r x) /\
  (forall x, 0 <= x <= 1 -> h0 <= kaarevaharja_h L h0 alpha beta r x).
Proof.
  intros OK. pose proof OK as [PL PR PB PBA PA FIT]. destruct (sin_mono beta alpha) as [S0 S1]; auto.
  assert (O1 : arc_x1 L r alpha <= arc_x1 L r beta) by (unfold arc_x1; nra).
  assert (SYM : forall x, 0 <= x <= 1 -> kaarevaharja_h L h0 alpha beta r (1 - x) = kaarevaharja_h L h0 alpha beta r x).
  { intros x X. rewrite !kaarevaharja_edges by (auto; lra). replace ((1 - x) * L) with (L - x * L) by ring. rewrite !edge_sym by lra.
    replace (L - (L - x * L)) with (x * L) by ring. rewrite Rmin_comm. reflexivity. }
  assert (E0 : kaarevaharja_h L h0 alpha beta r 0 = h0).
  { rewrite kaarevaharja_edges by (auto; lra). destruct (edge_cases L r beta 0 (0 * L) PR ltac:(lra)) as (D1 & _).
    rewrite D1 by (unfold arc_x1 in *; lra). rewrite Rmin_left by lra. ring. }
  split; [exact E0|]. split; [rewrite <- E0 at 2; rewrite <- (SYM 0) by lra; f_equal; lra|]. split; [exact SYM|].
  assert (HALF : forall x, 0 <= x <= 1/2 -> h0 <= kaarevaharja_h L h0 alpha beta r x).
  { intros x X. rewrite kaarevaharja_edges by (auto; lra). assert (Y : 0 <= x * L <= L / 2) by nra. set (y := x * L) in *. clearbody y.
    destruct (edge_cases L r beta 0 y PR ltac:(lra)) as (D1 & D2 & _). pose proof (tan_le alpha beta ltac:(lra) PA) as TL.
    rewrite Rmin_left by lra. assert (0 <= (tan alpha - tan beta) * y) by (apply Rmult_le_pos; lra).
    destruct (Rle_dec y (arc_x1 L r beta)) as [C|C].
    - rewrite D1 by lra. lra.
    - rewrite D2 by (unfold arc_x2 in *; nra). destruct (arc_tangent L r beta beta y PR ltac:(lra) ltac:(lra) ltac:(lra)) as [_ K]. specialize (K eq_refl). lra. }
  intros x X. destruct (Rle_dec x (1/2)); [apply HALF; lra|]. rewrite <- SYM by lra. apply HALF. lra.
Qed.
Lemma elements_lemma h n : length (element_heights h n) = n /\
  forall i, (i < n)%nat -> nth i (element_heights h n) 0 = h ((INR i + 1/2) / INR n) /\ 0 < (INR i + 1/2) / INR n < 1.
Proof.
  unfold element_heights. split; [rewrite map_length, seq_length; reflexivity|]. intros i Hi.
  assert (P : 0 < INR n) by (apply lt_0_INR; lia). assert (Q : INR i + 1 <= INR n) by (rewrite <- S_INR; apply le_INR; lia). pose proof (pos_INR i).
  split.
  - rewrite (nth_indep _ 0 (h (INR 0 * (1 / INR n) + 1/2 * (1 / INR n)))) by (rewrite map_length, seq_length; auto).
    rewrite (map_nth (fun i => h (INR i * (1 / INR n) + 1/2 * (1 / INR n)))), seq_nth by auto. f_equal. cbn [Nat.add]. field. lra.
  - split; [apply Rdiv_lt_0_compat; lra|]. apply Rmult_lt_reg_r with (INR n); [auto|]. unfold Rdiv. rewrite Rmult_assoc, Rinv_l by lra. lra.
Qed.
