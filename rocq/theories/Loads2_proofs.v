From Verif Require Import Sections_proofs Plate_proofs.
From Verif Require Import Loads_spec Loads_proofs.
Require Import Psatz.

Lemma interpolate_lemma x0 x1 y0 y1 : x0 < x1 ->
  interpolate x0 x1 y0 y1 x0 = Some y0 /\ interpolate x0 x1 y0 y1 x1 = Some y1 /\
  (forall x, exists y, interpolate x0 x1 y0 y1 x = Some y /\ (y - y0) * (x1 - x0) = (y1 - y0) * (x - x0)) /\
  (forall x y, x0 <= x <= x1 -> interpolate x0 x1 y0 y1 x = Some y -> Rmin y0 y1 <= y <= Rmax y0 y1) /\
  (forall a b ya yb, a <= b -> interpolate x0 x1 y0 y1 a = Some ya -> interpolate x0 x1 y0 y1 b = Some yb ->
     (y0 <= y1 -> ya <= yb) /\ (y1 <= y0 -> yb <= ya)).
Proof.
  intros X. assert (N : x1 - x0 <> 0) by lra.
  assert (E : forall x, interpolate x0 x1 y0 y1 x = Some (y0 + (y1 - y0) / (x1 - x0) * (x - x0))).
  { intros x. unfold interpolate. rewrite (pdiv_ok _ _ N). reflexivity. }
  assert (MON : forall a b, a <= b -> (y0 <= y1 -> y0 + (y1 - y0) / (x1 - x0) * (a - x0) <= y0 + (y1 - y0) / (x1 - x0) * (b - x0)) /\
     (y1 <= y0 -> y0 + (y1 - y0) / (x1 - x0) * (b - x0) <= y0 + (y1 - y0) / (x1 - x0) * (a - x0))).
  { intros a b AB. split; intros Y.
    - apply Rplus_le_compat_l, Rmult_le_compat_l; [|lra]. unfold Rdiv. apply Rmult_le_pos; [lra|left; apply Rinv_0_lt_compat; lra].
    - assert (0 <= (y0 - y1) / (x1 - x0)) by (unfold Rdiv; apply Rmult_le_pos; [lra|left; apply Rinv_0_lt_compat; lra]).
      replace ((y1 - y0) / (x1 - x0)) with (- ((y0 - y1) / (x1 - x0))) by (field; lra).
      assert ((y0 - y1) / (x1 - x0) * (a - x0) <= (y0 - y1) / (x1 - x0) * (b - x0)) by (apply Rmult_le_compat_l; lra). lra. }
  assert (E0 : y0 + (y1 - y0) / (x1 - x0) * (x0 - x0) = y0) by ring.
  assert (E1 : y0 + (y1 - y0) / (x1 - x0) * (x1 - x0) = y1) by (field; lra).
  repeat split.
  - rewrite E, E0. reflexivity.
  - rewrite E, E1. reflexivity.
  - intros x. rewrite E. eexists. split; [reflexivity|]. field. lra.
  - rewrite E in H0. injection H0 as <-. destruct (MON x0 x) as [M1 M2]; [lra|]. destruct (MON x x1) as [M3 M4]; [lra|].
    rewrite E0 in *. rewrite E1 in *. unfold Rmin. destruct (Rle_dec y0 y1); [apply M1; auto|apply M4; lra].
  - rewrite E in H0. injection H0 as <-. destruct (MON x0 x) as [M1 M2]; [lra|]. destruct (MON x x1) as [M3 M4]; [lra|].
    rewrite E0 in *. rewrite E1 in *. unfold Rmax. destruct (Rle_dec y0 y1); [apply M3; auto|apply M2; lra].
  - rewrite E in *. injection H0 as <-. injection H1 as <-. apply MON; auto.
  - rewrite E in *. injection H0 as <-. injection H1 as <-. apply MON; auto.
Qed.
Lemma interpolate_equal_lemma x0 y0 y1 x : interpolate x0 x0 y0 y1 x = None.
Proof. unfold interpolate, pdiv. replace (x0 - x0) with 0 by ring. destruct (Reqb 0 0) eqn:E; [reflexivity|apply Reqb_false in E; lra]. Qed.

(* ------------------------------------------------------------ wind *)
Lemma terrain_facts cat z0 zmin : terrain cat = Some (z0, zmin) -> 0 < z0 /\ z0 < zmin.
Proof. destruct cat as [|[|[|[|[|]]]]]; intros E; try discriminate; injection E as <- <-; lra. Qed.
Lemma kr_pos cat z0 : 0 < kr cat z0.
Proof. unfold kr. destruct cat; [lra|]. apply Rmult_lt_0_compat; [lra|]. unfold Rpower. apply exp_pos. Qed.

Definition Lz (z0 zmin z : R) : R := ln (Rmax zmin z / z0).
Lemma Lz_pos z0 zmin z : 0 < z0 -> z0 < zmin -> 0 < Lz z0 zmin z.
Proof.
  intros. unfold Lz. rewrite <- ln_1. apply ln_increasing; [lra|]. apply Rmult_lt_reg_r with z0; auto.
  unfold Rdiv. rewrite Rmult_assoc, Rinv_l by lra. pose proof (Rmax_l zmin z). lra.
Qed.
Lemma Lz_mono z0 zmin z z' : 0 < z0 -> z0 < zmin -> z <= z' -> Lz z0 zmin z <= Lz z0 zmin z'.
Proof.
  intros. unfold Lz. assert (P : 0 < Rmax zmin z) by (pose proof (Rmax_l zmin z); lra).
  assert (Q : Rmax zmin z / z0 <= Rmax zmin z' / z0).
  { unfold Rdiv. apply Rmult_le_compat_r; [left; apply Rinv_0_lt_compat; auto|]. apply Rle_max_compat_l. auto. }
  destruct (Rle_lt_or_eq_dec _ _ Q) as [L|E]; [left; apply ln_increasing; auto|rewrite E; lra].
  unfold Rdiv. apply Rmult_lt_0_compat; [auto|apply Rinv_0_lt_compat; auto].
Qed.

Lemma peak_lemma z cat vb z0 zmin : terrain cat = Some (z0, zmin) ->
  exists q L, peak_velocity_pressure z cat vb = Some q /\ 0 < L /\ exp L = Rmax zmin z / z0 /\ q = qp_formula (kr cat z0) L vb.
Proof.
  intros T. destruct (terrain_facts _ _ _ T) as [A B]. pose proof (Lz_pos z0 zmin z A B) as P.
  unfold peak_velocity_pressure, turbulence_intensity, mean_wind_velocity, terrain_roughness. rewrite T. cbn [bind].
  fold (Lz z0 zmin z). rewrite pdiv_ok by lra. cbn [bind]. eexists. exists (Lz z0 zmin z). split; [reflexivity|]. split; [auto|].
  split; [unfold Lz; apply exp_ln; unfold Rdiv; apply Rmult_lt_0_compat; [pose proof (Rmax_l zmin z); lra|apply Rinv_0_lt_compat; auto]|].
  unfold qp_formula. field. lra.
Qed.

Lemma qp_mono k L L' v v' : 0 < L -> L <= L' -> 0 <= v -> v <= v' -> qp_formula k L v <= qp_formula k L' v'.
Proof.
  intros. unfold qp_formula.
  assert (L ^ 2 <= L' ^ 2) by (apply pow_incr; lra). assert (v ^ 2 <= v' ^ 2) by (apply pow_incr; lra).
  assert (0 <= k ^ 2) by apply pow2_ge_0. assert (0 <= v ^ 2) by apply pow2_ge_0. assert (0 <= L ^ 2) by apply pow2_ge_0.
  apply Rmult_le_compat; [apply Rmult_le_pos; [lra|auto]|lra| |lra].
  apply Rmult_le_compat_r; lra.
Qed.

Lemma peak_mono_lemma z z' cat vb vb' q q' : z <= z' -> 0 <= vb <= vb' ->
  peak_velocity_pressure z cat vb = Some q -> peak_velocity_pressure z' cat vb' = Some q' -> 0 <= q <= q' /\ (0 < vb -> 0 < q).
Proof.
  intros Z V E E'.
  assert (T : exists z0 zmin, terrain cat = Some (z0, zmin)).
  { destruct (terrain cat) as [[a b]|] eqn:T; eauto. exfalso. unfold peak_velocity_pressure, turbulence_intensity in E. rewrite T in E. discriminate. }
  destruct T as (z0 & zmin & T). destruct (terrain_facts _ _ _ T) as [A B].
  destruct (peak_lemma z cat vb z0 zmin T) as (q1 & L & E1 & LP & EL & Q). rewrite E in E1. injection E1 as <-.
  destruct (peak_lemma z' cat vb' z0 zmin T) as (q2 & L2 & E2 & LP2 & EL2 & Q2). rewrite E' in E2. injection E2 as <-.
  assert (LL : L <= L2).
  { destruct (Rle_lt_dec L L2) as [X|X]; auto. apply exp_increasing in X. rewrite EL, EL2 in X. exfalso.
    assert (Rmax zmin z / z0 <= Rmax zmin z' / z0); [|lra].
    unfold Rdiv. apply Rmult_le_compat_r; [left; apply Rinv_0_lt_compat; auto|]. apply Rle_max_compat_l. auto. }
  pose proof (kr_pos cat z0) as K. subst q q'. split; [split|].
  - unfold qp_formula. assert (0 <= L ^ 2) by apply pow2_ge_0. repeat apply Rmult_le_pos; try lra; try apply pow2_ge_0.
  - apply qp_mono; lra.
  - intros vp. unfold qp_formula. assert (0 <= L ^ 2) by apply pow2_ge_0. repeat apply Rmult_lt_0_compat; try lra; apply pow_lt; auto.
Qed.
Lemma peak_low_lemma z z' cat vb z0 zmin : terrain cat = Some (z0, zmin) -> z <= zmin -> z' <= zmin ->
  peak_velocity_pressure z cat vb = peak_velocity_pressure z' cat vb.
Proof.
  intros T Z Z'. unfold peak_velocity_pressure, turbulence_intensity, mean_wind_velocity, terrain_roughness. rewrite T. cbn [bind].
  rewrite !Rmax_left by lra. reflexivity.
Qed.
Lemma peak_cat_lemma z cat vb : peak_velocity_pressure z cat vb = None <-> (4 < cat)%nat.
Proof.
  split.
  - intros E. destruct (terrain cat) as [[z0 zmin]|] eqn:T; [destruct (peak_lemma z cat vb z0 zmin T) as (q & L & E2 & _); congruence|].
    destruct cat as [|[|[|[|[|]]]]]; try discriminate. lia.
  - intros H. unfold peak_velocity_pressure, turbulence_intensity. destruct cat as [|[|[|[|[|]]]]]; try lia. reflexivity.
Qed.

Lemma walls_lemma b d h : 0 < b -> 0 < d -> 0 < h ->
  let w := wall_pressure b d h in
  len_A w + len_B w + len_C w = d /\ 0 < len_A w /\ 0 <= len_B w /\ 0 <= len_C w /\
  len_A w <= wind_e b h / 5 /\ len_A w + len_B w <= wind_e b h.
Proof.
  intros B D H. assert (E : 0 < wind_e b h) by (unfold wind_e; apply Rmin_glb_lt; lra).
  unfold wall_pressure, wall_zones. set (e := wind_e b h) in *. clearbody e.
  destruct (Rltb e d) eqn:E1; [apply Rltb_true in E1|apply Rltb_false in E1].
  - destruct (Rltb 10 (b * h)); [destruct (cpe_DE (h / d))|]; cbn; repeat split; lra.
  - destruct (Rleb (5 * d) e) eqn:E2; [apply Rleb_true in E2|apply Rleb_false in E2];
    (destruct (Rltb 10 (b * h)); [destruct (cpe_DE (h / d))|]; cbn; repeat split; lra).
Qed.
Lemma cpe_lemma x : 7/10 <= fst (cpe_DE x) <= 8/10 /\ -7/10 <= snd (cpe_DE x) <= -3/10.
Proof.
  unfold cpe_DE. destruct (Rleb 5 x) eqn:A; [cbn; lra|apply Rleb_false in A]. destruct (Rleb 1 x) eqn:B; [apply Rleb_true in B; cbn; lra|apply Rleb_false in B].
  destruct (Rleb (1/4) x) eqn:C; [apply Rleb_true in C|apply Rleb_false in C]; cbn; lra.
Qed.
(** The coefficients rise and fall with h/d without jumps: Lipschitz with the steepest table slope. *)
Lemma cpe_mono_lemma x y : x <= y ->
  0 <= fst (cpe_DE y) - fst (cpe_DE x) <= 2/15 * (y - x) /\ 0 <= snd (cpe_DE x) - snd (cpe_DE y) <= 4/15 * (y - x).
Proof.
  intros XY. unfold cpe_DE.
  destruct (Rleb 5 x) eqn:A; [apply Rleb_true in A|apply Rleb_false in A];
  (destruct (Rleb 5 y) eqn:A'; [apply Rleb_true in A'|apply Rleb_false in A']);
  (destruct (Rleb 1 x) eqn:B; [apply Rleb_true in B|apply Rleb_false in B]);
  (destruct (Rleb 1 y) eqn:B'; [apply Rleb_true in B'|apply Rleb_false in B']);
  (destruct (Rleb (1/4) x) eqn:C; [apply Rleb_true in C|apply Rleb_false in C]);
  (destruct (Rleb (1/4) y) eqn:C'; [apply Rleb_true in C'|apply Rleb_false in C']); cbn; lra.
Qed.
Lemma cpe_table_lemma : cpe_DE (1/4) = (7/10, -3/10) /\ cpe_DE 1 = (8/10, -5/10) /\ cpe_DE 5 = (8/10, -7/10).
Proof.
  unfold cpe_DE, Rleb. repeat split; repeat match goal with |- context[Rle_dec ?a ?b] => destruct (Rle_dec a b); try lra end; try reflexivity; f_equal; field.
Qed.
Lemma wall_pressure_lemma b d h : 10 < b * h ->
  let w := wall_pressure b d h in cpe_A w = -12/10 /\ cpe_B w = -8/10 /\ cpe_C w = -5/10 /\ (cpe_D w, cpe_E w) = cpe_DE (h / d).
Proof.
  intros H. unfold wall_pressure. destruct (wall_zones b d h) as [[p q] r]. destruct (Rltb 10 (b * h)) eqn:E; [|apply Rltb_false in E; lra].
  destruct (cpe_DE (h / d)). cbn. auto.
Qed.
Lemma wall_small_lemma b d h : b * h <= 10 -> let w := wall_pressure b d h in
  cpe_A w = 0 /\ cpe_B w = 0 /\ cpe_C w = 0 /\ cpe_D w = 0 /\ cpe_E w = 0.
Proof.
  intros H. unfold wall_pressure. destruct (wall_zones b d h) as [[p q] r]. destruct (Rltb 10 (b * h)) eqn:E; [apply Rltb_true in E; lra|]. cbn. auto.
Qed.
Definition area (z : R * R) : R := fst z * snd z.
Lemma flat_lemma d b h : 0 < b -> 0 < d -> 0 < h ->
  let '(F, G, H, J) := flat_zones d b h in
  2 * area F + area G + area H + area J = b * d /\ 0 < area F /\ 0 < area G /\ 0 < area H /\
  (0 <= area J <-> wind_e b h <= 2 * d).
Proof.
  intros B D H. unfold flat_zones. assert (E : 0 < wind_e b h) by (unfold wind_e; apply Rmin_glb_lt; lra).
  assert (EB : wind_e b h <= b) by apply Rmin_l. set (e := wind_e b h) in *. clearbody e. unfold area. cbn [fst snd].
  split; [field|]. repeat (split; [apply Rmult_lt_0_compat; lra|]). split; intros Q.
  - destruct (Rle_lt_dec e (2 * d)); auto. exfalso. assert (0 < b * (1/2 * e - d)) by (apply Rmult_lt_0_compat; lra). lra.
  - apply Rmult_le_pos; lra.
Qed.
Lemma mono180_lemma a F G H : a <= 90 -> mono180 a = Some (F, G, H) ->
  -25/10 <= F <= -5/10 /\ -13/10 <= G <= -5/10 /\ -9/10 <= H <= -5/10.
Proof.
  intros A. unfold mono180. 
  destruct (Rleb 60 a) eqn:A1; [intros Q; injection Q as <- <- <-; lra|apply Rleb_false in A1].
  destruct (Rleb 45 a) eqn:A2; [apply Rleb_true in A2; intros Q; injection Q as <- <- <-; lra|apply Rleb_false in A2].
  destruct (Rleb 30 a) eqn:A3; [apply Rleb_true in A3; intros Q; injection Q as <- <- <-; lra|apply Rleb_false in A3].
  destruct (Rleb 15 a) eqn:A4; [apply Rleb_true in A4; intros Q; injection Q as <- <- <-; lra|apply Rleb_false in A4].
  destruct (Rleb 5 a) eqn:A5; [apply Rleb_true in A5; intros Q; injection Q as <- <- <-; lra|discriminate].
Qed.
Lemma trip (a b c a' b' c' : R) : a = a' -> b = b' -> c = c' -> (a, b, c) = (a', b', c').
Proof. intros -> -> ->. reflexivity. Qed.
Lemma mono180_table_lemma :
  mono180 5 = Some (-23/10, -13/10, -8/10) /\ mono180 15 = Some (-25/10, -13/10, -9/10) /\ mono180 30 = Some (-11/10, -8/10, -8/10) /\
  mono180 45 = Some (-6/10, -5/10, -7/10) /\ mono180 60 = Some (-5/10, -5/10, -5/10) /\ (forall a, a < 5 -> mono180 a = None).
Proof.
  unfold mono180, Rleb. repeat split; intros; repeat match goal with |- context[Rle_dec ?a ?b] => destruct (Rle_dec a b); try lra end; try reflexivity; apply f_equal; apply trip; field.
Qed.
(** No jumps: Lipschitz in the roof angle. *)
Lemma mono180_cont_lemma a b F G H F' G' H' : a <= b -> mono180 a = Some (F, G, H) -> mono180 b = Some (F', G', H') ->
  Rabs (F' - F) <= 1/10 * (b - a) /\ Rabs (G' - G) <= 1/10 * (b - a) /\ Rabs (H' - H) <= 1/10 * (b - a).
Proof.
  intros AB. unfold mono180.
  destruct (Rleb 60 a) eqn:A1; [apply Rleb_true in A1|apply Rleb_false in A1; (destruct (Rleb 45 a) eqn:A2; [apply Rleb_true in A2|apply Rleb_false in A2; (destruct (Rleb 30 a) eqn:A3; [apply Rleb_true in A3|apply Rleb_false in A3; (destruct (Rleb 15 a) eqn:A4; [apply Rleb_true in A4|apply Rleb_false in A4; (destruct (Rleb 5 a) eqn:A5; [apply Rleb_true in A5|discriminate])])])])];
  (intros Q; injection Q as <- <- <-);
  (destruct (Rleb 60 b) eqn:B1; [apply Rleb_true in B1|apply Rleb_false in B1; (destruct (Rleb 45 b) eqn:B2; [apply Rleb_true in B2|apply Rleb_false in B2; (destruct (Rleb 30 b) eqn:B3; [apply Rleb_true in B3|apply Rleb_false in B3; (destruct (Rleb 15 b) eqn:B4; [apply Rleb_true in B4|apply Rleb_false in B4; (destruct (Rleb 5 b) eqn:B5; [apply Rleb_true in B5|discriminate])])])])];
  (intros Q; injection Q as <- <- <-));
  repeat split; apply Rabs_le; lra.
Qed.
Lemma mono0_refuted_lemma : mono0_low 5 = (-7/6, -1, -11/30) /\ mono0_low 15 = (-9/10, -8/10, -3/10).
Proof. unfold mono0_low. split; apply trip; field. Qed.
Lemma monopitch_refuted_lemma qp : Forall (fun p => p = 0) (monopitch_pressures qp).
Proof. unfold monopitch_pressures. cbn. repeat constructor; ring. Qed.

(* ------------------------------------------------------------ timber *)
Lemma kmod_lemma m sc d d' k k' : kmod m sc d = Some k -> kmod m sc d' = Some k' ->
  ((dur_rank d < dur_rank d')%nat -> k < k') /\ 1/2 <= k <= 11/10.
Proof. unfold kmod. destruct sc as [|[|[|[|]]]]; try discriminate; destruct d, d'; intros A B; injection A as <-; injection B as <-; cbn; (split; [intros; try lia; lra|lra]). Qed.
Lemma kmod_service_lemma m d sc sc' k k' : (sc <= sc')%nat -> kmod m sc d = Some k -> kmod m sc' d = Some k' -> k' <= k.
Proof.
  intros L. unfold kmod. destruct sc as [|[|[|[|]]]]; try discriminate; destruct sc' as [|[|[|[|]]]]; try discriminate; try lia;
  destruct d; intros A B; injection A as <-; injection B as <-; lra.
Qed.
Lemma design_strength_lemma m sc d fk k : 0 < fk -> kmod m sc d = Some k ->
  0 < k_to_d fk k (gammaM_timber m) < fk /\ (forall fk', fk < fk' -> k_to_d fk k (gammaM_timber m) < k_to_d fk' k (gammaM_timber m)).
Proof.
  intros F K. destruct (kmod_lemma m sc d d k k K K) as [_ KB]. unfold k_to_d.
  assert (G : 12/10 <= gammaM_timber m <= 13/10) by (destruct m; cbn; lra). set (g := gammaM_timber m) in *. clearbody g.
  assert (I : 0 < / g) by (apply Rinv_0_lt_compat; lra). unfold Rdiv. split; [split|].
  - apply Rmult_lt_0_compat; [apply Rmult_lt_0_compat; lra|auto].
  - apply Rmult_lt_reg_r with g; [lra|]. rewrite Rmult_assoc, Rinv_l, Rmult_1_r by lra. rewrite (Rmult_comm k). apply Rmult_lt_compat_l; lra.
  - intros fk' L. apply Rmult_lt_compat_r; auto. apply Rmult_lt_compat_l; lra.
Qed.

Lemma k0_mono fp t t' : 0 <= t -> t <= t' -> 0 <= k0 fp t /\ k0 fp t <= k0 fp t' /\ k0 fp t' <= 1.
Proof.
  intros T T'. unfold k0. 
  assert (U : forall t t', 0 <= t -> t <= t' -> 0 <= (if Rltb t 20 then t / 20 else 1) /\ (if Rltb t 20 then t / 20 else 1) <= (if Rltb t' 20 then t' / 20 else 1) /\ (if Rltb t' 20 then t' / 20 else 1) <= 1).
  { intros. destruct (Rltb t0 20) eqn:A; [apply Rltb_true in A|apply Rltb_false in A];
    (destruct (Rltb t'0 20) eqn:B; [apply Rltb_true in B|apply Rltb_false in B]); lra. }
  destruct fp as [p|]; [|apply U; auto].
  destruct (Rleb (t_ch p) 20) eqn:A; [apply U; auto|apply Rleb_false in A].
  assert (I : 0 < / t_ch p) by (apply Rinv_0_lt_compat; lra).
  assert (J : forall s, s <= t_ch p -> s / t_ch p <= 1).
  { intros s Hs. apply Rmult_le_reg_r with (t_ch p); [lra|]. unfold Rdiv. rewrite Rmult_assoc, Rinv_l by lra. lra. }
  destruct (Rleb t (t_ch p)) eqn:B; [apply Rleb_true in B|apply Rleb_false in B];
  (destruct (Rleb t' (t_ch p)) eqn:C; [apply Rleb_true in C|apply Rleb_false in C]); try lra.
  - repeat split; auto; unfold Rdiv; [apply Rmult_le_pos; lra|apply Rmult_le_compat_r; lra].
  - repeat split; auto; [unfold Rdiv; apply Rmult_le_pos; lra|lra].
Qed.
Lemma char_before_lemma p t beta : t < t_ch p -> d_char_n (Some p) t beta = Some 0.
Proof. intros H. unfold d_char_n. destruct (Rltb t (t_ch p)) eqn:E; [reflexivity|apply Rltb_false in E; lra]. Qed.

(** Charring depth without the zero-strength layer. *)
Definition depth (tch tf ta beta t : R) : R :=
  if Rltb tch tf then
    if Rltb t tf then (t - tch) * (73/100) * beta
    else if andb (Rltb tf t) (Rltb t ta) then (tf - tch) * (73/100) * beta + (t - tf) * 2 * beta
    else (tf - tch) * (73/100) * beta + (ta - tf) * 2 * beta + (t - ta) * beta
  else if Rltb t ta then 2 * beta * (t - tf) else 2 * beta * (ta - tf) + beta * (t - ta).
Lemma d_char_eq p t beta tf ta : prot_ok p tf ta -> t_ch p <= t ->
  d_char_n (Some p) t beta = Some (depth (t_ch p) tf ta beta t + k0 (Some p) t * 7).
Proof.
  intros (F & A & _ & _) T. unfold d_char_n, depth. destruct (Rltb t (t_ch p)) eqn:E; [apply Rltb_true in E; lra|].
  rewrite F, A. cbn [bind]. destruct (Rltb (t_ch p) tf); [destruct (Rltb t tf); [reflexivity|destruct (andb (Rltb tf t) (Rltb t ta)); reflexivity]|].
  destruct (Rltb t ta); reflexivity.
Qed.
Lemma depth_mono tch tf ta beta t t' : 0 <= beta -> tf <= ta -> tch <= t -> t <= t' -> t <> tf -> t' <> tf ->
  0 <= depth tch tf ta beta t <= depth tch tf ta beta t'.
Proof.
  intros B TA T T' N N'. unfold depth.
  destruct (Rltb tch tf) eqn:E0; [apply Rltb_true in E0|apply Rltb_false in E0].
  - destruct (Rltb t tf) eqn:A; [apply Rltb_true in A|apply Rltb_false in A];
    (destruct (Rltb t' tf) eqn:A'; [apply Rltb_true in A'|apply Rltb_false in A']);
    (destruct (Rltb tf t) eqn:C; [apply Rltb_true in C|apply Rltb_false in C]);
    (destruct (Rltb tf t') eqn:C'; [apply Rltb_true in C'|apply Rltb_false in C']);
    (destruct (Rltb t ta) eqn:D; [apply Rltb_true in D|apply Rltb_false in D]);
    (destruct (Rltb t' ta) eqn:D'; [apply Rltb_true in D'|apply Rltb_false in D']); cbn [andb]; try (exfalso; lra); nra.
  - destruct (Rltb t ta) eqn:D; [apply Rltb_true in D|apply Rltb_false in D];
    (destruct (Rltb t' ta) eqn:D'; [apply Rltb_true in D'|apply Rltb_false in D']); try (exfalso; lra); nra.
Qed.
Lemma some_inj {A} (x y : A) : Some x = Some y -> x = y.
Proof. congruence. Qed.
Lemma char_mono_lemma p tf ta beta t t' x x' : prot_ok p tf ta -> 0 <= beta -> 0 <= t -> t <= t' -> t <> tf -> t' <> tf ->
  d_char_n (Some p) t beta = Some x -> d_char_n (Some p) t' beta = Some x' -> 0 <= x <= x'.
Proof.
  intros P B T T' N N' E E'. destruct P as (F & A & TC & FA). assert (P : prot_ok p tf ta) by (repeat split; auto).
  destruct (k0_mono (Some p) t t' T T') as (K1 & K2 & K3).
  destruct (Rlt_le_dec t (t_ch p)) as [L|L].
  - rewrite (char_before_lemma p t beta L) in E. injection E as <-. split; [lra|].
    destruct (Rlt_le_dec t' (t_ch p)) as [L'|L']; [rewrite (char_before_lemma p t' beta L') in E'; injection E' as <-; lra|].
    rewrite (d_char_eq p t' beta tf ta P) in E' by lra. apply some_inj in E'. rewrite <- E'.
    destruct (depth_mono (t_ch p) tf ta beta t' t') as [D _]; try lra; auto.
  - rewrite (d_char_eq p t beta tf ta P) in E by lra. apply some_inj in E. rewrite <- E. rewrite (d_char_eq p t' beta tf ta P) in E' by lra. apply some_inj in E'. rewrite <- E'.
    destruct (depth_mono (t_ch p) tf ta beta t t') as [D D']; try lra; auto.
Qed.
Lemma char_at_failure_lemma p tf ta beta : prot_ok p tf ta -> t_ch p < tf -> tf < ta -> 0 < beta ->
  exists x, d_char_n (Some p) tf beta = Some x /\
    forall t, tf < t < ta -> t < tf + (ta - tf) / 2 -> (20 <= tf) -> exists y, d_char_n (Some p) t beta = Some y /\ y < x.
Proof.
  intros P C A B. pose proof P as (F & TA & T0 & _). rewrite (d_char_eq p tf beta tf ta P) by lra. eexists. split; [reflexivity|].
  intros t T T2 T20. rewrite (d_char_eq p t beta tf ta P) by lra. eexists. split; [reflexivity|].
  unfold depth. destruct (Rltb (t_ch p) tf) eqn:E; [|apply Rltb_false in E; lra].
  destruct (Rltb tf tf) eqn:E1; [apply Rltb_true in E1; lra|]. cbn [andb].
  destruct (Rltb t tf) eqn:E2; [apply Rltb_true in E2; lra|].
  destruct (Rltb tf t) eqn:E3; [|apply Rltb_false in E3; lra]. destruct (Rltb t ta) eqn:E4; [|apply Rltb_false in E4; lra]. cbn [andb].
  assert (K : k0 (Some p) tf = 1 /\ k0 (Some p) t = 1).
  { unfold k0. destruct (Rleb (t_ch p) 20) eqn:G.
    - destruct (Rltb tf 20) eqn:G1; [apply Rltb_true in G1; lra|]. destruct (Rltb t 20) eqn:G2; [apply Rltb_true in G2; lra|]. auto.
    - destruct (Rleb tf (t_ch p)) eqn:G1; [apply Rleb_true in G1; lra|]. destruct (Rleb t (t_ch p)) eqn:G2; [apply Rleb_true in G2; lra|]. auto. }
  destruct K as [-> ->]. assert (beta * (2 * (t - tf)) < beta * (ta - tf)) by (apply Rmult_lt_compat_l; lra). lra.
Qed.
Lemma char_unset_lemma p t beta : t_ch p <= t -> t_f p = None -> d_char_n (Some p) t beta = None.
Proof. intros T F. unfold d_char_n. destruct (Rltb t (t_ch p)) eqn:E; [apply Rltb_true in E; lra|]. rewrite F. reflexivity. Qed.
Lemma char_unprotected_lemma t t' beta : 0 <= beta -> 0 <= t -> t <= t' ->
  exists x x', d_char_n None t beta = Some x /\ d_char_n None t' beta = Some x' /\ 0 <= x <= x'.
Proof.
  intros B T T'. unfold d_char_n. do 2 eexists. split; [reflexivity|]. split; [reflexivity|]. destruct (k0_mono None t t' T T') as (A & C & _). nra.
Qed.
Lemma times_lemma beta tch tf ta : 0 < beta -> 0 <= tch -> set_tf beta tch = Some tf -> set_ta beta tf = Some ta -> tch < tf < ta /\ ta <= 2 * tf.
Proof.
  intros B T E E'. unfold set_tf in E. rewrite pdiv_ok in E by lra. cbn [bind] in E. injection E as E.
  unfold set_ta in E'. rewrite pdiv_ok in E' by lra. cbn [bind] in E'. injection E' as E'.
  assert (0 < 125 / 10 / (73 / 100 * beta)) by (unfold Rdiv at 1; apply Rmult_lt_0_compat; [lra|apply Rinv_0_lt_compat; lra]).
  assert (0 < 25 / (2 * beta)) by (unfold Rdiv at 1; apply Rmult_lt_0_compat; [lra|apply Rinv_0_lt_compat; lra]).
  subst ta. split; [split; [lra|apply Rmin_glb_lt; lra]|apply Rmin_l].
Qed.

(** Wooden panels. *)
Definition base_beta (rhok : R) (m : timber) (sw : bool) : option (R * R) := charring_speed rhok m sw 20.
Lemma charring_split rhok m sw hp b : base_beta rhok m sw = Some b -> 0 < rhok -> 0 < hp ->
  0 < fst b /\ charring_speed rhok m sw hp = Some (if Rltb hp 20 then (sqrt (450 / rhok) * sqrt (20 / hp) * fst b, snd b) else b).
Proof.
  intros E R0 H. unfold base_beta, charring_speed in *. set (beta := match m with lvl => _ | _ => _ end) in *.
  destruct beta as [c|] eqn:EB; [|discriminate]. cbn [bind] in *. destruct (Rltb 20 20) eqn:Q; [apply Rltb_true in Q; lra|]. injection E as ->.
  split.
  - subst beta. revert EB. destruct m, sw; repeat match goal with |- context[if ?c then _ else _] => destruct c end; intros EB; try discriminate; injection EB as <-; cbn; lra.
  - destruct (Rltb hp 20); [|reflexivity].
    assert (P1 : 0 < 450 / rhok) by (unfold Rdiv; apply Rmult_lt_0_compat; [lra|apply Rinv_0_lt_compat; auto]).
    assert (P2 : 0 < 20 / hp) by (unfold Rdiv; apply Rmult_lt_0_compat; [lra|apply Rinv_0_lt_compat; auto]).
    unfold psqrt. destruct (Rltb (450 / rhok) 0) eqn:X; [apply Rltb_true in X; lra|]. cbn [bind]. rewrite pdiv_ok by lra. cbn [bind].
    destruct (Rltb (20 / hp) 0) eqn:Y; [apply Rltb_true in Y; lra|]. reflexivity.
Qed.
Lemma tch_thicker_lemma rhok m sw h h' x x' : 0 < rhok -> rhok <= 450 \/ 20 <= h \/ h' < 20 -> 0 < h -> h < h' ->
  wood_tch rhok m sw h = Some x -> wood_tch rhok m sw h' = Some x' -> 0 < x < x'.
Proof.
  intros R0 SIDE H HH E E'.
  destruct (base_beta rhok m sw) as [b|] eqn:EB.
  2:{ exfalso. unfold wood_tch, base_beta, charring_speed in *. set (beta := match m with lvl => _ | _ => _ end) in *.
      destruct beta; [|discriminate]. cbn [bind] in *. destruct (Rltb 20 20) eqn:Q; [apply Rltb_true in Q; lra|discriminate]. }
  destruct (charring_split rhok m sw h b EB R0 H) as [B0 C]. destruct (charring_split rhok m sw h' b EB R0 ltac:(lra)) as [_ C'].
  unfold wood_tch in *. rewrite C in E. rewrite C' in E'. cbn [bind] in E, E'.
  assert (K : 0 < sqrt (450 / rhok)) by (apply sqrt_lt_R0; unfold Rdiv; apply Rmult_lt_0_compat; [lra|apply Rinv_0_lt_compat; auto]).
  assert (KH : forall g, 0 < g -> 0 < sqrt (20 / g)) by (intros g G; apply sqrt_lt_R0; unfold Rdiv; apply Rmult_lt_0_compat; [lra|apply Rinv_0_lt_compat; auto]).
  assert (QH : forall g g', 0 < g -> g < g' -> sqrt (20 / g') < sqrt (20 / g)).
  { intros g g' G GG. apply sqrt_lt_1; [| |].
    - left. unfold Rdiv. apply Rmult_lt_0_compat; [lra|apply Rinv_0_lt_compat; lra].
    - left. unfold Rdiv. apply Rmult_lt_0_compat; [lra|apply Rinv_0_lt_compat; lra].
    - unfold Rdiv. apply Rmult_lt_compat_l; [lra|]. apply Rinv_lt_contravar; [apply Rmult_lt_0_compat; lra|lra]. }
  assert (DIV : forall a a' c c', 0 < a -> a < a' -> 0 < c' -> c' <= c -> 0 < a / c < a' / c').
  { intros a a' c c' A0 AA C0 CC. assert (0 < / c) by (apply Rinv_0_lt_compat; lra). assert (/ c <= / c') by (apply Rinv_le_contravar; lra).
    unfold Rdiv. split; [apply Rmult_lt_0_compat; lra|]. apply Rlt_le_trans with (a' * / c); [apply Rmult_lt_compat_r; lra|apply Rmult_le_compat_l; lra]. }
  destruct (Rltb h 20) eqn:X; [apply Rltb_true in X|apply Rltb_false in X];
  (destruct (Rltb h' 20) eqn:X'; [apply Rltb_true in X'|apply Rltb_false in X']); cbn [fst] in *; try (exfalso; lra).
  - pose proof (KH h H). pose proof (KH h' ltac:(lra)). pose proof (QH h h' H HH).
    rewrite pdiv_ok in E by (apply Rgt_not_eq; repeat apply Rmult_lt_0_compat; lra). rewrite pdiv_ok in E' by (apply Rgt_not_eq; repeat apply Rmult_lt_0_compat; lra).
    injection E as <-. injection E' as <-. apply DIV; auto; [repeat apply Rmult_lt_0_compat; lra|].
    apply Rmult_le_compat_r; [lra|]. apply Rmult_le_compat_l; lra.
  - assert (RL : rhok <= 450) by (destruct SIDE as [S1|[S1|S1]]; [auto|exfalso; lra|exfalso; lra]).
    pose proof (KH h H). 
    rewrite pdiv_ok in E by (apply Rgt_not_eq; repeat apply Rmult_lt_0_compat; lra). rewrite pdiv_ok in E' by lra.
    injection E as <-. injection E' as <-. apply DIV; auto.
    assert (1 <= sqrt (450 / rhok)).
    { rewrite <- sqrt_1. apply sqrt_le_1_alt. apply Rmult_le_reg_r with rhok; auto. unfold Rdiv. rewrite Rmult_assoc, Rinv_l by lra. lra. }
    assert (1 <= sqrt (20 / h)).
    { rewrite <- sqrt_1. apply sqrt_le_1_alt. apply Rmult_le_reg_r with h; auto. unfold Rdiv. rewrite Rmult_assoc, Rinv_l by lra. lra. }
    assert (1 * 1 <= sqrt (450 / rhok) * sqrt (20 / h)) by (apply Rmult_le_compat; lra).
    assert (1 * fst b <= sqrt (450 / rhok) * sqrt (20 / h) * fst b) by (apply Rmult_le_compat_r; lra). lra.
  - rewrite pdiv_ok in E, E' by lra. injection E as <-. injection E' as <-. apply DIV; auto. lra.
Qed.
Lemma tch_refuted_lemma : exists x x', wood_tch 800 glt true 19 = Some x /\ wood_tch 800 glt true 20 = Some x' /\ x' < x.
Proof.
  assert (EB : base_beta 800 glt true = Some (65/100, 7/10)).
  { unfold base_beta, charring_speed. unfold Rleb, Rltb. destruct (Rle_dec 290 800); [|lra]. cbn [bind]. destruct (Rlt_dec 20 20); [lra|reflexivity]. }
  destruct (charring_split 800 glt true 19 _ EB ltac:(lra) ltac:(lra)) as [_ C]. destruct (charring_split 800 glt true 20 _ EB ltac:(lra) ltac:(lra)) as [_ C'].
  unfold wood_tch. rewrite C, C'. cbn [bind]. destruct (Rltb 19 20) eqn:A; [|apply Rltb_false in A; lra]. destruct (Rltb 20 20) eqn:A'; [apply Rltb_true in A'; lra|].
  cbn [fst]. assert (S1 : sqrt (450 / 800) = 75/100).
  { replace (450/800) with ((75/100) * (75/100)) by field. apply sqrt_square. lra. }
  assert (S2 : 0 < sqrt (20 / 19) <= 103/100).
  { split; [apply sqrt_lt_R0; lra|]. rewrite <- (sqrt_square (103/100)) by lra. apply sqrt_le_1_alt. lra. }
  rewrite S1. set (s := sqrt (20 / 19)) in *. clearbody s.
  rewrite pdiv_ok by (apply Rgt_not_eq; lra). rewrite pdiv_ok by lra. do 2 eexists. split; [reflexivity|]. split; [reflexivity|].
  apply Rmult_lt_reg_r with (75 / 100 * s * (65 / 100)); [lra|]. replace (19 / (75 / 100 * s * (65 / 100)) * (75 / 100 * s * (65 / 100))) with 19 by (field; lra). lra.
Qed.
