(** Strength increase and corner geometry. *)
Require Import Psatz.
From Verif Require Import Tac Bool_tac EC3_proofs Sections_proofs Loads2_proofs Plate_proofs.
From Verif Require Import Cold_model Cold_spec.
Open Scope R_scope.

Lemma psqrt_ok x : 0 <= x -> psqrt x = Some (sqrt x).
Proof. intros H. unfold psqrt. rewrite ltb_f by lra. reflexivity. Qed.
Lemma fya_lemma fyb fu t Ag n k : 0 < Ag -> 0 <= k -> 0 <= n -> fyb <= fu ->
  exists v, fya fyb fu t Ag n k = Some v /\ fyb <= v <= (fu + fyb) / 2 /\
    (2 * (k * n * t ^ 2) <= Ag -> v = fyb + (fu - fyb) * (k * n * t ^ 2) / Ag) /\ (Ag <= 2 * (k * n * t ^ 2) -> v = (fu + fyb) / 2).
Proof.
  intros A K N F. unfold fya. rewrite pdiv_ok by lra. cbn [bind]. eexists. split; [reflexivity|].
  set (w := k * n * t ^ 2). assert (W : 0 <= w) by (unfold w; pose proof (pow2_ge_0 t); pose proof (Rmult_le_pos _ _ K N); nra).
  replace ((fu - fyb) * k * n * t ^ 2 / Ag) with ((fu - fyb) * (w / Ag)) by (unfold w; field; lra).
  replace ((fu - fyb) * w / Ag) with ((fu - fyb) * (w / Ag)) by (field; lra). 
  assert (W2 : 0 <= w / Ag) by (unfold Rdiv; apply Rmult_le_pos; [exact W|left; apply Rinv_0_lt_compat; exact A]).
  split; [split; [apply Rmin_glb; nra | rmx; lra] |]. split; intros H.
  - assert (w / Ag <= 1/2) by (apply (Rmult_le_reg_r Ag); [exact A|]; replace (w / Ag * Ag) with w by (field; lra); lra).
    rewrite Rmin_left by nra. reflexivity.
  - assert (1/2 <= w / Ag) by (apply (Rmult_le_reg_r Ag); [exact A|]; replace (w / Ag * Ag) with w by (field; lra); lra).
    rewrite Rmin_right by nra. lra.
Qed.
Lemma fya_mono_lemma fyb fu t t' Ag Ag' n n' k v v' : 0 < Ag' <= Ag -> 0 <= k -> 0 <= n <= n' -> 0 <= t <= t' -> fyb <= fu ->
  fya fyb fu t Ag n k = Some v -> fya fyb fu t' Ag' n' k = Some v' -> v <= v'.
Proof.
  intros A K N T F. unfold fya. rewrite !pdiv_ok by lra. cbn [bind]. intros E E'. apply some_inj in E. apply some_inj in E'. subst v v'.
  assert (X : (fu - fyb) * k * n * t ^ 2 / Ag <= (fu - fyb) * k * n' * t' ^ 2 / Ag'); [|rmx; lra].
  assert (T2 : t ^ 2 <= t' ^ 2) by (apply pow_incr; lra). pose proof (pow2_ge_0 t) as T0.
  assert (NT : n * t ^ 2 <= n' * t' ^ 2) by (apply Rmult_le_compat; lra). assert (NT0 : 0 <= n * t ^ 2) by (apply Rmult_le_pos; lra).
  assert (FK : 0 <= (fu - fyb) * k) by (apply Rmult_le_pos; lra).
  assert (I0 : / Ag <= / Ag') by (apply Rinv_le_contravar; lra). assert (I1 : 0 < / Ag) by (apply Rinv_0_lt_compat; lra).
  unfold Rdiv. replace ((fu - fyb) * k * n * t ^ 2) with ((fu - fyb) * k * (n * t ^ 2)) by ring. replace ((fu - fyb) * k * n' * t' ^ 2) with ((fu - fyb) * k * (n' * t' ^ 2)) by ring.
  apply Rmult_le_compat; try lra; [apply Rmult_le_pos; lra|]. apply Rmult_le_compat_l; lra.
Qed.
(** The corner. *)
Lemma rad_range phi : 0 < phi < 90 -> 0 < radians phi < PI / 2.
Proof. intros H. unfold radians. pose proof PI_RGT_0. split; nra. Qed.
Lemma rad_inv v : radians (v * 180 / PI) = v.
Proof. unfold radians. field. pose proof PI_RGT_0. lra. Qed.
Lemma tan_gt_sin v : 0 < v < PI / 2 -> sin v < tan v.
Proof.
  intros V. pose proof PI_RGT_0. assert (S0 : 0 < sin v) by (apply sin_gt_0; lra). assert (C0 : 0 < cos v) by (apply cos_gt_0; lra).
  assert (C1 : cos v < 1). { rewrite <- cos_0. apply cos_decreasing_1; lra. }
  unfold tan. apply (Rmult_lt_reg_r (cos v)); [exact C0|]. replace (sin v / cos v * cos v) with (sin v) by (field; lra). nra.
Qed.
Lemma ts_half v : 0 < v < PI / 2 -> tan (v / 2) - sin (v / 2) < tan v - sin v.
Proof.
  intros V. pose proof PI_RGT_0. set (u := v / 2) in *. assert (U : 0 < u < PI / 4) by (unfold u; lra). replace v with (2 * u) by (unfold u; field).
  assert (S0 : 0 < sin u) by (apply sin_gt_0; lra). assert (C0 : 0 < cos u) by (apply cos_gt_0; lra).
  assert (CC : 0 < cos (2 * u)) by (apply cos_gt_0; lra).
  assert (C1 : cos u < 1). { rewrite <- cos_0. apply cos_decreasing_1; lra. }
  assert (C2 : cos (2 * u) < cos u) by (apply cos_decreasing_1; lra).
  unfold tan. rewrite sin_2a.
  replace (sin u / cos u - sin u) with (sin u * (/ cos u - 1)) by (field; lra).
  replace (2 * sin u * cos u / cos (2 * u) - 2 * sin u * cos u) with (sin u * (2 * cos u * (/ cos (2 * u) - 1))) by (field; lra).
  apply Rmult_lt_compat_l; [exact S0|].
  assert (Q : 1 < / cos (2 * u)) by (rewrite <- Rinv_1; apply Rinv_lt_contravar; lra).
  assert (D : cos (2 * u) = 2 * (cos u) ^ 2 - 1) by (rewrite cos_2a_cos; ring).
  apply (Rmult_lt_reg_r (cos u * cos (2 * u))); [apply Rmult_lt_0_compat; lra|].
  replace ((/ cos u - 1) * (cos u * cos (2 * u))) with ((1 - cos u) * cos (2 * u)) by (field; lra).
  replace (2 * cos u * (/ cos (2 * u) - 1) * (cos u * cos (2 * u))) with (2 * cos u ^ 2 * (1 - cos (2 * u))) by (field; lra).
  assert (E1 : 1 - cos u < 1 - cos (2 * u)) by lra. assert (E2 : cos (2 * u) < 2 * cos u ^ 2) by lra. nra.
Qed.
Lemma gr_lemma r t phi : 0 < r + t / 2 -> 0 < phi < 90 ->
  0 < gr r t phi /\ (r + t / 2) * (tan (radians phi / 2) - sin (radians phi / 2)) < gr r t phi.
Proof.
  intros R0 P. apply rad_range in P. unfold gr. set (v := radians phi) in *. replace (r + 1 / 2 * t) with (r + t / 2) by lra.
  pose proof (tan_gt_sin v P). pose proof (ts_half v P). split; [apply Rmult_lt_0_compat; lra|]. apply Rmult_lt_compat_l; lra.
Qed.
Lemma gr_unbounded_lemma r t : 0 < r + t / 2 -> forall B, exists phi, 0 < phi < 90 /\ B < gr r t phi.
Proof.
  intros R0 B. pose proof PI_RGT_0 as P0.
  set (T := Rmax 1 (B / (r + t / 2) + 2)). exists (atan T * 180 / PI).
  assert (T1 : 1 <= T) by apply Rmax_l. assert (T2 : B / (r + t / 2) + 2 <= T) by apply Rmax_r.
  assert (A : 0 < atan T < PI / 2). { pose proof (atan_bound T). split; [|lra]. rewrite <- atan_0. apply atan_increasing. lra. }
  split.
  - split; [apply Rmult_lt_0_compat; [nra|apply Rinv_0_lt_compat; lra]|]. apply (Rmult_lt_reg_r PI); [lra|]. replace (atan T * 180 / PI * PI) with (atan T * 180) by (field; lra). lra.
  - unfold gr. rewrite rad_inv. rewrite tan_atan. pose proof (SIN_bound (atan T)) as S1. replace (r + 1 / 2 * t) with (r + t / 2) by lra. set (q := r + t / 2) in *.
    assert (E : B = q * (B / q)) by (field; lra). rewrite E at 1. apply Rmult_lt_compat_l; lra.
Qed.
(** Notional widths. *)
Lemma half_sin p : 0 <= p <= 180 -> 0 <= sin (radians (1/2 * p)) <= 1.
Proof.
  intros P. pose proof PI_RGT_0. split; [|apply SIN_bound]. unfold radians. apply sin_ge_0; nra.
Qed.
Lemma notional_width_lemma b rm phi : length rm = length phi -> Forall (fun r => 0 <= r) rm -> Forall (fun p => 0 <= p <= 180) phi ->
  exists w, notional_width b (Lst rm) (Lst phi) = Some w /\ b <= w <= b + Rsum rm /\
    w = b + Rsum (map (fun q => fst q * sin (snd q * PI / 360)) (combine rm phi)).
Proof.
  intros L R0 P. unfold notional_width, sum_prod, amap. rewrite map_length, L, Nat.eqb_refl. cbn [option_map].
  eexists. split; [reflexivity|].
  set (g := fun p => sin (radians (1 / 2 * p))). set (f := fun q : R * R => fst q * sin (snd q * PI / 360)).
  assert (X : 0 <= Rsum (map (fun p => fst p * snd p) (combine rm (map g phi))) <= Rsum rm /\
          Rsum (map (fun p => fst p * snd p) (combine rm (map g phi))) = Rsum (map f (combine rm phi))).
  { clear b. revert phi L P. induction R0 as [|r l H0 H1 IH]; intros phi L P; [destruct phi; [|discriminate]; cbn; lra|].
    destruct phi as [|p phi]; [discriminate|]. inversion P as [|? ? P0 P1]; subst. cbn [combine map]. rewrite !Rsum_cons. cbn [fst snd].
    destruct (IH phi ltac:(cbn in L; lia) P1) as ((I0 & I1) & I2). pose proof (half_sin p P0) as (S0 & S1). fold (g p) in S0, S1.
    unfold f at 1. cbn [fst snd]. replace (p * PI / 360) with (radians (1 / 2 * p)) by (unfold radians; field). fold (g p). rewrite <- I2.
    assert (0 <= r * g p <= r) by nra. split; [lra|reflexivity]. }
  split; lra.
Qed.
Lemma sin_45 : sin (radians (1/2 * 90)) = sqrt 2 / 2.
Proof. replace (radians (1 / 2 * 90)) with (PI / 4) by (unfold radians; field). rewrite sin_PI4. assert (Q : sqrt 2 <> 0) by (apply Rgt_not_eq, sqrt_lt_R0; lra). pose proof (sqrt_sqrt 2 ltac:(lra)). field_simplify; [|exact Q]. apply (Rmult_eq_reg_r (2 * sqrt 2)); [|nra]. field_simplify; [|exact Q]. nra. Qed.
Lemma one_corner_lemma b rm : notional_width b (Lst [rm]) (Lst [90]) = Some (b + rm * (sqrt 2 / 2)) /\
  notional_width b (Num rm) (Lst [90; 90]) = Some (b + 2 * (rm * (sqrt 2 / 2))) /\ (forall phi, notional_width b (Num rm) (Num phi) = None).
Proof.
  unfold notional_width, sum_prod, amap. cbn [map length Nat.eqb combine option_map fst snd]. rewrite sin_45. repeat split; cbn; f_equal; ring.
Qed.
Lemma rounding_factor_lemma r phi bp : length r = length phi -> 0 < Rsum bp ->
  exists d, rounding_factor (Lst r) (Lst phi) bp = Some d /\ d * Rsum bp * 90 = 43/100 * Rsum (map (fun q => fst q * snd q) (combine r phi)) /\
    (Forall (fun x => 0 <= x) r -> Forall (fun p => 0 <= p <= 90) phi -> 0 <= d <= 43/100 * Rsum r / Rsum bp).
Proof.
  intros L B. unfold rounding_factor, sum_prod. rewrite L, Nat.eqb_refl. cbn [bind]. rewrite pdiv_ok by lra. eexists. split; [reflexivity|]. split; [field; lra|].
  intros R0 P. set (s := Rsum (map (fun p => fst p * snd p) (combine r phi))).
  assert (X : 0 <= s <= 90 * Rsum r).
  { unfold s. clear s. revert phi L P. induction R0 as [|x l H0 H1 IH]; intros phi L P; [destruct phi; [|discriminate]; cbn; lra|].
    destruct phi as [|p phi]; [discriminate|]. inversion P as [|? ? P0 P1]; subst. cbn [combine map]. rewrite !Rsum_cons. cbn [fst snd].
    pose proof (IH phi ltac:(cbn in L; lia) P1). assert (0 <= x * p <= 90 * x) by nra. lra. }
  assert (I0 : 0 < / Rsum bp) by (apply Rinv_0_lt_compat; exact B). unfold Rdiv. split.
  - apply Rmult_le_pos; lra.
  - apply Rmult_le_compat_r; lra.
Qed.
Lemma rounding_right_lemma r bp : 0 < Rsum bp -> rounding_factor (Lst r) (Num 90) bp = Some (43/100 * Rsum r / Rsum bp).
Proof.
  intros B. unfold rounding_factor, sum_prod. cbn [bind]. rewrite pdiv_ok by lra. f_equal.
  assert (E : Rsum (map (fun x => x * 90) r) = 90 * Rsum r); [|rewrite E; field; lra].
  induction r; cbn [map]; [cbn; ring|]. rewrite !Rsum_cons, IHr. ring.
Qed.
