(** C58 to C62, C101, C102: EN 1993-1-2 rules. *)
From Verif Require Import Fire_spec Fire_proofs Fire2_proofs Fire3_proofs.

(** C58 *)
Theorem C58_table : forall s d z row p, table_of s = Some d -> In (z, row) d -> reduce_property (IZR z) p s = row p.
Proof. exact reduce_table_lemma. Qed.
Print Assumptions C58_table.
Theorem C58_interpolation : forall s p t d, table_of s = Some d -> has_prop s p -> covered s t ->
  reduce_property t p s = interp (knots p d) t.
Proof. exact reduce_interp_lemma. Qed.
Print Assumptions C58_interpolation.
Theorem C58_range : forall s p t, has_prop s p -> covered s t -> exists v, reduce_property t p s = Some v /\ 0 <= v <= 1.
Proof. exact reduce_range_lemma. Qed.
Print Assumptions C58_range.
Theorem C58_monotone : forall s p t t' v v', has_prop s p -> (s, p) <> (s14301, ky) -> covered s t -> covered s t' -> t <= t' ->
  reduce_property t p s = Some v -> reduce_property t' p s = Some v' -> v' <= v.
Proof. exact reduce_mono_lemma. Qed.
Print Assumptions C58_monotone.
(** Finding: the factor stored as ky for 1.4301. *)
Theorem C58_stainless_ky_refuted : reduce_property 500 ky s14301 = Some (19/100) /\ reduce_property 900 ky s14301 = Some (38/100).
Proof. exact stainless_ky_refuted. Qed.
Print Assumptions C58_stainless_ky_refuted.
Example C58_ex : reduce_property 450 ky carbon = Some (89/100).
Proof. rewrite (reduce_interp_lemma carbon ky 450 CS); [|auto|simpl; auto|simpl; lra]. cbn [CS cs knots interp pl]. repeat (destruct (Rle_dec _ _); try lra). f_equal. field. Qed.

(** C59 *)
Theorem C59_domain_partial : forall t p s, has_prop s p -> ((exists v, reduce_property t p s = Some v) <-> covered s t).
Proof. exact exists_iff_lemma. Qed.
Print Assumptions C59_domain_partial.
Theorem C59_gap_100_200_refuted : forall t p s, (s = carbon \/ s = s14301) -> 100 < t < 200 -> reduce_property t p s = None.
Proof. exact gap_lemma. Qed.
Print Assumptions C59_gap_100_200_refuted.
Theorem C59_bolts_gap_refuted : forall t p, 1000 < t <= 1200 -> reduce_property t p bolts = None.
Proof. exact bolts_gap_lemma. Qed.
Print Assumptions C59_bolts_gap_refuted.
Theorem C59_outside : forall t p s, t < 20 \/ 1200 < t -> reduce_property t p s = None.
Proof. exact outside_lemma. Qed.
Print Assumptions C59_outside.
Example C59_ex : covered carbon 550 /\ 100 < 150 < 200.
Proof. simpl. lra. Qed.

(** C60 *)
Theorem C60_law_values : forall fp E fy fu eps (h : bool), law_ok fp E fy fu -> 0 <= eps -> exists v, stress_law eps fp E fy fu h = Some v /\
  0 <= v <= (if h then fu else fy) /\ (20/100 <= eps -> v = 0) /\ (eps <= fp / E -> v = E * eps).
Proof. exact law_bounds_lemma. Qed.
Print Assumptions C60_law_values.
Theorem C60_law_monotone : forall fp E fy fu x y (h : bool) vx vy, law_ok fp E fy fu -> x <= y -> y <= 15/100 ->
  stress_law x fp E fy fu h = Some vx -> stress_law y fp E fy fu h = Some vy -> vx <= vy.
Proof. exact law_mono_lemma. Qed.
Print Assumptions C60_law_monotone.
Theorem C60_law_continuous : forall fp E fy fu h, law_ok fp E fy fu -> continuity (fun eps => sv (stress_law eps fp E fy fu h)).
Proof. exact law_continuous_lemma. Qed.
Print Assumptions C60_law_continuous.
Theorem C60_parameters : forall t Ea fya, covered carbon t -> t < 1200 -> 0 < fya -> 150 * fya <= Ea ->
  exists fp E fy fu, law_ok fp E fy fu /\ fu <= 125/100 * fy /\ fy <= fya /\ E <= Ea /\ (400 <= t -> fu = fy) /\
    forall strain h, stress strain t Ea fya h = stress_law strain fp E fy fu h.
Proof. exact stress_defined_lemma. Qed.
Print Assumptions C60_parameters.
Theorem C60_stress : forall t Ea fya h, covered carbon t -> t < 1200 -> 0 < fya -> 150 * fya <= Ea ->
  (forall strain, 0 <= strain -> exists v, stress strain t Ea fya h = Some v /\ 0 <= v <= (if h then 125/100 * fya else fya) /\ (20/100 <= strain -> v = 0)) /\
  (forall x y vx vy, x <= y <= 15/100 -> stress x t Ea fya h = Some vx -> stress y t Ea fya h = Some vy -> vx <= vy) /\
  continuity (fun strain => sv (stress strain t Ea fya h)).
Proof. exact stress_lemma. Qed.
Print Assumptions C60_stress.
(** Finding: no stress at the last table temperature. *)
Theorem C60_1200_raises : forall strain Ea fya h, stress strain 1200 Ea fya h = None.
Proof. exact stress_1200_lemma. Qed.
Print Assumptions C60_1200_raises.
Example C60_ex : exists v, stress (1/100) 600 210000 355 false = Some v /\ 0 <= v <= 355.
Proof. destruct (stress_lemma 600 210000 355 false) as (H & _); try lra; [simpl; lra|]. destruct (H (1/100)) as (v & E & B & _); [lra|]. eauto. Qed.

(** C61 *)
Theorem C61_standard : standard_fire 0 = Some 20 /\
  (forall t, 0 <= t -> exists v, standard_fire t = Some v /\ 20 <= v) /\
  (forall t t' v v', 0 <= t < t' -> standard_fire t = Some v -> standard_fire t' = Some v' -> v < v').
Proof. exact standard_fire_lemma. Qed.
Print Assumptions C61_standard.
Theorem C61_hydrocarbon : hydrocarbon_fire 0 = 20 /\ rising hydrocarbon_fire /\
  (forall t, 0 <= t -> 20 <= hydrocarbon_fire t < 1100).
Proof. exact hydrocarbon_fire_lemma. Qed.
Print Assumptions C61_hydrocarbon.

(** C62 *)
Theorem C62_within_precision : forall t t', 20 <= t <= t' -> therm_elongation t <= therm_elongation t' + 84/10000000.
Proof. exact elongation_mono_lemma. Qed.
Print Assumptions C62_within_precision.
Theorem C62_branches : forall t t', 20 <= t <= t' -> (t' < 750 \/ 750 <= t) -> therm_elongation t <= therm_elongation t'.
Proof. exact elongation_branch_lemma. Qed.
Print Assumptions C62_branches.
Theorem C62_values : therm_elongation 20 = 0 /\ therm_elongation 860 = 11/1000 /\ (forall t, 860 < t -> therm_elongation t = 11/1000 + 2/100000 * (t - 860)) /\
  (forall t, 20 <= t <= 1200 -> 0 <= therm_elongation t <= 178/10000).
Proof. exact elongation_value_lemma. Qed.
Print Assumptions C62_values.
(** Finding: a drop of 8.4e-6 at 750 degrees. *)
Theorem C62_strict_refuted : therm_elongation 750 < therm_elongation (74999/100).
Proof. exact elongation_refuted_lemma. Qed.
Print Assumptions C62_strict_refuted.
Example C62_ex : therm_elongation 500 <= therm_elongation 600.
Proof. apply elongation_branch_lemma; lra. Qed.

(** C101 *)
Theorem C101_flux_sign : forall tg ts phi ef em ac, -273 <= tg -> -273 <= ts -> 0 <= phi -> 0 <= ef -> 0 <= em -> 0 < ac ->
  (ts < tg -> ac * (tg - ts) <= hnet tg ts phi ef em ac) /\ (tg < ts -> hnet tg ts phi ef em ac <= ac * (tg - ts)) /\ (tg = ts -> hnet tg ts phi ef em ac = 0).
Proof. exact hnet_lemma. Qed.
Print Assumptions C101_flux_sign.
Theorem C101_flux_monotone : forall tg tg' ts phi ef em ac, -273 <= tg < tg' -> 0 <= phi -> 0 <= ef -> 0 <= em -> 0 < ac -> hnet tg ts phi ef em ac < hnet tg' ts phi ef em ac.
Proof. exact hnet_mono_lemma. Qed.
Print Assumptions C101_flux_monotone.
Theorem C101_specific_heats : good_heat spec_heat /\ good_heat (fun t => Some (spec_heat_stainless t)).
Proof. exact heats. Qed.
Print Assumptions C101_specific_heats.
Theorem C101_step : forall heat em ac ksh AmV dt tg T, good_heat heat -> 0 <= em -> 0 < ac -> 0 < ksh -> 0 < AmV -> 0 < dt -> -273 <= tg -> -273 <= T ->
  exists T', steel_step heat em ac ksh AmV dt tg T = Some T' /\ (T < tg -> T < T') /\ (tg < T -> T' < T) /\ (tg = T -> T' = T).
Proof. exact step_lemma. Qed.
Print Assumptions C101_step.
Example C101_ex : 0 < hnet 100 20 1 1 (7/10) 25.
Proof. destruct (hnet_lemma 100 20 1 1 (7/10) 25) as (H & _); try lra; specialize (H ltac:(lra)); lra. Qed.

(** C102 *)
Theorem C102_steel : forall fuel ksh AmV tmax dt T0, 0 < ksh -> 0 < AmV -> 0 < dt -> ksh * AmV * dt <= 6000 -> 0 <= tmax ->
  (forall v, standard_fire (tmax / 60) = Some v -> v <= 1200) -> T0 = 20 -> tmax <= INR fuel * dt ->
  exists Ts m tg, steel_temp fuel ksh AmV tmax dt T0 = Some (Ts, stamps dt (S m)) /\ length Ts = S m /\ never_falls Ts /\
    standard_fire (INR m * dt / 60) = Some tg /\ 20 <= hd 0 Ts <= tg.
Proof. exact steel_temp_lemma. Qed.
Print Assumptions C102_steel.
Theorem C102_stainless : forall fuel ksh AmV tmax dt T0, 0 < ksh -> 0 < AmV -> 0 < dt -> ksh * AmV * dt <= 6000 -> 0 <= tmax ->
  (forall v, standard_fire (tmax / 60) = Some v -> v <= 1200) -> T0 = 20 -> tmax <= INR fuel * dt ->
  exists Ts m tg, stainless_steel_temp fuel ksh AmV tmax dt T0 = Some (Ts, stamps dt (S m)) /\ length Ts = S m /\ never_falls Ts /\
    standard_fire (INR m * dt / 60) = Some tg /\ 20 <= hd 0 Ts <= tg.
Proof. exact stainless_temp_lemma. Qed.
Print Assumptions C102_stainless.
Theorem C102_any_curve : forall fuel, forall heat gas em ac ksh AmV tmax dt n Ts tg0, warm_heat heat -> 0 <= em <= 7/10 -> 0 < ac <= 50 -> 0 < ksh -> 0 < AmV -> 0 < dt ->
  ksh * AmV * dt <= 6000 -> gas_curve gas (tmax / 60) -> gas (INR n * dt / 60) = Some tg0 -> Ts <> [] -> 20 <= hd 0 Ts <= tg0 -> never_falls Ts ->
  length Ts = S n -> tmax <= INR (n + fuel) * dt ->
  exists rT m tg, steel_loop fuel heat gas em ac ksh AmV tmax dt (INR n * dt) Ts (stamps dt (S n)) = Some (rT, stamps dt (S m)) /\
    length rT = S m /\ never_falls rT /\ gas (INR m * dt / 60) = Some tg /\ 20 <= hd 0 rT <= tg.
Proof. exact loop_between. Qed.
Print Assumptions C102_any_curve.
Theorem C102_standard_curve : forall tm, (forall v, standard_fire tm = Some v -> v <= 1200) -> 0 <= tm -> gas_curve standard_fire tm.
Proof. exact standard_curve. Qed.
Print Assumptions C102_standard_curve.
Theorem C102_hydrocarbon_curve : forall tm, gas_curve (fun t => Some (hydrocarbon_fire t)) tm.
Proof. exact hydrocarbon_curve. Qed.
Print Assumptions C102_hydrocarbon_curve.
Theorem C102_entries : forall fuel, forall heat gas em ac ksh AmV tmax dt n Ts Tm rT rM,
  Tm = stamps dt (S n) -> length Ts = S n ->
  steel_loop fuel heat gas em ac ksh AmV tmax dt (INR n * dt) Ts Tm = Some (rT, rM) ->
  exists m, (n <= m)%nat /\ rM = stamps dt (S m) /\ length rT = S m /\ tmax <= INR m * dt /\ (forall k, (n <= k < m)%nat -> INR k * dt < tmax).
Proof. exact loop_shape. Qed.
Print Assumptions C102_entries.
Theorem C102_bad_step_diverges : forall fuel, forall heat gas em ac ksh AmV tmax dt t Ts Tm, dt <= 0 -> t < tmax ->
  steel_loop fuel heat gas em ac ksh AmV tmax dt t Ts Tm = None.
Proof. exact loop_diverges. Qed.
Print Assumptions C102_bad_step_diverges.
Example C102_ex : exists Ts m tg, steel_temp 1 1 200 5 5 20 = Some (Ts, stamps 5 (S m)) /\ length Ts = S m /\ never_falls Ts /\
  standard_fire (INR m * 5 / 60) = Some tg /\ 20 <= hd 0 Ts <= tg.
Proof.
  apply steel_temp_lemma; try (simpl; lra).
  intros v H. unfold standard_fire in H. rewrite (proj2 (Rltb_true _ _)) in H by lra. injection H as <-.
  assert (A : ln (8 * (5 / 60) + 1) < ln 10) by (apply ln_increasing; lra). assert (0 < ln 10) by (rewrite <- ln_1; apply ln_increasing; lra).
  assert (ln (8 * (5 / 60) + 1) / ln 10 <= 1) by (apply div_le_iff; lra). lra.
Qed.
