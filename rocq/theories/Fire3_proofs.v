(** Fire rules, continued: the stress-strain law of EN 1993-1-2 at a temperature, gas
    curves, elongation and the temperature of unprotected steel. *)
From Verif Require Export Fire2_proofs.

Lemma cont_ext' (f f' : R -> R) : (forall t, f t = f' t) -> continuity f' -> continuity f.
Proof. intros H C x e He. destruct (C x e He) as (al & P & Q). exists al. split; auto. intros t Ht. rewrite !H. apply Q; auto. Qed.

Lemma carbon_combo t : covered carbon t -> t < 1200 -> exists y p e,
  reduce_property t ky carbon = Some y /\ reduce_property t kp carbon = Some p /\ reduce_property t kE carbon = Some e /\
  0 < e /\ 0 < y /\ 0 <= p <= y /\ 2 * y - p < 3 * e.
Proof.
  intros C T. assert (R1 := covered_range _ _ C).
  rewrite (reduce_interp_lemma carbon ky t CS), (reduce_interp_lemma carbon kp t CS), (reduce_interp_lemma carbon kE t CS) by (simpl; auto).
  cbn [CS cs knots interp pl].
  do 3 eexists. split; [reflexivity|split; [reflexivity|split; [reflexivity|]]].
  repeat match goal with |- context [Rle_dec t ?k] => destruct (Rle_dec t k); [lra|] end; lra.
Qed.

Lemma stress_defined_lemma t Ea fya : covered carbon t -> t < 1200 -> 0 < fya -> 150 * fya <= Ea ->
  exists fp E fy fu, law_ok fp E fy fu /\ fu <= 125/100 * fy /\ fy <= fya /\ E <= Ea /\ (400 <= t -> fu = fy) /\
    forall strain h, stress strain t Ea fya h = stress_law strain fp E fy fu h.
Proof.
  intros C T F EE. destruct (carbon_combo t C T) as (y & p & e & Hy & Hp & He & P1 & P2 & P3 & P4).
  destruct (reduce_range_lemma carbon ky t ltac:(simpl; auto) C) as (y' & Ey & Ry). rewrite Hy in Ey; injection Ey as <-.
  destruct (reduce_range_lemma carbon kE t ltac:(simpl; auto) C) as (e' & Ee & Re). rewrite He in Ee; injection Ee as <-.
  exists (p * fya), (e * Ea), (y * fya), (fuT t (y * fya)).
  assert (R1 := covered_range _ _ C).
  assert (Y : 0 < y * fya) by nra.
  assert (U : y * fya <= fuT t (y * fya) <= 125/100 * (y * fya) /\ (400 <= t -> fuT t (y * fya) = y * fya)).
  { unfold fuT, Rltb. destruct (Rlt_dec t 300); [split; [split|intros]; lra|]. destruct (Rlt_dec t 400); [split; [split; nra|intros; lra]|split; [split; lra|auto]]. }
  split; [|split; [|split; [|split; [|split]]]]; try lra.
  - unfold law_ok. split; [nra|]. split; [nra|]. split; [lra|].
    assert (150 * (e * fya) <= e * Ea) by nra. nra.
  - nra.
  - nra.
  - intros strain h. unfold stress, fpT, EaT, fyT. rewrite Hy, Hp, He. reflexivity.
Qed.
Lemma stress_lemma t Ea fya h : covered carbon t -> t < 1200 -> 0 < fya -> 150 * fya <= Ea ->
  (forall strain, 0 <= strain -> exists v, stress strain t Ea fya h = Some v /\ 0 <= v <= (if h then 125/100 * fya else fya) /\ (20/100 <= strain -> v = 0)) /\
  (forall x y vx vy, x <= y <= 15/100 -> stress x t Ea fya h = Some vx -> stress y t Ea fya h = Some vy -> vx <= vy) /\
  continuity (fun strain => sv (stress strain t Ea fya h)).
Proof.
  intros C T F EE. destruct (stress_defined_lemma t Ea fya C T F EE) as (fp & E & fy & fu & OK & U & Y & _ & _ & ST).
  split; [|split].
  - intros strain S0. rewrite ST. destruct (law_bounds fp E fy fu OK strain h S0) as (v & Ev & B & Z & _).
    exists v. split; auto. split; auto. destruct OK as (_ & _ & O & _). destruct h; lra.
  - intros x y vx vy [X Y1]. rewrite !ST. apply law_mono; auto.
  - apply (cont_ext' _ (fun eps => sv (stress_law eps fp E fy fu h))); [intros; rewrite ST; auto|apply law_continuous; auto].
Qed.
Lemma stress_1200_lemma strain Ea fya h : stress strain 1200 Ea fya h = None.
Proof.
  unfold stress, fpT, EaT, fyT.
  rewrite (reduce_at 1200 kp carbon CS), (reduce_at 1200 kE carbon CS), (reduce_at 1200 ky carbon CS) by (auto; unfold SPECIAL_TEMPS; simpl; tauto).
  change (lookup 1200 kp CS) with (Some 0). change (lookup 1200 kE CS) with (Some 0). change (lookup 1200 ky CS) with (Some 0).
  cbn [bind]. unfold stress_law, pdiv. rewrite Rmult_0_l. rewrite (proj2 (Reqb_true 0 0)) by auto. auto.
Qed.

(** C61: gas temperature curves. *)
Lemma standard_fire_lemma : standard_fire 0 = Some 20 /\
  (forall t, 0 <= t -> exists v, standard_fire t = Some v /\ 20 <= v) /\
  (forall t t' v v', 0 <= t < t' -> standard_fire t = Some v -> standard_fire t' = Some v' -> v < v').
Proof.
  assert (L10 : 0 < ln 10) by (rewrite <- ln_1; apply ln_increasing; lra).
  assert (D : forall t, 0 <= t -> standard_fire t = Some (20 + 345 * (ln (8 * t + 1) / ln 10))).
  { intros t H. unfold standard_fire. rewrite (proj2 (Rltb_true 0 (8 * t + 1))) by lra. auto. }
  split; [|split].
  - rewrite D by lra. f_equal. replace (8 * 0 + 1) with 1 by ring. rewrite ln_1. field. lra.
  - intros t H. rewrite D by auto. eexists; split; [reflexivity|].
    assert (0 <= ln (8 * t + 1)). { destruct (Req_dec t 0) as [->|N]; [replace (8 * 0 + 1) with 1 by ring; rewrite ln_1; lra|]. left. rewrite <- ln_1 at 1. apply ln_increasing; lra. }
    assert (0 <= ln (8 * t + 1) / ln 10) by (apply le_div_iff; lra). lra.
  - intros t t' v v' H. rewrite !D by lra. intros A B; injection A as <-; injection B as <-.
    assert (ln (8 * t + 1) < ln (8 * t' + 1)) by (apply ln_increasing; lra).
    assert (ln (8 * t + 1) / ln 10 < ln (8 * t' + 1) / ln 10) by (apply Rmult_lt_compat_r; [apply Rinv_0_lt_compat; auto|auto]). lra.
Qed.
Lemma hydrocarbon_fire_lemma : hydrocarbon_fire 0 = 20 /\ rising hydrocarbon_fire /\
  (forall t, 0 <= t -> 20 <= hydrocarbon_fire t < 1100).
Proof.
  assert (Z : hydrocarbon_fire 0 = 20) by (unfold hydrocarbon_fire; rewrite !Rmult_0_r, exp_0; lra).
  assert (M : rising hydrocarbon_fire).
  { intros x y [H H1]. unfold hydrocarbon_fire.
    assert (exp (- (167/1000) * y) < exp (- (167/1000) * x)) by (apply exp_increasing; lra).
    assert (exp (- (25/10) * y) < exp (- (25/10) * x)) by (apply exp_increasing; lra). lra. }
  split; auto. split; auto. intros t H. split.
  - destruct (Req_dec t 0) as [->|N]; [lra|]. left. rewrite <- Z at 1. apply M; lra.
  - unfold hydrocarbon_fire. pose proof (exp_pos (- (167/1000) * t)). pose proof (exp_pos (- (25/10) * t)). lra.
Qed.

(** C62: elongation. *)
Lemma elongation_cases t : (t < 750 /\ therm_elongation t = 12/1000000 * t + 4/1000000000 * t ^ 2 - 2416/10000000) \/
  (750 <= t <= 860 /\ therm_elongation t = 11/1000) \/ (860 < t /\ therm_elongation t = 2/100000 * t - 62/10000).
Proof. unfold therm_elongation, Rltb, Rleb. destruct (Rlt_dec t 750); [left; auto|]. destruct (Rle_dec t 860); right; [left|right]; split; auto; lra. Qed.
Lemma elongation_mono_lemma t t' : 20 <= t <= t' -> therm_elongation t <= therm_elongation t' + 84/10000000.
Proof.
  intros H. destruct (elongation_cases t) as [[A ->]|[[A ->]|[A ->]]], (elongation_cases t') as [[B ->]|[[B ->]|[B ->]]]; try lra.
  - assert (t ^ 2 <= t' ^ 2) by nra. lra.
  - assert (t ^ 2 <= 750 ^ 2) by nra. lra.
  - assert (t ^ 2 <= 750 ^ 2) by nra. lra.
Qed.
Lemma elongation_branch_lemma t t' : 20 <= t <= t' -> (t' < 750 \/ 750 <= t) -> therm_elongation t <= therm_elongation t'.
Proof.
  intros H Br. destruct (elongation_cases t) as [[A ->]|[[A ->]|[A ->]]], (elongation_cases t') as [[B ->]|[[B ->]|[B ->]]]; try lra.
  assert (t ^ 2 <= t' ^ 2) by nra. lra.
Qed.
Lemma elongation_refuted_lemma : therm_elongation 750 < therm_elongation (74999/100).
Proof. unfold therm_elongation, Rltb, Rleb. repeat (destruct (Rlt_dec _ _); try lra); repeat (destruct (Rle_dec _ _)); lra. Qed.
Lemma elongation_value_lemma : therm_elongation 20 = 0 /\ therm_elongation 860 = 11/1000 /\ (forall t, 860 < t -> therm_elongation t = 11/1000 + 2/100000 * (t - 860)) /\
  (forall t, 20 <= t <= 1200 -> 0 <= therm_elongation t <= 178/10000).
Proof.
  unfold therm_elongation, Rltb, Rleb. split; [|split; [|split]].
  - destruct (Rlt_dec 20 750); lra.
  - destruct (Rlt_dec 860 750); [lra|]. destruct (Rle_dec 860 860); lra.
  - intros t H. destruct (Rlt_dec t 750); [lra|]. destruct (Rle_dec t 860); lra.
  - intros t H. destruct (Rlt_dec t 750); [|destruct (Rle_dec t 860); lra].
    assert (20 ^ 2 <= t ^ 2 <= 750 ^ 2) by (split; nra). lra.
Qed.

(** Thermal properties. *)
Lemma spec_heat_pos t : -273 <= t -> exists c, spec_heat t = Some c /\ 40 < c.
Proof.
  intros H. unfold spec_heat, Rltb. destruct (Rlt_dec t 600).
  - eexists; split; [reflexivity|]. 
    (* cubic with positive derivative, value above 40 at -273 *)
    pose (u := t + 273). assert (U : 0 <= u) by (unfold u; lra).
    replace t with (u - 273) by (unfold u; ring).
    assert (0 <= u * (222/100000000 * u ^ 2 - 350818/100000000 * u + 219206/100000)).
    { apply Rmult_le_pos; auto. assert (u < 873) by (unfold u; lra). pose proof (pow2_ge_0 (u - 790)). nra. }
    nra.
  - destruct (Rlt_dec t 735).
    + unfold pdiv. rewrite (proj2 (Reqb_false (738 - t) 0)) by lra. cbn [bind]. eexists; split; [reflexivity|].
      assert (0 < 13002 / (738 - t)) by (apply Rdiv_lt_0_compat; lra). lra.
    + destruct (Rlt_dec t 900); [|eexists; split; [reflexivity|lra]].
      unfold pdiv. rewrite (proj2 (Reqb_false (t - 731) 0)) by lra. cbn [bind]. eexists; split; [reflexivity|].
      assert (0 < 17820 / (t - 731)) by (apply Rdiv_lt_0_compat; lra). lra.
Qed.
Lemma spec_heat_stainless_pos t : -273 <= t -> 300 < spec_heat_stainless t.
Proof.
  intros H. unfold spec_heat_stainless. destruct (Rle_dec 0 t).
  - assert (0 <= t * (134/1000000000 * t ^ 2 - 291/1000000 * t + 280/1000)).
    { apply Rmult_le_pos; auto. pose proof (pow2_ge_0 (t - 1086)). nra. }
    nra.
  - assert (0 <= t ^ 2 <= 273 ^ 2) by nra. assert (t ^ 3 >= - (273 ^ 3)). { assert (t ^ 2 * (- t) <= 273 ^ 2 * 273) by nra. simpl in *. lra. }
    lra.
Qed.

(** The net heat flux has the sign of the temperature difference. *)
Lemma pow4_lt x y : 0 <= x < y -> x ^ 4 < y ^ 4.
Proof. intros H. assert (x ^ 2 < y ^ 2) by nra. replace (x ^ 4) with (x ^ 2 * x ^ 2) by ring. replace (y ^ 4) with (y ^ 2 * y ^ 2) by ring. assert (0 <= x ^ 2) by nra. nra. Qed.
Lemma hnet_lemma tg ts phi ef em ac : -273 <= tg -> -273 <= ts -> 0 <= phi -> 0 <= ef -> 0 <= em -> 0 < ac ->
  (ts < tg -> ac * (tg - ts) <= hnet tg ts phi ef em ac) /\ (tg < ts -> hnet tg ts phi ef em ac <= ac * (tg - ts)) /\ (tg = ts -> hnet tg ts phi ef em ac = 0).
Proof.
  intros A B P E1 E2 Ac. unfold hnet. assert (K : 0 <= phi * em * ef * (567/10000000000)).
  { apply Rmult_le_pos; [|lra]. apply Rmult_le_pos; auto. apply Rmult_le_pos; auto. }
  set (k := phi * em * ef * (567/10000000000)) in *. clearbody k.
  split; [|split].
  - intros H. assert ((ts + 273) ^ 4 < (tg + 273) ^ 4) by (apply pow4_lt; lra). nra.
  - intros H. assert ((tg + 273) ^ 4 < (ts + 273) ^ 4) by (apply pow4_lt; lra). nra.
  - intros ->. ring.
Qed.
Lemma hnet_mono_lemma tg tg' ts phi ef em ac : -273 <= tg < tg' -> 0 <= phi -> 0 <= ef -> 0 <= em -> 0 < ac -> hnet tg ts phi ef em ac < hnet tg' ts phi ef em ac.
Proof.
  intros A P E1 E2 Ac. unfold hnet. assert (K : 0 <= phi * em * ef * (567/10000000000)).
  { apply Rmult_le_pos; [|lra]. apply Rmult_le_pos; auto. apply Rmult_le_pos; auto. }
  set (k := phi * em * ef * (567/10000000000)) in *. clearbody k.
  assert ((tg + 273) ^ 4 < (tg' + 273) ^ 4) by (apply pow4_lt; lra). nra.
Qed.

(** One step moves the steel temperature towards the gas temperature. *)
Lemma step_lemma heat em ac ksh AmV dt tg T : good_heat heat -> 0 <= em -> 0 < ac -> 0 < ksh -> 0 < AmV -> 0 < dt -> -273 <= tg -> -273 <= T ->
  exists T', steel_step heat em ac ksh AmV dt tg T = Some T' /\ (T < tg -> T < T') /\ (tg < T -> T' < T) /\ (tg = T -> T' = T).
Proof.
  intros G E A K M D Hg HT. destruct (G T HT) as (c & Hc & Pc). unfold steel_step. rewrite Hc. cbn [bind]. unfold pdiv. rewrite (proj2 (Reqb_false c 0)) by lra. cbn [bind].
  eexists; split; [reflexivity|].
  assert (Q : 0 < ksh * AmV / c / 7850) by (apply Rdiv_lt_0_compat; [apply Rdiv_lt_0_compat; [nra|auto]|lra]).
  set (q := ksh * AmV / c / 7850) in *. clearbody q.
  destruct (hnet_lemma tg T 1 1 em ac Hg HT ltac:(lra) ltac:(lra) E A) as (H1 & H2 & H3). set (h := hnet tg T 1 1 em ac) in *. clearbody h.
  split; [|split].
  - intros L. specialize (H1 L). assert (0 < h) by nra. assert (0 < q * h) by nra. nra.
  - intros L. specialize (H2 L). assert (h < 0) by nra. assert (q * h < 0) by nra. nra.
  - intros L. rewrite (H3 L). ring.
Qed.
Lemma heats : good_heat spec_heat /\ good_heat (fun t => Some (spec_heat_stainless t)).
Proof.
  split; intros t H.
  - destruct (spec_heat_pos t H) as (c & E & P). exists c. split; auto. lra.
  - eexists; split; [reflexivity|]. pose proof (spec_heat_stainless_pos t H). lra.
Qed.

(** The loop: number of entries and time stamps. *)
Lemma stamps_S dt n : stamps dt (S n) = INR n * dt / 60 :: stamps dt n.
Proof. unfold stamps. rewrite seq_S, rev_app_distr. reflexivity. Qed.
Lemma loop_shape fuel : forall heat gas em ac ksh AmV tmax dt n Ts Tm rT rM,
  Tm = stamps dt (S n) -> length Ts = S n ->
  steel_loop fuel heat gas em ac ksh AmV tmax dt (INR n * dt) Ts Tm = Some (rT, rM) ->
  exists m, (n <= m)%nat /\ rM = stamps dt (S m) /\ length rT = S m /\ tmax <= INR m * dt /\ (forall k, (n <= k < m)%nat -> INR k * dt < tmax).
Proof.
  induction fuel as [|f IH]; intros heat gas em ac ksh AmV tmax dt n Ts Tm rT rM HM HL; cbn [steel_loop].
  - destruct (Rltb (INR n * dt) tmax) eqn:E; [discriminate|]. apply Rltb_false in E. intros X; injection X as <- <-.
    exists n. repeat split; auto; try lra; intros; lia.
  - destruct (Rltb (INR n * dt) tmax) eqn:E.
    + apply Rltb_true in E. destruct (gas (INR n * dt / 60)) as [tg|]; [|discriminate]. cbn [bind].
      destruct (steel_step heat em ac ksh AmV dt tg (hd 0 Ts)) as [T'|]; [|discriminate]. cbn [bind].
      replace (INR n * dt + dt) with (INR (S n) * dt) by (rewrite S_INR; ring). intros X.
      apply IH in X; [|rewrite stamps_S, HM; auto|simpl; lia]. destruct X as (m & L & A & B & C & D).
      exists m. split; [lia|]. split; auto. split; auto. split; auto. intros k Hk.
      destruct (Nat.eq_dec k n) as [->|N]; auto. apply D. lia.
    + apply Rltb_false in E. intros X; injection X as <- <-. exists n. repeat split; auto; try lra; intros; lia.
Qed.
(** A non-positive time step never finishes. *)
Lemma loop_diverges fuel : forall heat gas em ac ksh AmV tmax dt t Ts Tm, dt <= 0 -> t < tmax ->
  steel_loop fuel heat gas em ac ksh AmV tmax dt t Ts Tm = None.
Proof.
  induction fuel as [|f IH]; intros heat gas em ac ksh AmV tmax dt t Ts Tm D L; cbn [steel_loop]; rewrite (proj2 (Rltb_true _ _)) by auto; auto.
  destruct (gas (t / 60)); auto. cbn [bind]. destruct (steel_step _ _ _ _ _ _ _ _); auto. cbn [bind]. apply IH; auto. lra.
Qed.

(** With a step short enough for the section the steel never gets hotter than the gas
    and never cools down. *)
Lemma pow4_gap a b : 0 <= a <= b -> b ^ 4 - a ^ 4 <= 4 * b ^ 3 * (b - a).
Proof.
  intros H. replace (b ^ 4 - a ^ 4) with ((b - a) * (b ^ 3 + b ^ 2 * a + b * a ^ 2 + a ^ 3)) by ring.
  assert (b ^ 2 * a <= b ^ 3) by (assert (0 <= b ^ 2) by nra; replace (b ^ 3) with (b ^ 2 * b) by ring; nra).
  assert (b * a ^ 2 <= b ^ 3). { assert (a ^ 2 <= b ^ 2) by nra. replace (b ^ 3) with (b * b ^ 2) by ring. nra. }
  assert (a ^ 3 <= b ^ 3) by (apply pow_incr; lra). nra.
Qed.
Definition warm_heat (heat : R -> option R) : Prop := forall t, 20 <= t -> exists c, heat t = Some c /\ 439 <= c.
Lemma warm_heats : warm_heat spec_heat /\ warm_heat (fun t => Some (spec_heat_stainless t)).
Proof.
  split; intros t H.
  - unfold spec_heat, Rltb. destruct (Rlt_dec t 600).
    + eexists; split; [reflexivity|]. 
      pose (u := t - 20). assert (U : 0 <= u) by (unfold u; lra). replace t with (u + 20) by (unfold u; ring).
      assert (0 <= u * (222/100000000 * u ^ 2 - 15568/10000000 * u + 708/1000)).
      { apply Rmult_le_pos; auto. pose proof (pow2_ge_0 (u - 350)). nra. }
      nra.
    + destruct (Rlt_dec t 735).
      * unfold pdiv. rewrite (proj2 (Reqb_false (738 - t) 0)) by lra. cbn [bind]. eexists; split; [reflexivity|].
        assert (0 < 13002 / (738 - t)) by (apply Rdiv_lt_0_compat; lra). lra.
      * destruct (Rlt_dec t 900); [|eexists; split; [reflexivity|lra]].
        unfold pdiv. rewrite (proj2 (Reqb_false (t - 731) 0)) by lra. cbn [bind]. eexists; split; [reflexivity|].
        assert (0 < 17820 / (t - 731)) by (apply Rdiv_lt_0_compat; lra). lra.
  - eexists; split; [reflexivity|]. unfold spec_heat_stainless.
    assert (0 <= t * (134/1000000000 * t ^ 2 - 291/1000000 * t + 158/1000)).
    { apply Rmult_le_pos; [lra|]. pose proof (pow2_ge_0 (t - 1086)). nra. }
    nra.
Qed.
Lemma step_between heat em ac ksh AmV dt tg T : warm_heat heat -> 0 <= em <= 7/10 -> 0 < ac <= 50 -> 0 < ksh -> 0 < AmV -> 0 < dt ->
  ksh * AmV * dt <= 6000 -> 20 <= T <= tg -> tg <= 1200 ->
  exists T', steel_step heat em ac ksh AmV dt tg T = Some T' /\ T <= T' <= tg.
Proof.
  intros G E A K M D L HT Hg. destruct (G T ltac:(lra)) as (c & Hc & Pc). unfold steel_step. rewrite Hc. cbn [bind].
  unfold pdiv. rewrite (proj2 (Reqb_false c 0)) by lra. cbn [bind]. eexists; split; [reflexivity|].
  unfold hnet. set (w := ksh * AmV) in *. assert (W : 0 < w) by (unfold w; nra). clearbody w.
  set (k := 1 * em * 1 * (567/10000000000)). assert (HK : 0 <= k <= 3969/100000000000) by (unfold k; lra). clearbody k.
  pose proof (pow4_gap (T + 273) (tg + 273) ltac:(lra)) as P4.
  assert (B3 : 0 <= (tg + 273) ^ 3 <= 1473 ^ 3) by (split; [apply pow_le; lra|apply pow_incr; lra]).
  assert (B4 : (T + 273) ^ 4 <= (tg + 273) ^ 4) by (apply pow_incr; lra).
  set (F := (tg + 273) ^ 4 - (T + 273) ^ 4) in *. set (dT := tg - T). assert (HD : 0 <= dT) by (unfold dT; lra).
  replace (tg + 273 - (T + 273)) with dT in P4 by (unfold dT; ring).
  assert (F1 : 0 <= F) by (unfold F; lra). clearbody F. set (b3 := (tg + 273) ^ 3) in *. clearbody b3.
  assert (F2 : F <= 12785 * 1000000 * dT). { assert (b3 * dT <= 1473 ^ 3 * dT) by nra. simpl in *. lra. }
  assert (H0 : 0 <= ac * dT + k * F <= 560 * dT).
  { assert (0 <= k * F) by nra. assert (k * F <= 3969/100000000000 * (12785 * 1000000 * dT)) by nra. split; nra. }
  set (h := ac * dT + k * F) in *. clearbody h.
  assert (Q : w / c / 7850 * h * dt = w * dt * h / (c * 7850)) by (field; lra). rewrite Q.
  assert (N1 : 0 <= w * dt) by nra. set (wd := w * dt) in *. clearbody wd.
  assert (0 <= wd * h <= 6000 * (560 * dT)) by (split; nra).
  assert (0 <= wd * h / (c * 7850)) by (apply le_div_iff; nra).
  assert (wd * h / (c * 7850) <= dT). { apply div_le_iff; [nra|]. assert (439 * 7850 * dT <= dT * (c * 7850)) by nra. lra. }
  unfold dT in *. lra.
Qed.
Lemma loop_between fuel : forall heat gas em ac ksh AmV tmax dt n Ts tg0, warm_heat heat -> 0 <= em <= 7/10 -> 0 < ac <= 50 -> 0 < ksh -> 0 < AmV -> 0 < dt ->
  ksh * AmV * dt <= 6000 -> gas_curve gas (tmax / 60) -> gas (INR n * dt / 60) = Some tg0 -> Ts <> [] -> 20 <= hd 0 Ts <= tg0 -> never_falls Ts ->
  length Ts = S n -> tmax <= INR (n + fuel) * dt ->
  exists rT m tg, steel_loop fuel heat gas em ac ksh AmV tmax dt (INR n * dt) Ts (stamps dt (S n)) = Some (rT, stamps dt (S m)) /\
    length rT = S m /\ never_falls rT /\ gas (INR m * dt / 60) = Some tg /\ 20 <= hd 0 rT <= tg.
Proof.
  induction fuel as [|f IH]; intros heat gas em ac ksh AmV tmax dt n Ts tg0 G E A K M D L GC G0 NE HT NF HL B; cbn [steel_loop].
  - rewrite Nat.add_0_r in B. rewrite (proj2 (Rltb_false _ _)) by lra. exists Ts, n, tg0. repeat split; auto; lra.
  - destruct (Rltb (INR n * dt) tmax) eqn:X; [|exists Ts, n, tg0; repeat split; auto; lra].
    apply Rltb_true in X. rewrite G0. cbn [bind]. destruct GC as (C1 & C2 & C3).
    assert (P0 : 0 <= INR n * dt / 60) by (apply le_div_iff; [lra|pose proof (pos_INR n); nra]).
    assert (U : tg0 <= 1200) by (eapply C3; [|exact G0]; split; auto; unfold Rdiv; apply Rmult_lt_compat_r; lra).
    destruct (step_between heat em ac ksh AmV dt tg0 (hd 0 Ts) G E A K M D L HT U) as (T' & Es & R1). rewrite Es. cbn [bind].
    replace (INR n * dt + dt) with (INR (S n) * dt) by (rewrite S_INR; ring).
    replace (INR (S n) * dt / 60 :: stamps dt (S n)) with (stamps dt (S (S n))) by (rewrite (stamps_S dt (S n)); auto).
    assert (P1 : INR n * dt / 60 <= INR (S n) * dt / 60) by (unfold Rdiv; rewrite S_INR; nra).
    destruct (C1 (INR (S n) * dt / 60) ltac:(lra)) as (tg1 & G1 & _).
    assert (tg0 <= tg1) by (eapply C2; [|exact G0|exact G1]; lra).
    apply (IH heat gas em ac ksh AmV tmax dt (S n) (T' :: Ts) tg1); auto; try (split; auto); try (simpl; lra).
    + discriminate.
    + destruct Ts; [congruence|]. simpl in *. tauto.
    + simpl. lia.
    + replace (S n + f)%nat with (n + S f)%nat by lia. auto.
Qed.
Lemma standard_curve tm : (forall v, standard_fire tm = Some v -> v <= 1200) -> 0 <= tm -> gas_curve standard_fire tm.
Proof.
  intros H T. destruct standard_fire_lemma as (_ & A & B). repeat split.
  - intros t Ht. apply A; auto.
  - intros t t' v v' [Ht L] E E'. destruct (Req_dec t t') as [->|N]; [rewrite E in E'; injection E' as ->; lra|].
    left. eapply B; [|exact E|exact E']. lra.
  - intros t v Ht E. destruct (A tm T) as (v' & E' & _). pose proof (H v' E'). assert (v < v') by (eapply B; [|exact E|exact E']; lra). lra.
Qed.
Lemma hydrocarbon_curve tm : gas_curve (fun t => Some (hydrocarbon_fire t)) tm.
Proof.
  destruct hydrocarbon_fire_lemma as (_ & A & B). repeat split.
  - intros t Ht. eexists; split; [reflexivity|]. apply B; auto.
  - intros t t' v v' [Ht L] E E'. injection E as <-; injection E' as <-. destruct (Req_dec t t') as [->|N]; [lra|]. left. apply A; lra.
  - intros t v Ht E. injection E as <-. pose proof (B t ltac:(lra)). lra.
Qed.
Lemma steel_temp_lemma fuel ksh AmV tmax dt T0 : 0 < ksh -> 0 < AmV -> 0 < dt -> ksh * AmV * dt <= 6000 -> 0 <= tmax ->
  (forall v, standard_fire (tmax / 60) = Some v -> v <= 1200) -> T0 = 20 -> tmax <= INR fuel * dt ->
  exists Ts m tg, steel_temp fuel ksh AmV tmax dt T0 = Some (Ts, stamps dt (S m)) /\ length Ts = S m /\ never_falls Ts /\
    standard_fire (INR m * dt / 60) = Some tg /\ 20 <= hd 0 Ts <= tg.
Proof.
  intros K M D L T G -> B. unfold steel_temp.
  replace (steel_loop fuel spec_heat standard_fire (7/10) 25 ksh AmV tmax dt 0 [20] [0])
    with (steel_loop fuel spec_heat standard_fire (7/10) 25 ksh AmV tmax dt (INR 0 * dt) [20] (stamps dt 1)).
  2: { unfold stamps. simpl. rewrite Rmult_0_l. f_equal. f_equal. unfold Rdiv. ring. }
  apply (loop_between fuel spec_heat standard_fire (7/10) 25 ksh AmV tmax dt 0 [20] 20); auto; try lra; try (simpl; auto; lra).
  - apply warm_heats.
  - apply standard_curve; auto. apply le_div_iff; lra.
  - simpl. replace (0 * dt / 60) with 0 by (unfold Rdiv; ring). apply standard_fire_lemma.
  - discriminate.
Qed.
Lemma stainless_temp_lemma fuel ksh AmV tmax dt T0 : 0 < ksh -> 0 < AmV -> 0 < dt -> ksh * AmV * dt <= 6000 -> 0 <= tmax ->
  (forall v, standard_fire (tmax / 60) = Some v -> v <= 1200) -> T0 = 20 -> tmax <= INR fuel * dt ->
  exists Ts m tg, stainless_steel_temp fuel ksh AmV tmax dt T0 = Some (Ts, stamps dt (S m)) /\ length Ts = S m /\ never_falls Ts /\
    standard_fire (INR m * dt / 60) = Some tg /\ 20 <= hd 0 Ts <= tg.
Proof.
  intros K M D L T G -> B. unfold stainless_steel_temp.
  replace (steel_loop fuel (fun t => Some (spec_heat_stainless t)) standard_fire (4/10) 25 ksh AmV tmax dt 0 [20] [0])
    with (steel_loop fuel (fun t => Some (spec_heat_stainless t)) standard_fire (4/10) 25 ksh AmV tmax dt (INR 0 * dt) [20] (stamps dt 1)).
  2: { unfold stamps. simpl. rewrite Rmult_0_l. f_equal. f_equal. unfold Rdiv. ring. }
  apply (loop_between fuel (fun t => Some (spec_heat_stainless t)) standard_fire (4/10) 25 ksh AmV tmax dt 0 [20] 20); auto; try lra; try (simpl; auto; lra).
  - apply warm_heats.
  - apply standard_curve; auto. apply le_div_iff; lra.
  - simpl. replace (0 * dt / 60) with 0 by (unfold Rdiv; ring). apply standard_fire_lemma.
  - discriminate.
Qed.

Lemma law_bounds_lemma fp E fy fu eps (h : bool) : law_ok fp E fy fu -> 0 <= eps -> exists v, stress_law eps fp E fy fu h = Some v /\
  0 <= v <= (if h then fu else fy) /\ (20/100 <= eps -> v = 0) /\ (eps <= fp / E -> v = E * eps).
Proof. intros OK H. exact (law_bounds fp E fy fu OK eps h H). Qed.
Lemma law_mono_lemma fp E fy fu x y (h : bool) vx vy : law_ok fp E fy fu -> x <= y -> y <= 15/100 ->
  stress_law x fp E fy fu h = Some vx -> stress_law y fp E fy fu h = Some vy -> vx <= vy.
Proof. intros OK. exact (law_mono fp E fy fu OK x y h vx vy). Qed.
Lemma law_continuous_lemma fp E fy fu h : law_ok fp E fy fu -> continuity (fun eps => sv (stress_law eps fp E fy fu h)).
Proof. intros OK. exact (law_continuous fp E fy fu OK h). Qed.
