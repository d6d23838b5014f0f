From Verif Require Import Sections_proofs Sections3_proofs Plate_proofs.
From Verif Require Import Cost_spec.
Require Import Psatz.
Open Scope R_scope.

(* ------------------------------------------------------------ annuity *)
Lemma pow_ge1 i n : 0 < i -> (0 < n)%nat -> 1 + i <= (1 + i) ^ n.
Proof. intros I0 N. pose proof (poly n i I0). assert (1 <= INR n) by (apply (le_INR 1); lia). nra. Qed.
Lemma annual_some P i n : 0 < i -> (0 < n)%nat -> annual_cost P i n = Some (P * (i * (1 + i) ^ n / ((1 + i) ^ n - 1))).
Proof. intros I0 N. pose proof (pow_ge1 i n I0 N). unfold annual_cost. rewrite pdiv_ok by lra. reflexivity. Qed.
Lemma pv_closed a i n : 0 < i -> present_value a i n = a * ((1 - / (1 + i) ^ n) / i).
Proof.
  intros I0. induction n as [|n IH]; [cbn; field; lra|]. cbn [present_value]. rewrite IH. assert (0 < (1 + i) ^ n) by (apply pow_lt; lra).
  cbn [pow]. field. split; [lra|split; lra].
Qed.
Lemma annuity_lemma P i n : 0 < i -> (0 < n)%nat -> exists a, annual_cost P i n = Some a /\ present_value a i n = P.
Proof.
  intros I0 N. rewrite annual_some by auto. eexists. split; [reflexivity|]. rewrite pv_closed by auto. pose proof (pow_ge1 i n I0 N).
  field. repeat split; lra.
Qed.
Lemma pv_mono a i i' n n' : 0 <= a -> 0 < i -> i <= i' -> (n' <= n)%nat -> present_value a i' n' <= present_value a i n.
Proof.
  intros A I0 II N. assert (G : forall m, present_value a i' m <= present_value a i m).
  { induction m as [|m IH]; [cbn; lra|]. cbn [present_value]. apply Rplus_le_compat; [auto|]. unfold Rdiv. apply Rmult_le_compat_l; [auto|].
    apply Rinv_le_contravar; [apply pow_lt; lra|]. apply pow_incr. lra. }
  apply Rle_trans with (present_value a i n'); [apply G|]. clear G. induction N as [|m N IH]; [lra|]. cbn [present_value]. apply Rle_trans with (1 := IH).
  assert (0 <= a / (1 + i) ^ S m) by (unfold Rdiv; apply Rmult_le_pos; [auto|]; left; apply Rinv_0_lt_compat; apply pow_lt; lra). lra.
Qed.
Lemma pv_scale a i n : present_value a i n = a * present_value 1 i n.
Proof. induction n as [|n IH]; [cbn; ring|]. cbn [present_value]. rewrite IH. unfold Rdiv. ring. Qed.
Lemma pv1_pos i n : 0 < i -> (0 < n)%nat -> 0 < present_value 1 i n.
Proof.
  intros I0 N. rewrite pv_closed by auto. pose proof (pow_ge1 i n I0 N). assert (H9 : / (1 + i) ^ n < / 1) by (apply Rinv_lt_contravar; lra). rewrite Rinv_1 in H9.
  rewrite Rmult_1_l. unfold Rdiv. apply Rmult_lt_0_compat; [lra|apply Rinv_0_lt_compat; auto].
Qed.
Lemma annuity_mono_lemma P P' i i' n n' a a' : 0 <= P -> P <= P' -> 0 < i -> i <= i' -> (0 < n')%nat -> (n' <= n)%nat ->
  annual_cost P i n = Some a -> annual_cost P' i' n' = Some a' -> 0 <= a <= a'.
Proof.
  intros P0 PP I0 II N NN E E'. destruct (annuity_lemma P i n) as (b & Eb & V); [auto|lia|]. rewrite E in Eb. injection Eb as <-.
  destruct (annuity_lemma P' i' n') as (b & Eb & V'); [lra|auto|]. rewrite E' in Eb. injection Eb as <-.
  rewrite pv_scale in V. rewrite pv_scale in V'. assert (0 < present_value 1 i n) by (apply pv1_pos; [auto|lia]). assert (0 < present_value 1 i' n') by (apply pv1_pos; [lra|lia]).
  pose proof (pv_mono 1 i i' n n' ltac:(lra) I0 II NN).
  assert (Q0 : 0 <= a) by (apply Rnot_lt_le; intros Z; nra). assert (Q1 : 0 <= a') by (apply Rnot_lt_le; intros Z; nra).
  split; [auto|]. apply Rnot_lt_le. intros Z. nra.
Qed.
Lemma annuity_zero_lemma P n : annual_cost P 0 n = None.
Proof. unfold annual_cost, pdiv. replace ((1 + 0) ^ n - 1) with 0 by (rewrite Rplus_0_r, pow1; ring). destruct (Reqb 0 0) eqn:E; [reflexivity|apply Reqb_false in E; lra]. Qed.

(* ------------------------------------------------------------ cost centres *)
Lemma centre_cost_eq c : 0 < utility c -> centre_cost c = Some ((prod c + nonprod c) * rate c / utility c + prod c * (cons c + energy c) + cons_cost c).
Proof. intros U. unfold centre_cost. rewrite pdiv_ok by lra. reflexivity. Qed.
Lemma centre_mono_lemma c c' : sound c -> cheaper c c' -> exists k k', centre_cost c = Some k /\ centre_cost c' = Some k' /\ 0 <= k <= k'.
Proof.
  intros (A1 & A2 & A3 & A4 & A5 & A6 & A7 & A8 & A9 & A10 & A11) (B1 & B2 & B3 & B4 & B5 & B6 & B7 & B8 & B9 & B10 & B11).
  rewrite (centre_cost_eq c A9), (centre_cost_eq c') by (rewrite <- B9; auto). eexists. eexists. split; [reflexivity|]. split; [reflexivity|].
  assert (R0 : 0 <= rate c) by (unfold rate; lra). assert (R1 : rate c <= rate c') by (unfold rate; lra). rewrite <- B9.
  assert (D0 : 0 <= (prod c + nonprod c) * rate c) by nra. assert (D1 : (prod c + nonprod c) * rate c <= (prod c' + nonprod c') * rate c') by nra.
  assert (E0 : 0 <= prod c * (cons c + energy c)) by nra. assert (E1 : prod c * (cons c + energy c) <= prod c' * (cons c' + energy c')) by nra.
  assert (/ utility c > 0) by (apply Rinv_0_lt_compat; auto). unfold Rdiv. split; [nra|]. 
  assert ((prod c + nonprod c) * rate c * / utility c <= (prod c' + nonprod c') * rate c' * / utility c) by (apply Rmult_le_compat_r; lra). lra.
Qed.
Lemma new_centre_lemma len wid invest resale maint years : 0 <= len -> 0 <= wid -> resale <= invest -> 0 <= maint -> (0 < years)%nat ->
  exists c, new_centre len wid invest resale maint years = Some c /\ sound c /\ utility c = 1 /\ rate c <= minutes * 1000 * (len * wid + (invest - resale) + maint).
Proof.
  intros L W I0 M Y. unfold new_centre. 
  assert (A0 : 0 <= len * wid) by nra. 
  assert (N50 : (0 < 50)%nat) by lia.
  assert (F : forall P n, 0 <= P -> (0 < n)%nat -> exists a, annual_cost P (5/100) n = Some a /\ 0 <= a <= 2 * P).
  { intros P n HP HN. rewrite annual_some by (auto; lra). eexists. split; [reflexivity|].
    pose proof (pow_ge1 (5/100) n ltac:(lra) HN). set (q := (1 + 5/100) ^ n) in *.
    assert (0 <= 5/100 * q / (q - 1) <= 2). { split; [apply div_nn; nra|]. apply (Rmult_le_reg_r (q - 1)); [lra|]. unfold Rdiv. rewrite Rmult_assoc, Rinv_l by lra. nra. }
    split; nra. }
  destruct (F (len * wid * construction_cost - len * wid * land_cost) 50%nat) as (re & -> & R0 & R1); [unfold construction_cost, land_cost; nra|auto|].
  destruct (F (invest - resale) years) as (eq & -> & E0 & E1); [lra|auto|]. cbn [bind]. eexists. split; [reflexivity|].
  assert (MP : 0 < minutes) by (unfold minutes; lra). assert (MI : 0 < / minutes) by (apply Rinv_0_lt_compat; auto).
  assert (RM : 0 <= real_maintenance) by (unfold real_maintenance; lra).
  split; [|split; [reflexivity|]].
  - unfold sound. cbn. unfold Rdiv. repeat split; try lra; try (apply Rmult_le_pos; try lra; nra).
  - unfold rate. cbn. assert (MI1 : / minutes <= / 1) by (apply Rinv_le_contravar; unfold minutes; lra). rewrite Rinv_1 in MI1.
    assert (H : forall x, 0 <= x -> x / minutes <= x) by (intros x Hx; unfold Rdiv; nra).
    pose proof (H eq E0). pose proof (H maint M). pose proof (H re R0). assert (P0 : 0 <= len * wid * real_maintenance) by nra. pose proof (H _ P0).
    assert (re <= 2000 * (len * wid)) by (unfold construction_cost, land_cost in *; lra). assert (len * wid * real_maintenance <= 100 * (len * wid)) by (unfold real_maintenance; lra).
    unfold minutes. lra.
Qed.

(* ------------------------------------------------------------ repeatability *)
Lemma repeatable_step {A} (f : A -> centre -> result) : (forall a b c, snd (f a (fst (f b c))) = snd (f a c)) -> repeatable f.
Proof. intros H hist. unfold after. induction hist as [|b hist IH]; intros a c; cbn; [auto|]. rewrite IH. apply H. Qed.
Lemma repeat_blasting : forall vc, repeatable (blasting_cost vc).
Proof. intros vc. apply repeatable_step. intros a b c. unfold blasting_cost. destruct (pdiv b vc), (pdiv a vc); reflexivity. Qed.
Lemma repeat_cutting : repeatable (fun a : R * R => cutting_cost (fst a) (snd a)).
Proof. apply repeatable_step. intros [t L] [t' L'] c. unfold cutting_cost. cbn [fst snd]. destruct (pdiv L' (cut_speed t')), (pdiv L (cut_speed t)); reflexivity. Qed.
Lemma repeat_painting : forall p, repeatable (painting_cost p).
Proof. intros p. apply repeatable_step. intros a b c. reflexivity. Qed.
Lemma repeat_welding : forall wire, repeatable (fun a : R * R * wtype => weld_cost wire (fst (fst a)) (snd (fst a)) (snd a)).
Proof. intros wire. apply repeatable_step. intros [[s l] w] [[s' l'] w'] c. destruct w, w'; reflexivity. Qed.
Lemma repeat_sawing : repeatable (fun a : R * R * (list R * list R) * (list R * list R) =>
  sawing_cost (fst (fst (fst a))) (snd (fst (fst a))) (fst (snd (fst a))) (snd (snd (fst a))) (fst (snd a)) (snd (snd a))).
Proof.
  apply repeatable_step. intros [[[L b] [hs ts]] [ahs ats]] [[[L' b'] [hs' ts']] [ahs' ats']] c. cbn [fst snd]. unfold sawing_cost.
  destruct (saw_ends (zip4 ts' hs' ahs' ats') 0 0) as [[? ?]|], (saw_ends (zip4 ts hs ahs ats) 0 0) as [[? ?]|]; reflexivity.
Qed.
Lemma repeatable_lemma : (forall vc, repeatable (blasting_cost vc)) /\ repeatable (fun a : R * R => cutting_cost (fst a) (snd a)) /\
  (forall p, repeatable (painting_cost p)) /\ (forall wire, repeatable (fun a : R * R * wtype => weld_cost wire (fst (fst a)) (snd (fst a)) (snd a))) /\
  repeatable (fun a : R * R * (list R * list R) * (list R * list R) =>
  sawing_cost (fst (fst (fst a))) (snd (fst (fst a))) (fst (snd (fst a))) (snd (snd (fst a))) (fst (snd a)) (snd (snd a))).
Proof. exact (conj repeat_blasting (conj repeat_cutting (conj repeat_painting (conj repeat_welding repeat_sawing)))). Qed.

(* ------------------------------------------------------------ cutting *)
Lemma plasma_pos t : 1500 < 89212/10000 * t ^ 2 - 48687/100 * t + 81558/10.
Proof. pose proof (pow2_ge_0 (t - 27287/1000)). nra. Qed.
Lemma cut_speed_pos t : t <= 157 -> 0 < cut_speed t.
Proof. intros T. unfold cut_speed. destruct (Rleb t 30) eqn:E; [pose proof (plasma_pos t); lra|apply Rleb_false in E; lra]. Qed.
Lemma cutting_eq t L c : t <= 157 -> 0 < utility c ->
  snd (cutting_cost t L c) = Some ((L / cut_speed t + nonprod c) * rate c / utility c + L / cut_speed t * (cut_cons t + cut_energy t) + cons_cost c).
Proof. intros T U. unfold cutting_cost. rewrite pdiv_ok by (pose proof (cut_speed_pos t T); lra). cbn [snd]. rewrite centre_cost_eq by (cbn; auto). reflexivity. Qed.
Lemma cut_rate_pos t : 0 < cut_cons t + cut_energy t.
Proof. unfold cut_cons, cut_energy, energy_min. destruct (Rleb t 30) eqn:E; [lra|apply Rleb_false in E; nra]. Qed.
Lemma cut_speed_anti t t' : t <= t' -> t' <= 157 -> t' <= 27 \/ 30 < t' -> cut_speed t' <= cut_speed t.
Proof.
  intros T B H. unfold cut_speed. destruct (Rleb t 30) eqn:E; destruct (Rleb t' 30) eqn:E'; try apply Rleb_true in E; try apply Rleb_true in E'; try apply Rleb_false in E; try apply Rleb_false in E'; try lra.
  - assert (t' <= 27) by lra. assert (0 <= (t' - t) * (48687/100 - 89212/10000 * (t + t'))) by (apply Rmult_le_pos; lra). lra.
  - pose proof (plasma_pos t). lra.
Qed.
Lemma cut_rate_mono t t' : t <= t' -> t' <= 27 \/ 30 < t' -> cut_cons t + cut_energy t <= cut_cons t' + cut_energy t'.
Proof.
  intros T H. unfold cut_cons, cut_energy, energy_min. destruct (Rleb t 30) eqn:E; destruct (Rleb t' 30) eqn:E'; try apply Rleb_true in E; try apply Rleb_true in E'; try apply Rleb_false in E; try apply Rleb_false in E'; try lra.
  - nra.
  - assert (t ^ 2 <= t' ^ 2) by (apply pow_incr; lra). lra.
Qed.
Lemma rate_sound c : sound c -> 0 <= rate c.
Proof. unfold sound, rate. intros. lra. Qed.
Lemma cutting_lemma t t' L L' c : sound c -> t <= t' -> t' <= 157 -> t' = t \/ t' <= 27 \/ 30 < t' -> 0 <= L <= L' ->
  exists x y, snd (cutting_cost t L c) = Some x /\ snd (cutting_cost t' L' c) = Some y /\ 0 <= x <= y /\ (0 < L -> 0 < x).
Proof.
  intros S0 T B H LL. pose proof S0 as (_ & _ & _ & _ & _ & _ & _ & K & U & _ & NP). pose proof (rate_sound c S0) as R0.
  rewrite !cutting_eq by (auto; lra). eexists. eexists. split; [reflexivity|]. split; [reflexivity|].
  pose proof (cut_speed_pos t ltac:(lra)) as V. pose proof (cut_speed_pos t' B) as V'. pose proof (cut_rate_pos t) as C0. 
  assert (VV : cut_speed t' <= cut_speed t) by (destruct H as [->|H]; [lra|apply cut_speed_anti; auto]).
  assert (CC : cut_cons t + cut_energy t <= cut_cons t' + cut_energy t') by (destruct H as [->|H]; [lra|apply cut_rate_mono; auto]).
  assert (X0 : 0 <= L / cut_speed t) by (apply div_nn; lra).
  assert (X1 : L / cut_speed t <= L' / cut_speed t').
  { apply Rle_trans with (L / cut_speed t'); [apply div_anti; lra|apply div_le; lra]. }
  set (x := L / cut_speed t) in *. set (y := L' / cut_speed t') in *. 
  assert (UI : 0 < / utility c) by (apply Rinv_0_lt_compat; auto).
  assert (Z0 : 0 <= (x + nonprod c) * rate c) by nra. assert (Z1 : (x + nonprod c) * rate c <= (y + nonprod c) * rate c) by nra.
  assert (W0 : 0 <= (x + nonprod c) * rate c / utility c) by (apply div_nn; lra).
  assert (W1 : (x + nonprod c) * rate c / utility c <= (y + nonprod c) * rate c / utility c) by (unfold Rdiv; apply Rmult_le_compat_r; lra).
  split; [split; nra|]. intros LP. assert (0 < x) by (unfold x, Rdiv; apply Rmult_lt_0_compat; [auto|apply Rinv_0_lt_compat; auto]). nra.
Qed.
Lemma cutting_thick_lemma L c : 0 < L -> sound c -> 1 <= rate c -> utility c = 1 -> cons_cost c = 0 -> nonprod c = 3 ->
  exists k, snd (cutting_cost 158 (4 * L) c) = Some k /\ k = (4 * L / cut_speed 158 + 3) * rate c + 4 * L / cut_speed 158 * (cut_cons 158) /\ cut_speed 158 < 0 /\ (3 <= L -> k < 0).
Proof.
  intros LP S0 RP U K NP. assert (V : cut_speed 158 = - (39662/10000)).
  { unfold cut_speed. destruct (Rleb 158 30) eqn:E; [apply Rleb_true in E; lra|lra]. }
  unfold cutting_cost. rewrite pdiv_ok by lra. cbn [snd]. rewrite centre_cost_eq by (cbn; lra). cbn. rewrite U, K, NP. change (rate (set_energy (cut_energy 158) (set_cons (cut_cons 158) (set_prod (4 * L / cut_speed 158) c)))) with (rate c).
  assert (E0 : cut_energy 158 = 0) by (unfold cut_energy; destruct (Rleb 158 30) eqn:E; [apply Rleb_true in E; lra|ring]). rewrite E0.
  eexists. split; [reflexivity|]. split; [field; rewrite V; lra|]. split; [rewrite V; lra|]. intros L3. rewrite V.
  assert (CP : 0 < cut_cons 158) by (pose proof (cut_rate_pos 158); lra). 
  replace (4 * L / - (39662/10000)) with (- (4 * L * 10000 / 39662)) by (field; lra). assert (X : 4 * L * 10000 / 39662 > 3) by lra. set (z := 4 * L * 10000 / 39662) in *. nra.
Qed.
Lemma cutting_blip_lemma : cut_speed 28 < cut_speed 30.
Proof. unfold cut_speed. destruct (Rleb 28 30) eqn:E; [|apply Rleb_false in E; lra]. destruct (Rleb 30 30) eqn:F; [lra|apply Rleb_false in F; lra]. Qed.
Lemma cutting_blip_cost_lemma c L : sound c -> 0 < L -> exists x y, snd (cutting_cost 28 L c) = Some x /\ snd (cutting_cost 30 L c) = Some y /\ y < x.
Proof.
  intros S0 LP. pose proof S0 as (_ & _ & _ & _ & _ & _ & _ & K & U & _ & NP). pose proof (rate_sound c S0). pose proof cutting_blip_lemma as B.
  rewrite !cutting_eq by (auto; lra). eexists. eexists. split; [reflexivity|]. split; [reflexivity|].
  assert (CE : cut_cons 30 + cut_energy 30 = cut_cons 28 + cut_energy 28).
  { unfold cut_cons, cut_energy. destruct (Rleb 28 30) eqn:E; [|apply Rleb_false in E; lra]. destruct (Rleb 30 30) eqn:F; [lra|apply Rleb_false in F; lra]. }
  rewrite CE. pose proof (cut_rate_pos 28). pose proof (cut_speed_pos 28 ltac:(lra)) as V.
  assert (X : L / cut_speed 30 < L / cut_speed 28). { unfold Rdiv. apply Rmult_lt_compat_l; [auto|]. apply Rinv_lt_contravar; [nra|auto]. }
  set (y := L / cut_speed 30) in *. set (x := L / cut_speed 28) in *.
  assert ((y + nonprod c) * rate c / utility c <= (x + nonprod c) * rate c / utility c) by (unfold Rdiv; apply Rmult_le_compat_r; [left; apply Rinv_0_lt_compat; auto|nra]). nra.
Qed.

(* ------------------------------------------------------------ painting, blasting, welding *)
Lemma paint_pos p : 0 < paint_TPP p /\ 0 < paint_CP p.
Proof. destruct p; unfold paint_TPP, paint_CP, film_volume; cbn; split; lra. Qed.
Lemma painting_lemma p A A' c : sound c -> 0 <= A <= A' ->
  exists x y, snd (painting_cost p A c) = Some x /\ snd (painting_cost p A' c) = Some y /\ 0 <= x <= y /\
  (nonprod c = 0 -> snd (painting_cost p (A + A') c) = Some (x + y)).
Proof.
  intros S0 AA. pose proof S0 as (_ & _ & _ & _ & _ & C0 & E0 & K & U & _ & NP). pose proof (rate_sound c S0) as R0. destruct (paint_pos p) as [P1 P2].
  unfold painting_cost. cbn [snd]. rewrite !centre_cost_eq by (cbn; auto). cbn. eexists. eexists. split; [reflexivity|]. split; [reflexivity|].
  repeat match goal with |- context [rate (set_cons_cost ?a (set_prod ?b c))] => change (rate (set_cons_cost a (set_prod b c))) with (rate c) end.
  assert (UI : 0 < / utility c) by (apply Rinv_0_lt_compat; auto). split.
  - assert (T0 : 0 <= paint_TPP p * A) by nra. assert (T1 : paint_TPP p * A <= paint_TPP p * A') by nra. assert (Q0 : 0 <= paint_CP p * A) by nra. assert (Q1 : paint_CP p * A <= paint_CP p * A') by nra.
    set (t := paint_TPP p * A) in *. set (t' := paint_TPP p * A') in *.
    assert (0 <= (t + nonprod c) * rate c / utility c) by (apply div_nn; [nra|auto]).
    assert ((t + nonprod c) * rate c / utility c <= (t' + nonprod c) * rate c / utility c) by (unfold Rdiv; apply Rmult_le_compat_r; [lra|nra]).
    split; nra.
  - intros N0. rewrite N0. f_equal. field. lra.
Qed.
Lemma blasting_lemma vc L L' c : sound c -> 0 < vc -> 0 <= L <= L' ->
  exists x y, snd (blasting_cost vc L c) = Some x /\ snd (blasting_cost vc L' c) = Some y /\ 0 <= x <= y.
Proof.
  intros S0 V LL. unfold blasting_cost. rewrite !pdiv_ok by lra. cbn [snd].
  assert (0 <= L / vc) by (apply div_nn; lra). assert (L / vc <= L' / vc) by (apply div_le; lra).
  apply centre_mono_lemma; unfold sound, cheaper in *; cbn; intuition lra.
Qed.
Definition fillet_time (s l : R) : R := l * (1/1000) * (4988/10000 * s ^ 2 - 5/10000 * s + 21/10000) + tacking_time.
Lemma weld_fillet_lemma wire s s' l l' c : sound c -> 0 <= wire -> 0 <= s -> s' = s \/ (1/1000 <= s /\ s <= s') -> 0 <= l <= l' ->
  exists x y, snd (weld_cost wire s l Fillet c) = Some x /\ snd (weld_cost wire s' l' Fillet c) = Some y /\ 0 <= x <= y.
Proof.
  intros S0 W S1 SS LL. unfold weld_cost, weld_weight, welding_time. cbn [snd].
  assert (P : 0 < 4988/10000 * s ^ 2 - 5/10000 * s + 21/10000) by nra.
  assert (Q : 4988/10000 * s ^ 2 - 5/10000 * s <= 4988/10000 * s' ^ 2 - 5/10000 * s').
  { destruct SS as [->|[A B]]; [lra|]. assert (0 <= (s' - s) * (4988/10000 * (s' + s) - 5/10000)) by (apply Rmult_le_pos; lra). lra. }
  assert (T0 : 0 <= l * (1/1000) * (4988/10000 * s ^ 2 - 5/10000 * s + 21/10000)) by nra.
  assert (T1 : l * (1/1000) * (4988/10000 * s ^ 2 - 5/10000 * s + 21/10000) <= l' * (1/1000) * (4988/10000 * s' ^ 2 - 5/10000 * s' + 21/10000)) by (apply Rmult_le_compat; lra).
  assert (SQ : s ^ 2 <= s' ^ 2) by (apply pow_incr; destruct SS as [->|]; lra). pose proof (pow2_ge_0 s).
  assert (K0 : 0 <= l * s ^ 2) by nra. assert (K1 : l * s ^ 2 <= l' * s' ^ 2) by (apply Rmult_le_compat; lra).
  assert (KT : 0 <= tacking_time) by (unfold tacking_time; lra).
  apply centre_mono_lemma; unfold sound, cheaper in *; cbn -[pow]; repeat split; try lra; try (apply Rmult_le_pos; [nra|lra]).
  apply Rmult_le_compat_r; [lra|nra].
Qed.
Lemma weld_butt_lemma wire s s' l l' c : sound c -> 0 <= wire -> 1/2 <= s -> s <= s' -> 0 <= l <= l' ->
  exists x y, snd (weld_cost wire s l Butt c) = Some x /\ snd (weld_cost wire s' l' Butt c) = Some y /\ 0 <= x <= y.
Proof.
  intros S0 W S1 SS LL. unfold weld_cost, weld_weight, welding_time. cbn [snd].
  assert (P : 0 < 249/1000 * s ^ 2 + 96/10000 * s - 506/10000) by nra.
  assert (Q : 249/1000 * s ^ 2 + 96/10000 * s <= 249/1000 * s' ^ 2 + 96/10000 * s') by nra.
  assert (T0 : 0 <= l * (1/1000) * (249/1000 * s ^ 2 + 96/10000 * s - 506/10000)) by nra.
  assert (T1 : l * (1/1000) * (249/1000 * s ^ 2 + 96/10000 * s - 506/10000) <= l' * (1/1000) * (249/1000 * s' ^ 2 + 96/10000 * s' - 506/10000)) by (apply Rmult_le_compat; lra).
  assert (SQ : s ^ 2 <= s' ^ 2) by (apply pow_incr; lra). pose proof (pow2_ge_0 s).
  assert (K0 : 0 <= l * s ^ 2 / 2) by nra. assert (K1 : l * s ^ 2 <= l' * s' ^ 2) by (apply Rmult_le_compat; lra). assert (K2 : l * s ^ 2 / 2 <= l' * s' ^ 2 / 2) by lra.
  assert (KT : 0 <= tacking_time) by (unfold tacking_time; lra).
  apply centre_mono_lemma; unfold sound, cheaper in *; cbn -[pow]; repeat split; try lra; try (apply Rmult_le_pos; [nra|lra]).
  apply Rmult_le_compat_r; [lra|nra].
Qed.
Lemma weld_butt_refuted_lemma wire c : prod (fst (weld_cost wire (2/10) 100000 Butt c)) < 0.
Proof. unfold weld_cost, weld_weight, welding_time, tacking_time. cbn. lra. Qed.

(* ------------------------------------------------------------ sawing *)
Ltac rl := repeat match goal with |- context [Rleb ?a ?b] => let E := fresh in destruct (Rleb a b) eqn:E; [apply Rleb_true in E|apply Rleb_false in E] end.
Lemma feed_bounds t : 40 <= feeding_speed t <= 120.
Proof. unfold feeding_speed. rl; lra. Qed.
Lemma fsp_bounds t : 4/10 <= fsp t <= 8/10.
Proof. unfold fsp. rl; lra. Qed.
Lemma feed_mono t t' : t <= t' -> feeding_speed t' <= feeding_speed t /\ fsp t <= fsp t'.
Proof. intros T. unfold feeding_speed, fsp. rl; lra. Qed.
Lemma saw_time_lemma h h' t t' a a' : 0 <= h <= h' -> t <= t' -> 0 <= a <= a' -> 0 <= saw_time h t a <= saw_time h' t' a'.
Proof.
  intros H T A. unfold saw_time. pose proof (feed_bounds t). pose proof (feed_bounds t'). destruct (feed_mono t t' T) as [F _].
  assert (0 <= h / 2 / feeding_speed t) by (apply div_nn; lra).
  assert (h / 2 / feeding_speed t <= h' / 2 / feeding_speed t'). { apply Rle_trans with (h / 2 / feeding_speed t'); [apply div_anti; lra|apply div_le; lra]. } lra.
Qed.
Lemma saw_ends_lemma es : Forall (fun e : saw_end => let '(t, h, a, b) := e in 0 < saw_time h t a /\ 0 <= b) es ->
  exists tp kk, saw_ends es 0 0 = Some (tp, kk) /\ tp = Rsum (map (fun e : saw_end => let '(t, h, a, b) := e in saw_time h t a) es) /\ 0 <= kk.
Proof.
  intros F. assert (G : forall es tp kk, Forall (fun e : saw_end => let '(t, h, a, b) := e in 0 < saw_time h t a /\ 0 <= b) es -> 0 <= kk ->
    exists tp' kk', saw_ends es tp kk = Some (tp', kk') /\ tp' = tp + Rsum (map (fun e : saw_end => let '(t, h, a, b) := e in saw_time h t a) es) /\ 0 <= kk').
  { clear. induction es as [|[[[t h] a] b] es IH]; intros tp kk F K; cbn [saw_ends map].
    - exists tp, kk. split; [auto|]. split; [cbn; ring|auto].
    - inversion F as [|? ? TB F']; subst. cbn in TB. destruct TB as [T0 B0]. unfold saw_cons. pose proof (fsp_bounds t). rewrite pdiv_ok by lra. cbn [bind]. rewrite pdiv_ok by lra. cbn [option_map bind].
      destruct (IH (tp + saw_time h t a) (kk + b / (1800 * 1350 * fsp t) / saw_time h t a * 170) F') as (tp' & kk' & E & S1 & K').
      + assert (0 <= b / (1800 * 1350 * fsp t) / saw_time h t a) by (apply div_nn; [apply div_nn; lra|auto]). lra.
      + exists tp', kk'. split; [auto|]. split; [rewrite S1, Rsum_cons; ring|auto]. }
  destruct (G es 0 0 F ltac:(lra)) as (tp & kk & E & S1 & K). exists tp, kk. split; [auto|]. split; [rewrite S1; ring|auto].
Qed.
Lemma sawing_lemma L L' b b' hs ts ahs ats c : sound c -> 0 <= L <= L' -> 0 <= b <= b' ->
  Forall (fun e : saw_end => let '(t, h, a, b) := e in 0 < saw_time h t a /\ 0 <= b) (zip4 ts hs ahs ats) ->
  exists x y, snd (sawing_cost L b hs ts ahs ats c) = Some x /\ snd (sawing_cost L' b' hs ts ahs ats c) = Some y /\ 0 <= x <= y.
Proof.
  intros S0 LL BB F. destruct (saw_ends_lemma _ F) as (tp & kk & E & S1 & K). unfold sawing_cost. rewrite E. cbn [snd].
  assert (0 <= tp). { rewrite S1. apply Rsum_nonneg. apply Forall_map. eapply Forall_impl; [|exact F]. intros [[[t h] a] z] AB. cbn in AB. lra. }
  assert (0 <= saw_base) by (unfold saw_base; lra).
  apply centre_mono_lemma; unfold sound, cheaper in *; cbn; intuition lra.
Qed.
Lemma sawing_refuted_lemma : exists c, new_sawing = Some c /\ exists x y, snd (sawing_cost 1000 0 [1] [5] [0] [10000] c) = Some x /\ snd (sawing_cost 1000 0 [1] [5] [180] [10000] c) = Some y /\ y < x.
Proof.
  unfold new_sawing.
  assert (F : exists c, new_centre 35 15 310000 0 1000 20 = Some c /\ sound c /\ utility c = 1 /\ rate c <= 10 /\ cons c = 0).
  { unfold new_centre.
    assert (A : forall P n, 0 <= P -> (20 <= n)%nat -> exists a, annual_cost P (5/100) n = Some a /\ 0 <= a <= P / 10).
    { intros P n HP HN. rewrite annual_some by (try lia; lra). eexists. split; [reflexivity|]. pose proof (poly n (5/100) ltac:(lra)) as PB. assert (INR 20 <= INR n) by (apply le_INR; auto).
      replace (INR 20) with 20 in * by (cbn; lra). set (q := (1 + 5/100) ^ n) in *. assert (2 <= q) by lra.
      assert (0 <= 5/100 * q / (q - 1) <= 1/10). { split; [apply div_nn; nra|]. apply (Rmult_le_reg_r (q - 1)); [lra|]. unfold Rdiv. rewrite !Rmult_assoc, Rinv_l by lra. lra. }
      split; nra. }
    destruct (A (35 * 15 * construction_cost - 35 * 15 * land_cost) 50%nat) as (re & -> & R0 & R1); [unfold construction_cost, land_cost; lra|lia|].
    destruct (A (310000 - 0) 20%nat) as (eq & -> & E0 & E1); [lra|lia|]. cbn [bind]. eexists. split; [reflexivity|].
    unfold sound, rate. cbn. unfold minutes, real_maintenance, construction_cost, land_cost in *. repeat split; lra. }
  destruct F as (c & -> & S0 & U & RB & CC). cbn [option_map]. eexists. split; [reflexivity|].
  set (c1 := set_labour (1 * wage_machine) (set_energy (10 * energy_min) (set_nonprod saw_base c))).
  assert (R1 : 0 <= rate c1 <= 11). { unfold c1, rate in *. cbn. unfold sound in S0. unfold wage_machine. lra. }
  unfold sawing_cost. cbn [zip4 saw_ends]. unfold saw_cons, saw_time.
  assert (FS : feeding_speed 5 = 120) by (unfold feeding_speed; rl; lra). assert (FP : fsp 5 = 4/10) by (unfold fsp; rl; lra). rewrite FS, FP.
  rewrite !pdiv_ok by lra. cbn [option_map bind]. rewrite !pdiv_ok by lra. cbn [option_map bind snd]. rewrite !centre_cost_eq by (cbn; lra).
  eexists. eexists. split; [reflexivity|]. split; [reflexivity|]. 
  repeat match goal with |- context [rate (set_cons_cost ?a (set_prod ?b (set_nonprod ?d c1)))] => change (rate (set_cons_cost a (set_prod b (set_nonprod d c1)))) with (rate c1) end.
  cbn. rewrite U, CC. unfold saw_base, energy_min. lra.
Qed.

(* ------------------------------------------------------------ plates *)
Lemma some_inj' {A} (x y : A) : Some x = Some y -> x = y.
Proof. intros E. injection E; auto. Qed.
Lemma combine_app' {A B} (a a' : list A) (b b' : list B) : length a = length b -> combine (a ++ a') (b ++ b') = combine a b ++ combine a' b'.
Proof. revert b. induction a; intros [|y b] H; cbn in *; try discriminate; auto. f_equal. auto. Qed.
Lemma fair_lemma cut pnt bl wd p wire t : sound cut -> sound pnt -> sound bl -> sound wd -> 0 <= wire -> t <= 157 -> fair (shop_of cut pnt bl wd p wire) t.
Proof.
  intros S1 S2 S3 S4 W T. unfold fair, shop_of. cbn. split; [|split; [|split]].
  - intros L L' H. destruct (cutting_lemma t t L L' cut S1 ltac:(lra) T ltac:(auto) H) as (x & y & A & B & C & _). exists x, y. auto.
  - intros L L' H. destruct (painting_lemma p L L' pnt S2 H) as (x & y & A & B & C & _). exists x, y. auto.
  - intros L L' H. apply (blasting_lemma 3000 L L' bl S3); lra.
  - intros s L L' S0 H. apply (weld_fillet_lemma wire s s L L' wd S4 W S0); auto.
Qed.
Lemma add_on_bounds t : 0 <= thickness_add_on t <= 140.
Proof. unfold thickness_add_on. repeat match goal with |- context [if ?b then _ else _] => destruct b end; lra. Qed.
Lemma quantity_lemma m m' : m <= m' -> 0 <= quantity_add_on m' <= quantity_add_on m.
Proof.
  intros H. unfold quantity_add_on. repeat match goal with |- context [Rltb ?a ?b] => let E := fresh in destruct (Rltb a b) eqn:E; [apply Rltb_true in E|apply Rltb_false in E] end; lra.
Qed.
Lemma plate_lemma w price p b h : fair w (pt p) -> 0 <= price -> 0 <= prho p -> 0 <= pt p -> 0 <= pb p <= b -> 0 <= ph p <= h ->
  Forall (fun d => 0 <= d) (holes p) -> 0 <= st_weld p -> 0 <= st_holes p ->
  exists p1 p2 x y, plate_cost w price p = Some (p1, x) /\ plate_cost w price (resize b h p) = Some (p2, y) /\ 0 <= x <= y.
Proof.
  intros (FC & FP & FB & FW) PR RHO T B H HO SW SH. unfold plate_cost. 
  destruct (FC (circumference p) (circumference (resize b h p))) as (c1 & c2 & C1 & C2 & C3); [unfold circumference; cbn; lra|].
  destruct (FP (paint_area p) (paint_area (resize b h p))) as (q1 & q2 & Q1 & Q2 & Q3).
  { unfold paint_area, circumference. cbn. assert (0 <= ph p * pb p) by nra. assert (ph p * pb p <= h * b) by nra. assert (0 <= pt p * (2 * (ph p + pb p))) by nra. assert (pt p * (2 * (ph p + pb p)) <= pt p * (2 * (h + b))) by nra. lra. }
  destruct (FB (Rmax (pb p) (ph p)) (Rmax b h)) as (b1 & b2 & B1 & B2 & B3).
  { split; [apply Rle_trans with (pb p); [lra|apply Rmax_l]|]. apply Rmax_lub; [apply Rle_trans with b; [lra|apply Rmax_l]|apply Rle_trans with h; [lra|apply Rmax_r]]. }
  assert (WW : exists w1 w2, (if Rltb 0 (weld_size p) then ws_weld w (weld_size p) (circumference p) else Some (st_weld p)) = Some w1 /\
     (if Rltb 0 (weld_size p) then ws_weld w (weld_size p) (circumference (resize b h p)) else Some (st_weld p)) = Some w2 /\ 0 <= w1 <= w2).
  { destruct (Rltb 0 (weld_size p)) eqn:E; [apply Rltb_true in E|exists (st_weld p), (st_weld p); split; [auto|split; [auto|lra]]].
    apply FW; [lra|unfold circumference; cbn; lra]. }
  destruct WW as (w1 & w2 & W1 & W2 & W3).
  assert (HH : exists x, (match holes p with [] => Some (st_holes p) | _ :: _ => ws_cut w (pt p) (Rsum (map (fun d => d * PI) (holes p))) end) = Some x /\ 0 <= x).
  { destruct (holes p) as [|d ds] eqn:E; [exists (st_holes p); auto|]. set (tot := Rsum (map (fun d0 => d0 * PI) (d :: ds))).
    assert (0 <= tot). { apply Rsum_nonneg. apply Forall_map. eapply Forall_impl; [|exact HO]. intros a Ha. cbn in Ha. pose proof PI_RGT_0. nra. }
    destruct (FC tot tot) as (x & y & X & _ & Z); [lra|]. exists x. split; [auto|lra]. }
  destruct HH as (x & HX & X0). cbn [resize pt pb ph weld_size holes st_weld st_holes]. rewrite C1, C2, Q1, Q2, B1, B2. cbn [bind]. rewrite W1. cbn [bind].
  replace (match holes p with [] => Some (st_holes p) | hs => ws_cut w (pt p) (Rsum (map (fun d => d * PI) hs)) end) with (Some x) by (rewrite <- HX; destruct (holes p); reflexivity).
  cbn [bind]. rewrite W2. cbn [bind].
  eexists. eexists. eexists. eexists. split; [reflexivity|]. split; [reflexivity|].
  unfold plate_material. cbn. pose proof (add_on_bounds (pt p)). 
  assert (G : 0 <= grade_add_on (s235 p)) by (unfold grade_add_on; destruct (s235 p); lra).
  set (u := price + grade_add_on (s235 p) + thickness_add_on (pt p)). assert (U0 : 0 <= u) by (unfold u; lra).
  assert (V0 : 0 <= ph p * pb p) by nra. assert (V1 : ph p * pb p <= h * b) by nra.
  assert (V2 : 0 <= ph p * pb p * pt p) by nra. assert (V3 : ph p * pb p * pt p <= h * b * pt p) by nra.
  assert (V4 : 0 <= prho p * (ph p * pb p * pt p)) by nra. assert (V5 : prho p * (ph p * pb p * pt p) <= prho p * (h * b * pt p)) by nra.
  assert (V6 : 0 <= prho p * (ph p * pb p * pt p) * u) by nra. assert (V7 : prho p * (ph p * pb p * pt p) * u <= prho p * (h * b * pt p) * u) by nra. lra.
Qed.
Lemma plate_again_lemma w price p p1 x : plate_cost w price p = Some (p1, x) -> plate_cost w price p1 = Some (p1, x).
Proof.
  unfold plate_cost. intros E. apply bind_inv in E. destruct E as (c & C & E). apply bind_inv in E. destruct E as (q & Q & E). apply bind_inv in E. destruct E as (bl & B & E).
  apply bind_inv in E. destruct E as (wd & W & E). apply bind_inv in E. destruct E as (ho & Ho & E). apply some_inj' in E. 
  assert (E1 : mkPlate (pb p) (ph p) (pt p) (prho p) (s235 p) (weld_size p) (holes p) wd ho = p1) by (apply (f_equal fst) in E; exact E).
  assert (E2 : plate_material price p + c + q + wd + ho + bl = x) by (apply (f_equal snd) in E; exact E). subst p1. clear E.
  unfold circumference, paint_area, plate_material in *. cbn [pb ph pt prho s235 weld_size holes st_weld st_holes] in *.
  unfold circumference in *. cbn [pb ph pt prho s235 weld_size holes st_weld st_holes] in *.
  rewrite C, Q, B. cbn [bind]. 
  assert (W' : (if Rltb 0 (weld_size p) then ws_weld w (weld_size p) (2 * (ph p + pb p)) else Some wd) = Some wd) by (destruct (Rltb 0 (weld_size p)); [exact W|reflexivity]). rewrite W'. cbn [bind].
  assert (H' : (match holes p with [] => Some ho | hs => ws_cut w (pt p) (Rsum (map (fun d => d * PI) hs)) end) = Some ho) by (destruct (holes p); [reflexivity|exact Ho]). rewrite H'. cbn [bind].
  rewrite E2. reflexivity.
Qed.
Lemma plate_stale_lemma w price p p1 x : plate_cost w price p = Some (p1, x) -> exists p2, plate_cost w price (unweld p1) = Some (p2, x).
Proof.
  unfold plate_cost. intros E. apply bind_inv in E. destruct E as (c & C & E). apply bind_inv in E. destruct E as (q & Q & E). apply bind_inv in E. destruct E as (bl & B & E).
  apply bind_inv in E. destruct E as (wd & W & E). apply bind_inv in E. destruct E as (ho & Ho & E). apply some_inj' in E. 
  assert (E1 : mkPlate (pb p) (ph p) (pt p) (prho p) (s235 p) (weld_size p) (holes p) wd ho = p1) by (apply (f_equal fst) in E; exact E).
  assert (E2 : plate_material price p + c + q + wd + ho + bl = x) by (apply (f_equal snd) in E; exact E). subst p1. clear E.
  unfold unweld, circumference, paint_area, plate_material in *. cbn [pb ph pt prho s235 weld_size holes st_weld st_holes] in *.
  unfold circumference in *. cbn [pb ph pt prho s235 weld_size holes st_weld st_holes] in *.
  rewrite C, Q, B. cbn [bind]. destruct (Rltb 0 0) eqn:Z; [apply Rltb_true in Z; lra|]. cbn [bind].
  assert (H' : (match holes p with [] => Some ho | hs => ws_cut w (pt p) (Rsum (map (fun d => d * PI) hs)) end) = Some ho) by (destruct (holes p); [reflexivity|exact Ho]). rewrite H'. cbn [bind].
  eexists. rewrite E2. reflexivity.
Qed.
Ltac rlt := repeat (cbn [andb]; match goal with
  | |- context [Rltb ?a ?b] => let E := fresh in destruct (Rltb a b) eqn:E; [apply Rltb_true in E|apply Rltb_false in E]; try (exfalso; lra)
  | |- context [Rleb ?a ?b] => let E := fresh in destruct (Rleb a b) eqn:E; [apply Rleb_true in E|apply Rleb_false in E]; try (exfalso; lra) end).
Lemma plate_thickness_lemma b h rho s w hs a c : 0 < b -> 0 < h -> 0 < rho ->
  plate_material 1169 (mkPlate b h 6 rho s w hs a c) < plate_material 1169 (mkPlate b h (59/10) rho s w hs a c).
Proof.
  intros B H Rh. unfold plate_material. cbn.
  assert (T1 : thickness_add_on 6 = 82) by (unfold thickness_add_on; rlt; cbn [andb]; lra).
  assert (T2 : thickness_add_on (59/10) = 140) by (unfold thickness_add_on; rlt; cbn [andb]; lra). rewrite T1, T2.
  assert (G : 0 <= grade_add_on s <= 35) by (unfold grade_add_on; destruct s; lra). assert (0 < rho * (h * b)) by (apply Rmult_lt_0_compat; [auto|nra]).
  set (k := rho * (h * b)) in *. replace (rho * (h * b * 6)) with (k * 6) by (unfold k; ring). replace (rho * (h * b * (59 / 10))) with (k * (59/10)) by (unfold k; ring).
  set (g := grade_add_on s) in *. nra.
Qed.

(* ------------------------------------------------------------ bolts *)
Lemma bolt_size_lemma sizes d : sizes <> [] -> (In d sizes -> bolt_size sizes d = d) /\ (~ In d sizes -> bolt_size sizes d = last sizes 0).
Proof.
  intros NE. unfold bolt_size. assert (X : existsb (Reqb d) sizes = true <-> In d sizes).
  { rewrite existsb_exists. split; [intros (x & A & B); apply Reqb_true in B; subst; auto|intros A; exists d; split; auto; apply Reqb_true; auto]. }
  split; intros H; [apply X in H; rewrite H; auto|]. destruct (existsb (Reqb d) sizes) eqn:E; [exfalso; apply H; apply X; auto|].
  destruct (exists_last NE) as (pre & z & ->). rewrite app_length, seq_app. cbn [length seq]. 
  rewrite combine_app' by (rewrite seq_length; auto). rewrite fold_left_app. cbn [combine fold_left plus].
  rewrite last_last. destruct (Rltb d z); cbn [andb]; [|reflexivity]. destruct (Nat.eqb_spec (length pre) 1) as [Z|Z]; cbn [negb]; [rewrite Z; reflexivity|reflexivity].
Qed.
Lemma cutting_negative_lemma L c : 12 <= L -> sound c -> 1 <= rate c -> utility c = 1 -> cons_cost c = 0 -> nonprod c = 3 ->
  exists k, snd (cutting_cost 158 L c) = Some k /\ k < 0.
Proof.
  intros LP S0 RP U K NP. destruct (cutting_thick_lemma (L / 4) c ltac:(lra) S0 RP U K NP) as (k & E & _ & _ & N). replace (4 * (L / 4)) with L in E by field.
  exists k. split; [auto|]. apply N. lra.
Qed.
Lemma defaults_lemma : Forall (fun x => exists c, x = Some c /\ sound c /\ utility c = 1 /\ 0 < rate c)
  [new_blasting; new_cutting; new_painting; new_welding; new_sawing].
Proof.
  unfold new_blasting, new_cutting, new_painting, new_welding, new_sawing.
  assert (G : forall x f, (exists c, x = Some c /\ sound c /\ utility c = 1 /\ True) -> (forall c, sound c -> utility c = 1 -> sound (f c) /\ utility (f c) = 1 /\ 0 < rate (f c)) ->
     exists c, option_map f x = Some c /\ sound c /\ utility c = 1 /\ 0 < rate c).
  { intros x f (c & -> & S0 & U & _) H. exists (f c). destruct (H c S0 U) as (A & B & C). cbn. auto. }
  repeat constructor; apply G; try (intros c S0 U; unfold sound, rate in *; cbn; unfold wage_machine, energy_min, saw_base; repeat split; lra);
  match goal with |- context [new_centre ?a ?b ?c ?d ?e ?n] => destruct (new_centre_lemma a b c d e n) as (k & E & S0 & U & _); [lra|lra|lra|lra|lia|]; exists k; auto end.
Qed.
