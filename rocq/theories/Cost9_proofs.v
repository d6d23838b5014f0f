(** Proofs of the price formulas. *)
From Verif Require Import Tac EC3_proofs Sections_proofs Cost_proofs.
From Verif Require Import Cost_model Cost_spec Cost9_spec.
Require Import Psatz.
Open Scope R_scope.

Lemma yearly_eq P n : (0 < n)%nat -> annual_cost P (5/100) n = Some (yearly P (5/100) n).
Proof.
  intros N. rewrite annual_some by (auto; lra). f_equal. unfold yearly. pose proof (pow_ge1 (5/100) n ltac:(lra) N) as H.
  set (q := (1 + 5/100) ^ n) in *. clearbody q. field. repeat split; lra.
Qed.
Lemma centre_eq len wid invest maint n : (0 < n)%nat -> new_centre len wid invest 0 maint n =
  Some (mkCentre 0 (yearly invest (5/100) n / minutes) (maint / minutes) (yearly (len * wid * 988) (5/100) 50 / minutes)
     (len * wid * real_maintenance / minutes) 0 0 0 1 0 0).
Proof.
  intros N. unfold new_centre. rewrite !yearly_eq by (auto; lia). cbn [bind]. unfold construction_cost, land_cost.
  replace (len * wid * 1000 - len * wid * (6 / (5 / 10))) with (len * wid * 988) by field.
  replace (invest - 0) with invest by ring. reflexivity.
Qed.
Lemma yearly_positive_lemma P n : (0 < n)%nat -> present_value (yearly P (5/100) n) (5/100) n = P.
Proof.
  intros N. destruct (annuity_lemma P (5/100) n ltac:(lra) N) as (a & A & B). rewrite yearly_eq in A by auto. injection A as ->. exact B.
Qed.
Ltac ctr := unfold centre_cost, rate; cbn [labour equip eq_maint estate estate_maint cons energy cons_cost utility prod nonprod set_prod set_nonprod set_cons set_energy set_cons_cost set_labour option_map snd];
  rewrite pdiv_ok by lra; cbn [option_map]; f_equal; unfold minute_rate, minutes, wage_machine, real_maintenance, energy_min.
Ltac gy := repeat match goal with |- context [yearly ?P ?i ?n] => let y := fresh "y" in set (y := yearly P i n); clearbody y end.
Lemma blasting_price_lemma : exists c, new_blasting = Some c /\ forall Lb,
  snd (blasting_cost 3000 Lb c) = Some (Lb / 3000 * (minute_rate 1 400 200000 1000 20 + 315/10000 + 1/15)).
Proof.
  unfold new_blasting. rewrite centre_eq by lia. eexists. split; [reflexivity|]. intros Lb. unfold blasting_cost. rewrite pdiv_ok by lra. cbn [option_map set_labour set_cons set_energy].
  ctr. replace (40 * 10 * 988) with (400 * 988) by ring. gy. field.
Qed.
Lemma plasma_pos t : 0 < 89212/10000 * t ^ 2 - 48687/100 * t + 81558/10.
Proof. pose proof (pow2_ge_0 (t - 2729/100)). nra. Qed.
Lemma cutting_price_lemma : exists c, new_cutting = Some c /\ forall t L,
  (t <= 30 -> forall T, T = L / ((89212 * t ^ 2 - 4868700 * t + 81558000) / 10000) ->
     snd (cutting_cost t L c) = Some ((T + 3) * minute_rate 2 200 280000 1000 20 + T * (213/10000 + 1/12 + 12/100))) /\
  (30 < t -> 65867 / 100 <> 41939 / 10000 * t -> forall T, T = L / (65867/100 - 41939/10000 * t) ->
     snd (cutting_cost t L c) = Some ((T + 3) * minute_rate 2 200 280000 1000 20 +
       T * (11592/100000 + 418/100 * (474/10000 + t / 1000 + t ^ 2 / 100000)))).
Proof.
  unfold new_cutting. rewrite centre_eq by lia. eexists. split; [reflexivity|]. intros t L. pose proof (plasma_pos t) as PP. split.
  - intros H T ET. unfold cutting_cost, cut_speed, cut_cons, cut_energy. destruct (Rleb t 30) eqn:E; [|apply Rleb_false in E; lra].
    rewrite pdiv_ok by lra. ctr. replace (20 * 10 * 988) with (200 * 988) by ring. gy.
    replace T with (L / (89212 / 10000 * t ^ 2 - 48687 / 100 * t + 81558 / 10)) by (rewrite ET; f_equal; field). clear T ET.
    set (T := L / _). clearbody T. field.
  - intros H NZ T ET. unfold cutting_cost, cut_speed, cut_cons, cut_energy. destruct (Rleb t 30) eqn:E; [apply Rleb_true in E; lra|].
    rewrite pdiv_ok by lra. ctr. replace (20 * 10 * 988) with (200 * 988) by ring. gy.
    replace T with (L / (- (41939 / 10000) * t + 65867 / 100)) by (rewrite ET; f_equal; field). clear T ET.
    set (T := L / _). clearbody T. field.
Qed.
Lemma painting_price_lemma : exists c, new_painting = Some c /\ forall p A,
  snd (painting_cost p A c) = Some (A * (paint_volume p / 900000 * minute_rate 1 75 0 0 20 + paint_price p / 1000000)).
Proof.
  unfold new_painting. rewrite centre_eq by lia. eexists. split; [reflexivity|]. intros p A. unfold painting_cost. ctr.
  replace (15 * 5 * 988) with (75 * 988) by ring. gy. unfold paint_TPP, paint_CP, paint_volume, paint_price, film_volume. destruct p; cbn [films fold_left vol_solid dft price]; field.
Qed.
Lemma welding_price_lemma : exists c, new_welding = Some c /\ forall w wire a L, w <> WOther ->
  forall T, T = L * arc_time w a + 159/100 ->
  snd (weld_cost wire a L w c) = Some (T * (minute_rate 1 75 5000 0 10 + 1/100) + L * wire_mass w a * (wire + 1516/1000)).
Proof.
  unfold new_welding. rewrite centre_eq by lia. eexists. split; [reflexivity|]. intros w wire a L W T ->. unfold weld_cost.
  destruct w; [| |congruence]; cbn [weld_weight welding_time]; ctr; replace (15 * 5 * 988) with (75 * 988) by ring; unfold arc_time, wire_mass, tacking_time; gy; field.
Qed.
Lemma feed_pos t : 0 < feeding_speed t.
Proof. unfold feeding_speed. repeat match goal with |- context [Rleb ?a ?b] => destruct (Rleb a b) end; lra. Qed.
Lemma fsp_pos t : 0 < fsp t.
Proof. unfold fsp. repeat match goal with |- context [Rleb ?a ?b] => destruct (Rleb a b) end; lra. Qed.
Lemma saw_ends_eq es : forall tp kk, Forall (fun e => end_time e <> 0) es ->
  saw_ends es tp kk = Some (tp + Rsum (map end_time es), kk + Rsum (map blade es)).
Proof.
  induction es as [|[[[t h] Ah] At] es IH]; intros tp kk F; [cbn; do 2 f_equal; ring|].
  inversion F as [|? ? F1 F2]; subst. cbn [saw_ends].
  pose proof (feed_pos t) as FP. pose proof (fsp_pos t) as SP.
  assert (E : saw_time h t Ah = end_time (t, h, Ah, At)) by (unfold saw_time, end_time; field; lra).
  rewrite E. unfold saw_cons. assert (1800 * 1350 * fsp t <> 0) by nra. rewrite pdiv_ok by lra. cbn [bind]. rewrite pdiv_ok by exact F1.
  cbn [option_map bind]. rewrite IH by exact F2. cbn [map]. rewrite !Rsum_cons. f_equal. 
  assert (B : blade (t, h, Ah, At) = At / (1800 * 1350 * fsp t) / end_time (t, h, Ah, At) * 170).
  { unfold blade. set (T := end_time _) in *. clearbody T. field. split; lra. }
  rewrite B. f_equal; ring.
Qed.
Lemma sawing_price_lemma : exists c, new_sawing = Some c /\ forall L bevels hs ts ahs ats,
  forall es, es = zip4 ts hs ahs ats ->
  Forall (fun e => end_time e <> 0) es ->
  snd (sawing_cost L bevels hs ts ahs ats c) =
    Some ((Rsum (map end_time es) + 45/10 + bevels + L / 20000) * minute_rate 1 525 310000 1000 20 + Rsum (map end_time es) / 60 + Rsum (map blade es)).
Proof.
  unfold new_sawing. rewrite centre_eq by lia. eexists. split; [reflexivity|]. intros L bevels hs ts ahs ats es EE F. unfold sawing_cost. rewrite <- EE.
  rewrite saw_ends_eq by exact F. ctr. replace (35 * 15 * 988) with (525 * 988) by ring. unfold saw_base. gy.
  set (A := Rsum (map end_time es)). set (B := Rsum (map blade es)). clearbody A B. field.
Qed.
Lemma saw_tables_lemma t :
  (t <= 5 -> feeding_speed t = 120 /\ fsp t = 4/10) /\
  (35 < t -> feeding_speed t = 40 /\ fsp t = 8/10) /\
  forall k : nat, (2 <= k <= 7)%nat -> 5 * INR k - 5 < t <= 5 * INR k ->
    feeding_speed t = 120 - 10 * INR k /\ fsp t = 35/100 + 5/100 * INR k.
Proof.
  unfold feeding_speed, fsp. split; [|split].
  - intros H. destruct (Rleb t 5) eqn:E; [auto|apply Rleb_false in E; lra].
  - intros H. repeat match goal with |- context [Rleb ?a ?b] => let E := fresh in destruct (Rleb a b) eqn:E; [apply Rleb_true in E; lra|clear E] end. auto.
  - intros k K H. assert (C : k = 2%nat \/ k = 3%nat \/ k = 4%nat \/ k = 5%nat \/ k = 6%nat \/ k = 7%nat) by lia.
    destruct C as [-> | [-> | [-> | [-> | [-> | ->]]]]]; cbn [INR] in H |- *;
    repeat match goal with |- context [Rleb ?a ?b] => let E := fresh in destruct (Rleb a b) eqn:E; [apply Rleb_true in E | apply Rleb_false in E]; try lra end; split; lra.
Qed.
Lemma thickness_table_lemma t :
  (forall lo hi v, In (lo, hi, v) thickness_table -> lo <= t < hi -> thickness_add_on t = v) /\
  (t < 5 \/ 80 <= t -> thickness_add_on t = 140).
Proof.
  unfold thickness_add_on. split.
  - intros lo hi v I0 H. cbn in I0. repeat destruct I0 as [I0 | I0]; try contradiction; injection I0 as <- <- <-;
    repeat match goal with
    | |- context [Rleb ?a ?b] => let E := fresh in destruct (Rleb a b) eqn:E; [apply Rleb_true in E | apply Rleb_false in E]; try lra
    | |- context [Rltb ?a ?b] => let E := fresh in destruct (Rltb a b) eqn:E; [apply Rltb_true in E | apply Rltb_false in E]; try lra
    end; cbn [andb]; try lra; reflexivity.
  - intros [H | H];
    repeat match goal with
    | |- context [Rleb ?a ?b] => let E := fresh in destruct (Rleb a b) eqn:E; [apply Rleb_true in E | apply Rleb_false in E]; try lra
    | |- context [Rltb ?a ?b] => let E := fresh in destruct (Rltb a b) eqn:E; [apply Rltb_true in E | apply Rltb_false in E]; try lra
    end; cbn [andb]; try lra; reflexivity.
Qed.
Lemma quantity_table_lemma m :
  (m < 5000 -> quantity_add_on m = 64) /\ (5000 <= m < 10000 -> quantity_add_on m = 34) /\
  (10000 <= m < 15000 -> quantity_add_on m = 8) /\ (15000 <= m -> quantity_add_on m = 0).
Proof.
  unfold quantity_add_on. repeat split; intros H;
    repeat match goal with
    | |- context [Rltb ?a ?b] => let E := fresh in destruct (Rltb a b) eqn:E; [apply Rltb_true in E | apply Rltb_false in E]; try lra
    end; reflexivity.
Qed.
Lemma plate_total_lemma w price p cut pnt bl wd ho : 0 < weld_size p -> holes p <> [] ->
  ws_cut w (pt p) (2 * pb p + 2 * ph p) = Some cut -> ws_paint w (2 * (pb p * ph p + pb p * pt p + ph p * pt p)) = Some pnt ->
  ws_blast w (Rmax (pb p) (ph p)) = Some bl -> ws_weld w (weld_size p) (2 * pb p + 2 * ph p) = Some wd ->
  ws_cut w (pt p) (PI * Rsum (holes p)) = Some ho ->
  exists p', plate_cost w price p =
    Some (p', prho p * (pb p * ph p * pt p) * (price + (if s235 p then 0 else 35) + thickness_add_on (pt p)) / 1000 + cut + pnt + bl + wd + ho).
Proof.
  intros W H C P B D O. unfold plate_cost, circumference, paint_area.
  replace (2 * (ph p + pb p)) with (2 * pb p + 2 * ph p) by ring. rewrite C. cbn [bind].
  unfold circumference. replace (2 * (ph p * pb p) + pt p * (2 * (ph p + pb p))) with (2 * (pb p * ph p + pb p * pt p + ph p * pt p)) by ring. rewrite P. cbn [bind].
  rewrite B. cbn [bind]. destruct (Rltb 0 (weld_size p)) eqn:E; [|apply Rltb_false in E; lra]. rewrite D. cbn [bind].
  replace (PI * Rsum (holes p)) with (Rsum (map (fun d => d * PI) (holes p))) in O.
  2: { clear. induction (holes p) as [|x l IH]; [cbn; ring|]. cbn [map]. rewrite !Rsum_cons, IH. ring. }
  destruct (holes p) as [|d l] eqn:HH; [congruence|]. rewrite O. cbn [bind]. eexists. f_equal. f_equal. unfold plate_material, grade_add_on. 
  destruct (s235 p); field.
Qed.
