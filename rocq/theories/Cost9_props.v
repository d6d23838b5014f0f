(** C220: the price formulas of the workshop written out. *)
From Verif Require Import Tac EC3_proofs Sections_proofs Cost_proofs Cost9_proofs.
From Verif Require Import Cost_model Cost_spec Cost9_spec.
Open Scope R_scope.

(** C220 *)
Theorem C220_repayment : forall P n, (0 < n)%nat -> present_value (yearly P (5/100) n) (5/100) n = P.
Proof. exact yearly_positive_lemma. Qed.
Print Assumptions C220_repayment.
Theorem C220_blasting : exists c, new_blasting = Some c /\ forall Lb,
  snd (blasting_cost 3000 Lb c) = Some (Lb / 3000 * (minute_rate 1 400 200000 1000 20 + 315/10000 + 1/15)).
Proof. exact blasting_price_lemma. Qed.
Print Assumptions C220_blasting.
Theorem C220_cutting : exists c, new_cutting = Some c /\ forall t L,
  (t <= 30 -> forall T, T = L / ((89212 * t ^ 2 - 4868700 * t + 81558000) / 10000) ->
     snd (cutting_cost t L c) = Some ((T + 3) * minute_rate 2 200 280000 1000 20 + T * (213/10000 + 1/12 + 12/100))) /\
  (30 < t -> 65867 / 100 <> 41939 / 10000 * t -> forall T, T = L / (65867/100 - 41939/10000 * t) ->
     snd (cutting_cost t L c) = Some ((T + 3) * minute_rate 2 200 280000 1000 20 +
       T * (11592/100000 + 418/100 * (474/10000 + t / 1000 + t ^ 2 / 100000)))).
Proof. exact cutting_price_lemma. Qed.
Print Assumptions C220_cutting.
Theorem C220_painting : exists c, new_painting = Some c /\ forall p A,
  snd (painting_cost p A c) = Some (A * (paint_volume p / 900000 * minute_rate 1 75 0 0 20 + paint_price p / 1000000)).
Proof. exact painting_price_lemma. Qed.
Print Assumptions C220_painting.
Theorem C220_welding : exists c, new_welding = Some c /\ forall w wire a L, w <> WOther ->
  forall T, T = L * arc_time w a + 159/100 ->
  snd (weld_cost wire a L w c) = Some (T * (minute_rate 1 75 5000 0 10 + 1/100) + L * wire_mass w a * (wire + 1516/1000)).
Proof. exact welding_price_lemma. Qed.
Print Assumptions C220_welding.
Theorem C220_sawing : exists c, new_sawing = Some c /\ forall L bevels hs ts ahs ats,
  forall es, es = zip4 ts hs ahs ats ->
  Forall (fun e => end_time e <> 0) es ->
  snd (sawing_cost L bevels hs ts ahs ats c) =
    Some ((Rsum (map end_time es) + 45/10 + bevels + L / 20000) * minute_rate 1 525 310000 1000 20 + Rsum (map end_time es) / 60 + Rsum (map blade es)).
Proof. exact sawing_price_lemma. Qed.
Print Assumptions C220_sawing.
Theorem C220_saw_tables : forall t, (t <= 5 -> feeding_speed t = 120 /\ fsp t = 4/10) /\
  (35 < t -> feeding_speed t = 40 /\ fsp t = 8/10) /\
  forall k : nat, (2 <= k <= 7)%nat -> 5 * INR k - 5 < t <= 5 * INR k ->
    feeding_speed t = 120 - 10 * INR k /\ fsp t = 35/100 + 5/100 * INR k.
Proof. exact saw_tables_lemma. Qed.
Print Assumptions C220_saw_tables.
Theorem C220_thickness_table : forall t, (forall lo hi v, In (lo, hi, v) thickness_table -> lo <= t < hi -> thickness_add_on t = v) /\
  (t < 5 \/ 80 <= t -> thickness_add_on t = 140).
Proof. exact thickness_table_lemma. Qed.
Print Assumptions C220_thickness_table.
Theorem C220_quantity_table : forall m, (m < 5000 -> quantity_add_on m = 64) /\ (5000 <= m < 10000 -> quantity_add_on m = 34) /\
  (10000 <= m < 15000 -> quantity_add_on m = 8) /\ (15000 <= m -> quantity_add_on m = 0).
Proof. exact quantity_table_lemma. Qed.
Print Assumptions C220_quantity_table.
Theorem C220_plate_total : forall w price p cut pnt bl wd ho, 0 < weld_size p -> holes p <> [] ->
  ws_cut w (pt p) (2 * pb p + 2 * ph p) = Some cut -> ws_paint w (2 * (pb p * ph p + pb p * pt p + ph p * pt p)) = Some pnt ->
  ws_blast w (Rmax (pb p) (ph p)) = Some bl -> ws_weld w (weld_size p) (2 * pb p + 2 * ph p) = Some wd ->
  ws_cut w (pt p) (PI * Rsum (holes p)) = Some ho ->
  exists p', plate_cost w price p =
    Some (p', prho p * (pb p * ph p * pt p) * (price + (if s235 p then 0 else 35) + thickness_add_on (pt p)) / 1000 + cut + pnt + bl + wd + ho).
Proof. exact plate_total_lemma. Qed.
Print Assumptions C220_plate_total.
Example C220_ex : Forall (fun e => end_time e <> 0) (zip4 [8; 12] [200; 100] [1600; 0] [4000; 3000]) /\
  let w := mkShop (fun t L => Some (t * L)) (fun A => Some A) (fun L => Some L) (fun s L => Some (s * L)) in
  exists p', plate_cost w 1 (mkPlate 200 100 10 8 false 5 [20; 30] 0 0) =
    Some (p', 8 * (200 * 100 * 10) * (1 + 35 + thickness_add_on 10) / 1000 + 10 * (2 * 200 + 2 * 100) + 2 * (200 * 100 + 200 * 10 + 100 * 10)
     + Rmax 200 100 + 5 * (2 * 200 + 2 * 100) + 10 * (PI * Rsum [20; 30])).
Proof.
  split.
  - destruct (saw_tables_lemma 8) as (_ & _ & A). destruct (A 2%nat ltac:(lia) ltac:(cbn; lra)) as (A1 & _).
    destruct (saw_tables_lemma 12) as (_ & _ & B). destruct (B 3%nat ltac:(lia) ltac:(cbn; lra)) as (B1 & _).
    cbn [zip4]. constructor; [|constructor; [|constructor]]; unfold end_time; rewrite ?A1, ?B1; cbn [INR]; lra.
  - apply (plate_total_lemma _ 1 (mkPlate 200 100 10 8 false 5 [20; 30] 0 0)); try reflexivity; cbn; [lra|discriminate].
Qed.
