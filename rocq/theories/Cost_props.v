(** C81, C82, C132 to C138: workshop and plate costs. *)
From Verif Require Import Cost_spec Cost_proofs.

(** C81 *)
Theorem C81_annuity : forall P i n, 0 < i -> (0 < n)%nat -> exists a, annual_cost P i n = Some a /\ present_value a i n = P.
Proof. exact annuity_lemma. Qed.
Print Assumptions C81_annuity.
(** Finding: no interest raises instead of giving P / n. *)
Theorem C81_zero_interest : forall P n, annual_cost P 0 n = None.
Proof. exact annuity_zero_lemma. Qed.
Print Assumptions C81_zero_interest.
Example C81_ex : present_value 11 (1/10) 1 = 10.
Proof. cbn. lra. Qed.

(** C82 *)
Theorem C82_monotone_partial : forall c c', sound c -> cheaper c c' -> exists k k', centre_cost c = Some k /\ centre_cost c' = Some k' /\ 0 <= k <= k'.
Proof. exact centre_mono_lemma. Qed.
Print Assumptions C82_monotone_partial.
Theorem C82_new_centre : forall len wid invest resale maint years, 0 <= len -> 0 <= wid -> resale <= invest -> 0 <= maint -> (0 < years)%nat ->
  exists c, new_centre len wid invest resale maint years = Some c /\ sound c /\ utility c = 1 /\ rate c <= minutes * 1000 * (len * wid + (invest - resale) + maint).
Proof. exact new_centre_lemma. Qed.
Print Assumptions C82_new_centre.
Theorem C82_default_centres : Forall (fun x => exists c, x = Some c /\ sound c /\ utility c = 1 /\ 0 < rate c)
  [new_blasting; new_cutting; new_painting; new_welding; new_sawing].
Proof. exact defaults_lemma. Qed.
Print Assumptions C82_default_centres.
(** Finding: above 157 mm the speed formula of flame cutting is negative, and so is the cost. *)
Theorem C82_thick_plate_refuted : forall L c, 12 <= L -> sound c -> 1 <= rate c -> utility c = 1 -> cons_cost c = 0 -> nonprod c = 3 ->
  exists k, snd (cutting_cost 158 L c) = Some k /\ k < 0.
Proof. exact cutting_negative_lemma. Qed.
Print Assumptions C82_thick_plate_refuted.
Example C82_ex : sound (mkCentre 1 1 1 1 1 1 1 0 1 2 3).
Proof. unfold sound. cbn. lra. Qed.

(** C132 *)
Theorem C132_repeatable : (forall vc, repeatable (blasting_cost vc)) /\ repeatable (fun a : R * R => cutting_cost (fst a) (snd a)) /\
  (forall p, repeatable (painting_cost p)) /\ (forall wire, repeatable (fun a : R * R * wtype => weld_cost wire (fst (fst a)) (snd (fst a)) (snd a))) /\
  repeatable (fun a : R * R * (list R * list R) * (list R * list R) =>
  sawing_cost (fst (fst (fst a))) (snd (fst (fst a))) (fst (snd (fst a))) (snd (snd (fst a))) (fst (snd a)) (snd (snd a))).
Proof. exact repeatable_lemma. Qed.
Print Assumptions C132_repeatable.
Example C132_ex : snd (painting_cost Epoxy 5 (after (painting_cost Epoxy) [1; 2; 3] (mkCentre 1 1 1 1 1 1 1 0 1 2 3))) = snd (painting_cost Epoxy 5 (mkCentre 1 1 1 1 1 1 1 0 1 2 3)).
Proof. apply repeat_painting. Qed.

(** C133 *)
Theorem C133_cutting_partial : forall t t' L L' c, sound c -> t <= t' -> t' <= 157 -> t' = t \/ t' <= 27 \/ 30 < t' -> 0 <= L <= L' ->
  exists x y, snd (cutting_cost t L c) = Some x /\ snd (cutting_cost t' L' c) = Some y /\ 0 <= x <= y /\ (0 < L -> 0 < x).
Proof. exact cutting_lemma. Qed.
Print Assumptions C133_cutting_partial.
(** Finding: between 27.3 and 30 mm thicker plates are cheaper to cut. *)
Theorem C133_cutting_refuted : forall c L, sound c -> 0 < L -> exists x y, snd (cutting_cost 28 L c) = Some x /\ snd (cutting_cost 30 L c) = Some y /\ y < x.
Proof. exact cutting_blip_cost_lemma. Qed.
Print Assumptions C133_cutting_refuted.
Example C133_ex : cut_speed 40 <= cut_speed 20.
Proof. apply cut_speed_anti; lra. Qed.

(** C134 *)
Theorem C134_painting : forall p A A' c, sound c -> 0 <= A <= A' ->
  exists x y, snd (painting_cost p A c) = Some x /\ snd (painting_cost p A' c) = Some y /\ 0 <= x <= y /\
  (nonprod c = 0 -> snd (painting_cost p (A + A') c) = Some (x + y)).
Proof. exact painting_lemma. Qed.
Print Assumptions C134_painting.
Theorem C134_blasting : forall vc L L' c, sound c -> 0 < vc -> 0 <= L <= L' ->
  exists x y, snd (blasting_cost vc L c) = Some x /\ snd (blasting_cost vc L' c) = Some y /\ 0 <= x <= y.
Proof. exact blasting_lemma. Qed.
Print Assumptions C134_blasting.
Theorem C134_paint_data : forall p, 0 < paint_TPP p /\ 0 < paint_CP p.
Proof. exact paint_pos. Qed.
Print Assumptions C134_paint_data.
Example C134_ex : sound (mkCentre 1 1 1 1 1 0 0 0 1 0 0).
Proof. unfold sound. cbn. lra. Qed.

(** C135 *)
Theorem C135_fillet : forall wire s s' l l' c, sound c -> 0 <= wire -> 0 <= s -> s' = s \/ (1/1000 <= s /\ s <= s') -> 0 <= l <= l' ->
  exists x y, snd (weld_cost wire s l Fillet c) = Some x /\ snd (weld_cost wire s' l' Fillet c) = Some y /\ 0 <= x <= y.
Proof. exact weld_fillet_lemma. Qed.
Print Assumptions C135_fillet.
Theorem C135_butt_partial : forall wire s s' l l' c, sound c -> 0 <= wire -> 1/2 <= s -> s <= s' -> 0 <= l <= l' ->
  exists x y, snd (weld_cost wire s l Butt c) = Some x /\ snd (weld_cost wire s' l' Butt c) = Some y /\ 0 <= x <= y.
Proof. exact weld_butt_lemma. Qed.
Print Assumptions C135_butt_partial.
(** Finding: a shallow butt weld takes negative time. *)
Theorem C135_butt_refuted : forall wire c, prod (fst (weld_cost wire (2/10) 100000 Butt c)) < 0.
Proof. exact weld_butt_refuted_lemma. Qed.
Print Assumptions C135_butt_refuted.
Example C135_ex : welding_time 4 250 Fillet = Some (250 * (1/1000) * (4988/10000 * 4 ^ 2 - 5/10000 * 4 + 21/10000)).
Proof. reflexivity. Qed.

(** C136 *)
Theorem C136_sawing_partial : forall L L' b b' hs ts ahs ats c, sound c -> 0 <= L <= L' -> 0 <= b <= b' ->
  Forall (fun e : saw_end => let '(t, h, a, b) := e in 0 < saw_time h t a /\ 0 <= b) (zip4 ts hs ahs ats) ->
  exists x y, snd (sawing_cost L b hs ts ahs ats c) = Some x /\ snd (sawing_cost L' b' hs ts ahs ats c) = Some y /\ 0 <= x <= y.
Proof. exact sawing_lemma. Qed.
Print Assumptions C136_sawing_partial.
Theorem C136_sawing_time : forall h h' t t' a a', 0 <= h <= h' -> t <= t' -> 0 <= a <= a' -> 0 <= saw_time h t a <= saw_time h' t' a'.
Proof. exact saw_time_lemma. Qed.
Print Assumptions C136_sawing_time.
(** Finding: the blade cost is divided by the sawing time, so sawing more material is cheaper. *)
Theorem C136_sawing_refuted : exists c, new_sawing = Some c /\ exists x y, snd (sawing_cost 1000 0 [1] [5] [0] [10000] c) = Some x /\ snd (sawing_cost 1000 0 [1] [5] [180] [10000] c) = Some y /\ y < x.
Proof. exact sawing_refuted_lemma. Qed.
Print Assumptions C136_sawing_refuted.
(** Finding: ends beyond the shortest of the four lists are ignored. *)
Example C136_zip_ex : zip4 [5; 5] [100; 100] [1] [1] = [(5, 100, 1, 1)].
Proof. reflexivity. Qed.
Example C136_ex : Forall (fun e : saw_end => let '(t, h, a, b) := e in 0 < saw_time h t a /\ 0 <= b) (zip4 [5] [100] [1] [1000]).
Proof. repeat constructor; [|lra]. unfold saw_time. pose proof (feed_bounds 5). assert (0 <= 100 / 2 / feeding_speed 5) by (unfold Rdiv; apply Rmult_le_pos; [lra|left; apply Rinv_0_lt_compat; lra]). lra. Qed.

(** C137 *)
Theorem C137_annuity_monotone : forall P P' i i' n n' a a', 0 <= P -> P <= P' -> 0 < i -> i <= i' -> (0 < n')%nat -> (n' <= n)%nat ->
  annual_cost P i n = Some a -> annual_cost P' i' n' = Some a' -> 0 <= a <= a'.
Proof. exact annuity_mono_lemma. Qed.
Print Assumptions C137_annuity_monotone.
Example C137_ex : exists a, annual_cost 1000 (5/100) 20 = Some a /\ present_value a (5/100) 20 = 1000.
Proof. apply annuity_lemma; [lra|lia]. Qed.

(** C138 *)
Theorem C138_plate_partial : forall w price p b h, fair w (pt p) -> 0 <= price -> 0 <= prho p -> 0 <= pt p -> 0 <= pb p <= b -> 0 <= ph p <= h ->
  Forall (fun d => 0 <= d) (holes p) -> 0 <= st_weld p -> 0 <= st_holes p ->
  exists p1 p2 x y, plate_cost w price p = Some (p1, x) /\ plate_cost w price (resize b h p) = Some (p2, y) /\ 0 <= x <= y.
Proof. exact plate_lemma. Qed.
Print Assumptions C138_plate_partial.
Theorem C138_workshop_fair : forall cut pnt bl wd p wire t, sound cut -> sound pnt -> sound bl -> sound wd -> 0 <= wire -> t <= 157 -> fair (shop_of cut pnt bl wd p wire) t.
Proof. exact fair_lemma. Qed.
Print Assumptions C138_workshop_fair.
Theorem C138_costing_again : forall w price p p1 x, plate_cost w price p = Some (p1, x) -> plate_cost w price p1 = Some (p1, x).
Proof. exact plate_again_lemma. Qed.
Print Assumptions C138_costing_again.
Theorem C138_quantity : forall m m', m <= m' -> 0 <= quantity_add_on m' <= quantity_add_on m.
Proof. exact quantity_lemma. Qed.
Print Assumptions C138_quantity.
(** Finding: removing the weld of a plate does not lower its cost. *)
Theorem C138_stale_weld_refuted : forall w price p p1 x, plate_cost w price p = Some (p1, x) -> exists p2, plate_cost w price (unweld p1) = Some (p2, x).
Proof. exact plate_stale_lemma. Qed.
Print Assumptions C138_stale_weld_refuted.
(** Finding: a 6 mm plate is cheaper in material than a 5.9 mm one. *)
Theorem C138_thickness_refuted : forall b h rho s w hs a c, 0 < b -> 0 < h -> 0 < rho ->
  plate_material 1169 (mkPlate b h 6 rho s w hs a c) < plate_material 1169 (mkPlate b h (59/10) rho s w hs a c).
Proof. exact plate_thickness_lemma. Qed.
Print Assumptions C138_thickness_refuted.
Example C138_ex : fair (shop_of (mkCentre 1 1 1 1 1 0 0 0 1 0 3) (mkCentre 1 1 1 1 1 0 0 0 1 0 0) (mkCentre 1 1 1 1 1 0 0 0 1 0 0) (mkCentre 1 1 1 1 1 0 0 0 1 0 0) Alkyd 1) 20.
Proof. apply fair_lemma; unfold sound; cbn; lra. Qed.

(** C139: sizes in the table are priced as they are. *)
Theorem C139_bolt_size_partial : forall sizes d, sizes <> [] -> (In d sizes -> bolt_size sizes d = d) /\ (~ In d sizes -> bolt_size sizes d = last sizes 0).
Proof. exact bolt_size_lemma. Qed.
Print Assumptions C139_bolt_size_partial.
(** Finding: every other size is priced as the largest bolt. *)
Theorem C139_bolt_size_refuted : bolt_size [12; 16; 20; 24; 30; 36] 14 = 36.
Proof. apply (proj2 (bolt_size_lemma [12; 16; 20; 24; 30; 36] 14 ltac:(discriminate))). cbn. intuition lra. Qed.
Print Assumptions C139_bolt_size_refuted.
