(** Properties C328-C337: classification of steel cross-sections, buckling curves, effective
    sections and shear buckling of welded I-sections. *)
From Verif Require Import Base EC3_model Bool_tac EC3_spec EC3_proofs Plate_proofs Sections_proofs Secls_proofs Secls2_proofs Secls3_proofs Secls4_proofs Secls5_proofs.
From Verif Require Import Secls_model Secls_spec.
Require Import Reals List Bool Lra Lia Psatz PeanoNat.
Local Open Scope R_scope.

(** C328 *)
Theorem C328_sagging_partial : forall fy s Ned Med, i_valid s -> 235 <= fy ->
  exists f wc wb, outstand_class (eps_of fy) (i_cf_tf s) f /\ compressed_class (eps_of fy) (i_cw_tw s) wc /\ bent_class (eps_of fy) (i_cw_tw s) wb
   /\ (Ned < 0 -> Rabs Med < 1/10000 -> i_class fy s Ned Med = Some (Nat.max wc f))
   /\ (Rabs Ned < 1/10000 -> 1/10000 < Rabs Med -> i_class fy s Ned Med = Some (Nat.max wb f))
   /\ (Ned <= -1/10000 -> 1/10000 <= Med -> exists a p w, plastic_share fy (i_h s - 2 * i_tf s - 2 * i_r s) (i_tw s) Ned a
        /\ p = stress_ratio (top_stress (i_A s) (i_W s) Ned Med) (bottom_stress (i_A s) (i_W s) Ned Med)
        /\ combined_class (eps_of fy) a p (i_cw_tw s) w /\ i_class fy s Ned Med = Some (Nat.max w f)).
Proof. exact i_states_lemma. Qed.
Print Assumptions C328_sagging_partial.
Theorem C328_hogging_ratio : forall s Ned Med, i_valid s -> Ned < 0 -> Med < 0 -> top_stress (i_A s) (i_W s) Ned Med <> 0 ->
  i_psi s Ned Med = Some (/ stress_ratio (top_stress (i_A s) (i_W s) Ned Med) (bottom_stress (i_A s) (i_W s) Ned Med)).
Proof. exact i_psi_neg_lemma. Qed.
Print Assumptions C328_hogging_ratio.
Theorem C328_zero_stress : forall fy s Ned Med, i_valid s -> 235 <= fy -> Ned <= -1/10000 -> 1/10000 <= Rabs Med -> top_stress (i_A s) (i_W s) Ned Med = 0 ->
  exists f a w, outstand_class (eps_of fy) (i_cf_tf s) f /\ plastic_share fy (i_h s - 2 * i_tf s - 2 * i_r s) (i_tw s) Ned a
   /\ (forall l3, i_cw_tw s <= l3 -> table_class (lim1 (eps_of fy) a) (lim2 (eps_of fy) a) l3 (i_cw_tw s) w) /\ i_class fy s Ned Med = Some (Nat.max w f).
Proof. exact i_zero_top_lemma. Qed.
Print Assumptions C328_zero_stress.
Theorem C328_hogging_refuted : exists s Ned Med, i_valid s /\ Ned < -1 /\ 1 < Med
  /\ stress_ratio (top_stress (i_A s) (i_W s) Ned Med) (bottom_stress (i_A s) (i_W s) Ned Med) = -1/2
  /\ i_class 235 s Ned Med = Some 4%nat /\ i_class 235 s Ned (- Med) = Some 3%nat /\ i_class 235 s 0 (- Med) = Some 4%nat.
Proof. exact hogging_example. Qed.
Print Assumptions C328_hogging_refuted.
Example C328_ex : i_class 235 (ex_rolled 5) (-1000) 0 = Some 3%nat.
Proof.
  assert (V : i_valid (ex_rolled 5)) by (unfold i_valid; simpl; lra). destruct eps235 as [E E2]. destruct (i_parts 1 _ V ltac:(lra)) as [P1 [P2 _]].
  unfold i_class. rewrite E. cbn [bind]. rewrite P1, P2, class_comp by (rewrite ?Rabs_R0; lra).
  assert (A : i_cf_tf (ex_rolled 5) = 475/100) by (unfold i_cf_tf; simpl; field). assert (B : i_cw_tw (ex_rolled 5) = 40) by (unfold i_cw_tw; simpl; field).
  rewrite A, B, cls1 by lra. rewrite cls3 by lra. reflexivity.
Qed.

(** C329 *)
Theorem C329_order_partial : forall fy s Ned Med, i_valid s -> 235 <= fy -> Ned <= -1/10000 -> 1/10000 < Med ->
  exists b c p, i_class fy s 0 Med = Some b /\ i_class fy s Ned Med = Some c /\ i_class fy s Ned 0 = Some p /\ (b <= c <= p)%nat.
Proof. exact i_order_lemma. Qed.
Print Assumptions C329_order_partial.
Theorem C329_more_compression_partial : forall fy s N1 N2 Med, i_valid s -> 235 <= fy -> N2 <= N1 -> N1 <= -1/10000 -> 1/10000 <= Med ->
  exists c1 c2, i_class fy s N1 Med = Some c1 /\ i_class fy s N2 Med = Some c2 /\ (c1 <= c2)%nat.
Proof. exact i_mono_lemma. Qed.
Print Assumptions C329_more_compression_partial.
Theorem C329_refuted : exists s Ned Med b c, i_valid s /\ Ned < -1 /\ Med < -1
  /\ i_class 235 s 0 Med = Some b /\ i_class 235 s Ned Med = Some c /\ (c < b)%nat.
Proof.
  destruct hogging_example as (s & N & M & V & H1 & H2 & _ & _ & C1 & C2). exists s, N, (- M), 4%nat, 3%nat. split; [exact V|]. split; [lra|]. split; [lra|]. split; [exact C2|]. split; [exact C1|lia].
Qed.
Print Assumptions C329_refuted.
Example C329_ex : exists b c p, i_class 235 (ex_rolled 5) 0 60000 = Some b /\ i_class 235 (ex_rolled 5) (-1000) 60000 = Some c /\ i_class 235 (ex_rolled 5) (-1000) 0 = Some p /\ (b <= c <= p)%nat.
Proof. apply i_order_lemma; [unfold i_valid; simpl; lra|lra|lra|lra]. Qed.

(** C330 *)
Theorem C330_states_partial : forall fy H B T Rr Ned Med, 0 < T -> 235 <= fy ->
  exists f wc wb, compressed_class (eps_of fy) ((B - 2 * Rr) / T) f /\ compressed_class (eps_of fy) ((H - 2 * Rr) / T) wc
   /\ bent_class (eps_of fy) ((H - 2 * Rr) / T) wb
   /\ (Ned < 0 -> Rabs Med < 1/10000 -> r_class fy H B T Rr Ned Med = Some (Nat.max wc f))
   /\ (Rabs Ned < 1/10000 -> 1/10000 < Rabs Med -> r_class fy H B T Rr Ned Med = Some (Nat.max wb f))
   /\ (Ned <= -1/10000 -> 1/10000 <= Rabs Med -> r_class fy H B T Rr Ned Med = Some (Nat.max 2 f)).
Proof. exact r_states_lemma. Qed.
Print Assumptions C330_states_partial.
Theorem C330_refuted : exists H B T Rr Ned Med, 0 < T /\ Rr = 2 * T /\ Ned < -1 /\ 1 < Med
  /\ r_class 235 H B T Rr Ned Med = Some 2%nat /\ r_class 235 H B T Rr Ned 0 = Some 4%nat /\ r_class 235 H B T Rr 0 Med = Some 4%nat.
Proof. exact r_refuted_lemma. Qed.
Print Assumptions C330_refuted.
Example C330_ex : r_class 235 304 68 2 4 (-2) 0 = Some 4%nat.
Proof.
  destruct (r_states_lemma 235 304 68 2 4 (-2) 0 ltac:(lra) ltac:(lra)) as (f & wc & wb & F & W & _ & C & _). rewrite C by (rewrite ?Rabs_R0; lra).
  destruct eps235 as [_ E2]. rewrite E2 in *. f_equal. unfold compressed_class, table_class in *.
  destruct W as [[_ W]|[[_ [_ W]]|[[_ [_ [_ W]]]|[-> _]]]]; try lra. destruct F as [[-> _]|[[_ [F _]]|[[_ [F _]]|[_ [F _]]]]]; try lra. reflexivity.
Qed.

(** C331 *)
Theorem C331_states_partial : forall fy D T Ned Med, 0 < T -> 235 <= fy ->
  exists w, tube_class (eps_of fy) (D / T) w
   /\ (Ned < 0 -> Rabs Med < 1/10000 -> c_class fy D T Ned Med = Some w)
   /\ (Rabs Ned < 1/10000 -> 1/10000 < Rabs Med -> c_class fy D T Ned Med = Some w)
   /\ (0 <= Ned -> Rabs Med < 1/10000 -> c_class fy D T Ned Med = Some 1%nat).
Proof. exact c_states_lemma. Qed.
Print Assumptions C331_states_partial.
Theorem C331_raises_exactly : forall fy D T Ned Med, 0 < T -> 235 <= fy ->
  (c_class fy D T Ned Med = None <-> Ned < 0 /\ 1/10000 <= Rabs Med /\ (Ned <= -1/10000 \/ Rabs Med = 1/10000)).
Proof. exact c_raises_lemma. Qed.
Print Assumptions C331_raises_exactly.
Theorem C331_refuted : c_class 235 100 5 (-10) 10 = None /\ exists w, c_class 235 100 5 (-10) 0 = Some w /\ c_class 235 100 5 0 10 = Some w.
Proof.
  split; [apply c_raises_lemma; [lra|lra|]; split; [lra|]; split; [rewrite Rabs_right; lra|left; lra]|].
  destruct (c_states_lemma 235 100 5 (-10) 0 ltac:(lra) ltac:(lra)) as (w & T1 & A & _). destruct (c_states_lemma 235 100 5 0 10 ltac:(lra) ltac:(lra)) as (w' & T2 & _ & B & _).
  exists w. split; [apply A; rewrite ?Rabs_R0; lra|]. rewrite B by (rewrite ?Rabs_R0, ?Rabs_right; lra). f_equal.
  unfold tube_class, table_class in *. destruct T1 as [[-> ?]|[[-> ?]|[[-> ?]|[-> ?]]]]; destruct T2 as [[-> ?]|[[-> ?]|[[-> ?]|[-> ?]]]]; try reflexivity; lra.
Qed.
Print Assumptions C331_refuted.

(** C332 *)
Theorem C332_compression_partial : forall fy d Ned Med, welded_ok d -> 235 <= fy -> Ned < 0 -> Rabs Med < 1/10000 ->
  exists ft fb w, outstand_class (eps_of fy) (welded_top d) ft /\ outstand_class (eps_of fy) (welded_bottom d) fb
   /\ compressed_class (eps_of fy) (welded_web d) w /\ w_class fy d Ned Med = Some (Nat.max w ft)
   /\ (welded_bottom d <= welded_top d -> w_class fy d Ned Med = Some (Nat.max w (Nat.max ft fb))).
Proof. exact w_comp_lemma. Qed.
Print Assumptions C332_compression_partial.
Theorem C332_compression_refuted : exists d fb, welded_ok d /\ outstand_class (eps_of 235) (welded_bottom d) fb /\ fb = 4%nat /\ w_class 235 d (-1000) 0 = Some 1%nat.
Proof. exact w_comp_refuted_lemma. Qed.
Print Assumptions C332_compression_refuted.
Theorem C332_bending_partial : forall fy d Ned Med, welded_ok d -> 235 <= fy -> Rabs Ned < 1/10000 -> 1/10000 < Rabs Med ->
  w_h d - w_tt d - w_tb d <> 2 * sqrt 2 -> zpl d < w_h d - w_tt d - sqrt 2 * w_a d -> zel d < w_h d - w_tt d ->
  exists f w a p, outstand_class (eps_of fy) (welded_top d) f
   /\ (forall k, 0 < k -> p = bent_stress k (zel d) (w_tb d) / bent_stress k (zel d) (w_h d - w_tt d))
   /\ (zpl d <= w_tb d + sqrt 2 * w_a d -> a = 1)
   /\ (w_tb d + sqrt 2 * w_a d < zpl d -> a * (w_h d - w_tt d - w_tb d - 2 * sqrt 2) = welded_share d (zpl d) * welded_cw d)
   /\ (0 < a -> combined_class (eps_of fy) a p (welded_web d) w) /\ w_class fy d Ned Med = Some (Nat.max w f)
   /\ (w_a d = 1 -> combined_class (eps_of fy) (welded_share d (zpl d)) p (welded_web d) w)
   /\ (1 <= w_a d -> exists c, combined_class (eps_of fy) (welded_share d (zpl d)) p (welded_web d) c /\ (w <= c)%nat).
Proof. exact w_bend_lemma. Qed.
Print Assumptions C332_bending_partial.
Theorem C332_bending_refuted : exists d w, welded_ok d /\ doubly_symmetric d /\ w_a d = 5
  /\ combined_class 1 (welded_share d (zpl d)) (-1) (welded_web d) w /\ bent_class 1 (welded_web d) w /\ w = 3%nat
  /\ w_class 235 d 0 1 = Some 2%nat.
Proof. exact w_bend_refuted_lemma. Qed.
Print Assumptions C332_bending_refuted.

(** C333 *)
Theorem C333_welded_partial : forall fy d Ned Med, welded_ok d -> 235 <= fy -> Ned <= -1/10000 -> 1/10000 <= Rabs Med -> - (fy * wi_area d) < Ned ->
  exists f w, outstand_class (eps_of fy) (welded_top d) f
   /\ combined_class (eps_of fy) (1/2 * (1 + Ned / (fy * wi_area d))) (-1) ((w_h d - w_tt d - w_tb d) / w_tw d) w
   /\ w_class fy d Ned Med = Some (Nat.max w f).
Proof. exact w_combined_lemma. Qed.
Print Assumptions C333_welded_partial.
Theorem C333_wrong_way : forall fy d N1 N2 Med, welded_ok d -> 235 <= fy -> 1/10000 <= Rabs Med ->
  - (fy * wi_area d) < N2 -> N2 <= N1 -> N1 <= -1/10000 ->
  exists c1 c2, w_class fy d N1 Med = Some c1 /\ w_class fy d N2 Med = Some c2 /\ (c2 <= c1)%nat.
Proof. exact w_wrong_way_lemma. Qed.
Print Assumptions C333_wrong_way.
Theorem C333_refuted : exists d Ned Med, welded_ok d /\ doubly_symmetric d /\ Ned < -1 /\ 1 < Med
  /\ w_class 235 d Ned 0 = Some 4%nat /\ w_class 235 d 0 Med = Some 3%nat /\ w_class 235 d Ned Med = Some 1%nat.
Proof. exact w_combined_refuted_lemma. Qed.
Print Assumptions C333_refuted.
Theorem C333_wq : forall fy d Ned Med, wq_valid d -> 235 <= fy -> Ned <= -1/10000 -> 1/10000 <= Rabs Med -> - (fy * wq_area d) < Ned ->
  exists f w, compressed_class (eps_of fy) (q_bt d / q_tt d) f
   /\ combined_class (eps_of fy) (1/2 * (1 + Ned / (fy * wq_area d))) (-1) ((q_h d - q_tt d) / q_tw d) w
   /\ q_class fy d Ned Med = Some (Nat.max w f).
Proof. exact q_combined_lemma. Qed.
Print Assumptions C333_wq.
Example C333_ex : exists f w, compressed_class (eps_of 235) (100 / 10) f /\ combined_class (eps_of 235) (1/2 * (1 + (-2350) / (235 * wq_area ex_wq))) (-1) ((210 - 10) / (21/10)) w
   /\ q_class 235 ex_wq (-2350) 10 = Some (Nat.max w f).
Proof.
  apply (q_combined_lemma 235 ex_wq (-2350) 10); [unfold wq_valid; simpl; lra|lra|lra|rewrite Rabs_right; lra|].
  unfold wq_area, q_Aw, q_At, q_Ab. simpl. lra.
Qed.

(** C334 *)
Theorem C334_compression : forall fy d Ned Med, wq_valid d -> 235 <= fy -> Ned < 0 -> Rabs Med < 1/10000 ->
  exists f w, compressed_class (eps_of fy) (q_bt d / q_tt d) f /\ compressed_class (eps_of fy) ((q_h d - q_tt d) / q_tw d) w
   /\ q_class fy d Ned Med = Some (Nat.max w f).
Proof. exact q_comp_lemma. Qed.
Print Assumptions C334_compression.
Theorem C334_bending_partial : forall fy d Ned Med, wq_valid d -> 235 <= fy -> Rabs Ned < 1/10000 -> 1/10000 < Rabs Med -> 0 < wq_zpl d ->
  exists f w c a p, compressed_class (eps_of fy) (q_bt d / q_tt d) f
   /\ a = wq_zpl d / (q_h d - q_tt d)
   /\ (forall k, 0 < k -> p = bent_stress k (wq_zel d) 0 / bent_stress k (wq_zel d) (q_h d + q_tb d))
   /\ combined_class (eps_of fy) a (- p) ((q_h d - q_tt d) / q_tw d) w
   /\ combined_class (eps_of fy) a p ((q_h d - q_tt d) / q_tw d) c
   /\ q_class fy d Ned Med = Some (Nat.max w f) /\ (c <= w)%nat.
Proof. exact q_bend_lemma. Qed.
Print Assumptions C334_bending_partial.
Theorem C334_bending_refuted : exists d c, wq_valid d /\ 0 < wq_zpl d
  /\ combined_class 1 (wq_zpl d / (q_h d - q_tt d)) (bent_stress 1 (wq_zel d) 0 / bent_stress 1 (wq_zel d) (q_h d + q_tb d)) ((q_h d - q_tt d) / q_tw d) c
  /\ c = 3%nat /\ q_class 235 d 0 1 = Some 4%nat.
Proof. exact q_bend_refuted_lemma. Qed.
Print Assumptions C334_bending_refuted.

(** C335 *)
Theorem C335_flexural : forall h b tf fy, 0 < b -> 0 <= h -> tf <= 40 \/ (tf <= 100 \/ h <= 12/10 * b) ->
  exists cy cz, i_curves h b tf fy = Some (cy, cz) /\ table_6_2 h b tf (Rltb 420 fy) cy cz.
Proof. exact curves_lemma. Qed.
Print Assumptions C335_flexural.
Theorem C335_lateral : forall h b, 0 < b -> (h <= 2 * b -> i_curves_LT h b = Some (ca, cb)) /\ (2 * b < h -> i_curves_LT h b = Some (cb, cc)).
Proof. exact curves_LT_lemma. Qed.
Print Assumptions C335_lateral.
Theorem C335_compressed_flange : forall s F If Iz, i_A s = 2 * F + (i_h s - 2 * i_tf s) * i_tw s ->
  Iz = 2 * If + (i_h s - 2 * i_tf s - 2 * i_r s) * i_tw s ^ 3 / 12 ->
  i_comp_flange s Iz = (F + (i_h s - 2 * i_tf s) / 2 / 3 * i_tw s, If + ((i_h s - 2 * i_tf s) / 2 / 3 - i_r s) * i_tw s ^ 3 / 12).
Proof. exact comp_flange_lemma. Qed.
Print Assumptions C335_compressed_flange.
Example C335_ex : i_curves 300 150 10 355 = Some (ca, cb) /\ i_curves 300 300 20 460 = Some (ca, ca) /\ i_curves_LT 300 100 = Some (cb, cc).
Proof.
  split; [|split].
  - destruct (curves_lemma 300 150 10 355 ltac:(lra) ltac:(lra) ltac:(lra)) as (cy & cz & E & T). rewrite E. f_equal.
    replace (Rltb 420 355) with false in T by (symmetry; apply ltb_f; lra). inversion T; try lra; reflexivity.
  - destruct (curves_lemma 300 300 20 460 ltac:(lra) ltac:(lra) ltac:(lra)) as (cy & cz & E & T). rewrite E. f_equal.
    replace (Rltb 420 460) with true in T by (symmetry; apply ltb_t; lra). inversion T; try lra; reflexivity.
  - apply curves_LT_lemma; lra.
Qed.

(** C336 *)
Theorem C336_second_moment : forall e d, welded_ok d -> doubly_symmetric d -> 0 < e -> welded_top d <= 139/10 * e -> welded_web d <= 121 * e ->
  exists f, wi_Ieff e d eff0 = Some (wi_Iy d, f) /\ eff_axis d f = w_h d / 2 /\ e_top f = 0 /\ e_web f = 0.
Proof. exact Ieff_lemma. Qed.
Print Assumptions C336_second_moment.
Theorem C336_moduli : forall fy e d, welded_ok d -> doubly_symmetric d -> 0 < e -> welded_top d <= 139/10 * e -> welded_web d <= 121 * e ->
  wi_Weff e d eff0 = Some (wi_Wely d) /\ wi_MRd 4 fy e d eff0 = Some (wi_Iy d / (w_h d / 2) * fy) /\ wi_MRd 3 fy e d eff0 = Some (wi_Iy d / (w_h d / 2) * fy).
Proof. exact Weff_lemma. Qed.
Print Assumptions C336_moduli.
Theorem C336_by_class : forall fy e d f, wi_valid d -> 0 < fy ->
  (forall C, (C <= 2)%nat -> wi_MRd C fy e d f = Some (fy * over (slab_abs (zpl d)) (wi_plates d))) /\
  wi_MRd 3 fy e d f = Some (fy * (wi_Iy d / Rmax (zel d) (w_h d - zel d))) /\
  fy * (wi_Iy d / Rmax (zel d) (w_h d - zel d)) <= fy * over (slab_abs (zpl d)) (wi_plates d).
Proof. exact MRd_class_lemma. Qed.
Print Assumptions C336_by_class.
Example C336_ex : wi_Weff 1 ex_cap eff0 = Some (wi_Wely ex_cap).
Proof.
  destruct sqrt2_b. apply (Weff_lemma 235); [unfold welded_ok, wi_valid, welded_cw; simpl; lra|split; reflexivity|lra|unfold welded_top; simpl; lra|unfold welded_web, welded_cw; simpl; lra].
Qed.

(** C337 *)
Theorem C337_value : forall fy e a b d Ned Med, wi_valid d -> 0 < fy -> 0 < e -> 0 < a -> 72 * e / shear_eta fy <= (w_h d - w_tt d - w_tb d) / w_tw d -> squash_share fy d Ned <> 1 ->
  exists Vw bf tf, web_shear fy (w_h d - w_tt d - w_tb d) a (w_tw d) (Some b) = Some Vw /\ weaker d bf tf /\ 0 < bf /\ 0 < tf /\
  let m := Rabs Med / ((1 - squash_share fy d Ned) * flange_moment fy d) in
  wi_VbRd fy e a (Some b) d Ned Med = if Rlt_dec m 1 then
    Some (Vw + flange_share (Rmin bf (30 * e * tf + w_tw d)) tf fy a (w_h d - w_tt d - w_tb d) (w_tw d) m) else None.
Proof. exact VbRd_eq. Qed.
Print Assumptions C337_value.
Theorem C337_stocky : forall fy e a post d Ned Med, (w_h d - w_tt d - w_tb d) / w_tw d < 72 * e / shear_eta fy ->
  wi_VbRd fy e a post d Ned Med = Some (shear_cap (shear_eta fy) fy (w_h d - w_tt d - w_tb d) (w_tw d)).
Proof. exact VbRd_stocky. Qed.
Print Assumptions C337_stocky.
Theorem C337_monotone_partial : forall fy e a b d N1 N2 M1 M2 v2, wi_valid d -> 0 < fy -> 0 < e -> 0 < a ->
  Rabs N1 <= Rabs N2 -> Rabs M1 <= Rabs M2 -> squash_share fy d N2 < 1 -> wi_VbRd fy e a (Some b) d N2 M2 = Some v2 ->
  exists v1, wi_VbRd fy e a (Some b) d N1 M1 = Some v1 /\ v2 <= v1.
Proof. exact VbRd_mono. Qed.
Print Assumptions C337_monotone_partial.
Theorem C337_web : forall fy e a b d Ned Med v, wi_valid d -> 0 < fy -> 0 < e -> 0 < a -> squash_share fy d Ned < 1 ->
  wi_VbRd fy e a (Some b) d Ned Med = Some v -> exists Vw, web_shear fy (w_h d - w_tt d - w_tb d) a (w_tw d) (Some b) = Some Vw /\ 0 < Vw <= v.
Proof. exact VbRd_web. Qed.
Print Assumptions C337_web.
Theorem C337_raises_exactly : forall fy e a b d Ned Med, wi_valid d -> 0 < fy -> 0 < e -> 0 < a -> squash_share fy d Ned < 1 ->
  (wi_VbRd fy e a (Some b) d Ned Med = None <->
   72 * e / shear_eta fy <= (w_h d - w_tt d - w_tb d) / w_tw d /\ (1 - squash_share fy d Ned) * flange_moment fy d <= Rabs Med).
Proof. exact VbRd_none. Qed.
Print Assumptions C337_raises_exactly.
Theorem C337_cap_refuted : exists v, welded_ok ex_cap /\ wi_VbRd 235 1 100 (Some false) ex_cap 0 0 = Some v /\ shear_cap (12/10) 235 200 (10/3) < v.
Proof. exact VbRd_cap_refuted. Qed.
Print Assumptions C337_cap_refuted.
Theorem C337_axial_refuted : exists d N1 N2 M v, welded_ok d /\ 0 < N1 < N2 /\ 0 < M
  /\ wi_VbRd 235 1 100 (Some false) d N1 M = None /\ wi_VbRd 235 1 100 (Some false) d N2 M = Some v.
Proof. exact VbRd_axial_refuted. Qed.
Print Assumptions C337_axial_refuted.
