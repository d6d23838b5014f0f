From Verif Require Import Base EC3_model Bool_tac EC3_spec EC3_proofs Plate_proofs Sections_proofs Secls_proofs.
From Verif Require Import Secls_model Secls_spec.
Require Import Reals List Bool Lra Lia Psatz PeanoNat.
Local Open Scope R_scope.

Lemma eps235 : epsilon 235 = Some 1 /\ eps_of 235 = 1.
Proof.
  destruct (eps_ok 235 ltac:(lra)) as [e [E [E2 _]]]. assert (eps_of 235 = 1) by (unfold eps_of; replace (235 / 235) with 1 by field; apply sqrt_1).
  rewrite E, E2. split; congruence.
Qed.
Lemma cls1 l1 l2 l3 r : r <= l1 -> cls l1 l2 l3 r = 1%nat.
Proof. intros. unfold cls. rewrite leb_t by auto. reflexivity. Qed.
Lemma cls2 l1 l2 l3 r : l1 < r -> r <= l2 -> cls l1 l2 l3 r = 2%nat.
Proof. intros. unfold cls. rewrite leb_f by auto. rewrite leb_t by auto. reflexivity. Qed.
Lemma cls3 l1 l2 l3 r : l1 < r -> l2 < r -> r <= l3 -> cls l1 l2 l3 r = 3%nat.
Proof. intros. unfold cls. rewrite !leb_f by auto. rewrite leb_t by auto. reflexivity. Qed.
Lemma cls4 l1 l2 l3 r : l1 < r -> l2 < r -> l3 < r -> cls l1 l2 l3 r = 4%nat.
Proof. intros. unfold cls. rewrite !leb_f by auto. reflexivity. Qed.

(** Hogging moments of I-sections. *)
Lemma i_psi_neg_lemma s Ned Med : i_valid s -> Ned < 0 -> Med < 0 -> top_stress (i_A s) (i_W s) Ned Med <> 0 ->
  i_psi s Ned Med = Some (/ stress_ratio (top_stress (i_A s) (i_W s) Ned Med) (bottom_stress (i_A s) (i_W s) Ned Med)).
Proof.
  intros (V1 & V2 & V3 & V4 & V5 & V6 & V7) Hn Hm. unfold i_psi, stress_ratio, top_stress, bottom_stress. intros D.
  assert (IA : 0 < / i_A s) by (apply Rinv_0_lt_compat; auto). assert (IW : 0 < / i_W s) by (apply Rinv_0_lt_compat; auto).
  assert (sN : Ned / i_A s < 0) by (unfold Rdiv; nra). assert (sM : Med / i_W s < 0) by (unfold Rdiv; nra).
  replace (- Ned / i_A s) with (- (Ned / i_A s)) in * by (unfold Rdiv; ring). set (x := Ned / i_A s) in *. set (y := Med / i_W s) in *.
  assert (H : 0 <= i_hw s / i_h s * Rabs y).
  { apply Rmult_le_pos; [|apply Rabs_pos]. left. apply Rdiv_lt_0_compat; unfold i_hw; lra. }
  replace (Rltb (i_hw s / i_h s * Rabs y) x) with false by (symmetry; apply ltb_f; lra).
  rewrite pdiv_ok by lra. f_equal. rewrite Rmin_left, Rmax_right by lra. field. split; lra.
Qed.
Lemma hogging_example : exists s Ned Med, i_valid s /\ Ned < -1 /\ 1 < Med
  /\ stress_ratio (top_stress (i_A s) (i_W s) Ned Med) (bottom_stress (i_A s) (i_W s) Ned Med) = -1/2
  /\ i_class 235 s Ned Med = Some 4%nat /\ i_class 235 s Ned (- Med) = Some 3%nat /\ i_class 235 s 0 (- Med) = Some 4%nat.
Proof.
  exists (ex_rolled 1), (-1000), 60000. set (s := ex_rolled 1).
  assert (V : i_valid s) by (unfold i_valid; simpl; lra). destruct eps235 as [E E2]. destruct (i_parts 1 s V ltac:(lra)) as [P1 [P2 P3]].
  assert (FL : i_cf_tf s = 495/100) by (unfold i_cf_tf; simpl; field). assert (WR : i_cw_tw s = 200) by (unfold i_cw_tw; simpl; field).
  rewrite FL in P1. rewrite WR in P3. rewrite cls1 in P1 by lra. rewrite cls4 in P3 by lra.
  destruct (i_alpha_lemma 235 s (-1000) V ltac:(lra)) as [_ A2]. assert (A1 := i_alpha_half 235 s (-1000) V ltac:(lra) ltac:(lra)).
  destruct (lim12_range 1 _ ltac:(lra) (conj A1 (proj2 A2))) as [L1 L2].
  assert (R1 : stress_ratio (top_stress (i_A s) (i_W s) (-1000) 60000) (bottom_stress (i_A s) (i_W s) (-1000) 60000) = -1/2).
  { unfold stress_ratio, top_stress, bottom_stress. simpl. rewrite Rmin_right, Rmax_left by lra. field. }
  assert (B1 : i_psi s (-1000) 60000 = Some (-1/2)).
  { destruct (i_psi_lemma s (-1000) 60000 V ltac:(lra) ltac:(lra)) as [p [Q [Q2 _]]]. rewrite Q, Q2, R1. reflexivity. }
  assert (B2 : i_psi s (-1000) (-60000) = Some (-2)).
  { unfold i_psi. simpl. assert (0 <= i_hw s / 220 * Rabs (-60000 / 20000)).
    { apply Rmult_le_pos; [unfold i_hw; simpl; lra|apply Rabs_pos]. }
    fold s. replace (Rltb (i_hw s / 220 * Rabs (-60000 / 20000)) (-1000 / 1000)) with false by (symmetry; apply ltb_f; lra).
    rewrite pdiv_ok by lra. f_equal. field. }
  split; [exact V|]. split; [lra|]. split; [lra|]. split; [exact R1|].
  unfold i_class. rewrite E. cbn [bind]. rewrite P1, P3. replace (- (60000)) with (-60000) by lra.
  rewrite (i_cb 1 235 s (-1000) 60000 _ V ltac:(lra) ltac:(lra) ltac:(lra) B1).
  rewrite (i_cb 1 235 s (-1000) (-60000) _ V ltac:(lra) ltac:(lra) ltac:(lra) B2). rewrite WR.
  rewrite class_comp_bend by (try lra; rewrite Rabs_right; lra). rewrite class_comp_bend by (try lra; rewrite Rabs_left; lra).
  rewrite class_bend by (rewrite ?Rabs_R0, ?Rabs_left; lra).
  split; [|split; [|reflexivity]].
  - rewrite cls4; [reflexivity|lra|lra|]. unfold lim3. destruct (Rlt_dec (-1) (-1/2)); [|lra]. lra.
  - rewrite cls3; [reflexivity|lra|lra|]. unfold lim3. destruct (Rlt_dec (-1) (-2)); [lra|].
    assert (S : 12/10 <= sqrt (- (-2))) by (apply Rsqr_incr_0; [unfold Rsqr; rewrite sqrt_sqrt; lra|lra|apply sqrt_pos]). lra.
Qed.

(** Hollow sections *)
Lemma r_states_lemma fy H B T Rr Ned Med : 0 < T -> 235 <= fy ->
  exists f wc wb, compressed_class (eps_of fy) ((B - 2 * Rr) / T) f /\ compressed_class (eps_of fy) ((H - 2 * Rr) / T) wc
   /\ bent_class (eps_of fy) ((H - 2 * Rr) / T) wb
   /\ (Ned < 0 -> Rabs Med < 1/10000 -> r_class fy H B T Rr Ned Med = Some (Nat.max wc f))
   /\ (Rabs Ned < 1/10000 -> 1/10000 < Rabs Med -> r_class fy H B T Rr Ned Med = Some (Nat.max wb f))
   /\ (Ned <= -1/10000 -> 1/10000 <= Rabs Med -> r_class fy H B T Rr Ned Med = Some (Nat.max 2 f)).
Proof.
  intros Ht Hf. destruct (eps_ok fy Hf) as [e [E [E2 E3]]]. rewrite <- E2.
  unfold r_class, r_flange, r_comp, r_bend. rewrite E. cbn [bind]. rewrite !pdiv_ok by lra. cbn [bind]. rewrite !comp_cls by lra.
  exists (cls (33 * e) (38 * e) (42 * e) ((B - 2 * Rr) / T)), (cls (33 * e) (38 * e) (42 * e) ((H - 2 * Rr) / T)), (cls (72 * e) (83 * e) (124 * e) ((H - 2 * Rr) / T)).
  split; [apply cls_table|]. split; [apply cls_table|]. split; [apply cls_table|]. split; [|split]; intros.
  - rewrite class_comp by auto. reflexivity.
  - rewrite class_bend by auto. reflexivity.
  - rewrite class_comp_bend by auto. reflexivity.
Qed.
Lemma r_refuted_lemma : exists H B T Rr Ned Med, 0 < T /\ Rr = 2 * T /\ Ned < -1 /\ 1 < Med
  /\ r_class 235 H B T Rr Ned Med = Some 2%nat /\ r_class 235 H B T Rr Ned 0 = Some 4%nat /\ r_class 235 H B T Rr 0 Med = Some 4%nat.
Proof.
  exists 304, 68, 2, 4, (-2), 2. destruct eps235 as [E _]. split; [lra|]. split; [lra|]. split; [lra|]. split; [lra|].
  unfold r_class, r_flange, r_comp, r_bend. rewrite E. cbn [bind]. rewrite !pdiv_ok by lra. cbn [bind]. rewrite !comp_cls by lra.
  rewrite class_comp_bend by (try lra; rewrite Rabs_right; lra). rewrite class_comp by (rewrite ?Rabs_R0; lra). rewrite class_bend by (rewrite ?Rabs_R0, ?Rabs_right; lra).
  assert (W : internal_part_in_bending ((304 - 2 * 4) / 2) 1 = cls (72 * 1) (83 * 1) (124 * 1) ((304 - 2 * 4) / 2)) by reflexivity.
  rewrite W. rewrite (cls1 _ _ _ ((68 - 2 * 4) / 2)) by lra. rewrite !cls4 by lra. repeat split; reflexivity.
Qed.
