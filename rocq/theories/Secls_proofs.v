From Verif Require Import Base EC3_model Bool_tac EC3_spec EC3_proofs Plate_proofs Sections_proofs.
From Verif Require Import Secls_model Secls_spec.
Require Import Reals List Bool Lra Lia Psatz PeanoNat.
Local Open Scope R_scope.

(** The class for three limits. *)
Definition cls (l1 l2 l3 r : R) : nat :=
  if Rleb r l1 then 1 else if Rleb r l2 then 2 else if Rleb r l3 then 3 else 4.
Lemma cls_table l1 l2 l3 r : table_class l1 l2 l3 r (cls l1 l2 l3 r).
Proof.
  unfold cls, table_class. destruct (Rleb r l1) eqn:A; [apply Rleb_true in A; auto|].
  apply Rleb_false in A. destruct (Rleb r l2) eqn:B; [apply Rleb_true in B; auto|]. apply Rleb_false in B.
  destruct (Rleb r l3) eqn:C; [apply Rleb_true in C|apply Rleb_false in C]; auto 10.
Qed.
Lemma cls_mono l1 l2 l3 m1 m2 m3 r : m1 <= l1 -> m2 <= l2 -> m3 <= l3 -> (cls l1 l2 l3 r <= cls m1 m2 m3 r)%nat.
Proof.
  intros. unfold cls. destruct (Rleb r l1) eqn:A; destruct (Rleb r m1) eqn:A'; destruct (Rleb r l2) eqn:B; destruct (Rleb r m2) eqn:B';
  destruct (Rleb r l3) eqn:C; destruct (Rleb r m3) eqn:C'; try lia;
  repeat match goal with H : Rleb _ _ = true |- _ => apply Rleb_true in H | H : Rleb _ _ = false |- _ => apply Rleb_false in H end; lra.
Qed.
Lemma conv_id e : e <= 1 -> conv e = e.
Proof. intros. unfold conv. replace (Rltb 1 e) with false by (symmetry; apply ltb_f; lra). reflexivity. Qed.
Lemma comp_cls r e : e <= 1 -> internal_part_in_compression r e = cls (33 * e) (38 * e) (42 * e) r.
Proof. intros. unfold internal_part_in_compression. rewrite conv_id by auto. reflexivity. Qed.
Lemma out_cls r e : e <= 1 -> outstand_part_in_compression r e = cls (9 * e) (10 * e) (14 * e) r.
Proof. intros. unfold outstand_part_in_compression. rewrite conv_id by auto. reflexivity. Qed.
Lemma cb_cls r e a p : e <= 1 -> 0 < a -> internal_part_comp_bend r e a p = cls (lim1 e a) (lim2 e a) (lim3 e p) r.
Proof.
  intros He Ha. unfold internal_part_comp_bend. rewrite conv_id by auto. unfold comp_bend_12, cls, lim1, lim2, lim3.
  replace (Reqb a 0) with false by (symmetry; apply eqb_f; lra).
  replace (415 / 10 * e / a) with (83 / 2 * e / a) by (field; lra).
  destruct (Rlt_dec (1/2) a) as [A|A].
  - replace (Rltb (1/2) a) with true by (symmetry; apply ltb_t; auto).
    destruct (Rleb r (396 * e / (13 * a - 1))); [reflexivity|]. destruct (Rleb r (456 * e / (13 * a - 1))); [reflexivity|].
    cbn [Nat.ltb Nat.leb]. destruct (Rlt_dec (-1) p) as [P|P].
    + replace (Rltb (-1) p) with true by (symmetry; apply ltb_t; auto). reflexivity.
    + replace (Rltb (-1) p) with false by (symmetry; apply ltb_f; lra). reflexivity.
  - replace (Rltb (1/2) a) with false by (symmetry; apply ltb_f; lra).
    destruct (Rleb r (36 * e / a)); [reflexivity|]. destruct (Rleb r (83/2 * e / a)); [reflexivity|].
    cbn [Nat.ltb Nat.leb]. destruct (Rlt_dec (-1) p) as [P|P].
    + replace (Rltb (-1) p) with true by (symmetry; apply ltb_t; auto). reflexivity.
    + replace (Rltb (-1) p) with false by (symmetry; apply ltb_f; lra). reflexivity.
Qed.
Lemma pdiv_ok x y : y <> 0 -> pdiv x y = Some (x / y).
Proof. intros. unfold pdiv. replace (Reqb y 0) with false by (symmetry; apply eqb_f; auto). reflexivity. Qed.
Lemma eps_ok fy : 235 <= fy -> exists e, epsilon fy = Some e /\ e = eps_of fy /\ 0 < e <= 1.
Proof.
  intros H. exists (eps_of fy). unfold epsilon. rewrite pdiv_ok by lra. cbn [bind]. unfold psqrt.
  assert (P : 0 < 235 / fy <= 1).
  { split; [apply Rdiv_lt_0_compat; lra|]. apply (Rmult_le_reg_r fy); [lra|]. unfold Rdiv. rewrite Rmult_assoc, Rinv_l by lra. lra. }
  replace (Rltb (235 / fy) 0) with false by (symmetry; apply ltb_f; lra). split; [reflexivity|]. split; [reflexivity|].
  unfold eps_of. split; [apply sqrt_lt_R0; lra|]. rewrite <- sqrt_1. apply sqrt_le_1; lra.
Qed.
(** Which parts are asked for. *)
Lemma class_comp_bend Ned Med fl wc wb wcb : Ned <= -1/10000 -> 1/10000 <= Rabs Med -> class_of Ned Med fl wc wb wcb = worse fl wcb.
Proof.
  intros A B. unfold class_of. replace (Rleb 0 Ned) with false by (symmetry; apply leb_f; lra). cbn [andb].
  replace (Rltb (Rabs Ned) (1/10000)) with false by (symmetry; apply ltb_f; rewrite Rabs_left by lra; lra). cbn [andb].
  replace (Rltb Ned 0) with true by (symmetry; apply ltb_t; lra). cbn [orb].
  replace (Rltb (Rabs Med) (1/10000)) with false by (symmetry; apply ltb_f; lra). reflexivity.
Qed.
Lemma class_comp Ned Med fl wc wb wcb : Ned < 0 -> Rabs Med < 1/10000 -> class_of Ned Med fl wc wb wcb = worse fl wc.
Proof.
  intros A B. unfold class_of. replace (Rleb 0 Ned) with false by (symmetry; apply leb_f; lra). cbn [andb].
  replace (Rltb (1/10000) (Rabs Med)) with false by (symmetry; apply ltb_f; lra). rewrite andb_false_r.
  replace (Rltb Ned 0) with true by (symmetry; apply ltb_t; lra). cbn [orb].
  replace (Rltb (Rabs Med) (1/10000)) with true by (symmetry; apply ltb_t; lra). reflexivity.
Qed.
Lemma class_bend Ned Med fl wc wb wcb : Rabs Ned < 1/10000 -> 1/10000 < Rabs Med -> class_of Ned Med fl wc wb wcb = worse fl wb.
Proof.
  intros A B. unfold class_of. replace (Rltb (Rabs Med) (1/10000)) with false by (symmetry; apply ltb_f; lra). rewrite andb_false_r.
  replace (Rltb (Rabs Ned) (1/10000)) with true by (symmetry; apply ltb_t; lra).
  replace (Rltb (1/10000) (Rabs Med)) with true by (symmetry; apply ltb_t; lra). reflexivity.
Qed.

Lemma div_bounds m N : 0 < m -> - m <= N <= m -> -1 <= N / m <= 1.
Proof.
  intros H B. assert (I : 0 < / m) by (apply Rinv_0_lt_compat; auto). assert (J : m * / m = 1) by (apply Rinv_r; lra). unfold Rdiv. split; nra.
Qed.
(** I-sections *)
Lemma i_parts e s : i_valid s -> e <= 1 ->
  i_flange e s = Some (cls (9 * e) (10 * e) (14 * e) (i_cf_tf s))
  /\ i_comp e s = Some (cls (33 * e) (38 * e) (42 * e) (i_cw_tw s))
  /\ i_bend e s = Some (cls (72 * e) (83 * e) (124 * e) (i_cw_tw s)).
Proof.
  intros (V1 & V2 & V3 & V4 & V5 & V6 & V7) He. unfold i_flange, i_comp, i_bend. rewrite !pdiv_ok by lra. cbn [bind].
  replace (i_cf s / i_tf s) with (i_cf_tf s) by (unfold i_cf, i_cf_tf; field; lra). fold (i_cw_tw s). unfold i_hw. fold (i_cw_tw s).
  rewrite comp_cls, out_cls by auto. auto.
Qed.
Lemma i_alpha_lemma fy s Ned : i_valid s -> 0 < fy -> plastic_share fy (i_hw s) (i_tw s) Ned (i_alpha fy s Ned) /\ 0 <= i_alpha fy s Ned <= 1.
Proof.
  intros (V1 & V2 & V3 & V4 & V5 & V6 & V7) Hf. unfold plastic_share, web_force, i_alpha. fold (i_hw s) in V4. set (c := i_hw s) in *. set (t := i_tw s) in *.
  assert (N : 0 < c * t * fy) by (apply Rmult_lt_0_compat; [apply Rmult_lt_0_compat|]; lra).
  replace (fy * t * c) with (c * t * fy) by ring.
  destruct (Rleb (c * t * fy) (- Ned)) eqn:A; [apply Rleb_true in A|apply Rleb_false in A].
  - split; [|lra]. split; [|split; [auto|intros; lra]]. intros B. assert (Ned < 0) by lra. rewrite Rabs_left in B by lra.
    assert (- Ned = c * t * fy) by lra. nra.
  - destruct (Rleb (- Ned) (- (c * t * fy))) eqn:B; [apply Rleb_true in B|apply Rleb_false in B].
    + split; [|lra]. split; [|split; [intros; lra|auto]]. intros C. rewrite Rabs_right in C by lra. assert (Ned = c * t * fy) by lra. nra.
    + split.
      * split; [|split; intros; lra]. intros _. field. repeat split; lra.
      * assert (-1 <= Ned / (c * t * fy) <= 1); [|lra].
        apply div_bounds; lra.
Qed.
Lemma i_alpha_half fy s Ned : i_valid s -> 0 < fy -> Ned < 0 -> 1/2 < i_alpha fy s Ned.
Proof.
  intros (V1 & V2 & V3 & V4 & V5 & V6 & V7) Hf Hn. unfold i_alpha. fold (i_hw s) in V4. 
  assert (N : 0 < i_hw s * i_tw s * fy) by (apply Rmult_lt_0_compat; [apply Rmult_lt_0_compat|]; lra).
  destruct (Rleb _ (- Ned)); [lra|]. replace (Rleb (- Ned) (- (i_hw s * i_tw s * fy))) with false by (symmetry; apply leb_f; lra).
  assert (0 < - Ned / (i_hw s * i_tw s * fy)) by (apply Rdiv_lt_0_compat; lra). unfold Rdiv in *. lra.
Qed.
Lemma i_alpha_mono fy s N1 N2 : i_valid s -> 0 < fy -> N2 <= N1 -> i_alpha fy s N1 <= i_alpha fy s N2.
Proof.
  intros V Hf H. destruct (i_alpha_lemma fy s N1 V Hf) as [_ B1]. destruct (i_alpha_lemma fy s N2 V Hf) as [_ B2].
  destruct V as (V1 & V2 & V3 & V4 & V5 & V6 & V7). fold (i_hw s) in V4.
  assert (N : 0 < i_hw s * i_tw s * fy) by (apply Rmult_lt_0_compat; [apply Rmult_lt_0_compat|]; lra).
  revert B1 B2. unfold i_alpha. set (m := i_hw s * i_tw s * fy) in *.
  destruct (Rleb m (- N1)) eqn:A1; [apply Rleb_true in A1|apply Rleb_false in A1]; destruct (Rleb m (- N2)) eqn:A2; [apply Rleb_true in A2|apply Rleb_false in A2|apply Rleb_true in A2|apply Rleb_false in A2]; try lra.
  - destruct (Rleb (- N1) (- m)) eqn:C1; [apply Rleb_true in C1|apply Rleb_false in C1]; destruct (Rleb (- N2) (- m)) eqn:C2; [apply Rleb_true in C2|apply Rleb_false in C2|apply Rleb_true in C2|apply Rleb_false in C2]; try lra.
    intros _ _. assert (N2 / m <= N1 / m); [|lra]. unfold Rdiv. apply Rmult_le_compat_r; [left; apply Rinv_0_lt_compat; auto|auto].
Qed.
Lemma i_psi_lemma s Ned Med : i_valid s -> Ned < 0 -> 0 < Med ->
  exists p, i_psi s Ned Med = Some p /\ p = stress_ratio (top_stress (i_A s) (i_W s) Ned Med) (bottom_stress (i_A s) (i_W s) Ned Med) /\ -1 < p < 1
    /\ p = (Ned / i_A s + Med / i_W s) / (Ned / i_A s - Med / i_W s).
Proof.
  intros (V1 & V2 & V3 & V4 & V5 & V6 & V7) Hn Hm. unfold i_psi, stress_ratio, top_stress, bottom_stress.
  assert (sN : Ned / i_A s < 0) by (unfold Rdiv; assert (0 < / i_A s) by (apply Rinv_0_lt_compat; auto); nra).
  assert (sM : 0 < Med / i_W s) by (apply Rdiv_lt_0_compat; auto).
  set (x := Ned / i_A s) in *. set (y := Med / i_W s) in *.
  assert (H : 0 <= i_hw s / i_h s * Rabs y).
  { apply Rmult_le_pos; [|apply Rabs_pos]. left. apply Rdiv_lt_0_compat; unfold i_hw; lra. }
  replace (Rltb (i_hw s / i_h s * Rabs y) x) with false by (symmetry; apply ltb_f; lra).
  rewrite pdiv_ok by lra. exists ((x + y) / (x - y)). split; [reflexivity|].
  replace (- Ned / i_A s) with (- x) by (unfold x, Rdiv; ring).
  rewrite Rmin_right, Rmax_left by lra. split; [field; lra|]. split; [|reflexivity].
  replace ((x + y) / (x - y)) with ((- x - y) * / (- x + y)) by (field; lra).
  assert (I : 0 < / (- x + y)) by (apply Rinv_0_lt_compat; lra).
  assert (J : (- x + y) * / (- x + y) = 1) by (apply Rinv_r; lra). nra.
Qed.
Lemma i_cb e fy s Ned Med p : i_valid s -> 0 < fy -> e <= 1 -> Ned < 0 -> i_psi s Ned Med = Some p ->
  i_comp_bend e fy s Ned Med = Some (cls (lim1 e (i_alpha fy s Ned)) (lim2 e (i_alpha fy s Ned)) (lim3 e p) (i_cw_tw s)).
Proof.
  intros V Hf He Hn P. assert (A := i_alpha_half fy s Ned V Hf Hn). destruct V as (V1 & V2 & V3 & V4 & V5 & V6 & V7).
  unfold i_comp_bend. rewrite pdiv_ok by lra. cbn [bind]. rewrite P. rewrite cb_cls by lra. reflexivity.
Qed.

(** Limits. *)
Lemma lim12_range e a : 0 < e -> 1/2 < a <= 1 -> 33 * e <= lim1 e a <= 72 * e /\ 38 * e <= lim2 e a <= 83 * e.
Proof.
  intros He Ha. unfold lim1, lim2. destruct (Rlt_dec (1/2) a); [|lra].
  assert (D : 0 < 13 * a - 1) by lra. assert (I : 0 < / (13 * a - 1)) by (apply Rinv_0_lt_compat; auto).
  assert (J : (13 * a - 1) * / (13 * a - 1) = 1) by (apply Rinv_r; lra).
  unfold Rdiv. set (i := / (13 * a - 1)) in *.
  assert (1/12 <= i) by nra. assert (i <= 2/11) by nra. repeat split; nra.
Qed.
Lemma lim12_mono e a b : 0 < e -> 1/2 < a <= b -> lim1 e b <= lim1 e a /\ lim2 e b <= lim2 e a.
Proof.
  intros He Ha. unfold lim1, lim2. destruct (Rlt_dec (1/2) a); [|lra]. destruct (Rlt_dec (1/2) b); [|lra].
  assert (I : / (13 * b - 1) <= / (13 * a - 1)) by (apply Rinv_le_contravar; lra). unfold Rdiv. split; nra.
Qed.
Lemma lim3_range e p : 0 < e -> -1 < p < 1 -> 42 * e <= lim3 e p <= 124 * e.
Proof.
  intros He Hp. unfold lim3. destruct (Rlt_dec (-1) p); [|lra].
  assert (D : 0 < 67/100 + 33/100 * p) by lra. assert (I : 0 < / (67/100 + 33/100 * p)) by (apply Rinv_0_lt_compat; auto).
  assert (J : (67/100 + 33/100 * p) * / (67/100 + 33/100 * p) = 1) by (apply Rinv_r; lra).
  replace (42 * e / (67/100 + 33/100 * p)) with (42 * e * / (67/100 + 33/100 * p)) by reflexivity. set (i := / (67/100 + 33/100 * p)) in *.
  assert (1 <= i) by nra. assert (i <= 100/34) by nra. split; nra.
Qed.
Lemma lim3_mono e p q : 0 < e -> -1 < p <= q -> lim3 e q <= lim3 e p.
Proof.
  intros He Hp. unfold lim3. destruct (Rlt_dec (-1) p); [|lra]. destruct (Rlt_dec (-1) q); [|lra].
  assert (I : / (67/100 + 33/100 * q) <= / (67/100 + 33/100 * p)) by (apply Rinv_le_contravar; lra). unfold Rdiv. nra.
Qed.
Lemma psi_mono x1 x2 y : x2 <= x1 -> x1 < 0 -> 0 < y -> (x1 + y) / (x1 - y) <= (x2 + y) / (x2 - y).
Proof.
  intros A B C. replace ((x1 + y) / (x1 - y)) with (1 - 2 * y * / (y - x1)) by (field; lra).
  replace ((x2 + y) / (x2 - y)) with (1 - 2 * y * / (y - x2)) by (field; lra).
  assert (I : / (y - x2) <= / (y - x1)) by (apply Rinv_le_contravar; lra). nra.
Qed.

Lemma max_le a b c d : (a <= c)%nat -> (b <= d)%nat -> (Nat.max a b <= Nat.max c d)%nat.
Proof. lia. Qed.
Lemma i_states_lemma fy s Ned Med : i_valid s -> 235 <= fy ->
  exists f wc wb, outstand_class (eps_of fy) (i_cf_tf s) f /\ compressed_class (eps_of fy) (i_cw_tw s) wc /\ bent_class (eps_of fy) (i_cw_tw s) wb
   /\ (Ned < 0 -> Rabs Med < 1/10000 -> i_class fy s Ned Med = Some (Nat.max wc f))
   /\ (Rabs Ned < 1/10000 -> 1/10000 < Rabs Med -> i_class fy s Ned Med = Some (Nat.max wb f))
   /\ (Ned <= -1/10000 -> 1/10000 <= Med -> exists a p w, plastic_share fy (i_h s - 2 * i_tf s - 2 * i_r s) (i_tw s) Ned a
        /\ p = stress_ratio (top_stress (i_A s) (i_W s) Ned Med) (bottom_stress (i_A s) (i_W s) Ned Med)
        /\ combined_class (eps_of fy) a p (i_cw_tw s) w /\ i_class fy s Ned Med = Some (Nat.max w f)).
Proof.
  intros V Hf. destruct (eps_ok fy Hf) as [e [E [E2 E3]]]. rewrite <- E2. destruct (i_parts e s V ltac:(lra)) as [P1 [P2 P3]].
  exists (cls (9 * e) (10 * e) (14 * e) (i_cf_tf s)), (cls (33 * e) (38 * e) (42 * e) (i_cw_tw s)), (cls (72 * e) (83 * e) (124 * e) (i_cw_tw s)).
  split; [apply cls_table|]. split; [apply cls_table|]. split; [apply cls_table|].
  unfold i_class. rewrite E. cbn [bind]. rewrite P1, P2, P3. split; [|split].
  - intros. rewrite class_comp by auto. reflexivity.
  - intros. rewrite class_bend by auto. reflexivity.
  - intros A B. rewrite class_comp_bend by (auto; rewrite Rabs_right; lra).
    destruct (i_psi_lemma s Ned Med V ltac:(lra) ltac:(lra)) as [p [Q1 [Q2 _]]].
    exists (i_alpha fy s Ned), p, (cls (lim1 e (i_alpha fy s Ned)) (lim2 e (i_alpha fy s Ned)) (lim3 e p) (i_cw_tw s)).
    split; [apply i_alpha_lemma; auto; lra|]. split; [exact Q2|]. split; [apply cls_table|].
    rewrite (i_cb e fy s Ned Med p) by (auto; lra). reflexivity.
Qed.
Lemma i_order_lemma fy s Ned Med : i_valid s -> 235 <= fy -> Ned <= -1/10000 -> 1/10000 < Med ->
  exists b c p, i_class fy s 0 Med = Some b /\ i_class fy s Ned Med = Some c /\ i_class fy s Ned 0 = Some p /\ (b <= c <= p)%nat.
Proof.
  intros V Hf Hn Hm. destruct (eps_ok fy Hf) as [e [E [E2 E3]]]. destruct (i_parts e s V ltac:(lra)) as [P1 [P2 P3]].
  destruct (i_psi_lemma s Ned Med V ltac:(lra) ltac:(lra)) as [p [Q1 [_ [Q3 _]]]].
  assert (C := i_cb e fy s Ned Med p V ltac:(lra) ltac:(lra) ltac:(lra) Q1).
  assert (A1 := i_alpha_half fy s Ned V ltac:(lra) ltac:(lra)). destruct (i_alpha_lemma fy s Ned V ltac:(lra)) as [_ A2].
  destruct (lim12_range e (i_alpha fy s Ned) ltac:(lra) ltac:(lra)) as [L1 L2]. assert (L3 := lim3_range e p ltac:(lra) Q3).
  unfold i_class. rewrite E. cbn [bind]. rewrite P1, P2, P3, C.
  rewrite class_bend by (rewrite ?Rabs_R0, ?Rabs_right; lra). rewrite class_comp_bend by (auto; rewrite Rabs_right; lra).
  rewrite class_comp by (rewrite ?Rabs_R0; lra). cbn [worse bind].
  eexists. eexists. eexists. split; [reflexivity|]. split; [reflexivity|]. split; [reflexivity|].
  split; apply max_le; auto; apply cls_mono; lra.
Qed.
Lemma i_mono_lemma fy s N1 N2 Med : i_valid s -> 235 <= fy -> N2 <= N1 -> N1 <= -1/10000 -> 1/10000 <= Med ->
  exists c1 c2, i_class fy s N1 Med = Some c1 /\ i_class fy s N2 Med = Some c2 /\ (c1 <= c2)%nat.
Proof.
  intros V Hf Hn Hn1 Hm. destruct (eps_ok fy Hf) as [e [E [E2 E3]]]. destruct (i_parts e s V ltac:(lra)) as [P1 [P2 P3]].
  destruct (i_psi_lemma s N1 Med V ltac:(lra) ltac:(lra)) as [p [Q1 [_ [Q3 Q4]]]].
  destruct (i_psi_lemma s N2 Med V ltac:(lra) ltac:(lra)) as [p' [Q1' [_ [Q3' Q4']]]].
  assert (C := i_cb e fy s N1 Med p V ltac:(lra) ltac:(lra) ltac:(lra) Q1).
  assert (C' := i_cb e fy s N2 Med p' V ltac:(lra) ltac:(lra) ltac:(lra) Q1').
  assert (A1 := i_alpha_half fy s N1 V ltac:(lra) ltac:(lra)).
  assert (AM := i_alpha_mono fy s N1 N2 V ltac:(lra) Hn).
  destruct (lim12_mono e (i_alpha fy s N1) (i_alpha fy s N2) ltac:(lra) ltac:(lra)) as [L1 L2].
  assert (PM : p <= p').
  { rewrite Q4, Q4'. destruct V as (V1 & V2 & V3 & V4 & V5 & V6 & V7).
    assert (IA : 0 < / i_A s) by (apply Rinv_0_lt_compat; auto). apply psi_mono.
    - unfold Rdiv. apply Rmult_le_compat_r; lra.
    - unfold Rdiv. nra.
    - apply Rdiv_lt_0_compat; lra. }
  assert (L3 := lim3_mono e p p' ltac:(lra) ltac:(lra)).
  unfold i_class. rewrite E. cbn [bind]. rewrite P1, P2, P3, C, C'.
  rewrite !class_comp_bend by (try lra; rewrite Rabs_right; lra). cbn [worse bind].
  eexists. eexists. split; [reflexivity|]. split; [reflexivity|]. apply max_le; auto. apply cls_mono; lra.
Qed.
Lemma i_zero_top_lemma fy s Ned Med : i_valid s -> 235 <= fy -> Ned <= -1/10000 -> 1/10000 <= Rabs Med -> top_stress (i_A s) (i_W s) Ned Med = 0 ->
  exists f a w, outstand_class (eps_of fy) (i_cf_tf s) f /\ plastic_share fy (i_h s - 2 * i_tf s - 2 * i_r s) (i_tw s) Ned a
   /\ (forall l3, i_cw_tw s <= l3 -> table_class (lim1 (eps_of fy) a) (lim2 (eps_of fy) a) l3 (i_cw_tw s) w) /\ i_class fy s Ned Med = Some (Nat.max w f).
Proof.
  intros V Hf A B T. destruct (eps_ok fy Hf) as [e [E [E2 E3]]]. rewrite <- E2. destruct (i_parts e s V ltac:(lra)) as [P1 [P2 P3]].
  assert (HA := i_alpha_half fy s Ned V ltac:(lra) ltac:(lra)).
  assert (PS : i_psi s Ned Med = None).
  { destruct V as (V1 & V2 & V3 & V4 & V5 & V6 & V7). unfold top_stress in T. unfold i_psi. assert (Q : Ned / i_A s = Med / i_W s) by (unfold Rdiv in *; lra).
    assert (N : Ned / i_A s < 0) by (unfold Rdiv; pose proof (Rinv_0_lt_compat _ V6); nra). 
    assert (G : Rltb (i_hw s / i_h s * Rabs (Med / i_W s)) (Ned / i_A s) = false).
    { apply Rltb_false. apply Rle_trans with 0; [lra|]. apply Rmult_le_pos; [|apply Rabs_pos]. apply Rmult_le_pos. unfold i_hw; lra. left; apply Rinv_0_lt_compat; lra. }
    rewrite G. unfold pdiv. replace (Reqb (Ned / i_A s - Med / i_W s) 0) with true; auto. symmetry. apply Reqb_true. lra. }
  exists (cls (9 * e) (10 * e) (14 * e) (i_cf_tf s)), (i_alpha fy s Ned), (cls (lim1 e (i_alpha fy s Ned)) (lim2 e (i_alpha fy s Ned)) (i_cw_tw s) (i_cw_tw s)).
  split; [apply cls_table|]. split; [apply i_alpha_lemma; auto; lra|]. split.
  - intros l3 L. replace (cls (lim1 e (i_alpha fy s Ned)) (lim2 e (i_alpha fy s Ned)) (i_cw_tw s) (i_cw_tw s)) with (cls (lim1 e (i_alpha fy s Ned)) (lim2 e (i_alpha fy s Ned)) l3 (i_cw_tw s)); [apply cls_table|].
    unfold cls. replace (Rleb (i_cw_tw s) l3) with true by (symmetry; now apply Rleb_true). replace (Rleb (i_cw_tw s) (i_cw_tw s)) with true by (symmetry; apply Rleb_true; lra). reflexivity.
  - unfold i_class. rewrite E. cbn [bind]. rewrite P1, P2, P3, class_comp_bend by auto. unfold i_comp_bend. rewrite PS.
    destruct V as (V1 & V2 & V3 & V4 & V5 & V6 & V7). rewrite pdiv_ok by lra. cbn [bind]. unfold i_hw. fold (i_cw_tw s). rewrite conv_id by lra.
    assert (K : (let C := comp_bend_12 (i_cw_tw s) e (i_alpha fy s Ned) in if Nat.ltb 2 C then 3%nat else C) = cls (lim1 e (i_alpha fy s Ned)) (lim2 e (i_alpha fy s Ned)) (i_cw_tw s) (i_cw_tw s)).
    { unfold comp_bend_12, cls, lim1, lim2. replace (Reqb (i_alpha fy s Ned) 0) with false by (symmetry; apply Reqb_false; lra). replace (Rltb (1/2) (i_alpha fy s Ned)) with true by (symmetry; now apply Rltb_true).
      destruct (Rlt_dec (1/2) (i_alpha fy s Ned)); [|lra]. replace (Rleb (i_cw_tw s) (i_cw_tw s)) with true by (symmetry; apply Rleb_true; lra).
      destruct (Rleb (i_cw_tw s) (396 * e / (13 * i_alpha fy s Ned - 1))); [reflexivity|]. destruct (Rleb (i_cw_tw s) (456 * e / (13 * i_alpha fy s Ned - 1))); reflexivity. }
    cbv zeta in K. rewrite K. reflexivity.
Qed.
