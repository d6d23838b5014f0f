From Verif Require Import Base EC3_model Bool_tac EC3_spec EC3_proofs Plate_proofs Sections_proofs Secls_proofs Secls2_proofs.
From Verif Require Import Secls_model Secls_spec.
Require Import Reals List Bool Lra Lia Psatz PeanoNat.
Local Open Scope R_scope.

Lemma cls_range l1 l2 l3 r : (1 <= cls l1 l2 l3 r <= 4)%nat.
Proof. unfold cls. destruct (Rleb r l1); [lia|]. destruct (Rleb r l2); [lia|]. destruct (Rleb r l3); lia. Qed.
Lemma cls_mono_r l1 l2 l3 r q : l1 <= l2 -> l2 <= l3 -> r <= q -> (cls l1 l2 l3 r <= cls l1 l2 l3 q)%nat.
Proof.
  intros A B C. unfold cls.
  destruct (Rleb r l1) eqn:X1; destruct (Rleb q l1) eqn:Y1; destruct (Rleb r l2) eqn:X2; destruct (Rleb q l2) eqn:Y2;
  destruct (Rleb r l3) eqn:X3; destruct (Rleb q l3) eqn:Y3; try lia;
  repeat match goal with H : Rleb _ _ = true |- _ => apply Rleb_true in H | H : Rleb _ _ = false |- _ => apply Rleb_false in H end; lra.
Qed.

(** Circular hollow sections *)
Lemma c_states_lemma fy D T Ned Med : 0 < T -> 235 <= fy ->
  exists w, tube_class (eps_of fy) (D / T) w
   /\ (Ned < 0 -> Rabs Med < 1/10000 -> c_class fy D T Ned Med = Some w)
   /\ (Rabs Ned < 1/10000 -> 1/10000 < Rabs Med -> c_class fy D T Ned Med = Some w)
   /\ (0 <= Ned -> Rabs Med < 1/10000 -> c_class fy D T Ned Med = Some 1%nat).
Proof.
  intros Ht Hf. destruct (eps_ok fy Hf) as [e [E [E2 E3]]]. rewrite <- E2.
  unfold c_class, c_wall. rewrite E. cbn [bind]. rewrite pdiv_ok by lra. cbn [bind].
  assert (W : CHS_class (D / T) e = cls (50 * e ^ 2) (70 * e ^ 2) (90 * e ^ 2) (D / T)) by reflexivity. rewrite W.
  exists (cls (50 * e ^ 2) (70 * e ^ 2) (90 * e ^ 2) (D / T)). assert (G := cls_range (50 * e ^ 2) (70 * e ^ 2) (90 * e ^ 2) (D / T)).
  split; [apply cls_table|]. split; [|split]; intros.
  - rewrite class_comp by auto. cbn [worse bind]. f_equal. lia.
  - rewrite class_bend by auto. cbn [worse bind]. f_equal. lia.
  - unfold class_of. rewrite leb_t by auto. rewrite ltb_t by auto. reflexivity.
Qed.
Lemma c_raises_lemma fy D T Ned Med : 0 < T -> 235 <= fy ->
  (c_class fy D T Ned Med = None <-> Ned < 0 /\ 1/10000 <= Rabs Med /\ (Ned <= -1/10000 \/ Rabs Med = 1/10000)).
Proof.
  intros Ht Hf. destruct (eps_ok fy Hf) as [e [E [E2 E3]]].
  unfold c_class, c_wall. rewrite E. cbn [bind]. rewrite pdiv_ok by lra. cbn [bind worse]. unfold class_of. cbn [worse bind].
  destruct (Rltb (Rabs Med) (1/10000)) eqn:M1; [apply Rltb_true in M1|apply Rltb_false in M1].
  - rewrite andb_true_r. split.
    + destruct (Rleb 0 Ned); [discriminate|]. destruct (andb _ _); [discriminate|]. destruct (orb _ _); discriminate.
    + lra.
  - rewrite andb_false_r. destruct (Rltb (Rabs Ned) (1/10000)) eqn:N1; [apply Rltb_true in N1|apply Rltb_false in N1]; cbn [andb].
    + destruct (Rltb (1/10000) (Rabs Med)) eqn:M2; [apply Rltb_true in M2|apply Rltb_false in M2].
      * split; [discriminate|]. intros [A [B [C|C]]]; [|lra]. rewrite Rabs_left in N1 by lra. lra.
      * destruct (Rltb Ned 0) eqn:N2; [apply Rltb_true in N2|apply Rltb_false in N2]; cbn [orb].
        -- split; [|reflexivity]. intros _. split; [auto|]. split; [auto|]. right. lra.
        -- replace (Reqb Med 0) with false; [split; [discriminate|lra]|]. symmetry. apply eqb_f. intros Z. rewrite Z, Rabs_R0 in M1. lra.
    + destruct (Rltb Ned 0) eqn:N2; [apply Rltb_true in N2|apply Rltb_false in N2]; cbn [orb].
      * split; [|reflexivity]. intros _. split; [auto|]. split; [auto|]. left. rewrite Rabs_left in N1 by lra. lra.
      * replace (Reqb Med 0) with false; [split; [discriminate|lra]|]. symmetry. apply eqb_f. intros Z. rewrite Z, Rabs_R0 in M1. lra.
Qed.

(** Welded I-sections *)
Lemma w_parts e d : welded_ok d -> e <= 1 ->
  w_flange e d = Some (cls (9 * e) (10 * e) (14 * e) (welded_top d)) /\ w_comp e d = Some (cls (33 * e) (38 * e) (42 * e) (welded_web d)) /\ cw d = welded_cw d.
Proof.
  intros [(V1 & V2 & V3 & V4 & V5 & V6) [Va Vc]] He. unfold w_flange, w_comp. rewrite !pdiv_ok by lra. cbn [bind].
  assert (C : cw d = welded_cw d) by (unfold cw, welded_cw, hw; ring). rewrite C.
  replace (cf_top d / w_tt d) with (welded_top d) by (unfold cf_top, welded_top; field; lra). rewrite out_cls, comp_cls by auto. auto.
Qed.
Lemma w_comp_lemma fy d Ned Med : welded_ok d -> 235 <= fy -> Ned < 0 -> Rabs Med < 1/10000 ->
  exists ft fb w, outstand_class (eps_of fy) (welded_top d) ft /\ outstand_class (eps_of fy) (welded_bottom d) fb
   /\ compressed_class (eps_of fy) (welded_web d) w /\ w_class fy d Ned Med = Some (Nat.max w ft)
   /\ (welded_bottom d <= welded_top d -> w_class fy d Ned Med = Some (Nat.max w (Nat.max ft fb))).
Proof.
  intros V Hf Hn Hm. destruct (eps_ok fy Hf) as [e [E [E2 E3]]]. rewrite <- E2. destruct (w_parts e d V ltac:(lra)) as [P1 [P2 _]].
  unfold w_class. rewrite E. cbn [bind]. rewrite P1, P2, class_comp by auto. cbn [worse bind].
  exists (cls (9 * e) (10 * e) (14 * e) (welded_top d)), (cls (9 * e) (10 * e) (14 * e) (welded_bottom d)), (cls (33 * e) (38 * e) (42 * e) (welded_web d)).
  split; [apply cls_table|]. split; [apply cls_table|]. split; [apply cls_table|]. split; [reflexivity|].
  intros H. f_equal. assert (G := cls_mono_r (9 * e) (10 * e) (14 * e) _ _ ltac:(lra) ltac:(lra) H). lia.
Qed.
Lemma sqrt2_b : 1414/1000 < sqrt 2 < 1415/1000.
Proof.
  split.
  - apply Rsqr_incrst_0; [unfold Rsqr; rewrite sqrt_sqrt; lra|lra|apply sqrt_pos].
  - apply Rsqr_incrst_0; [unfold Rsqr; rewrite sqrt_sqrt; lra|apply sqrt_pos|lra].
Qed.
Lemma w_comp_refuted_lemma : exists d fb, welded_ok d /\ outstand_class (eps_of 235) (welded_bottom d) fb /\ fb = 4%nat /\ w_class 235 d (-1000) 0 = Some 1%nat.
Proof.
  exists (mkWi 220 10 100 400 10 10 5), 4%nat. destruct sqrt2_b as [S1 S2]. destruct eps235 as [E E2].
  assert (V : welded_ok (mkWi 220 10 100 400 10 10 5)) by (unfold welded_ok, wi_valid, welded_cw; simpl; lra).
  split; [exact V|]. rewrite E2. split; [|split; [reflexivity|]].
  - unfold outstand_class. rewrite <- (cls4 (9 * 1) (10 * 1) (14 * 1) (welded_bottom (mkWi 220 10 100 400 10 10 5))) by (unfold welded_bottom; simpl; lra). apply cls_table.
  - destruct (w_parts 1 _ V ltac:(lra)) as [P1 [P2 _]]. unfold w_class. rewrite E. cbn [bind]. rewrite P1, P2, class_comp by (rewrite ?Rabs_R0; lra).
    rewrite !cls1; [reflexivity| |]; unfold welded_web, welded_top, welded_cw; simpl; lra.
Qed.

(** bending *)
Lemma share_range d z : 0 <= welded_share d z <= 1.
Proof. unfold welded_share. split; [apply Rmax_l|]. apply Rmax_lub; [lra|apply Rmin_l]. Qed.
Lemma w_alpha_lemma d : welded_ok d -> w_h d - w_tt d - w_tb d <> 2 * sqrt 2 -> zpl d < w_h d - w_tt d - sqrt 2 * w_a d ->
  exists a, w_alpha d = Some a /\ 0 < welded_share d (zpl d)
   /\ (zpl d <= w_tb d + sqrt 2 * w_a d -> a = 1 /\ welded_share d (zpl d) = 1)
   /\ (w_tb d + sqrt 2 * w_a d < zpl d -> a * (w_h d - w_tt d - w_tb d - 2 * sqrt 2) = welded_share d (zpl d) * welded_cw d).
Proof.
  intros [(V1 & V2 & V3 & V4 & V5 & V6) [Va Vc]] Hd Hz. unfold w_alpha, welded_share. unfold welded_cw in *.
  set (top := w_h d - w_tt d - sqrt 2 * w_a d) in *. set (bot := w_tb d + sqrt 2 * w_a d) in *. set (z := zpl d) in *.
  assert (C : 0 < top - bot) by (unfold top, bot; lra).
  assert (C2 : w_h d - w_tt d - w_tb d - 2 * (sqrt 2 * w_a d) = top - bot) by (unfold top, bot; ring). rewrite C2.
  assert (Q : 0 < (top - z) / (top - bot)) by (apply Rdiv_lt_0_compat; lra).
  destruct (Rleb z bot) eqn:B; [apply Rleb_true in B|apply Rleb_false in B].
  - assert (1 <= (top - z) / (top - bot)) by (apply le_div_iff; lra). exists 1. split; [reflexivity|].
    rewrite Rmin_left by auto. rewrite Rmax_right by lra. split; [lra|]. split; intros; [auto|lra].
  - assert (U : (top - z) / (top - bot) <= 1) by (apply div_le_iff; lra).
    replace (Rleb top z) with false by (symmetry; apply leb_f; auto). rewrite pdiv_ok by lra. eexists. split; [reflexivity|].
    rewrite Rmin_right by auto. rewrite Rmax_right by lra. split; [auto|]. split; intros; [lra|]. field. split; lra.
Qed.
Lemma lim12_anti e a b : 0 < e -> 0 < a <= b -> lim1 e b <= lim1 e a /\ lim2 e b <= lim2 e a.
Proof.
  intros He Ha. destruct (Rlt_dec (1/2) a) as [A|A]; [apply lim12_mono; lra|].
  assert (I : 2 <= / a) by (replace 2 with (/ (1/2)) by field; apply Rinv_le_contravar; lra).
  unfold lim1, lim2. destruct (Rlt_dec (1/2) a); [lra|]. destruct (Rlt_dec (1/2) b) as [B|B].
  - assert (J : / (13 * b - 1) <= / (11/2)) by (apply Rinv_le_contravar; lra). unfold Rdiv.
    assert (J2 : / (13 * b - 1) <= 2/11) by lra. split; nra.
  - assert (J : / b <= / a) by (apply Rinv_le_contravar; lra). unfold Rdiv. split; apply Rmult_le_compat_l; lra.
Qed.
Lemma w_bend_lemma fy d Ned Med : welded_ok d -> 235 <= fy -> Rabs Ned < 1/10000 -> 1/10000 < Rabs Med ->
  w_h d - w_tt d - w_tb d <> 2 * sqrt 2 -> zpl d < w_h d - w_tt d - sqrt 2 * w_a d -> zel d < w_h d - w_tt d ->
  exists f w a p, outstand_class (eps_of fy) (welded_top d) f
   /\ (forall k, 0 < k -> p = bent_stress k (zel d) (w_tb d) / bent_stress k (zel d) (w_h d - w_tt d))
   /\ (zpl d <= w_tb d + sqrt 2 * w_a d -> a = 1)
   /\ (w_tb d + sqrt 2 * w_a d < zpl d -> a * (w_h d - w_tt d - w_tb d - 2 * sqrt 2) = welded_share d (zpl d) * welded_cw d)
   /\ (0 < a -> combined_class (eps_of fy) a p (welded_web d) w) /\ w_class fy d Ned Med = Some (Nat.max w f)
   /\ (w_a d = 1 -> combined_class (eps_of fy) (welded_share d (zpl d)) p (welded_web d) w)
   /\ (1 <= w_a d -> exists c, combined_class (eps_of fy) (welded_share d (zpl d)) p (welded_web d) c /\ (w <= c)%nat).
Proof.
  intros V Hf Hn Hm Hd Hz He. destruct (eps_ok fy Hf) as [e [E [E2 E3]]]. rewrite <- E2. destruct (w_parts e d V ltac:(lra)) as [P1 [P2 P3]].
  destruct (w_alpha_lemma d V Hd Hz) as [a [A1 [A2 [A3 A4]]]]. assert (SR := share_range d (zpl d)).
  destruct V as [(V1 & V2 & V3 & V4 & V5 & V6) [Va Vc]].
  set (p := (- zel d + w_tb d) / (w_h d - zel d - w_tt d)). assert (WP : w_psi d = Some p) by (unfold w_psi; rewrite pdiv_ok by lra; reflexivity).
  exists (cls (9 * e) (10 * e) (14 * e) (welded_top d)), (internal_part_comp_bend (welded_web d) e a p), a, p.
  split; [apply cls_table|]. split; [|split; [|split; [|split; [|split; [|split]]]]].
  - intros k Hk. unfold p, bent_stress. field. lra.
  - intros H. apply A3. auto.
  - auto.
  - intros H. rewrite cb_cls by lra. apply cls_table.
  - unfold w_class. rewrite E. cbn [bind]. rewrite P1, class_bend by auto. unfold w_bend. rewrite pdiv_ok by lra. cbn [bind].
    rewrite WP, A1. cbn [bind worse]. rewrite P3. reflexivity.
  - intros H1. assert (Q : a = welded_share d (zpl d)).
    { destruct (Rle_dec (zpl d) (w_tb d + sqrt 2 * w_a d)) as [B|B]; [destruct (A3 B); lra|].
      assert (B' : w_tb d + sqrt 2 * w_a d < zpl d) by lra. specialize (A4 B'). unfold welded_cw in *. rewrite H1 in *.
      apply (Rmult_eq_reg_r (w_h d - w_tt d - w_tb d - 2 * (sqrt 2 * 1))); [|lra]. rewrite <- A4. ring. }
    rewrite <- Q. rewrite cb_cls by lra. apply cls_table.
  - intros H1. eexists. split; [apply cls_table|].
    assert (S2 := sqrt2_b). assert (L : welded_cw d <= w_h d - w_tt d - w_tb d - 2 * sqrt 2) by (unfold welded_cw; nra).
    assert (Q : 0 < a <= welded_share d (zpl d)).
    { destruct (Rle_dec (zpl d) (w_tb d + sqrt 2 * w_a d)) as [B|B]; [destruct (A3 B); lra|].
      assert (B' : w_tb d + sqrt 2 * w_a d < zpl d) by lra. specialize (A4 B'). set (D := w_h d - w_tt d - w_tb d - 2 * sqrt 2) in *.
      set (s := welded_share d (zpl d)) in *. assert (0 < a) by (assert (0 < a * D) by (rewrite A4; apply Rmult_lt_0_compat; lra); nra). split; [auto|].
      apply (Rmult_le_reg_r D); [lra|]. rewrite A4. apply Rmult_le_compat_l; lra. }
    rewrite cb_cls by lra. destruct (lim12_anti e a (welded_share d (zpl d)) ltac:(lra) Q). apply cls_mono; lra.
Qed.
Lemma w_bend_refuted_lemma : exists d w, welded_ok d /\ doubly_symmetric d /\ w_a d = 5
  /\ combined_class 1 (welded_share d (zpl d)) (-1) (welded_web d) w /\ bent_class 1 (welded_web d) w /\ w = 3%nat
  /\ w_class 235 d 0 1 = Some 2%nat.
Proof.
  destruct sqrt2_b as [S1 S2]. set (t := (200 - 10 * sqrt 2) / 85). assert (T : 2 < t < 22/10) by (unfold t; lra).
  exists (ex_welded t 5), 3%nat. set (d := ex_welded t 5).
  assert (V : welded_ok d) by (unfold welded_ok, wi_valid, welded_cw; simpl; lra). destruct eps235 as [E E2].
  assert (AR : wi_area d = 200 * t + 2000) by (unfold wi_area, Aw, At, Ab, hw; simpl; ring).
  assert (Z : zpl d = 110).
  { unfold zpl. rewrite AR. unfold At, Ab. simpl. rewrite !leb_f by lra. field. lra. }
  assert (ZE : zel d = 110).
  { unfold zel. rewrite AR. unfold zb, zw, zt, Aw, At, Ab, hw. simpl. field. lra. }
  assert (C : welded_cw d = 200 - 10 * sqrt 2) by (unfold welded_cw; simpl; ring).
  assert (W : welded_web d = 85). { unfold welded_web. rewrite C. simpl. unfold t. field. lra. }
  assert (SH : welded_share d 110 = 1/2).
  { unfold welded_share. simpl. replace (220 - 10 - sqrt 2 * 5 - 110) with (1/2 * (200 - 10 * sqrt 2)) by lra.
    replace (220 - 10 - sqrt 2 * 5 - (10 + sqrt 2 * 5)) with (200 - 10 * sqrt 2) by ring.
    replace (1 / 2 * (200 - 10 * sqrt 2) / (200 - 10 * sqrt 2)) with (1/2) by (field; lra). rewrite Rmin_right, Rmax_right; lra. }
  split; [exact V|]. split; [split; reflexivity|]. split; [reflexivity|]. rewrite Z, SH, W.
  split; [|split; [|split; [reflexivity|]]].
  - unfold combined_class, table_class, lim1, lim2, lim3. destruct (Rlt_dec (1/2) (1/2)); [lra|]. destruct (Rlt_dec (-1) (-1)); [lra|].
    replace (- -1) with 1 by ring. rewrite sqrt_1. right. right. left. split; [|split; [|split]]; try reflexivity; lra.
  - unfold bent_class, table_class. right. right. left. split; [|split; [|split]]; try reflexivity; lra.
  - destruct (w_parts 1 d V ltac:(lra)) as [P1 [_ P3]]. unfold w_class. rewrite E. cbn [bind]. rewrite P1, class_bend by (rewrite ?Rabs_R0, ?Rabs_right; lra).
    unfold w_bend. rewrite pdiv_ok by (simpl; lra). cbn [bind]. rewrite P3. replace (welded_cw d / w_tw d) with 85 by (symmetry; exact W).
    unfold w_psi. rewrite ZE. rewrite pdiv_ok by (simpl; lra). cbn [bind].
    destruct (w_alpha_lemma d V) as [a [A1 [A2 [A3 A4]]]]; [simpl; lra|rewrite Z; simpl; lra|]. rewrite A1. cbn [bind]. rewrite Z, SH, C in A4. simpl in A4.
    specialize (A4 ltac:(lra)).
    assert (AL : 47/100 < a < 475/1000) by (split; nra). replace ((- (110) + w_tb d) / (w_h d - 110 - w_tt d)) with (-1) by (simpl; field).
    rewrite cb_cls by lra. rewrite (cls1 _ _ _ (welded_top d)) by (unfold welded_top; simpl; lra).
    unfold lim1, lim2. destruct (Rlt_dec (1/2) a); [lra|].
    assert (I : a * / a = 1) by (apply Rinv_r; lra). assert (J : 0 < / a) by (apply Rinv_0_lt_compat; lra).
    rewrite cls2; [reflexivity| |]; unfold Rdiv; nra.
Qed.
