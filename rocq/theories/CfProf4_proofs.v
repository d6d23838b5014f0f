(** Effective C sections. *)
From Verif Require Import Base EC3_model Bool_tac EC3_proofs Plate_proofs Sections_proofs Cold_proofs Joint_model Joint_proofs CfProf_proofs CfProf2_proofs CfProf3_proofs.
From Verif Require Import CfProf_model CfProf_spec.
Require Import Reals List Bool Lra Lia Psatz PeanoNat.
Import ListNotations.
Local Open Scope R_scope.

Lemma len_bot s : fits s -> length (bottom_points s) = if Rltb 0 (c_cb s) then 10%nat else 3%nat.
Proof.
  intros ((LA & LB) & Rm & HW & CT & CB & SA & SB). unfold bottom_points. rewrite lip_flag by assumption. cbv zeta. rewrite !front5.
  destruct (c_kind s), (Rltb 0 (c_cb s)); reflexivity.
Qed.
Lemma area_mk l ts a : area (mkProf l ts a) = G one2 l ts.
Proof. unfold area, segs. cbn [pn pst]. apply G_area. Qed.
Lemma web1 b rho : web_parts b 1 rho = (1/2 * (rho * b), b - rho * b).
Proof. unfold web_parts. rewrite (ltb_f 1 0), (ltb_f 1 1) by lra. reflexivity. Qed.
Ltac nodes := unfold put_y, put_z, node; cbn [setn nth fst snd app length Nat.sub Nat.add firstn skipn map].

(** A C section without lips. *)
Lemma plain_eff_lemma s e A bw bt bb : c_kind s = KC -> c_round s = true -> fits s -> ordered s -> c_ca s = 0 -> c_cb s = 0 -> factors e ->
  bp_w s = Some bw -> bp_flange s (c_a s) (c_ca s) = Some bt -> bp_flange s (c_b s) (c_cb s) = Some bb ->
  2 * half_corner s <= e_rw e * bw -> half_corner s <= e_rt e * bt -> half_corner s <= e_rb e * bb -> cf_area false s = Some A ->
  exists p, eff_C s 1 e (cf_points s) = Some p /\ area p = A - cf_t s * ((1 - e_rw e) * bw + (1 - e_rt e) * bt).
Proof.
  intros K RD F O ZA ZB (FT & FTL & FW & FB & FBL) BW BT BB HWc HTc HBc AR.
  rewrite (area_exact_lemma s F), (ordered_run s F O) in AR. injection AR as AR.
  assert (BW' := BW). assert (BT' := BT). assert (BB' := BB).
  rewrite (bpw_val s RD) in BW. injection BW as BW. rewrite ZA, (bpf_0 s _ RD) in BT. injection BT as BT. rewrite ZB, (bpf_0 s _ RD) in BB. injection BB as BB.
  assert (ET : c_top s = straight_flange s (c_a s) 0) by (unfold c_top; rewrite ZA; reflexivity).
  assert (EB : c_bottom s = straight_flange s (c_b s) 0) by (unfold c_bottom; rewrite ZB; reflexivity).
  rewrite <- ET in BT. rewrite <- EB in BB.
  pose proof (flange_0 s (c_a s)) as CTc. pose proof (flange_0 s (c_b s)) as CBc. rewrite <- ET in CTc. rewrite <- EB in CBc.
  assert (CTc' : bt_center s = c_top s + cf_rm s) by (unfold bt_center; rewrite ZA; exact CTc).
  assert (CBc' : bb_center s = c_bottom s + cf_rm s) by (unfold bb_center; rewrite ZB; exact CBc).
  pose proof (len_bot s F) as LN. rewrite ZB, (ltb_f 0 0) in LN by lra.
  unfold eff_C. rewrite BW', BT', BB'. cbn [bind].
  destruct (points_nonempty s) as [n LP]. unfold new_prof. rewrite LP. cbn [bind pn pst parr].
  rewrite (points_named s F) in LP |- *. pose proof (web_c s) as EW. pose proof (gr_val s) as EG.
  destruct F as ((LA & LB) & Rm & HW & CT & CB & SA & SB). pose proof (half_range s Rm) as HR.
  unfold bot_nodes, bot_arc, web_points, top_arc, top_nodes in *. cbv zeta in *. rewrite K, ZA, ZB in *. rewrite (ltb_f 0 0) in * by lra.
  unfold ordered in O. rewrite ZA, (ltb_f 0 0) in O by lra. rewrite CTc', CBc', EW in *. cbn [app length] in LP. injection LP as LP. subst n.
  assert (S0 : straight_lip s 0 = 0) by (unfold straight_lip; rewrite (ltb_f 0 0) by lra; reflexivity). rewrite S0 in AR.
  rewrite !repeat_S. cbn [repeat app].
  unfold eff_web, eff_top, eff_bot, i_web. rewrite LN, ZA, ZB, (ltb_f 0 0) by lra. cbv zeta. rewrite web1, rad45. fold (half_corner s).
  assert (NZ : corners s = 2) by (unfold corners; rewrite ZA, ZB, (ltb_f 0 0) by lra; ring). rewrite NZ in AR.
  replace chords with (4 * ch) in AR by (unfold chords, ch; ring).
  set (hc := half_corner s) in *. set (rm := cf_rm s) in *. set (hw := cf_hw s) in *. set (ct := c_top s) in *. set (cb := c_bottom s) in *. set (t := cf_t s) in *.
  rewrite EG. clear EG EW CTc CTc' CBc CBc' BW' BT' BB' ET EB LN S0 NZ.
  set (rw := e_rw e) in *. set (rt := e_rt e) in *. set (rb := e_rb e) in *.
  assert (W1 : (1 - rw) * bw <= hw) by (subst bw; lra). assert (W2 : 0 <= (1 - rw) * bw) by (subst bw; nra). assert (W3 : rw * bw <= bw) by (subst bw; nra).
  assert (W4 : rt * bt <= bt) by (subst bt; nra). assert (W5 : rb * bb <= bb) by (subst bb; nra).
  destruct (Rltb rw 1) eqn:L1; [|apply Rltb_false in L1; assert (rw = 1) by lra];
  (destruct (Rltb rt 1) eqn:L2; [|apply Rltb_false in L2; assert (rt = 1) by lra]);
  (destruct (Rltb rb 1) eqn:L3; [|apply Rltb_false in L3; assert (rb = 1) by lra]);
  nodes; unfold put_y, put_z; cbn [fst snd]; (eexists; split; [reflexivity|]); rewrite area_mk; cbn [repeat]; 
  (try replace rw with 1 by lra); (try replace rt with 1 by lra); (try replace rb with 1 by lra).
  all: idtac.
  all: steps; unfold one2; abz; rewrite <- AR; try subst bw; try subst bt; field.
Qed.

(** A C section with two lips. *)
Lemma lipped_lemma s e A bw bt bb blt blb : c_kind s = KC -> c_round s = true -> fits s -> ordered s -> 0 < c_ca s -> 0 < c_cb s -> factors e ->
  bp_w s = Some bw -> bp_flange s (c_a s) (c_ca s) = Some bt -> bp_flange s (c_b s) (c_cb s) = Some bb ->
  bp_lip s (c_ca s) = Some blt -> bp_lip s (c_cb s) = Some blb ->
  2 * half_corner s <= e_rw e * bw -> 2 * half_corner s <= e_rt e * bt -> 2 * half_corner s <= e_rb e * bb ->
  half_corner s <= e_rtl e * blt -> cf_area false s = Some A ->
  (exists q, new_prof (after s e bt bb blt blb) (Tone (cf_t s)) = Some q /\ area q = A + cf_t s * (2 * (1 - e_rbl e) * blb)) /\
  (exists p, eff_C s 1 e (after s e bt bb blt blb) = Some p /\
     area p = A + cf_t s * (2 * (1 - e_rbl e) * blb - (1 - e_rw e) * bw - (1 - e_xt e) * stiffener s (e_rt e) bt (c_ca s)
       - (1 - e_xb e) * (stiffener s (e_rb e) bb (c_cb s) + 2 * (1 - e_rbl e) * blb) - lost_top s (e_rt e) bt - lost_bottom s (e_rb e) bb)).
Proof.
  intros K RD F O PA PB (FT & FTL & FW & FB & FBL) BW BT BB BLT BLB HWc HTc HBc HLc AR.
  rewrite (area_exact_lemma s F), (ordered_run s F O) in AR. injection AR as AR.
  assert (BW' := BW). assert (BT' := BT). assert (BB' := BB).
  rewrite (bpw_val s RD) in BW. injection BW as BW. rewrite (bpf_c s _ _ RD PA) in BT. injection BT as BT. rewrite (bpf_c s _ _ RD PB) in BB. injection BB as BB.
  rewrite (bpl_c s _ RD PA) in BLT. injection BLT as BLT. rewrite (bpl_c s _ RD PB) in BLB. injection BLB as BLB.
  fold (c_top s) in BT. fold (c_bottom s) in BB.
  pose proof (flange_c s (c_a s) (c_ca s) PA) as CTc. pose proof (flange_c s (c_b s) (c_cb s) PB) as CBc.
  fold (bt_center s) (c_top s) in CTc. fold (bb_center s) (c_bottom s) in CBc.
  pose proof (len_bot s F) as LN. rewrite (ltb_t 0 (c_cb s)) in LN by lra.
  destruct (points_nonempty s) as [n LP].
  unfold lost_top, lost_bottom, stiffener.
  unfold eff_C, new_prof, after. rewrite BW', BT', BB'. cbn [bind]. unfold stiff_top, stiff_bot, i_top, i_web, i_bot. rewrite LN. cbv zeta.
  rewrite (points_named s F) in LP |- *. pose proof (web_c s) as EW. pose proof (gr_val s) as EG.
  destruct F as ((LA & LB) & Rm & HW & CT & CB & SA & SB). pose proof (half_range s Rm) as HR.
  destruct (lipc s (c_ca s) Rm PA SA) as [LAp ELA]. destruct (lipc s (c_cb s) Rm PB SB) as [LBp ELB].
  assert (ELA' : lip_center s (c_ca s) = straight_lip s (c_ca s) + cf_rm s) by lra. assert (ELB' : lip_center s (c_cb s) = straight_lip s (c_cb s) + cf_rm s) by lra.
  unfold bot_nodes, bot_arc, web_points, top_arc, top_nodes in *. cbv zeta in *. rewrite K in *. rewrite (ltb_t 0 (c_ca s)), (ltb_t 0 (c_cb s)) in * by lra.
  unfold ordered in O. rewrite (ltb_t 0 (c_ca s)) in O by lra. rewrite CTc, CBc, EW, ELA', ELB' in *. cbn [app length] in LP. clear LP.
  cbn [app]. unfold eff_web, eff_top, eff_bot, i_top, i_web, i_bot. rewrite LN. rewrite (ltb_t 0 (c_ca s)), (ltb_t 0 (c_cb s)) by lra. cbv zeta. rewrite web1, rad45. fold (half_corner s).
  assert (NZ : corners s = 4) by (unfold corners; rewrite (ltb_t 0 (c_ca s)), (ltb_t 0 (c_cb s)) by lra; ring). rewrite NZ in AR.
  replace chords with (4 * ch) in * by (unfold chords, ch; ring).
  set (hc := half_corner s) in *. set (rm := cf_rm s) in *. set (hw := cf_hw s) in *. set (ct := c_top s) in *. set (cb := c_bottom s) in *. set (t := cf_t s) in *.
  set (sa := straight_lip s (c_ca s)) in *. set (sb := straight_lip s (c_cb s)) in *.
  rewrite EG. clear EG EW CTc CBc BW' BT' BB' LN NZ ELA ELB ELA' ELB' LAp LBp.
  set (rw := e_rw e) in *. set (rt := e_rt e) in *. set (rb := e_rb e) in *. set (rtl := e_rtl e) in *. set (rbl := e_rbl e) in *. set (xt := e_xt e) in *. set (xb := e_xb e) in *.
  assert (W1 : (1 - rw) * bw <= hw) by (subst bw; lra). assert (W2 : 0 <= (1 - rw) * bw) by (subst bw; nra). assert (W3 : rw * bw <= bw) by (subst bw; nra).
  assert (W4 : rt * bt <= bt) by (subst bt; nra). assert (W5 : rb * bb <= bb) by (subst bb; nra). assert (W6 : rtl * blt <= blt) by (subst blt; nra).
  assert (W7 : 0 <= (1 - rbl) * blb) by (subst blb; nra).
  destruct (Rltb rtl 1) eqn:L4; [|apply Rltb_false in L4; assert (rtl = 1) by lra];
  (destruct (Rltb rbl 1) eqn:L5; [|apply Rltb_false in L5; assert (rbl = 1) by lra]); nodes; unfold put_y, put_z; cbn [fst snd]; cbn [length Nat.sub Nat.add setn]; cbn [fst snd].
  all: split; [eexists; split; [reflexivity|]; rewrite area_mk; cbn [repeat]; steps; unfold one2; abz; rewrite <- AR; (try replace rbl with 1 by lra); try subst blb; field|].
  all: (destruct (Rltb rw 1) eqn:L1; [|apply Rltb_false in L1; assert (rw = 1) by lra]);
    (destruct (Rltb rt 1) eqn:L2; [|apply Rltb_false in L2; assert (rt = 1) by lra]);
    (destruct (Rltb rb 1) eqn:L3; [|apply Rltb_false in L3; assert (rb = 1) by lra]);
    cbn [bind pn pst parr]; nodes; cbn [setn nth fst snd app length Nat.sub Nat.add firstn skipn map repeat]; unfold put_y, put_z; cbn [fst snd]; cbn [length Nat.sub Nat.add setn repeat firstn skipn map app]; cbn [fst snd];
    (eexists; split; [reflexivity|]); rewrite area_mk;
    (try replace rw with 1 by lra); (try replace rt with 1 by lra); (try replace rb with 1 by lra); (try replace rbl with 1 by lra);
    steps; unfold one2; abz; rewrite <- AR; try subst blb; try subst bw; try subst bt; try subst bb; field.
Qed.
