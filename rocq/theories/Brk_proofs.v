Require Import Reals List Bool Lra Lia Psatz PeanoNat ZArith.
Import ListNotations.
From Verif Require Import Base EC3_model Bool_tac EC3_proofs Plate_proofs Sections_proofs Joint_spec Joint3_proofs.
From Verif Require Import Brk_model Brk_spec.
Local Open Scope R_scope.

Lemma at_nat ps i : at_ ps (Z.of_nat i) = nth_error ps i.
Proof. unfold at_. rewrite (proj2 (Z.ltb_ge (Z.of_nat i) 0)) by lia. now rewrite Nat2Z.id. Qed.
Lemma at_pred ps i : at_ ps (Z.of_nat (S i) - 1) = nth_error ps i.
Proof. rewrite <- at_nat. f_equal. lia. Qed.
Lemma smallest2 a b : smallest (Rmin a b) [a; b].
Proof. split. unfold Rmin; destruct Rle_dec; simpl; auto. intros y [<-|[<-|[]]]. apply Rmin_l. apply Rmin_r. Qed.
Lemma smallest_app x y l1 l2 : smallest x l1 -> smallest y l2 -> smallest (Rmin x y) (l1 ++ l2).
Proof.
  intros [A1 A2] [B1 B2]. split. unfold Rmin; destruct Rle_dec; apply in_or_app; auto.
  pose proof (Rmin_l x y). pose proof (Rmin_r x y). intros z I. apply in_app_or in I. destruct I as [I|I]. specialize (A2 z I). lra. specialize (B2 z I). lra.
Qed.
Lemma smallest1 x : smallest x [x].
Proof. split. simpl; auto. intros y [<-|[]]. lra. Qed.
Lemma smallest_eq x l l' : smallest x l -> l = l' -> smallest x l'.
Proof. now intros ? <-. Qed.

Ltac leq := match goal with |- _ :: _ = _ :: _ => apply f_equal2; [try reflexivity; field|leq] | |- _ => reflexivity end.
Ltac some H := match type of H with bind ?a _ = Some _ => let E := fresh "E" in destruct a as [?|] eqn:E; [cbn [bind] in H|discriminate H] end.
Lemma flange_len_group fa j r g p p' x : (g_fl g = End_ \/ g_fl g = Inner) -> indexed g -> flange_len fa j r g p = Some (p', x) -> in_group j r g x.
Proof.
  intros L IX E. unfold flange_len in E. destruct L as [L|L]; rewrite L in E; cbn [flange_p_row flange_cp_group flange_nc_group] in E.
  - some E. cbn [bind] in E. inversion E; subst. exists p', true. split; auto. split.
    + destruct (g_i g) as [|i] eqn:I. rewrite Nat.eqb_refl, at_nat in E0. now constructor. change (Nat.eqb (S i) 0) with false in E0. cbn iota in E0. rewrite at_pred in E0. now constructor.
    + cbn [flange_length]. destruct (r_e1 r) as [e1|]; cbn [min_inf option_map].
      * eapply smallest_eq. apply smallest_app; apply smallest2. simpl. leq.
      * eapply smallest_eq. apply smallest2. leq.
  - some E. cbn [bind] in E. inversion E; subst. assert (0 < g_i g)%nat as I by (apply IX; auto). destruct (g_i g) as [|i] eqn:I0. lia. some E0. some E0. inversion E0; subst.
    rewrite at_pred in E1. rewrite at_nat in E2. exists ((r0 + r1) / 2), false. split; auto. split. rewrite ?I0. now constructor. cbn [flange_length]. eapply smallest_eq.
    replace (5/10 * (r0 + r1)) with ((r0 + r1) / 2) by field. apply smallest2. reflexivity.
Qed.
Lemma plate_len_group j r g p p' x : (g_pl g = Outside \/ g_pl g = FirstBelow \/ g_pl g = OtherEnd \/ g_pl g = OtherInner) -> indexed g -> plate_len j r g p = Some (p', x) -> in_group_plate j r g x.
Proof.
  intros L IX E. unfold plate_len in E. unfold in_group_plate. destruct L as [L|[L|[L|L]]]; rewrite L in E; cbn [plate_p plate_cp_group plate_nc_group] in E.
  - cbn [bind] in E. inversion E; subst. left. split; auto. apply Rmin_l.
  - some E. cbn [bind] in E. destruct (Reqb (end_plate_m j r + j_ebolts j) 0). discriminate. some E. destruct (new_alpha (j_ebolts j) (end_plate_m j r) (end_plate_m2 j r)) as [a|] eqn:A; [|discriminate]. cbn [bind] in E1. inversion E1; subst. inversion E; subst.
    right. left. exists p', a. rewrite at_nat in E0. split; auto. split; auto. split; auto. eapply smallest_eq. apply smallest2. leq.
  - some E. cbn [bind] in E. inversion E; subst. right. right. left. exists p'. split; auto. split.
    + destruct (g_i g) as [|i] eqn:I. rewrite Nat.eqb_refl, at_nat in E0. now constructor. change (Nat.eqb (S i) 0) with false in E0. cbn iota in E0. rewrite at_pred in E0. now constructor.
    + eapply smallest_eq. apply smallest2. leq.
  - some E. cbn [bind] in E. inversion E; subst. assert (0 < g_i g)%nat as I by (apply IX; auto). destruct (g_i g) as [|i] eqn:I0. lia. some E0. some E0. inversion E0; subst.
    rewrite at_pred in E1. rewrite at_nat in E2. right. right. right. exists ((r0 + r1) / 2). split; auto. split. rewrite ?I0. now constructor. eapply smallest_eq.
    replace (5/10 * (r0 + r1)) with ((r0 + r1) / 2) by field. apply smallest2. reflexivity.
Qed.
Lemma smallest_shorter l leff x t : smallest l (shorter leff x :: t) -> smallest l (leff :: (if Rltb 0 x then [x] else []) ++ t).
Proof.
  unfold shorter. destruct (Rltb 0 x); auto. intros [A B]. pose proof (Rmin_l leff x). pose proof (Rmin_r leff x). pose proof (B _ (or_introl eq_refl)). split.
  - destruct A as [<-|A]. unfold Rmin. destruct Rle_dec; simpl; auto. simpl; auto.
  - simpl. intros y [<-|[<-|I]]; try lra. apply B. simpl; auto.
Qed.
Lemma flange_groups_small fa j r gs : forall p leff p' l, Forall (fun g => g_fl g = End_ \/ g_fl g = Inner) gs -> Forall indexed gs -> flange_groups fa j r gs p leff = Some (p', l) ->
  exists ls, Forall2 (in_group j r) gs ls /\ smallest l (leff :: filter (Rltb 0) ls).
Proof.
  induction gs as [|g t IH]; intros p leff p' l F I E; cbn [flange_groups] in E.
  - inversion E; subst. exists []. split; auto. apply smallest1.
  - inversion F; subst. inversion I; subst. destruct (flange_len fa j r g p) as [[p1 x]|] eqn:G; [|discriminate]. cbn [bind] in E. apply flange_len_group in G; auto.
    destruct (IH _ _ _ _ H2 H4 E) as (ls&A&B). exists (x :: ls). split; auto. apply smallest_shorter in B. simpl. destruct (Rltb 0 x); auto.
Qed.
Lemma plate_groups_small j r gs : forall p leff p' l, Forall (fun g => g_pl g = Outside \/ g_pl g = FirstBelow \/ g_pl g = OtherEnd \/ g_pl g = OtherInner) gs -> Forall indexed gs -> plate_groups j r gs p leff = Some (p', l) ->
  exists ls, Forall2 (in_group_plate j r) (filter g_plate gs) ls /\ smallest l (leff :: filter (Rltb 0) ls).
Proof.
  induction gs as [|g t IH]; intros p leff p' l F I E; cbn [plate_groups filter] in *.
  - inversion E; subst. exists []. split; auto. apply smallest1.
  - inversion F; subst. inversion I; subst. destruct (g_plate g).
    + destruct (plate_len j r g p) as [[p1 x]|] eqn:G; [|discriminate]. cbn [bind] in E. apply plate_len_group in G; auto.
      destruct (IH _ _ _ _ H2 H4 E) as (ls&A&B). exists (x :: ls). split; auto. apply smallest_shorter in B. simpl. destruct (Rltb 0 x); auto.
    + replace (shorter leff leff) with leff in E. eauto. unfold shorter. destruct (Rltb 0 leff); auto. unfold Rmin; destruct Rle_dec; auto.
Qed.
Lemma small3 cp nc l L t : smallest l (L :: t) -> smallest (Rmin (Rmin cp nc) l) (L :: cp :: nc :: t).
Proof.
  intros A. pose proof (smallest_app _ _ _ _ (smallest2 cp nc) A) as [X Y]. split. simpl in *. tauto. intros y I. apply Y. simpl in *. tauto.
Qed.
Lemma plain_split gs : Forall plain gs -> Forall (fun g => g_fl g = End_ \/ g_fl g = Inner) gs /\ Forall (fun g => g_pl g = Outside \/ g_pl g = FirstBelow \/ g_pl g = OtherEnd \/ g_pl g = OtherInner) gs.
Proof. induction 1; split; constructor; try tauto; destruct H; auto. Qed.
Lemma flange_k_lemma : forall fa j r gs p, 0 < s_hw (j_col j) -> 0 < col_flange_m j -> Forall plain gs -> Forall indexed gs ->
  forall p' k3, row_k3 fa j r gs p = Some (p', k3) -> forall p'' k4, row_k4 fa j r gs p' = Some (p'', k4) ->
  exists l l' cp nc ls, flange_cp (col_flange_m j) (r_e1 r) (r_fl r) = Some cp /\ flange_nc fa (col_flange_e j) (col_flange_m j) (r_e1 r) (stiff_m2 j r) (r_fl r) = Some nc /\
    Forall2 (in_group j r) gs ls /\ smallest l (100000 :: cp :: nc :: filter (Rltb 0) ls) /\ k3 = 7/10 * l * s_tw (j_col j) / s_hw (j_col j) /\
    (exists ls', Forall2 (in_group j r) gs ls' /\ smallest l' (100000 :: cp :: nc :: filter (Rltb 0) ls')) /\ k4 = 9/10 * l' * s_tf (j_col j) ^ 3 / col_flange_m j ^ 3.
Proof.
  intros fa j r gs p H M P IX p' k3 E3 p'' k4 E4. destruct (plain_split gs P) as [PF _]. unfold row_k3, row_k4, flange_beff in *.
  destruct (flange_cp (col_flange_m j) (r_e1 r) (r_fl r)) as [cp|]; [|discriminate]. destruct (flange_nc fa (col_flange_e j) (col_flange_m j) (r_e1 r) (stiff_m2 j r) (r_fl r)) as [nc|]; [|discriminate]. cbn [bind] in *.
  destruct (flange_groups fa j r gs p 100000) as [[a l]|] eqn:G3; [|discriminate]. cbn [bind] in E3. unfold web_tension_k in E3. rewrite pdiv_ok in E3 by lra. cbn [bind] in E3. inversion E3; subst.
  destruct (flange_groups fa j r gs p' 100000) as [[a' l']|] eqn:G4; [|discriminate]. cbn [bind] in E4. unfold flange_bending_k in E4. rewrite pdiv_ok in E4 by (pose proof (pow_lt _ 3 M); lra). cbn [bind] in E4. inversion E4; subst.
  destruct (flange_groups_small _ _ _ _ _ _ _ _ PF IX G3) as (ls&A&B). destruct (flange_groups_small _ _ _ _ _ _ _ _ PF IX G4) as (ls'&A'&B').
  exists (Rmin (Rmin cp nc) l), (Rmin (Rmin cp nc) l'), cp, nc, ls. split; auto. split; auto. split; auto. split. now apply small3. split; auto. split; auto. exists ls'. split; auto. now apply small3.
Qed.
Lemma plate_k_lemma : forall j r gs p p' k5, 0 < end_plate_m j r -> Forall plain gs -> Forall indexed gs -> row_k5 j r gs p = Some (p', k5) ->
  exists l cp nc ls, plate_cp (end_plate_m j r) (j_ebolts j) (j_p j) (r_pl r) = Some cp /\
    plate_nc (end_plate_m j r) (end_plate_m2 j r) (j_ebolts j) (emin_plate j r) (j_p j) (j_bp j) (r_pl r) = Some nc /\
    Forall2 (in_group_plate j r) (filter g_plate gs) ls /\ smallest l (100000 :: cp :: nc :: filter (Rltb 0) ls) /\ k5 = 9/10 * l * j_tp j ^ 3 / end_plate_m j r ^ 3.
Proof.
  intros j r gs p p' k5 M P IX E. destruct (plain_split gs P) as [_ PP]. unfold row_k5, plate_beff in E.
  destruct (plate_cp (end_plate_m j r) (j_ebolts j) (j_p j) (r_pl r)) as [cp|]; [|discriminate]. destruct (plate_nc (end_plate_m j r) (end_plate_m2 j r) (j_ebolts j) (emin_plate j r) (j_p j) (j_bp j) (r_pl r)) as [nc|]; [|discriminate]. cbn [bind] in *.
  destruct (plate_groups j r gs p 100000) as [[a l]|] eqn:G; [|discriminate]. cbn [bind] in E. unfold flange_bending_k in E. rewrite pdiv_ok in E by (pose proof (pow_lt _ 3 M); lra). cbn [bind] in E. inversion E; subst.
  destruct (plate_groups_small _ _ _ _ _ _ _ PP IX G) as (ls&A&B). exists (Rmin (Rmin cp nc) l), cp, nc, ls. split; auto. split; auto. split; auto. split; auto. now apply small3.
Qed.

(* ------------------------------------------------ no dependence on earlier calls *)
Lemma flange_len_fresh fa j r g p q : g_fl g = End_ \/ g_fl g = Inner -> flange_len fa j r g p = flange_len fa j r g q.
Proof. unfold flange_len. intros [->| ->]; reflexivity. Qed.
Lemma flange_groups_fresh fa j r gs : Forall (fun g => g_fl g = End_ \/ g_fl g = Inner) gs -> forall p q leff, option_map snd (flange_groups fa j r gs p leff) = option_map snd (flange_groups fa j r gs q leff).
Proof.
  induction 1; intros p q leff; cbn [flange_groups]; auto. rewrite (flange_len_fresh fa j r x p q) by auto. destruct (flange_len fa j r x q) as [[a b]|]; auto.
Qed.
Lemma shorter_skip leff x : x <= 0 -> shorter leff x = leff.
Proof. intros. unfold shorter. now rewrite (proj2 (Rltb_false 0 x)). Qed.
Lemma plate_groups_fresh j r gs : Forall (fun g => g_pl g = Outside \/ g_pl g = FirstBelow \/ g_pl g = OtherEnd \/ g_pl g = OtherInner) gs -> forall p q leff, option_map snd (plate_groups j r gs p leff) = option_map snd (plate_groups j r gs q leff).
Proof.
  induction 1 as [|x t L H IH]; intros p q leff; cbn [plate_groups]; auto. destruct (g_plate x); auto. destruct L as [L|L].
  - unfold plate_len. rewrite L. cbn [plate_p bind plate_cp_group plate_nc_group]. rewrite !shorter_skip by apply Rmin_l. auto.
  - assert (E : plate_len j r x p = plate_len j r x q) by (unfold plate_len; destruct L as [->|[->| ->]]; reflexivity). rewrite E. destruct (plate_len j r x q) as [[a b]|]; auto.
Qed.
Lemma flange_beff_fresh fa j r gs : Forall plain gs -> forall p q, option_map snd (flange_beff fa j r gs p) = option_map snd (flange_beff fa j r gs q).
Proof.
  intros P p q. apply plain_split in P. unfold flange_beff. destruct (flange_cp _ _ _); auto. destruct (flange_nc _ _ _ _ _ _); auto. cbn [bind]. pose proof (flange_groups_fresh fa j r gs (proj1 P) p q 100000) as E.
  destruct (flange_groups fa j r gs p 100000) as [[a b]|]; destruct (flange_groups fa j r gs q 100000) as [[c d]|]; simpl in E; try discriminate; auto. inversion E; subst. reflexivity.
Qed.
Lemma plate_beff_fresh j r gs : Forall plain gs -> forall p q, option_map snd (plate_beff j r gs p) = option_map snd (plate_beff j r gs q).
Proof.
  intros P p q. apply plain_split in P. unfold plate_beff. destruct (plate_cp _ _ _ _); auto. destruct (plate_nc _ _ _ _ _ _ _); auto. cbn [bind]. pose proof (plate_groups_fresh j r gs (proj2 P) p q 100000) as E.
  destruct (plate_groups j r gs p 100000) as [[a b]|]; destruct (plate_groups j r gs q 100000) as [[c d]|]; simpl in E; try discriminate; auto. inversion E; subst. reflexivity.
Qed.
(** The effective stiffness from the two effective lengths. *)
Lemma row_keff_beff fa j r gs pf pp : Forall plain gs -> row_keff fa j r gs pf pp =
  bind (option_map snd (flange_beff fa j r gs pf)) (fun l => bind (web_tension_k (j_col j) l) (fun a => bind (flange_bending_k (s_tf (j_col j)) l (col_flange_m j)) (fun b =>
  bind (option_map snd (plate_beff j r gs pp)) (fun l' => bind (flange_bending_k (j_tp j) l' (end_plate_m j r)) (fun c =>
  bind (bolt_row_k (t_As (b_data (r_bolt r))) (Lb j (r_bolt r))) (fun d => keff [a; b; c; d])))))).
Proof.
  intros P. unfold row_keff, row_k3, row_k4, row_k5. destruct (flange_beff fa j r gs pf) as [[p1 l]|] eqn:E; auto. cbn [bind option_map snd]. destruct (web_tension_k (j_col j) l) as [a|]; auto. cbn [bind].
  pose proof (flange_beff_fresh fa j r gs P p1 pf) as Q. rewrite E in Q. destruct (flange_beff fa j r gs p1) as [[p2 l2]|]; [|discriminate]. simpl in Q. inversion Q; subst. cbn [bind].
  destruct (flange_bending_k (s_tf (j_col j)) l (col_flange_m j)); auto. cbn [bind]. destruct (plate_beff j r gs pp) as [[p3 l3]|]; auto. cbn [bind option_map snd]. destruct (flange_bending_k (j_tp j) l3 (end_plate_m j r)); auto.
Qed.
Lemma keff_history_lemma : forall fa j r gs pf pp qf qp, Forall plain gs -> row_keff fa j r gs pf pp = row_keff fa j r gs qf qp.
Proof.
  intros. rewrite !row_keff_beff by auto. now rewrite (flange_beff_fresh fa j r gs H pf qf), (plate_beff_fresh j r gs H pp qp).
Qed.

(* ------------------------------------------------ further groups *)
Lemma shorter_le leff x : shorter leff x <= leff.
Proof. unfold shorter. destruct (Rltb 0 x). apply Rmin_l. lra. Qed.
Lemma shorter_pos leff x : 0 < leff -> 0 < shorter leff x.
Proof. unfold shorter. intros. destruct (Rltb 0 x) eqn:E; auto. apply Rltb_true in E. apply Rmin_glb_lt; auto. Qed.
Lemma flange_groups_pos fa j r gs : forall p leff p' l, 0 < leff -> flange_groups fa j r gs p leff = Some (p', l) -> 0 < l <= leff.
Proof.
  induction gs as [|g t IH]; intros p leff p' l P E; cbn [flange_groups] in E. inversion E; subst; lra. destruct (flange_len fa j r g p) as [[a x]|]; [|discriminate]. cbn [bind] in E.
  pose proof (shorter_le leff x). apply IH in E. lra. now apply shorter_pos.
Qed.
Lemma plate_groups_pos j r gs : forall p leff p' l, 0 < leff -> plate_groups j r gs p leff = Some (p', l) -> 0 < l <= leff.
Proof.
  induction gs as [|g t IH]; intros p leff p' l P E; cbn [plate_groups] in E. inversion E; subst; lra. destruct (g_plate g).
  - destruct (plate_len j r g p) as [[a x]|]; [|discriminate]. cbn [bind] in E. pose proof (shorter_le leff x). apply IH in E. lra. now apply shorter_pos.
  - pose proof (shorter_le leff leff). apply IH in E. lra. now apply shorter_pos.
Qed.
Lemma flange_groups_app fa j r gs h : forall p leff, flange_groups fa j r (gs ++ h) p leff = bind (flange_groups fa j r gs p leff) (fun '(p', l) => flange_groups fa j r h p' l).
Proof. induction gs as [|g t IH]; intros p leff; cbn [flange_groups app]; auto. destruct (flange_len fa j r g p) as [[a x]|]; auto. cbn [bind]. apply IH. Qed.
Lemma plate_groups_app j r gs h : forall p leff, plate_groups j r (gs ++ h) p leff = bind (plate_groups j r gs p leff) (fun '(p', l) => plate_groups j r h p' l).
Proof. induction gs as [|g t IH]; intros p leff; cbn [plate_groups app]; auto. destruct (g_plate g); auto. destruct (plate_len j r g p) as [[a x]|]; auto. cbn [bind]. apply IH. Qed.
Lemma keff_groups_lemma : forall fa j r gs h pf pp k, row_ok fa j r -> Forall plain (gs ++ h) -> row_keff fa j r (gs ++ h) pf pp = Some k ->
  exists k0, row_keff fa j r gs pf pp = Some k0 /\ 0 < k <= k0 /\ k0 <= 16/10 * t_As (b_data (r_bolt r)) / Lb j (r_bolt r).
Proof.
  intros fa j r gs h pf pp k (T1&T2&T3&T4&T5&T6&T7&T8&F1&F2&P1&P2) P E. rewrite row_keff_beff in E by auto. apply Forall_app in P. rewrite row_keff_beff by tauto.
  unfold flange_beff, plate_beff in *. rewrite flange_groups_app, plate_groups_app in E.
  destruct (flange_cp _ _ _) as [cp|]; [|discriminate]. destruct (flange_nc _ _ _ _ _ _) as [nc|]; [|discriminate]. specialize (F1 _ eq_refl). specialize (F2 _ eq_refl). cbn [bind] in *.
  destruct (flange_groups fa j r gs pf 100000) as [[a l]|] eqn:G; [|discriminate]. cbn [bind] in *. destruct (flange_groups fa j r h a l) as [[a' l']|] eqn:G'; [|discriminate]. cbn [bind option_map snd] in *.
  apply flange_groups_pos in G; [|lra]. apply flange_groups_pos in G'; [|lra].
  destruct (plate_cp _ _ _ _) as [cp2|]; [|unfold web_tension_k, flange_bending_k in E; destruct (pdiv _ _); [destruct (pdiv _ _)|]; discriminate].
  destruct (plate_nc _ _ _ _ _ _ _) as [nc2|]; [|unfold web_tension_k, flange_bending_k in E; destruct (pdiv _ _); [destruct (pdiv _ _)|]; discriminate]. specialize (P1 _ eq_refl). specialize (P2 _ eq_refl). cbn [bind] in *.
  destruct (plate_groups j r gs pp 100000) as [[b m]|] eqn:H; [|unfold web_tension_k, flange_bending_k in E; destruct (pdiv _ _); [destruct (pdiv _ _)|]; discriminate]. cbn [bind] in *.
  destruct (plate_groups j r h b m) as [[b' m']|] eqn:H'; [|unfold web_tension_k, flange_bending_k in E; destruct (pdiv _ _); [destruct (pdiv _ _)|]; discriminate]. cbn [bind option_map snd] in *.
  apply plate_groups_pos in H; [|lra]. apply plate_groups_pos in H'; [|lra].
  unfold web_tension_k, flange_bending_k, bolt_row_k in *. pose proof (pow_lt _ 3 T5) as U1. pose proof (pow_lt _ 3 T6) as U2. pose proof (pow_lt _ 3 T3) as U3. pose proof (pow_lt _ 3 T4) as U4.
  rewrite !pdiv_ok in * by lra. cbn [bind] in *.
  assert (A1 : 0 < Rmin (Rmin cp nc) l') by (repeat apply Rmin_glb_lt; lra). assert (A2 : Rmin (Rmin cp nc) l' <= Rmin (Rmin cp nc) l) by (apply Rle_min_compat_l; lra).
  assert (B1 : 0 < Rmin (Rmin cp2 nc2) m') by (repeat apply Rmin_glb_lt; lra). assert (B2 : Rmin (Rmin cp2 nc2) m' <= Rmin (Rmin cp2 nc2) m) by (apply Rle_min_compat_l; lra).
  set (x := Rmin (Rmin cp nc) l) in *. set (x' := Rmin (Rmin cp nc) l') in *. set (y := Rmin (Rmin cp2 nc2) m) in *. set (y' := Rmin (Rmin cp2 nc2) m') in *. clearbody x x' y y'.
  match type of E with keff ?ks = _ => destruct (keff_lemma ks) as (ke&K1&K2&K3&K4&K5); [discriminate| |] end.
  { repeat (apply Forall_cons; [apply Rdiv_lt_0_compat; auto; repeat apply Rmult_lt_0_compat; auto; lra|]). constructor. }
  assert (ke = k) by congruence. subst ke. match goal with |- exists k0, keff ?ks = _ /\ _ => destruct (K5 ks) as (k0&K6&K7) end.
  { repeat (apply Forall2_cons; [|]); try apply Forall2_nil; try (apply Rle_refl); apply div_le; auto; nra. }
  exists k0. split; auto. split; auto.
  match type of K6 with keff ?ks = _ => destruct (keff_lemma ks) as (ke&L1&L2&L3&L4&L5); [discriminate| |] end.
  { repeat (apply Forall_cons; [apply Rdiv_lt_0_compat; auto; repeat apply Rmult_lt_0_compat; auto; lra|]). constructor. }
  assert (ke = k0) by congruence. subst ke. apply L4. simpl. tauto.
Qed.

(* ------------------------------------------------ row next to a stiffener *)
Lemma keff_adjacent_lemma : forall fa j r g a cp nc p q, g_fl g = Adjacent -> 0 < col_flange_m j -> 0 < s_tf (j_col j) ->
  flange_cp (col_flange_m j) (r_e1 r) (r_fl r) = Some cp -> flange_nc fa (col_flange_e j) (col_flange_m j) (r_e1 r) (stiff_m2 j r) (r_fl r) = Some nc ->
  stiff_alpha fa (col_flange_e j) (col_flange_m j) (stiff_m2 j r) = Some a ->
  let len x := x / 2 + a * col_flange_m j - (2 * col_flange_m j + 625/1000 * col_flange_e j) in
  0 < len p < len q -> len q <= PI * col_flange_m j + p -> len q <= cp -> len q <= nc -> len q <= 100000 ->
  exists p' q' k k', row_k4 fa j r [g] p = Some (p', k) /\ row_k4 fa j r [g] q = Some (q', k') /\ k < k'.
Proof.
  intros fa j r g a cp nc p q A M T C N SA len L C1 C2 C3 C4. unfold row_k4, flange_beff. rewrite C, N. cbn [bind flange_groups]. unfold flange_len. rewrite A. cbn [flange_p_row bind flange_cp_group flange_nc_group]. rewrite SA. cbn [bind].
  pose proof (pow_lt _ 3 M) as U1. pose proof (pow_lt _ 3 T) as U2.
  assert (X : forall x, 0 < len x -> len x <= PI * col_flange_m j + x -> len x <= cp -> len x <= nc -> len x <= 100000 ->
    Rmin (Rmin cp nc) (shorter 100000 (Rmin (PI * col_flange_m j + x) (5/10 * x + a * col_flange_m j - (2 * col_flange_m j + 625/1000 * col_flange_e j)))) = len x).
  { intros x X0 X1 X2 X3 X4. replace (5/10 * x + a * col_flange_m j - (2 * col_flange_m j + 625/1000 * col_flange_e j)) with (len x) by (unfold len; field).
    rewrite (Rmin_right (PI * col_flange_m j + x)) by lra. unfold shorter. rewrite (proj2 (Rltb_true 0 (len x)) X0). rewrite (Rmin_right 100000) by lra. rewrite Rmin_right; auto. apply Rmin_glb; lra. }
  assert (p < q) by (unfold len in L; lra). rewrite (X p), (X q) by lra. clear X. unfold flange_bending_k. rewrite !pdiv_ok by lra. cbn [bind]. do 4 eexists. split; [reflexivity|]. split; [reflexivity|].
  unfold Rdiv. apply Rmult_lt_compat_r. now apply Rinv_0_lt_compat. apply Rmult_lt_compat_r; auto. lra.
Qed.
Lemma keff_defined_lemma : forall fa j r gs pf pp, row_ok fa j r -> Forall plain gs ->
  flange_beff fa j r gs pf <> None -> plate_beff j r gs pp <> None -> exists k, row_keff fa j r gs pf pp = Some k /\ 0 < k.
Proof.
  intros fa j r gs pf pp (T1&T2&T3&T4&T5&T6&T7&T8&F1&F2&P1&P2) P A B. rewrite row_keff_beff by auto. unfold flange_beff, plate_beff in *.
  destruct (flange_cp _ _ _) as [cp|]; [|easy]. destruct (flange_nc _ _ _ _ _ _) as [nc|]; [|easy]. specialize (F1 _ eq_refl). specialize (F2 _ eq_refl). cbn [bind] in *.
  destruct (flange_groups fa j r gs pf 100000) as [[a l]|] eqn:G; [|easy]. cbn [bind option_map snd] in *. apply flange_groups_pos in G; [|lra].
  destruct (plate_cp _ _ _ _) as [cp2|]; [|easy]. destruct (plate_nc _ _ _ _ _ _ _) as [nc2|]; [|easy]. specialize (P1 _ eq_refl). specialize (P2 _ eq_refl). cbn [bind] in *.
  destruct (plate_groups j r gs pp 100000) as [[b m]|] eqn:H; [|easy]. cbn [bind option_map snd] in *. apply plate_groups_pos in H; [|lra].
  unfold web_tension_k, flange_bending_k, bolt_row_k in *. pose proof (pow_lt _ 3 T5) as U1. pose proof (pow_lt _ 3 T6) as U2. pose proof (pow_lt _ 3 T3) as U3. pose proof (pow_lt _ 3 T4) as U4.
  rewrite !pdiv_ok in * by lra. cbn [bind] in *.
  assert (A1 : 0 < Rmin (Rmin cp nc) l) by (repeat apply Rmin_glb_lt; lra). assert (B1 : 0 < Rmin (Rmin cp2 nc2) m) by (repeat apply Rmin_glb_lt; lra).
  match goal with |- exists k, keff ?ks = _ /\ _ => destruct (keff_lemma ks) as (ke&K1&K2&_); [discriminate| |] end.
  { repeat (apply Forall_cons; [apply Rdiv_lt_0_compat; auto; repeat apply Rmult_lt_0_compat; auto; lra|]). constructor. }
  exists ke. auto.
Qed.
