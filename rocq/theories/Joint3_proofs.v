From Coq Require Import Rpower.
From Verif Require Import Joint_model.
From Verif Require Import Sections_proofs Sections3_proofs Plate_proofs Loads2_proofs Joint_proofs Joint2_proofs.
From Verif Require Import Joint_model Joint_spec.

(* ------------------------------------------------------------- resistance of a row *)
Lemma row_resistance_lemma : forall fa j r F, row_resistance fa j r = Some F ->
  exists f pl cf i ep k wt, flange_stub fa j r = Some f /\ plate_stub j r = Some pl /\
    FT_Rd f = Some (cf, i) /\ FT_Rd pl = Some (ep, k) /\
    column_web_tension (j_col j) (if Nat.eqb i 0 then leff_1 f else leff_2 f) (j_beta j) = Some wt /\
    let bw := if loc_eqb (r_pl r) Outside then 100000000
              else s_tw (j_beam j) * s_fy (j_beam j) * (if Nat.eqb k 0 then leff_1 pl else leff_2 pl) in
    In F [cf; ep; wt; bw] /\ F <= cf /\ F <= ep /\ F <= wt /\ F <= bw.
Proof.
  intros fa j r F H. unfold row_resistance in H. apply bind_inv in H. destruct H as [l [H1 H2]].
  unfold row_components in H1. destruct (j_stiff j); [discriminate|].
  apply bind_inv in H1. destruct H1 as [f [A H1]].
  apply bind_inv in H1. destruct H1 as [[cf sf] [B H1]].
  apply bind_inv in H1. destruct H1 as [pl [C H1]].
  apply bind_inv in H1. destruct H1 as [[ep sp] [D H1]].
  apply bind_inv in H1. destruct H1 as [[lf s1] [E H1]].
  apply bind_inv in H1. destruct H1 as [wt [G H1]].
  apply bind_inv in H1. destruct H1 as [bw [K H1]]. injection H1 as <-.
  destruct (run_FT_get _ _ _ _ B) as [i [B1 B2]]. destruct (run_FT_get _ _ _ _ D) as [k [D1 D2]].
  rewrite B2 in E. injection E as <- <-.
  exists f, pl, cf, i, ep, k, wt. do 4 (split; [auto|]). split; auto. cbv zeta.
  assert (KB : (if loc_eqb (r_pl r) Outside then 100000000 else s_tw (j_beam j) * s_fy (j_beam j) * (if Nat.eqb k 0 then leff_1 pl else leff_2 pl)) = bw).
  { destruct (loc_eqb (r_pl r) Outside). injection K as <-. reflexivity. rewrite D2 in K. cbn [bind] in K. injection K as <-.
    unfold beam_web_tension, gammaM0. field. }
  rewrite KB. apply list_min_spec in H2. destruct H2 as [I1 I2]. split; auto.
  repeat split; apply I2; simpl; auto.
Qed.
Lemma row_bolts_lemma : forall fa j r F, row_resistance fa j r = Some F -> F <= INR (r_n r) * tension_resistance (r_bolt r) (9/10).
Proof.
  intros fa j r F H. destruct (row_resistance_lemma _ _ _ _ H) as [f [pl [cf [i [ep [k [wt [A [B [C [D [E G]]]]]]]]]]]].
  cbv zeta in G. destruct G as [_ [G _]].
  assert (X : ts_F3 f = row_F3 r).
  { unfold flange_stub in A. apply bind_inv in A. destruct A as [cp [_ A]]. apply bind_inv in A. destruct A as [nc [_ A]]. injection A as <-. reflexivity. }
  unfold FT_Rd in C. apply bind_inv in C. destruct C as [a [_ C]]. apply bind_inv in C. destruct C as [b [_ C]].
  injection C as C1 C2. fold (row_F3 r). rewrite <- X.
  unfold argmin3 in C1. destruct (Rleb a b) eqn:X1; cbn [andb] in C1; [apply Rleb_true in X1|apply Rleb_false in X1].
  - destruct (Rleb a (ts_F3 f)) eqn:X2; [apply Rleb_true in X2; lra|apply Rleb_false in X2].
    destruct (Rleb b (ts_F3 f)) eqn:X3; [apply Rleb_true in X3|apply Rleb_false in X3]; lra.
  - destruct (Rleb b (ts_F3 f)) eqn:X3; [apply Rleb_true in X3|apply Rleb_false in X3]; lra.
Qed.
Lemma row_stiffener_lemma : forall fa j r s, j_stiff j = Some s -> row_resistance fa j r = None.
Proof. intros. unfold row_resistance, row_components. rewrite H. reflexivity. Qed.

(* ------------------------------------------------------------- geometry of a row *)
Lemma row_geometry_lemma : forall j r v,
  emin_flange j = Rmin (j_ebolts j) (col_flange_e j) /\
  z_top j (set_z_top j v r) = v /\ set_z_top j (z_top j r) r = r /\
  ex j r + mx j r = j_etop j - 8/10 * sqrt 2 * j_wf j /\
  (r_pl r = Outside -> end_plate_m j r = mx j r) /\
  (forall z', lever j (mkRow (r_bolt r) (r_n r) z' (r_fl r) (r_pl r) (r_e1 r)) - lever j r = z' - r_z r).
Proof.
  intros j r v. split; [|split; [|split; [|split; [|split]]]].
  - unfold emin_flange, col_flange_e. destruct (Rltb (j_bp j) (s_b (j_col j))) eqn:E; [apply Rltb_true in E|apply Rltb_false in E];
    unfold Rmin; destruct Rle_dec; lra.
  - unfold z_top, set_z_top. cbn. ring.
  - unfold set_z_top, z_top. destruct r as [b n z f p e1]; cbn. f_equal. ring.
  - unfold ex, mx. ring.
  - intros E. unfold end_plate_m. rewrite E. reflexivity.
  - intros. unfold lever. cbn. ring.
Qed.

(* ------------------------------------------------------------- stiffness of a row *)
Lemma keff_sum : forall ks s, Forall (fun k => 0 < k) ks ->
  fold_left (fun a k => bind a (fun s => bind (pdiv 1 k) (fun q => Some (s + q)))) ks (Some s) = Some (s + Rsum (map Rinv ks)).
Proof.
  induction ks as [|k ks IH]; intros s H; cbn [fold_left map].
  - unfold Rsum; cbn. f_equal. ring.
  - inversion H; subst. cbn [bind]. rewrite pdiv_ok by lra. cbn [bind]. rewrite IH by auto. f_equal.
    rewrite Rsum_cons. unfold Rdiv. ring.
Qed.
Lemma inv_sum_pos : forall ks, Forall (fun k => 0 < k) ks -> 0 <= Rsum (map Rinv ks) /\ (ks <> [] -> 0 < Rsum (map Rinv ks)) /\
  forall k, In k ks -> / k <= Rsum (map Rinv ks).
Proof.
  induction ks as [|k ks IH]; intros H; cbn [map].
  - unfold Rsum; cbn. repeat split; try lra. congruence. intros k [].
  - inversion H; subst. destruct (IH H3) as [A [B C]]. rewrite Rsum_cons. pose proof (Rinv_0_lt_compat k H2).
    split; [lra|]. split; [intros; lra|]. intros k' [<-|I0]. lra. specialize (C k' I0). lra.
Qed.
Lemma keff_lemma : forall ks, ks <> [] -> Forall (fun k => 0 < k) ks -> exists ke, keff ks = Some ke /\ 0 < ke /\
  / ke = Rsum (map Rinv ks) /\ (forall k, In k ks -> ke <= k) /\
  forall ks', Forall2 Rle ks ks' -> exists ke', keff ks' = Some ke' /\ ke <= ke'.
Proof.
  intros ks NE H. destruct (inv_sum_pos ks H) as [A [B C]]. specialize (B NE).
  unfold keff. rewrite keff_sum by auto. cbn [bind]. rewrite Rplus_0_l, pdiv_ok by lra. eexists; split; [reflexivity|].
  assert (P : 0 < 1 / Rsum (map Rinv ks)) by (apply Rdiv_lt_0_compat; lra).
  split; auto. split. { unfold Rdiv. rewrite Rmult_1_l. apply Rinv_inv. }
  split.
  - intros k I0. specialize (C k I0). assert (0 < k) by (rewrite Forall_forall in H; auto).
    apply (proj2 (div_le_iff _ _ _ B)). assert (k * / k = 1) by (field; lra). nra.
  - intros ks' F2. assert (H' : Forall (fun k => 0 < k) ks' /\ ks' <> [] /\ Rsum (map Rinv ks') <= Rsum (map Rinv ks)).
    { clear -H NE F2. assert (G : Forall (fun k => 0 < k) ks' /\ Rsum (map Rinv ks') <= Rsum (map Rinv ks)).
      { clear NE. induction F2 as [|x y l l' Hxy F2 IH]. split; auto; lra. inversion H; subst. destruct (IH H3) as [G1 G2].
        split. constructor; auto; lra. cbn [map]. rewrite !Rsum_cons. assert (/ y <= / x) by (apply Rinv_le_contravar; lra). lra. }
      destruct G. repeat split; auto. intros ->. inversion F2; subst. congruence. }
    destruct H' as [H1 [H2 H3]]. destruct (inv_sum_pos ks' H1) as [_ [B' _]]. specialize (B' H2).
    rewrite keff_sum by auto. cbn [bind]. rewrite Rplus_0_l, pdiv_ok by lra. eexists; split; [reflexivity|].
    apply div_anti; lra.
Qed.
Lemma leff_groups_lemma : forall ls, let m := leff_groups ls in
  0 < m <= 100000 /\ (forall l, In l ls -> 0 < l -> m <= l) /\ (m = 100000 \/ In m ls).
Proof.
  intros ls. cbv zeta. unfold leff_groups.
  assert (G : forall ls a, 0 < a -> let m := fold_left (fun a l => if Rltb 0 l then Rmin a l else a) ls a in
    0 < m <= a /\ (forall l, In l ls -> 0 < l -> m <= l) /\ (m = a \/ In m ls)).
  { clear ls. induction ls as [|x ls IH]; intros a A; cbv zeta; cbn [fold_left].
    - repeat split; try lra; auto. intros l [].
    - destruct (Rltb 0 x) eqn:E; [apply Rltb_true in E|apply Rltb_false in E].
      + assert (P : 0 < Rmin a x) by (unfold Rmin; destruct Rle_dec; lra).
        destruct (IH _ P) as [[X1 X2] [X3 X4]]. cbv zeta in X1. pose proof (Rmin_l a x). pose proof (Rmin_r a x).
        split; [lra|]. split. intros l [<-|I0] L; [lra|auto].
        destruct X4 as [X4|X4]; [|auto with datatypes]. rewrite X4. unfold Rmin. destruct Rle_dec; auto. right. left. auto.
      + destruct (IH _ A) as [[X1 X2] [X3 X4]]. split; [lra|]. split. intros l [<-|I0] L; [lra|auto]. destruct X4; auto with datatypes. }
  apply G. lra.
Qed.

(* ------------------------------------------------------------- groups of rows *)
Lemma distances_cons2 : forall a b t, distances (a :: b :: t) = (a - b) :: distances (b :: t).
Proof. reflexivity. Qed.
Lemma last_default : forall (l : list R) x a b, last (x :: l) a = last (x :: l) b.
Proof. induction l as [|y l IH]; intros x a b; auto. change (last (y :: l) a = last (y :: l) b). apply IH. Qed.
Lemma distances_sum : forall zs z, Rsum (distances (z :: zs)) = z - last zs z.
Proof.
  induction zs as [|z' zs IH]; intros z. unfold Rsum; cbn; ring.
  rewrite distances_cons2, Rsum_cons, IH. replace (last (z' :: zs) z) with (last zs z'). ring.
  destruct zs as [|y zs]; auto. change (last (z' :: y :: zs) z) with (last (y :: zs) z). apply last_default.
Qed.
Lemma distances_len : forall zs z, length (distances (z :: zs)) = length zs.
Proof. induction zs as [|z' zs IH]; intros z; auto. rewrite distances_cons2. change (S (length (distances (z' :: zs))) = S (length zs)). rewrite IH. reflexivity. Qed.

Lemma group_len_ps : forall upd len rows i ps s, group_leff upd len i rows = Some (ps, s) -> length ps = length rows.
Proof.
  induction rows as [|[l old] rows IH]; intros i ps s H; cbn [group_leff] in H.
  - injection H as <- <-. reflexivity.
  - apply bind_inv in H. destruct H as [p [_ H]]. apply bind_inv in H. destruct H as [x [_ H]].
    apply bind_inv in H. destruct H as [[ps' s'] [E H]]. injection H as <- <-. simpl. f_equal. eauto.
Qed.
(* after leff_nc the plate distances are the fresh ones, and leff_cp keeps them *)
Lemma plate_cp_keeps : forall ps len ls olds i ps' s, (forall l, In l ls -> plate_loc l \/ l = Outside) -> length olds = length ls ->
  group_leff (plate_p_cp ps) len i (with_p ls olds) = Some (ps', s) -> ps' = olds.
Proof.
  induction ls as [|l ls IH]; intros olds i ps' s HL HN H; destruct olds as [|o olds]; try discriminate HN; cbn [with_p combine group_leff] in H.
  - injection H as <- <-. reflexivity.
  - apply bind_inv in H. destruct H as [p [A H]]. apply bind_inv in H. destruct H as [x [_ H]].
    apply bind_inv in H. destruct H as [[ps1 s1] [E H]]. injection H as <- <-.
    f_equal.
    + destruct (HL l (or_introl eq_refl)) as [[->|[->| ->]]| ->]; cbn in A; congruence.
    + eapply IH; [|simpl in HN; lia|exact E]. intros l' I0; apply HL; right; auto.
Qed.
Lemma plate_fresh_lemma : forall zs nc cp ls olds1 olds2 p1 p2 s1 s2 p1' s1',
  (forall l, In l ls -> plate_loc l) -> length olds1 = length ls -> length olds2 = length ls ->
  let ps := distances zs in
  group_leff (plate_p ps) nc 0 (with_p ls olds1) = Some (p1, s1) ->
  group_leff (plate_p ps) nc 0 (with_p ls olds2) = Some (p2, s2) ->
  group_leff (plate_p_cp ps) cp 0 (with_p ls p1) = Some (p1', s1') ->
  p1 = p2 /\ s1 = s2 /\ p1' = p1.
Proof.
  intros zs nc cp ls olds1 olds2 p1 p2 s1 s2 p1' s1' HL H1 H2 ps A B C.
  assert (G : forall ls i olds1 olds2 p1 p2 s1 s2, (forall l, In l ls -> plate_loc l) -> length olds1 = length ls -> length olds2 = length ls ->
    group_leff (plate_p ps) nc i (with_p ls olds1) = Some (p1, s1) -> group_leff (plate_p ps) nc i (with_p ls olds2) = Some (p2, s2) -> p1 = p2 /\ s1 = s2).
  { clear. induction ls as [|l ls IH]; intros i o1 o2 p1 p2 s1 s2 HL H1 H2 A B; destruct o1 as [|a o1], o2 as [|b o2]; try discriminate H1; try discriminate H2;
    cbn [with_p combine group_leff] in A, B.
    - injection A as <- <-. injection B as <- <-. auto.
    - assert (X : plate_p ps i l a = plate_p ps i l b). { destruct (HL l (or_introl eq_refl)) as [->|[->| ->]]; reflexivity. }
      rewrite X in A. apply bind_inv in A. destruct A as [p [A1 A]]. rewrite A1 in B. cbn [bind] in B.
      apply bind_inv in A. destruct A as [x [A2 A]]. rewrite A2 in B. cbn [bind] in B.
      apply bind_inv in A. destruct A as [[q1 t1] [A3 A]]. apply bind_inv in B. destruct B as [[q2 t2] [B3 B]].
      injection A as <- <-. injection B as <- <-.
      destruct (IH (S i) o1 o2 q1 q2 t1 t2) as [-> ->]; auto. intros l' I0; apply HL; right; auto. }
  destruct (G ls 0%nat olds1 olds2 p1 p2 s1 s2) as [-> ->]; auto. split; auto. split; auto.
  eapply plate_cp_keeps; [| |exact C]. intros l I0; left; auto.
  erewrite group_len_ps by exact B. unfold with_p. rewrite combine_length. lia.
Qed.
(* before leff_nc, leff_cp depends on what was left *)
Lemma joint_plate_stale_lemma : exists zs ls cp o1 o2 q1 q2 s1 s2, (forall l, In l ls -> plate_loc l) /\ length o1 = length ls /\ length o2 = length ls /\
  cp = (fun (_ : nat) l p => plate_cp_group 30 p l) /\
  group_leff (plate_p_cp (distances zs)) cp 0 (with_p ls o1) = Some (q1, s1) /\
  group_leff (plate_p_cp (distances zs)) cp 0 (with_p ls o2) = Some (q2, s2) /\ s1 <> s2.
Proof.
  exists [100; 0], [FirstBelow; OtherEnd], (fun (_ : nat) l p => plate_cp_group 30 p l), [0; 0], [100; 100]. do 4 eexists.
  split. { intros l [<-|[<-|[]]]; unfold plate_loc; auto. } split; [reflexivity|]. split; [reflexivity|]. split; [reflexivity|].
  split; [reflexivity|]. split; [reflexivity|]. lra.
Qed.

(* a flange group end - inner ... - end *)
Lemma at_nth : forall l i x, nth_error l i = Some x -> at_ l (Z.of_nat i) = Some x.
Proof. intros l i x H. unfold at_. replace (Z.ltb (Z.of_nat i) 0) with false by (symmetry; apply Z.ltb_ge; lia). rewrite Nat2Z.id. auto. Qed.
Lemma at_nth1 : forall l i x, nth_error l i = Some x -> at_ l (Z.of_nat (S i) - 1) = Some x.
Proof. intros. replace (Z.of_nat (S i) - 1)%Z with (Z.of_nat i) by lia. apply at_nth; auto. Qed.
Lemma eqp : forall (p q : list R) (x y : R), p = q -> x = y -> Some (p, x) = Some (q, y).
Proof. intros; subst; auto. Qed.
Lemma chain_tail : forall m e fa m2 ps k i olds (q : R), nth_error ps i = Some q -> (i + k + 1 = length ps)%nat -> length olds = S k ->
  exists ps', group_leff (flange_p ps) (fun _ l p => flange_nc_group fa e m p None m2 l) (S i) (with_p (repeat Inner k ++ [End_]) olds) =
    Some (ps', 2 * m + 625/1000 * e + Rsum (skipn i ps) - 5/10 * q) /\
  exists ps'', group_leff (flange_p ps) (fun _ l p => flange_cp_group m p None l) (S i) (with_p (repeat Inner k ++ [End_]) olds) =
    Some (ps'', PI * m + 2 * Rsum (skipn i ps) - q).
Proof.
  induction k as [|k IH]; intros i olds q H L O.
  - destruct olds as [|o [|]]; try discriminate O. cbn [repeat app with_p combine group_leff].
    assert (SK : skipn i ps = [q]).
    { clear -H L. revert ps H L. induction i; intros [|x ps] H L; cbn in *; try discriminate.
      injection H as ->. destruct ps; [auto|simpl in L; lia]. apply IHi; auto; lia. }
    rewrite SK. unfold Rsum. cbn [fold_right]. cbn [flange_p Nat.eqb]. rewrite (at_nth1 ps i q H). cbn [bind flange_nc_group flange_cp_group option_map min_inf].
    eexists; split; [apply eqp; [reflexivity|lra]|]. eexists. apply eqp; [reflexivity|lra].
  - destruct olds as [|o olds]; try discriminate O.
    assert (NX : exists q', nth_error ps (S i) = Some q').
    { destruct (nth_error ps (S i)) eqn:E; eauto. apply nth_error_None in E. lia. }
    destruct NX as [q' NX].
    destruct (IH (S i) olds q' NX ltac:(lia) ltac:(simpl in O; lia)) as [ps1 [E1 [ps2 E2]]].
    cbn [repeat app with_p combine group_leff].
    assert (SK : Rsum (skipn i ps) = q + Rsum (skipn (S i) ps)).
    { clear -H. revert ps H. induction i; intros [|x ps] H; cbn [nth_error] in H; try discriminate.
      injection H as ->. cbn [skipn]. rewrite Rsum_cons. reflexivity. cbn [skipn]. apply IHi in H. rewrite H. reflexivity. }
    cbn [flange_p]. rewrite (at_nth1 ps i q H). cbn [bind]. rewrite (at_nth ps (S i) q' NX). cbn [bind].
    unfold flange_nc_group at 1. unfold flange_cp_group at 1. cbn [bind].
    unfold with_p in E1, E2. rewrite E1, E2. cbn [bind]. eexists; split; [apply eqp; [reflexivity|lra]|]. eexists. apply eqp; [reflexivity|lra].
Qed.
Lemma group_chain_lemma : forall m e fa m2 k zs z olds, length zs = S k -> length olds = S (S k) ->
  exists p1 p2, group_leff (flange_p (distances (z :: zs))) (fun _ l p => flange_nc_group fa e m p None m2 l) 0 (with_p (chain k) olds) =
      Some (p1, 4 * m + 125/100 * e + (z - last zs z)) /\
    group_leff (flange_p (distances (z :: zs))) (fun _ l p => flange_cp_group m p None l) 0 (with_p (chain k) olds) =
      Some (p2, 2 * PI * m + 2 * (z - last zs z)).
Proof.
  intros m e fa m2 k zs z olds HZ HO. rewrite <- distances_sum.
  pose proof (distances_len zs z) as DL. set (ps := distances (z :: zs)) in *.
  destruct ps as [|q ps'] eqn:EP. simpl in DL; lia.
  destruct olds as [|o olds]; [discriminate|].
  destruct (chain_tail m e fa m2 (q :: ps') k 0 olds q eq_refl ltac:(simpl in *; lia) ltac:(simpl in HO; lia)) as [p1 [E1 [p2 E2]]].
  unfold chain. cbn [with_p combine group_leff]. cbn [flange_p Nat.eqb].
  rewrite (at_nth (q :: ps') 0 q eq_refl). cbn [bind]. unfold flange_nc_group at 1. unfold flange_cp_group at 1. cbn [option_map min_inf bind].
  unfold with_p in E1, E2. rewrite E1, E2. cbn [bind]. cbn [skipn].
  eexists _, _; split; (apply eqp; [reflexivity|lra]).
Qed.
Lemma min_ext_lemma : forall l, (min_ext l = None <-> forall x, In x l -> x = None) /\
  (forall v, min_ext l = Some v -> In (Some v) l /\ forall u, In (Some u) l -> v <= u).
Proof.
  intros l. unfold min_ext.
  assert (G : forall l a, let r := fold_left (fun a x => match a, x with None, y => y | Some u, None => Some u | Some u, Some v => Some (if Rltb v u then v else u) end) l a in
    (r = None <-> a = None /\ forall x, In x l -> x = None) /\
    (forall v, r = Some v -> (a = Some v \/ In (Some v) l) /\ (forall u, a = Some u -> v <= u) /\ forall u, In (Some u) l -> v <= u)).
  { clear. induction l as [|x l IH]; intros a; cbv zeta; cbn [fold_left].
    - split. { split; [intros ->; split; auto; intros x []|tauto]. }
      intros v ->. repeat split; auto. intros u [= ->]. lra. intros u [].
    - match goal with |- context [fold_left _ l ?a0] => destruct (IH a0) as [P Q] end. cbv zeta in P, Q. split.
      + rewrite P. split.
        * intros [A B]. destruct a as [u|], x as [w|]; try discriminate. split; auto. intros y [<-|I0]; auto.
        * intros [A B]. subst a. split. rewrite (B x); auto with datatypes. intros; apply B; auto with datatypes.
      + intros v E. destruct (Q v E) as [A [B C]]. split; [|split].
        * destruct A as [A|A]; [|auto with datatypes]. destruct a as [u|], x as [w|]; try discriminate; auto with datatypes.
          injection A as A. destruct (Rltb w u); subst; auto with datatypes.
          right; left; auto.
        * intros u ->. destruct x as [w|]; [|auto]. specialize (B _ eq_refl). destruct (Rltb w u) eqn:X; [apply Rltb_true in X|apply Rltb_false in X]; lra.
        * intros u [->|I0]; auto. destruct a as [w|]; [|auto]. specialize (B _ eq_refl). destruct (Rltb u w) eqn:X; [apply Rltb_true in X|apply Rltb_false in X]; lra. }
  destruct (G l None) as [P Q]. cbv zeta in P, Q. split. { rewrite P. split; [tauto|auto]. }
  intros v E. destruct (Q v E) as [[A|A] [B C]]; [discriminate|]. auto.
Qed.
Lemma group_resistance_lemma : forall fl pl cf wt ep bw l, group_components fl pl cf wt ep bw = Some l ->
  (pl <> Outside -> exists a b, ep = Some a /\ bw = Some b /\ In (Some a) l /\ In (Some b) l) /\
  (fl <> EndAdjacent -> (fl = Adjacent -> pl <> Outside) -> exists a b, cf = Some a /\ wt = Some b /\ In (Some a) l /\ In (Some b) l) /\
  (pl = Outside -> (fl = EndAdjacent \/ fl = Adjacent) -> min_ext l = None) /\
  (forall v, In (Some v) l -> In (Some v) [cf; wt; ep; bw]).
Proof.
  intros fl pl cf wt ep bw l H. unfold group_components in H.
  apply bind_inv in H. destruct H as [[c0 c2] [A H]]. apply bind_inv in H. destruct H as [[c1 c3] [B H]]. injection H as <-.
  split; [|split; [|split]].
  - intros N. assert (X : loc_eqb pl Outside = false) by (destruct pl; auto; congruence). rewrite X in B.
    apply bind_inv in B. destruct B as [a [B1 B]]. apply bind_inv in B. destruct B as [b [B2 B]]. injection B as <- <-.
    exists a, b. repeat split; auto; simpl; auto.
  - intros N1 N2. assert (X : orb (loc_eqb fl EndAdjacent) (andb (loc_eqb fl Adjacent) (loc_eqb pl Outside)) = false).
    { destruct fl; auto; try congruence. destruct pl; auto. exfalso; apply N2; auto. }
    rewrite X in A. apply bind_inv in A. destruct A as [a [A1 A]]. apply bind_inv in A. destruct A as [b [A2 A]]. injection A as <- <-.
    exists a, b. repeat split; auto; simpl; auto.
  - intros -> [-> | ->]; cbn in A, B; injection A as <- <-; injection B as <- <-; reflexivity.
  - intros v I0.
    assert (XA : (c0 = None \/ c0 = cf) /\ (c2 = None \/ c2 = wt)).
    { destruct (orb _ _); [injection A as <- <-; auto|]. apply bind_inv in A. destruct A as [a [A1 A]]. apply bind_inv in A. destruct A as [b [A2 A]]. injection A as <- <-. auto. }
    assert (XB : (c1 = None \/ c1 = ep) /\ (c3 = None \/ c3 = bw)).
    { destruct (loc_eqb pl Outside); [injection B as <- <-; auto|]. apply bind_inv in B. destruct B as [a [B1 B]]. apply bind_inv in B. destruct B as [b [B2 B]]. injection B as <- <-. auto. }
    simpl in *. destruct XA as [[->| ->] [->| ->]], XB as [[->| ->] [->| ->]]; intuition congruence.
Qed.
Lemma group_bolts_lemma : forall t, stub_ok t -> forall F, resistance t = Some F -> F <= ts_F3 t.
Proof. intros t H F R. rewrite (resistance_form t H) in R. apply some_inj in R. subst F. unfold Rmin; repeat destruct Rle_dec; lra. Qed.
Lemma group_F3_lemma : forall rs, group_F3 rs = Rsum (map (fun r => INR (r_n r) * tension_resistance (r_bolt r) (9/10)) rs).
Proof.
  intros rs. unfold group_F3. assert (G : forall rs s, fold_left (fun s r => s + row_F3 r) rs s = s + Rsum (map (fun r => INR (r_n r) * tension_resistance (r_bolt r) (9/10)) rs)).
  { clear. induction rs as [|r rs IH]; intros s; cbn [fold_left map]. unfold Rsum; cbn; ring. rewrite IH, Rsum_cons. unfold row_F3. ring. }
  rewrite G. ring.
Qed.
