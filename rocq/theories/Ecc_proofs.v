(** Proofs on the minimisation of eccentricities. *)
Require Import Reals List Bool Lra Lia Psatz PeanoNat.
Import ListNotations.
From Verif Require Import Base EC3_model Bool_tac EC3_proofs Plate_proofs Tjt_proofs Tjt_spec Tjt2_proofs.
From Verif Require Import Rhs_model Tjt_model Ecc_model Ecc_spec.
Local Open Scope R_scope.

Lemma gap_con_lemma : forall b0 beta t1 t2 mg g, gap_ub b0 beta t1 t2 mg g <= 0 /\ gap_lb b0 beta t1 t2 mg g <= 0 <->
  1/2 * b0 * (1 - beta) <= g <= 3/2 * b0 * (1 - beta) /\ t1 + t2 <= g /\ mg <= g.
Proof.
  intros. unfold gap_ub, gap_lb, gap_limits. cbn [fst snd]. set (a := 1/2 * b0 * (1 - beta)).
  pose proof (Rmax_l (Rmax a mg) (t1 + t2)). pose proof (Rmax_r (Rmax a mg) (t1 + t2)). pose proof (Rmax_l a mg). pose proof (Rmax_r a mg).
  split.
  - intros. repeat split; lra.
  - intros ((A&B)&C&D). split; [lra|]. assert (Rmax (Rmax a mg) (t1 + t2) <= g) by (repeat apply Rmax_lub; auto). lra.
Qed.
Lemma gap_possible_lemma : forall b0 beta t1 t2 mg, 0 < b0 -> beta <= 1 ->
  (exists g, gap_ub b0 beta t1 t2 mg g <= 0 /\ gap_lb b0 beta t1 t2 mg g <= 0) <-> t1 + t2 <= 3/2 * b0 * (1 - beta) /\ mg <= 3/2 * b0 * (1 - beta).
Proof.
  intros b0 beta t1 t2 mg B H. split.
  - intros (g&G). apply gap_con_lemma in G. lra.
  - intros (G1&G2). exists (3/2 * b0 * (1 - beta)). apply gap_con_lemma. split; [|lra]. split; [|lra]. nra.
Qed.
Lemma gap_real_lemma : forall j h0 h1 h2 ang b1 b2 b0 beta t1 t2 mg, unit_vec (j_v j) -> unit_vec b1 -> unit_vec b2 -> j_ridge j = false ->
  j_xp j = local_point j (j_x j) (j_y j) -> 0 < h1 -> 0 < h2 -> 0 <= mg ->
  let p := perp (j_top j) (j_v j) in let v := j_v j in let a1 := brace_angle v b1 in let a2 := brace_angle v b2 in
  vdot b1 p <> 0 -> vdot b2 p <> 0 -> (vdot b1 v / vdot b1 p) * (vdot b2 v / vdot b2 p) <= 0 ->
  gap_lb b0 beta t1 t2 mg (calc_gap (j_y j) h0 h1 h2 a1 a2) <= 0 ->
  exists x1 c1 x2 c2, face_point j h0 ang b1 = Some (x1, c1) /\ face_point j h0 ang b2 = Some (x2, c2) /\
  let real := pdist x1 x2 - 1/2 * (h1 / sin (rad a1) + h2 / sin (rad a2)) in mg <= real /\ t1 + t2 <= real /\ 1/2 * b0 * (1 - beta) <= real.
Proof.
  intros j h0 h1 h2 ang b1 b2 b0 beta t1 t2 mg U U1 U2 Hr Hx P1 P2 Hm p v a1 a2 N1 N2 Q G.
  set (g := calc_gap (j_y j) h0 h1 h2 a1 a2) in *.
  assert (L : 1/2 * b0 * (1 - beta) <= g /\ mg <= g /\ t1 + t2 <= g).
  { unfold gap_lb, gap_limits in G. cbn [fst] in G. set (a := 1/2 * b0 * (1 - beta)) in *.
    pose proof (Rmax_l (Rmax a mg) (t1 + t2)). pose proof (Rmax_r (Rmax a mg) (t1 + t2)). pose proof (Rmax_l a mg). pose proof (Rmax_r a mg). repeat split; lra. }
  assert (Y : 0 <= j_y j + 1/2 * h0).
  { destruct (brace_angle_lemma v b1 U U1) as (A1&C1&S1). destruct (brace_angle_lemma v b2 U U2) as (A2&C2&S2). fold a1 in A1, C1, S1. fold a2 in A2, C2, S2.
    destruct (angle_parts (j_top j) v b1 U U1) as (_&T1). destruct (angle_parts (j_top j) v b2 U U2) as (_&T2). fold a1 p in T1. fold a2 p in T2.
    assert (0 < sin (rad a1)) by (rewrite T1; apply Rabs_pos_lt; auto). assert (0 < sin (rad a2)) by (rewrite T2; apply Rabs_pos_lt; auto).
    assert (K : 0 <= sin (rad (a1 + a2))). { apply sin_ge_0. rewrite <- rad_0. apply (proj1 (rad_le _ _)); lra. replace PI with (rad 180) by (unfold rad; field). apply (proj1 (rad_le _ _)); lra. }
    assert (E : g = (j_y j + 1/2 * h0) * (sin (rad (a1 + a2)) / (sin (rad a1) * sin (rad a2))) - 1/2 * (h1 / sin (rad a1) + h2 / sin (rad a2))). { unfold g, calc_gap. cbv zeta. field. split; lra. }
    assert (0 < h1 / sin (rad a1)) by (apply Rdiv_lt_0_compat; auto). assert (0 < h2 / sin (rad a2)) by (apply Rdiv_lt_0_compat; auto).
    assert (0 <= sin (rad (a1 + a2)) / (sin (rad a1) * sin (rad a2))) by (apply Rmult_le_pos; auto; left; apply Rinv_0_lt_compat; apply Rmult_lt_0_compat; auto).
    destruct (Rle_dec 0 (j_y j + 1/2 * h0)); auto. exfalso. nra. }
  destruct (tube_gap_lemma j h0 h1 h2 ang b1 b2 U U1 U2 Hr Hx Y N1 N2) as (x1&c1&x2&c2&F1&F2&E&_).
  exists x1, c1, x2, c2. split; auto. split; auto. cbv zeta. specialize (E Q). fold v a1 a2 in E. fold g in E. rewrite <- E. lra.
Qed.

(** Variables. *)
Lemma ecc_vars_lemma : forall span js v, In v (ecc_vars span js) <-> exists j, In j js /\ e_x j <= span / 2 /\ v_joint v = e_id j /\
  ((v = mkEv (e_id j) false (- (55/100) * e_h0 j) (e_h0 j / 4) (e_h0 j / 10) /\ e_kind j <> OtherJ) \/ (v = mkEv (e_id j) true (-200) 200 0 /\ e_kind j = KGapJ)).
Proof.
  intros. assert (Q : forall j, y_var j = mkEv (e_id j) false (- (55/100) * e_h0 j) (e_h0 j / 4) (e_h0 j / 10)) by (intro; unfold y_var; f_equal; field).
  unfold ecc_vars. rewrite in_flat_map. split.
  - intros (j&I&H). exists j. unfold joint_vars in H. destruct (Rleb (e_x j) (1/2 * span)) eqn:E; [|destruct H]. apply Rleb_true in E. split; auto. split; [lra|].
    destruct (e_kind j) eqn:K; cbn [In] in H.
    + destruct H as [<-|[]]. split; auto. left. rewrite Q. split; auto. congruence.
    + destruct H as [<-|[<-|[]]]; split; auto. left. rewrite Q. split; auto. congruence.
    + destruct H.
  - intros (j&I&X&J&H). exists j. split; auto. unfold joint_vars. rewrite (proj2 (Rleb_true _ _)) by lra.
    destruct H as [(->&K)|(->&K)].
    + rewrite <- Q. destruct (e_kind j); cbn [In]; auto; congruence.
    + rewrite K. right; left; reflexivity.
Qed.
Lemma ecc_start_lemma : forall span js v, (forall j, In j js -> 0 <= e_h0 j) -> In v (ecc_vars span js) -> v_lb v <= v_val v <= v_ub v.
Proof.
  intros span js v H I. apply ecc_vars_lemma in I. destruct I as (j&I&_&_&[(->&_)|(->&_)]); cbn [v_lb v_val v_ub]; [specialize (H j I)|]; lra.
Qed.
Lemma ecc_keys_lemma : forall span js, NoDup (map e_id js) -> NoDup (map (fun v => (v_joint v, v_isx v)) (ecc_vars span js)).
Proof.
  induction js as [|j js]; intros H. constructor. inversion H; subst. cbn [ecc_vars flat_map]. fold (ecc_vars span js). rewrite map_app.
  assert (N : forall b, ~ In (e_id j, b) (map (fun v => (v_joint v, v_isx v)) (ecc_vars span js))).
  { intros b I. apply in_map_iff in I. destruct I as (v&E&I). injection E as E1 E2. apply ecc_vars_lemma in I. destruct I as (k&I&_&K&_). apply H2. rewrite <- E1, K. apply in_map; auto. }
  specialize (IHjs H3). unfold joint_vars. destruct (Rleb _ _); auto. destruct (e_kind j); cbn [map app y_var x_var v_joint v_isx]; auto.
  - constructor; auto.
  - constructor; [|constructor; auto]. intros [E|I]; [discriminate|]. eapply N; eauto.
Qed.

(** Objective. *)
Lemma ecc_taylor_lemma : forall vs xs hs, length xs = length vs -> length hs = length vs ->
  ecc_obj vs (addl xs hs) = ecc_obj vs xs + dotl (ecc_grad vs xs) hs + ecc_obj vs hs /\ length (ecc_grad vs xs) = length vs.
Proof.
  induction vs as [|v vs]; intros [|x xs] [|h hs] L1 L2; try discriminate.
  - unfold ecc_obj. cbn. split; [lra|auto].
  - destruct (IHvs xs hs) as (A&B); auto. unfold ecc_obj, ecc_grad in *. cbn [addl combine map fold_right dotl fst snd length]. split; [|f_equal; auto].
    destruct (v_isx v); nra.
Qed.
Lemma ecc_zero_lemma : forall vs xs, 0 <= ecc_obj vs xs /\ (ecc_obj vs xs = 0 <-> forall v t, In (v, t) (combine vs xs) -> v_isx v = false -> t = 0).
Proof.
  intros vs xs. unfold ecc_obj. induction (combine vs xs) as [|(v, t) l (A&B)]; cbn [map fold_right fst snd].
  - split; [lra|]. split; [intros _ v t []|intros; lra].
  - set (s := fold_right Rplus 0 _) in *. assert (S : 0 <= s) by lra. destruct (v_isx v) eqn:E.
    + split; [lra|]. split.
      * intros Z w u [Q|I] K. congruence. apply (proj1 B ltac:(lra) w u I K).
      * intro HH. assert (1/100 * s = 0) by (apply B; intros; eapply HH; eauto; right; eauto). lra.
    + assert (0 <= t ^ 2) by (apply pow2_ge_0). split; [lra|]. split.
      * intros Z w u [Q|I] K. injection Q as <- <-. assert (t ^ 2 = 0) by lra. nra. apply (proj1 B ltac:(lra) w u I K).
      * intro HH. assert (1/100 * s = 0) by (apply B; intros; eapply HH; eauto; right; eauto). rewrite (HH v t (or_introl eq_refl) E). lra.
Qed.

(** Vertical braces. *)
Definition vkey (vt : evar * R) : nat * bool := (v_joint (fst vt), v_isx (fst vt)).
Lemma combine_keys : forall vs xs, NoDup (map (fun v => (v_joint v, v_isx v)) vs) -> NoDup (map vkey (combine vs xs)).
Proof.
  induction vs as [|v vs]; intros [|x xs] H; try constructor; inversion H; subst; cbn [combine map].
  - intro I. apply H2. apply in_map_iff in I. destruct I as ((w, t)&E&I). apply in_map_iff. exists w. split; [exact E|]. eapply in_combine_l; eauto.
  - apply IHvs; auto.
Qed.
Definition pick (p : nat) (b : bool) (vt : evar * R) : R := if Nat.eqb (v_joint (fst vt)) p && Bool.eqb (v_isx (fst vt)) b then snd vt else 0.
Lemma pick_none : forall p b l, ~ In (p, b) (map vkey l) -> fold_right Rplus 0 (map (pick p b) l) = 0.
Proof.
  induction l as [|vt l]; intro H; cbn [map fold_right]; auto. rewrite IHl by (intro; apply H; right; auto). unfold pick.
  destruct (Nat.eqb_spec (v_joint (fst vt)) p); cbn [andb]; [|lra]. destruct (Bool.eqb (v_isx (fst vt)) b) eqn:E; [|lra]. apply Bool.eqb_prop in E. exfalso. apply H. left. unfold vkey. congruence.
Qed.
Lemma pick_one : forall p b l v t, NoDup (map vkey l) -> In (v, t) l -> v_joint v = p -> v_isx v = b -> fold_right Rplus 0 (map (pick p b) l) = t.
Proof.
  induction l as [|vt l]; intros v t H I J B; [destruct I|]. inversion H; subst. cbn [map fold_right]. destruct I as [->|I].
  - rewrite pick_none by auto. unfold pick. cbn [fst snd]. rewrite Nat.eqb_refl, Bool.eqb_reflx. cbn [andb]. lra.
  - rewrite (IHl v t) by auto. unfold pick. destruct (Nat.eqb_spec (v_joint (fst vt)) (v_joint v)); cbn [andb]; [|lra].
    destruct (Bool.eqb (v_isx (fst vt)) (v_isx v)) eqn:E; [|lra]. apply Bool.eqb_prop in E. exfalso. apply H2. apply in_map_iff. exists (v, t). split; auto. unfold vkey; cbn [fst]. congruence.
Qed.
Lemma vert_sum : forall nd js n0 n1 p q l, nd p = n0 -> nd q = n1 -> n0 <> n1 -> (forall i k, nd i = nd k -> i = k) ->
  fold_right Rplus 0 (map (fun vt : evar * R => vert_coef nd js n0 n1 (fst vt) * snd vt) l) =
  fst (j_v (js p)) * fold_right Rplus 0 (map (pick p true) l) + fst (perp (j_top (js p)) (j_v (js p))) * fold_right Rplus 0 (map (pick p false) l)
  - (fst (j_v (js q)) * fold_right Rplus 0 (map (pick q true) l) + fst (perp (j_top (js q)) (j_v (js q))) * fold_right Rplus 0 (map (pick q false) l)).
Proof.
  intros nd js n0 n1 p q l P Q N J. induction l as [|vt l]; cbn [map fold_right]. lra. rewrite IHl. clear IHl.
  set (s1 := fold_right Rplus 0 (map (pick p true) l)). set (s2 := fold_right Rplus 0 (map (pick p false) l)). set (s3 := fold_right Rplus 0 (map (pick q true) l)). set (s4 := fold_right Rplus 0 (map (pick q false) l)).
  unfold vert_coef, pick. cbv zeta.
  destruct (Nat.eqb_spec (nd (v_joint (fst vt))) n0) as [A|A].
  - assert (v_joint (fst vt) = p) by (apply J; congruence). rewrite H, Nat.eqb_refl. destruct (Nat.eqb_spec p q); [subst; congruence|]. destruct (v_isx (fst vt)); cbn [andb Bool.eqb]; ring.
  - destruct (Nat.eqb_spec (v_joint (fst vt)) p); [subst; congruence|]. destruct (Nat.eqb_spec (nd (v_joint (fst vt))) n1) as [B|B].
    + assert (v_joint (fst vt) = q) by (apply J; congruence). rewrite H, Nat.eqb_refl. destruct (v_isx (fst vt)); cbn [andb Bool.eqb]; ring.
    + destruct (Nat.eqb_spec (v_joint (fst vt)) q); [subst; congruence|]. cbn [andb]. ring.
Qed.
Definition to_set (vt : evar * R) : jset := if v_isx (fst vt) then SetX (v_joint (fst vt)) (snd vt) else SetY (v_joint (fst vt)) (snd vt).
Lemma set_other : forall sym js vt p, sym (v_joint (fst vt)) <> Some p ->
  (vkey vt <> (p, true) -> j_x (assign sym js (to_set vt) p) = j_x (js p)) /\ (vkey vt <> (p, false) -> j_y (assign sym js (to_set vt) p) = j_y (js p)).
Proof.
  intros sym js (v, t) p H. unfold to_set, vkey in *. cbn [fst snd] in *. destruct (v_isx v); cbn [assign].
  - destruct (Nat.eqb_spec p (v_joint v)). subst p. split; [congruence|reflexivity].
    destruct (sym (v_joint v)) as [q|]; auto. destruct (Nat.eqb_spec p q); [congruence|auto].
  - destruct (Nat.eqb_spec p (v_joint v)). subst p. split; [|congruence]. intros _. unfold own_y. destruct (j_ridge (js (v_joint v))); reflexivity.
    destruct (sym (v_joint v)) as [q|]. destruct (Nat.eqb_spec p q); [congruence|]. rewrite andb_false_r; auto. rewrite andb_false_r; auto.
Qed.
Lemma set_self : forall sym js v t, (v_isx v = true -> j_x (assign sym js (to_set (v, t)) (v_joint v)) = t) /\ (v_isx v = false -> j_y (assign sym js (to_set (v, t)) (v_joint v)) = t).
Proof.
  intros. unfold to_set. cbn [fst snd]. split; intro E; rewrite E; cbn [assign]; rewrite Nat.eqb_refl. reflexivity. unfold own_y. destruct (j_ridge _); reflexivity.
Qed.
Lemma set_list : forall l sym js p, NoDup (map vkey l) -> (forall vt, In vt l -> sym (v_joint (fst vt)) <> Some p) ->
  (~ In (p, true) (map vkey l) -> j_x (assigns sym js (map to_set l) p) = j_x (js p)) /\
  (~ In (p, false) (map vkey l) -> j_y (assigns sym js (map to_set l) p) = j_y (js p)) /\
  (forall v t, In (v, t) l -> v_joint v = p -> v_isx v = true -> j_x (assigns sym js (map to_set l) p) = t) /\
  (forall v t, In (v, t) l -> v_joint v = p -> v_isx v = false -> j_y (assigns sym js (map to_set l) p) = t).
Proof.
  induction l as [|a l]; intros sym js p ND S. repeat split; auto; intros v t [].
  inversion ND; subst. unfold assigns in *. cbn [map fold_left].
  destruct (IHl sym (assign sym js (to_set a)) p H2 ltac:(intros; apply S; right; auto)) as (A&B&C&D).
  destruct (set_other sym js a p (S a (or_introl eq_refl))) as (X&Y).
  split; [|split; [|split]].
  - intro N. rewrite A by (intro; apply N; right; auto). apply X. intro E. apply N. left; auto.
  - intro N. rewrite B by (intro; apply N; right; auto). apply Y. intro E. apply N. left; auto.
  - intros v t [E|I] J K; [|eapply C; eauto]. subst a. rewrite A. rewrite <- J. apply set_self; auto. intro I. apply H1. unfold vkey at 1. cbn [fst]. rewrite J, K. auto.
  - intros v t [E|I] J K; [|eapply D; eauto]. subst a. rewrite B. rewrite <- J. apply set_self; auto. intro I. apply H1. unfold vkey at 1. cbn [fst]. rewrite J, K. auto.
Qed.
Lemma substituted_lemma : forall sym js vs xs p x y, NoDup (map (fun v => (v_joint v, v_isx v)) vs) -> (forall v, In v vs -> sym (v_joint v) <> Some p) ->
  (forall k, j_ridge (js k) = false -> j_xp (js k) = local_point (js k) (j_x (js k)) (j_y (js k))) ->
  given vs xs p x y -> j_ridge (js p) = false -> j_xp (substituted sym js vs xs p) = local_point (js p) x y.
Proof.
  intros sym js vs xs p x y ND S P ((v&Iv&Jv&Kv)&(w&Iw&Jw&Kw)) Rr. unfold substituted. fold to_set.
  destruct (set_list (combine vs xs) sym js p) as (_&_&C&D). apply combine_keys; auto. intros (u, t) I. apply S. eapply in_combine_l; eauto.
  pose proof (assigns_placed_lemma (map to_set (combine vs xs)) sym js P p Rr) as E. cbv zeta in E. change (fun vt : evar * R => if v_isx (fst vt) then SetX (v_joint (fst vt)) (snd vt) else SetY (v_joint (fst vt)) (snd vt)) with to_set.
  rewrite E, (C v x Iv Jv Kv), (D w y Iw Jw Kw).
  destruct (assigns_frame_lemma (map to_set (combine vs xs)) sym js p) as (F1&F2&F3&_). unfold local_point. rewrite F1, F2, F3. reflexivity.
Qed.
Lemma vertical_lemma : forall sym nd js vs xs p q n0 n1 xp yp xq yq, NoDup (map (fun v => (v_joint v, v_isx v)) vs) ->
  (forall v, In v vs -> sym (v_joint v) <> Some p /\ sym (v_joint v) <> Some q) ->
  (forall k, j_ridge (js k) = false -> j_xp (js k) = local_point (js k) (j_x (js k)) (j_y (js k))) ->
  (forall i k, nd i = nd k -> i = k) -> nd p = n0 -> nd q = n1 -> n0 <> n1 -> j_ridge (js p) = false -> j_ridge (js q) = false ->
  given vs xs p xp yp -> given vs xs q xq yq -> fst (j_node (js p)) = fst (j_node (js q)) ->
  (vert_con nd js n0 n1 vs xs = 0 <-> fst (j_xp (substituted sym js vs xs p)) = fst (j_xp (substituted sym js vs xs q))).
Proof.
  intros sym nd js vs xs p q n0 n1 xp yp xq yq ND S P J Np Nq N Rp Rq Gp Gq X.
  rewrite (substituted_lemma sym js vs xs p xp yp), (substituted_lemma sym js vs xs q xq yq); auto; try (intros v I; apply S; auto).
  unfold vert_con. rewrite (vert_sum nd js n0 n1 p q) by auto. pose proof (combine_keys vs xs ND) as K.
  destruct Gp as ((v1&I1&J1&K1)&(v2&I2&J2&K2)). destruct Gq as ((v3&I3&J3&K3)&(v4&I4&J4&K4)).
  rewrite (pick_one p true _ v1 xp), (pick_one p false _ v2 yp), (pick_one q true _ v3 xq), (pick_one q false _ v4 yq) by auto.
  unfold local_point, vadd, vscale; cbn [fst snd]. split; intro; lra.
Qed.
