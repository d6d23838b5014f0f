From Verif Require Import Bool_tac Mat Sizing_proofs Sizing2_proofs Sizing3_proofs.
From Verif Require Import Tmilp_model Tmilp_spec Tmilp_proofs Tmilp2_proofs.
Require Import List Bool Lia Lra Psatz.
Import ListNotations.
Open Scope R_scope.

Lemma sumn_count n (P : nat -> bool) : sumn n (fun i => if P i then 1 else 0) = INR (count n P).
Proof.
  induction n; [reflexivity|]. unfold count in *. rewrite seq_S, filter_app, app_length, plus_INR. simpl sumn. rewrite IHn.
  rewrite Nat.add_0_l. simpl. destruct (P n); simpl; lra.
Qed.
Lemma sumn_INR_list n (f : nat -> nat) : sumn n (fun i => INR (f i)) = INR (list_sum (map f (seq 0 n))).
Proof.
  induction n; [reflexivity|]. rewrite seq_S, map_app, list_sum_app, plus_INR. simpl sumn. rewrite IHn. simpl.
  rewrite Nat.add_0_r. reflexivity.
Qed.
Lemma sumn_unique n (P : nat -> bool) : (forall a b, (a < n)%nat -> (b < n)%nat -> P a = true -> P b = true -> a = b) ->
  sumn n (fun j => if P j then 1 else 0) <= 1.
Proof.
  induction n; intros H; simpl; [lra|]. destruct (P n) eqn:E.
  - rewrite (sumn_zero n); [lra|]. intros a Ha. destruct (P a) eqn:Ea; [|reflexivity].
    specialize (H a n ltac:(lia) ltac:(lia) Ea E). lia.
  - assert (sumn n (fun j => if P j then 1 else 0) <= 1) by (apply IHn; intros; apply H; auto; lia). lra.
Qed.
Lemma sumn_two n f a b : (forall j, (j < n)%nat -> 0 <= f j) -> (a < n)%nat -> (b < n)%nat -> a <> b -> f a + f b <= sumn n f.
Proof.
  induction n; intros H Ha Hb Hne; [lia|]. simpl. assert (Hn := H n ltac:(lia)).
  assert (S1 : forall k, (k < n)%nat -> f k <= sumn n f).
  { intros k Hk. rewrite <- (sumn_delta n k f Hk). apply sz_sumn_le. intros i Hi. destruct (i =? k)%nat; [lra|apply H; lia]. }
  destruct (Nat.eq_dec a n) as [->|]; destruct (Nat.eq_dec b n) as [->|]; try lia.
  - specialize (S1 b ltac:(lia)). lra.
  - specialize (S1 a ltac:(lia)). lra.
  - assert (f a + f b <= sumn n f) by (apply IHn; auto; try lia; intros; apply H; lia). lra.
Qed.
Lemma truss_K_force2 nm nd E L A B d u :
  sumn nd (fun e => truss_K nm E L A B d e * u e) = sumn nm (fun i => B d i * elastic_force nd (E i) (L i) (A i) B i u).
Proof.
  unfold truss_K, elastic_force.
  rewrite (sumn_ext nd _ (fun e => sumn nm (fun i => B d i * (E i * A i / L i) * B e i * u e)))
    by (intros; rewrite <- sumn_scale_r; reflexivity).
  rewrite sumn_swap. apply sumn_ext. intros i _. rewrite <- !sumn_scale. apply sumn_ext. intros e _. ring.
Qed.

Section TM3.
Variable q : tm_data.
Let m := tm_nmem q.
Let np := tm_np q.
Let ny := nsel q.
Let c := tm_nlc q.
Let nd := tm_ndof q.
Let nn := tm_nnodes q.
Hypothesis G : tgood q.

Lemma feas_var_lemma top x t : tm_feasible q top x -> tvalid q top t ->
  tv_lb q t <= tval q x t <= tv_ub q t /\ (tv_bin t = true -> tval q x t = 0 \/ tval q x t = 1).
Proof. intros [H _] Ht. apply H. apply tlayout_lemma; auto. Qed.
Lemma feas_rows top x : tm_feasible q top x ->
  Forall (lin_holds (tm_nvars q top) x) (tm_sel_rows q top)
  /\ (top = true -> Forall (lin_holds (tm_nvars q true) x) (top_rows q))
  /\ Forall (lin_holds (tm_nvars q top) x) (flat_map (tm_eq_rows q) (seq 0 c))
  /\ Forall (lin_holds (tm_nvars q top) x) (comp_loop q (seq 0 c) (tm_ny q))
  /\ Forall (lin_holds (tm_nvars q top) x) (str_loop q (seq 0 c) (tm_ny q)).
Proof.
  intros [_ H]. unfold tm_rows in H. rewrite !Forall_app in H. destruct H as [H1 [H2 [H3 [H4 H5]]]].
  repeat split; auto. intros ->. auto.
Qed.
Definition ts (x : vec) (i : nat) : option nat := find (fun j => Reqb (tval q x (Vy i j)) 1) (seq 0 (tm_np q i)).
Lemma ts_lt x i j : ts x i = Some j -> (j < np i)%nat /\ tval q x (Vy i j) = 1.
Proof.
  unfold ts. intros H. apply find_some in H. destruct H as [H1 H2]. apply in_seq in H1. apply Reqb_true in H2. split; [unfold np; lia|auto].
Qed.
Lemma ts_none x i : ts x i = None -> forall j, (j < np i)%nat -> tval q x (Vy i j) <> 1.
Proof.
  intros H j Hj. assert (E := find_none _ _ H j ltac:(apply in_seq; unfold np in Hj; lia)). simpl in E. apply Reqb_false in E. auto.
Qed.
Lemma ts_ok top x : tm_feasible q top x ->
  tselects q x (ts x)
  /\ forall i, (i < m)%nat -> (if top then tval q x (VY i) else 1) = if present (ts x) i then 1 else 0.
Proof.
  intros F. assert (B : forall i j, (i < m)%nat -> (j < np i)%nat -> tval q x (Vy i j) = 0 \/ tval q x (Vy i j) = 1).
  { intros i j Hi Hj. apply (feas_var_lemma top x (Vy i j) F); simpl; auto. }
  assert (S1 := proj1 (sel_rows_iff q top x) (proj1 (feas_rows top x F))). fold m np in S1.
  assert (Ycase : forall i, (i < m)%nat -> (if top then tval q x (VY i) else 1) = 0 \/ (if top then tval q x (VY i) else 1) = 1).
  { intros i Hi. destruct top; [|auto]. apply (feas_var_lemma true x (VY i) F); simpl; auto. }
  split.
  - intros i j Hi Hj. specialize (S1 i Hi). destruct (Ycase i Hi) as [E|E]; rewrite E in S1.
    + assert (Z := bin_all_zero (np i) _ (fun j Hj => B i j Hi Hj) ltac:(lra)). simpl in Z.
      rewrite Z by auto. unfold is_some. destruct (ts x i) as [k|] eqn:Ek; [|reflexivity].
      destruct (ts_lt x i k Ek) as [K1 K2]. rewrite Z in K2 by auto. lra.
    + destruct (bin_sum_one (np i) _ (fun j Hj => B i j Hi Hj) S1) as [j0 [J1 [J2 J3]]].
      destruct (ts x i) as [k|] eqn:Ek.
      * destruct (ts_lt x i k Ek) as [K1 K2]. simpl. destruct (Nat.eqb_spec k j) as [->|Hne]; [auto|].
        destruct (Nat.eq_dec j j0) as [->|Hj0]; [|apply J3; auto].
        rewrite (J3 k K1 Hne) in K2. lra.
      * exfalso. apply (ts_none x i Ek j0 J1). auto.
  - intros i Hi. specialize (S1 i Hi). unfold present. destruct (Ycase i Hi) as [E|E]; rewrite E in *.
    + destruct (ts x i) as [k|] eqn:Ek; [|reflexivity]. destruct (ts_lt x i k Ek) as [K1 K2].
      assert (Z := bin_all_zero (np i) _ (fun j Hj => B i j Hi Hj) ltac:(lra)). simpl in Z. rewrite Z in K2 by auto. lra.
    + destruct (ts x i) as [k|] eqn:Ek; [reflexivity|]. exfalso.
      destruct (bin_sum_one (np i) _ (fun j Hj => B i j Hi Hj) S1) as [j0 [J1 [J2 J3]]]. apply (ts_none x i Ek j0 J1). auto.
Qed.
Definition t_u (x : vec) (k : nat) : vec := fun d => tval q x (Vu d k) / tm_su q.
Lemma stiff_el x k i j : (i < m)%nat ->
  t_stiff q i j * t_el q x k i = tm_sN q * elastic_force nd (tm_E q i) (tm_L q i) (tm_A q (tm_pr q i j)) (tm_B q) i (t_u x k).
Proof.
  intros Hi. destruct G as [G1 [G2 [G3 _]]]. specialize (G3 i Hi).
  unfold t_stiff, t_el, elastic_force, t_u, t_k0, t_L, tm_sE, tm_sA. fold nd.
  rewrite (sumn_ext nd (fun d => tm_B q d i * (tval q x (Vu d k) / tm_su q)) (fun d => / tm_su q * (tm_B q d i * tval q x (Vu d k))))
    by (intros; unfold Rdiv; ring).
  rewrite sumn_scale. generalize (sumn nd (fun d => tm_B q d i * tval q x (Vu d k))). intros r. field. split; lra.
Qed.
Lemma comp_pos0 i j : comp_pos q i j 0 = tpos q (VN i j 0).
Proof. unfold comp_pos. simpl. rewrite !Nat.add_0_r. reflexivity. Qed.
Lemma force_state_lemma top x : (0 < c)%nat -> tm_feasible q top x ->
  forall i j, (i < m)%nat -> (j < np i)%nat ->
  tval q x (VN i j 0) = if is_some (ts x i) j
    then tm_sN q * elastic_force nd (tm_E q i) (tm_L q i) (tm_A q (tm_pr q i j)) (tm_B q) i (t_u x 0) else 0.
Proof.
  intros Hc F i j Hi Hj. destruct (ts_ok top x F) as [S1 _]. specialize (S1 i j Hi Hj).
  destruct (feas_rows top x F) as [_ [_ [_ [C1 C2]]]].
  destruct (proj1 (comp_rows_iff q top x) C1 0%nat i j Hc Hi Hj) as [A1 A2]. rewrite comp_pos0 in A1, A2.
  change (x (tpos q (VN i j 0))) with (tval q x (VN i j 0)) in A1, A2.
  destruct (proj1 (str_rows_iff q top x) C2 0%nat i j Hc Hi Hj) as [B1 B2]. rewrite S1 in *.
  destruct (is_some (ts x i) j).
  - rewrite <- stiff_el by auto. lra.
  - rewrite !Rmult_0_r in *. lra.
Qed.
Lemma sum_pick_opt n o (f : nat -> R) : (forall j, o = Some j -> (j < n)%nat) ->
  sumn n (fun j => if is_some o j then f j else 0) = match o with Some j => f j | None => 0 end.
Proof.
  intros H. destruct o as [j|]; simpl.
  - rewrite (sumn_ext n _ (fun k => if (k =? j)%nat then f k else 0)) by (intros; rewrite Nat.eqb_sym; reflexivity).
    apply sumn_delta. apply H. reflexivity.
  - apply sumn_zero. auto.
Qed.
Lemma tsound_lemma top x : (0 < c)%nat -> tm_feasible q top x ->
  tdesign q (tm_ulb q / tm_su q) (tm_uub q / tm_su q) (tm_su q ^ 2 / tm_sN q) (tm_p q 0) (ts x) (t_u x 0).
Proof.
  intros Hc F. assert (FS := force_state_lemma top x Hc F). destruct G as [G1 [G2 [G3 _]]].
  destruct (feas_rows top x F) as [_ [_ [E1 [_ C2]]]].
  split; [|split; [|split]].
  - intros i j Hi H. apply (ts_lt x i j H).
  - intros d Hd. assert (E := proj1 (eq_rows_iff q top x Hc) E1 0%nat d Hc Hd). fold m np in E.
    rewrite truss_K_force2. fold m nd.
    rewrite (sumn_ext m _ (fun i => tm_sN q * (tm_B q d i * elastic_force nd (tm_E q i) (tm_L q i) (t_area q (ts x) i) (tm_B q) i (t_u x 0)))) in E.
    + rewrite sumn_scale in E. apply (Rmult_eq_reg_l (tm_sN q)); [|lra]. lra.
    + intros i Hi. rewrite (sumn_ext (np i) _ _ (fun j Hj => FS i j Hi Hj)).
      rewrite (sum_pick_opt (np i) (ts x i)) by (intros j Hj; apply (ts_lt x i j Hj)). unfold t_area. destruct (ts x i).
      * ring.
      * unfold elastic_force. unfold Rdiv. ring.
  - intros d Hd. destruct (feas_var_lemma top x (Vu d 0) F) as [[A B] _]; [simpl; auto|]. simpl in A, B. unfold t_u.
    split; apply Rmult_le_compat_r; auto; left; apply Rinv_0_lt_compat; auto.
  - intros i j Hi Hs N. destruct (ts_lt x i j Hs) as [Hj Hy].
    destruct (proj1 (str_rows_iff q top x) C2 0%nat i j Hc Hi Hj) as [B1 B2]. rewrite Hy in B1, B2.
    rewrite (FS i j Hi Hj), Hs in B1, B2. unfold is_some in B1, B2. rewrite Nat.eqb_refl in B1, B2. fold nd in N. fold N in B1, B2.
    unfold t_NRd, t_NbRd, tm_sA in *. generalize dependent N. intros N B1 B2.
    set (r := IZR (floorZ (tm_NRd q (tm_pr q i j)))) in *. set (b := IZR (floorZ (tm_NbRd q i (tm_pr q i j)))) in *.
    assert (M1 := Rmin_l (r * tm_su q ^ 2) (b * tm_sN q)). assert (M2 := Rmin_r (r * tm_su q ^ 2) (b * tm_sN q)).
    rewrite Rmult_1_r in B1, B2.
    assert (E : forall a b', tm_sN q * a <= tm_sN q * b' -> a <= b') by (intros a b' H; apply Rmult_le_reg_l with (tm_sN q); auto).
    assert (P : tm_sN q * (tm_su q ^ 2 / tm_sN q * r) = r * tm_su q ^ 2) by (field; lra).
    repeat split; apply E; rewrite ?P; lra.
Qed.
Lemma tloads_lemma top x : tm_feasible q top x -> forall k d, (k < c)%nat -> (d < nd)%nat -> tm_p q k d = tm_p q 0 d.
Proof.
  intros F k d Hk Hd. assert (Hc : (0 < c)%nat) by lia. destruct (feas_rows top x F) as [_ [_ [E1 _]]].
  assert (A := proj1 (eq_rows_iff q top x Hc) E1 k d Hk Hd). assert (B := proj1 (eq_rows_iff q top x Hc) E1 0%nat d Hc Hd).
  rewrite A in B. apply (Rmult_eq_reg_r (tm_sN q)); [auto|]. destruct G. lra.
Qed.
Lemma tobj_lemma top x s : (forall i j, (i < m)%nat -> s i = Some j -> (j < np i)%nat) -> tselects q x s -> tm_obj q top x = t_weight q s.
Proof.
  intros Hs S1. rewrite obj_val_lemma. unfold t_weight. fold m np. apply sumn_ext. intros i Hi.
  rewrite (sumn_ext (np i) _ (fun j => if is_some (s i) j then t_w q i j else 0)).
  - rewrite sum_pick_opt by (intros; apply (Hs i); auto). destruct (s i); [|reflexivity].
    unfold t_w, t_L. destruct G as [_ [G2 _]]. field. lra.
  - intros j Hj. rewrite S1 by auto. destruct (is_some (s i) j); ring.
Qed.
(** topology *)
Definition tz (x : vec) (j : nat) : bool := Reqb (tval q x (Vz j)) 1.
Lemma tz_ok x : tm_feasible q true x -> node_values q x (tz x).
Proof.
  intros F j Hj. unfold tz. destruct (feas_var_lemma true x (Vz j) F) as [_ B]; [simpl; auto|]. destruct (B eq_refl) as [E|E]; rewrite E.
  - rewrite eqb_f by lra. reflexivity.
  - rewrite eqb_t by lra. reflexivity.
Qed.
Hypothesis WF : groups_wf q.
Lemma top_rows_iff_lemma x s z : (forall i, (i < m)%nat -> tval q x (VY i) = if present s i then 1 else 0) ->
  node_values q x z ->
  Forall (lin_holds (tm_nvars q true) x) (top_rows1 q ++ top_rows2 q ++ [top_row3 q] ++ [top_row4 q])
  <-> (forall j i, (j < nn)%nat -> at_node q j i -> z j = true -> present s i = true)
     /\ (forall j, (j < nn)%nat -> z j = true ->
       ((if (supported q j =? 0) then 2 else 1) <= count m (fun i => existsb (Nat.eqb j) (tm_ends q i) && present s i))%nat)
     /\ (2 * count nn z <= count m (present s) + list_sum (map (fun j => if z j then supported q j else 0) (seq 0 nn)))%nat
     /\ (2 <= count nn (fun j => z j && negb (supported q j =? 0)))%nat.
Proof.
  intros HY HZ. rewrite !Forall_app, rows1_iff, rows2_iff. rewrite !Forall_cons_iff, row3_iff, row4_iff. fold m nn.
  assert (E3 : sumn nn (fun j => (2 - INR (supported q j)) * tval q x (Vz j))
     = 2 * INR (count nn z) - INR (list_sum (map (fun j => if z j then supported q j else 0%nat) (seq 0 nn)))).
  { rewrite <- sumn_INR_list, <- sumn_count, <- sumn_scale, <- sumn_minus. apply sumn_ext. intros j Hj. rewrite HZ by auto.
    destruct (z j); simpl; lra. }
  assert (E3' : sumn m (fun i => tval q x (VY i)) = INR (count m (present s))).
  { rewrite <- sumn_count. apply sumn_ext. intros i Hi. apply HY; auto. }
  assert (E4 : sumn nn (fun j => if (supported q j =? 0)%nat then 0 else tval q x (Vz j))
     = INR (count nn (fun j => z j && negb (supported q j =? 0)%nat))).
  { rewrite <- sumn_count. apply sumn_ext. intros j Hj. rewrite HZ by auto. destruct (supported q j =? 0)%nat; destruct (z j); reflexivity. }
  assert (E2 : forall j, sumn m (fun i => if atb q j i then tval q x (VY i) else 0)
     = INR (count m (fun i => existsb (Nat.eqb j) (tm_ends q i) && present s i))).
  { intros j. rewrite <- sumn_count. apply sumn_ext. intros i Hi. unfold atb. rewrite HY by auto.
    destruct (existsb (Nat.eqb j) (tm_ends q i)); reflexivity. }
  rewrite E3, E3', E4.
  assert (A1 : (forall j i, (j < nn)%nat -> at_node q j i -> tval q x (Vz j) <= tval q x (VY i))
     <-> forall j i, (j < nn)%nat -> at_node q j i -> z j = true -> present s i = true).
  { split; intros H j i Hj Hi.
    - intros Hz. specialize (H j i Hj Hi). rewrite HZ, HY, Hz in H by (auto; apply Hi). destruct (present s i); [auto|lra].
    - rewrite HZ, HY by (auto; apply Hi). destruct (z j) eqn:Ez.
      + rewrite (H j i Hj Hi Ez). lra.
      + destruct (present s i); lra. }
  assert (A2 : (forall j, (j < nn)%nat -> (if (supported q j =? 0)%nat then 2 else 1) * tval q x (Vz j)
        <= sumn m (fun i => if atb q j i then tval q x (VY i) else 0))
     <-> forall j, (j < nn)%nat -> z j = true ->
       ((if (supported q j =? 0) then 2 else 1) <= count m (fun i => existsb (Nat.eqb j) (tm_ends q i) && present s i))%nat).
  { split; intros H j Hj.
    - intros Hz. specialize (H j Hj). rewrite E2, HZ, Hz in H by auto. apply INR_le. destruct (supported q j =? 0)%nat; simpl (INR 2); simpl (INR 1); lra.
    - rewrite E2, HZ by auto. destruct (z j) eqn:Ez.
      + specialize (H j Hj Ez). apply le_INR in H. destruct (supported q j =? 0)%nat; simpl (INR 2) in H; simpl (INR 1) in H; lra.
      + rewrite Rmult_0_r. apply pos_INR. }
  rewrite A1, A2. apply and_iff_compat_l. apply and_iff_compat_l.
  assert (A3 : 2 * INR (count nn z) - INR (list_sum (map (fun j => if z j then supported q j else 0%nat) (seq 0 nn))) <= INR (count m (present s))
     <-> (2 * count nn z <= count m (present s) + list_sum (map (fun j => if z j then supported q j else 0) (seq 0 nn)))%nat).
  { split; intros H.
    - apply INR_le. rewrite mult_INR, plus_INR. simpl (INR 2). lra.
    - apply le_INR in H. rewrite mult_INR, plus_INR in H. simpl (INR 2) in H. lra. }
  assert (A4 : 2 <= INR (count nn (fun j => z j && negb (supported q j =? 0)%nat)) <-> (2 <= count nn (fun j => z j && negb (supported q j =? 0)))%nat).
  { split; intros H.
    - apply INR_le. simpl (INR 2). lra.
    - apply le_INR in H. simpl (INR 2) in H. lra. }
  rewrite A3, A4. split.
  - intros [[H1 _] [H2 _]]. auto.
  - intros [H1 H2]. split; split; auto.
Qed.
Lemma groups_sound x s : tm_feasible q true x -> tselects q x s -> (forall i j, (i < m)%nat -> s i = Some j -> (j < np i)%nat) -> same_profile q s.
Proof.
  intros F S1 Hs gr a b j k Hg Ha Hb Ea Eb.
  destruct (feas_rows true x F) as [_ [T _]]. specialize (T eq_refl). unfold top_rows in T. rewrite !Forall_app in T.
  destruct T as [_ [_ [_ [_ T]]]]. rewrite (groups_rows_iff q WF) in T.
  destruct (In_nth_error _ _ Hg) as [g Eg]. destruct (T g gr Eg) as [T1 [T2 _]].
  destruct (WF gr Hg) as [_ HM]. destruct (HM a Ha) as [Ma Pa]. destruct (HM b Hb) as [Mb Pb].
  assert (HL : length (snd gr) = glen q g) by (unfold glen; rewrite (nth_error_nth _ _ _ Eg); reflexivity).
  assert (Ja := Hs a j Ma Ea). assert (Jb := Hs b k Mb Eb). unfold np, tm_np in Ja, Jb. rewrite Pa, HL in Ja. rewrite Pb, HL in Jb.
  assert (Wn : forall j', (j' < glen q g)%nat -> 0 <= tval q x (Vw g j')).
  { intros j' Hj'. destruct (feas_var_lemma true x (Vw g j') F) as [[A _] _].
    - simpl. split; [auto|]. split; [|auto]. apply nth_error_Some. congruence.
    - exact A. }
  assert (Ya : 1 <= tval q x (Vw g j)).
  { assert (E := T2 a j Ha Ja). rewrite S1 in E by (auto; unfold tm_np; rewrite Pa, HL; auto). rewrite Ea in E. unfold is_some in E. rewrite Nat.eqb_refl in E. auto. }
  assert (Yb : 1 <= tval q x (Vw g k)).
  { assert (E := T2 b k Hb Jb). rewrite S1 in E by (auto; unfold tm_np; rewrite Pb, HL; auto). rewrite Eb in E. unfold is_some in E. rewrite Nat.eqb_refl in E. auto. }
  destruct (Nat.eq_dec j k) as [|Hne]; [auto|]. assert (E := sumn_two (glen q g) (fun j => tval q x (Vw g j)) j k Wn Ja Jb Hne). simpl in E. lra.
Qed.
Lemma topo_sound_lemma x : tm_feasible q true x -> topo_ok q (ts x) (tz x) /\ node_values q x (tz x).
Proof.
  intros F. destruct (ts_ok true x F) as [S1 S2]. assert (Z := tz_ok x F). split; [|exact Z].
  destruct (feas_rows true x F) as [_ [T _]]. specialize (T eq_refl). unfold top_rows in T.
  assert (T' : Forall (lin_holds (tm_nvars q true) x) (top_rows1 q ++ top_rows2 q ++ [top_row3 q] ++ [top_row4 q])).
  { rewrite !Forall_app in *. tauto. }
  destruct (proj1 (top_rows_iff_lemma x (ts x) (tz x) S2 Z) T') as [A [B [C D]]].
  split; [exact A|]. split; [exact B|]. split; [exact C|]. split; [exact D|].
  apply (groups_sound x); auto. intros i j Hi H. apply (ts_lt x i j H).
Qed.

(** completeness *)
Hypothesis Hul : tm_ulb q <= 0.
Hypothesis Huu : 0 <= tm_uub q.
Lemma t_elong_bounds i v : (forall d, (d < nd)%nat -> tm_ulb q <= v d <= tm_uub q) ->
  t_nlb q i <= sumn nd (fun d => tm_B q d i * v d) <= t_nub q i.
Proof.
  intros H. unfold t_nlb, t_nub. fold nd. rewrite <- !sumn_plus. split; apply sz_sumn_le; intros d Hd;
    specialize (H d Hd); unfold Rmax, Rmin; repeat destruct (Rle_dec _ _); nra.
Qed.
Lemma t_stiff_pos i j : (i < m)%nat -> (j < np i)%nat -> 0 <= t_stiff q i j.
Proof.
  intros Hi Hj. destruct G as [G1 [G2 [G3 [G4 G5]]]]. specialize (G3 i Hi). specialize (G4 i Hi). specialize (G5 i j Hi Hj).
  unfold t_stiff, t_k0, t_L, tm_sE, tm_sA.
  replace (tm_E q i / (tm_L q i * tm_su q) * (tm_sN q / tm_su q ^ 2) * tm_A q (tm_pr q i j) * tm_su q ^ 2)
    with (tm_E q i * tm_A q (tm_pr q i j) * (tm_sN q * / (tm_L q i * tm_su q))) by (field; lra).
  apply Rmult_le_pos; [apply Rmult_le_pos; auto|]. apply Rmult_le_pos; [lra|]. left. apply Rinv_0_lt_compat. apply Rmult_lt_0_compat; lra.
Qed.
Lemma t_force_bounds i j v : (i < m)%nat -> (j < np i)%nat -> (forall d, (d < nd)%nat -> tm_ulb q <= v d <= tm_uub q) ->
  t_Nlb q i j <= t_stiff q i j * sumn nd (fun d => tm_B q d i * v d) <= t_Nub q i j.
Proof.
  intros Hi Hj Hv. destruct (t_elong_bounds i v Hv). assert (K := t_stiff_pos i j Hi Hj).
  replace (t_Nlb q i j) with (t_stiff q i j * t_nlb q i) by (unfold t_Nlb, t_stiff; ring).
  replace (t_Nub q i j) with (t_stiff q i j * t_nub q i) by (unfold t_Nub, t_stiff; ring).
  split; apply Rmult_le_compat_l; auto.
Qed.
Lemma t_force_zero i j : (i < m)%nat -> (j < np i)%nat -> t_Nlb q i j <= 0 <= t_Nub q i j.
Proof.
  intros Hi Hj. assert (H := t_force_bounds i j (fun _ => 0) Hi Hj ltac:(intros; lra)).
  rewrite (sumn_zero nd) in H by (intros; lra). lra.
Qed.
Definition gsel (s : nat -> option nat) (g j : nat) : bool :=
  existsb (fun i => is_some (s i) j) (fst (nth g (tm_groups q) ([], []))).
Definition tmk (top : bool) (s : nat -> option nat) (u : vec) (z : nat -> bool) : vec := fun v =>
  match nth_error (tm_vars q top) v with
  | Some (Vy i j) => if is_some (s i) j then 1 else 0
  | Some (VN i j _) => if is_some (s i) j
      then tm_sN q * elastic_force (tm_ndof q) (tm_E q i) (tm_L q i) (tm_A q (tm_pr q i j)) (tm_B q) i u else 0
  | Some (Vu d _) => tm_su q * u d
  | Some (VY i) => if present s i then 1 else 0
  | Some (Vz j) => if z j then 1 else 0
  | Some (Vw g j) => if gsel s g j then 1 else 0
  | None => 0
  end.
Lemma tmk_val top s u z t : tvalid q top t -> tval q (tmk top s u z) t =
  match t with
  | Vy i j => if is_some (s i) j then 1 else 0
  | VN i j _ => if is_some (s i) j
      then tm_sN q * elastic_force nd (tm_E q i) (tm_L q i) (tm_A q (tm_pr q i j)) (tm_B q) i u else 0
  | Vu d _ => tm_su q * u d
  | VY i => if present s i then 1 else 0
  | Vz j => if z j then 1 else 0
  | Vw g j => if gsel s g j then 1 else 0
  end.
Proof. intros H. unfold tval, tmk. rewrite (tlayout_lemma q top t H). reflexivity. Qed.
Lemma tmk_u top s u z d : c = 1%nat -> (d < nd)%nat -> t_u (tmk top s u z) 0 d = u d.
Proof.
  intros Hc Hd. unfold t_u. rewrite tmk_val by (simpl; fold c nd; lia). destruct G as [_ [G2 _]]. field. lra.
Qed.
Lemma elastic_ext E L a B i u v : (forall d, (d < nd)%nat -> u d = v d) -> elastic_force nd E L a B i u = elastic_force nd E L a B i v.
Proof. intros H. unfold elastic_force. f_equal. apply sumn_ext. intros d Hd. rewrite H by auto. reflexivity. Qed.
Lemma tcomplete_lemma (top : bool) s u z : c = 1%nat ->
  tdesign q (tm_ulb q / tm_su q) (tm_uub q / tm_su q) (tm_su q ^ 2 / tm_sN q) (tm_p q 0) s u ->
  (if top then topo_ok q s z else forall i, (i < m)%nat -> s i <> None) ->
  tm_feasible q top (tmk top s u z) /\ tselects q (tmk top s u z) s
  /\ (top = true -> node_values q (tmk top s u z) z)
  /\ (forall d, (d < nd)%nat -> t_u (tmk top s u z) 0 d = u d).
Proof.
  intros Hc [D1 [D2 [D3 D4]]] HT. set (x := tmk top s u z).
  assert (V := tmk_val top s u z). fold x in V.
  destruct G as [G1 [G2 [G3 _]]].
  assert (SE : tselects q x s). { intros i j Hi Hj. apply (V (Vy i j)). simpl; auto. }
  assert (Hu : forall d, (d < nd)%nat -> tm_ulb q <= tm_su q * u d <= tm_uub q).
  { intros d Hd. destruct (D3 d Hd) as [A B].
    replace (tm_ulb q) with (tm_su q * (tm_ulb q / tm_su q)) by (field; lra).
    replace (tm_uub q) with (tm_su q * (tm_uub q / tm_su q)) by (field; lra).
    split; apply Rmult_le_compat_l; lra. }
  assert (U0 : forall d, (d < nd)%nat -> t_u x 0 d = u d) by (intros; apply tmk_u; auto).
  assert (EL : forall i, (i < m)%nat -> t_el q x 0 i = sumn nd (fun d => tm_B q d i * (tm_su q * u d))).
  { intros i Hi. unfold t_el. apply sumn_ext. intros d Hd. rewrite V by (simpl; fold c nd; lia). reflexivity. }
  assert (SF : forall i j, (i < m)%nat -> (j < np i)%nat -> t_stiff q i j * t_el q x 0 i
     = tm_sN q * elastic_force nd (tm_E q i) (tm_L q i) (tm_A q (tm_pr q i j)) (tm_B q) i u).
  { intros i j Hi Hj. rewrite stiff_el by auto. f_equal. apply elastic_ext. auto. }
  assert (FB : forall i j, (i < m)%nat -> (j < np i)%nat -> t_Nlb q i j <= t_stiff q i j * t_el q x 0 i <= t_Nub q i j).
  { intros i j Hi Hj. rewrite EL by auto. apply (t_force_bounds i j (fun d => tm_su q * u d)); auto. }
  split; [|split; [exact SE|split; [|exact U0]]].
  2:{ intros ->. intros j Hj. apply (V (Vz j)). simpl; auto. }
  split.
  - intros v t Hv. assert (T := tvars_valid_lemma q top v t Hv). assert (P := tvars_pos_lemma q top v t Hv). subst v.
    change (x (tpos q t)) with (tval q x t). rewrite V by auto.
    destruct t; simpl; simpl in T.
    + destruct (is_some (s i) j); split; auto; lra.
    + split; [|intros; discriminate]. destruct T as [T1 [T2 T3]]. destruct (is_some (s i) j).
      * rewrite <- SF by auto. apply FB; auto.
      * apply t_force_zero; auto.
    + split; [|intros; discriminate]. apply Hu. tauto.
    + destruct (present s i); split; auto; lra.
    + destruct (z j); split; auto; lra.
    + destruct (gsel s g j); split; auto; lra.
  - unfold tm_rows. rewrite !Forall_app. split; [|split; [|split; [|split]]].
    + apply sel_rows_iff. fold m np. intros i Hi.
      rewrite (sumn_ext (np i) _ (fun j => if is_some (s i) j then 1 else 0)) by (intros j Hj; apply SE; auto).
      rewrite (sum_pick_opt (np i) (s i) (fun _ => 1)) by (intros; apply (D1 i); auto).
      destruct top.
      * rewrite V by (simpl; auto). unfold present. destruct (s i); reflexivity.
      * specialize (HT i Hi). destruct (s i); [reflexivity|contradiction].
    + destruct top; [|constructor]. destruct HT as [T1 [T2 [T3 [T4 T5]]]]. unfold top_rows.
      assert (X : Forall (lin_holds (tm_nvars q true) x) (top_rows1 q ++ top_rows2 q ++ [top_row3 q] ++ [top_row4 q])).
      { apply (top_rows_iff_lemma x s z).
        - intros i Hi. apply (V (VY i)). simpl; auto.
        - intros j Hj. apply (V (Vz j)). simpl; auto.
        - fold m nn in T1, T2, T3, T4. auto. }
      rewrite !Forall_app in X. rewrite !Forall_app. split; [tauto|]. split; [tauto|]. split; [tauto|]. split; [tauto|].
      apply (groups_rows_iff q WF). intros g gr Eg.
      assert (Hg : (g < length (tm_groups q))%nat) by (apply nth_error_Some; congruence).
      assert (HN : nth g (tm_groups q) ([], []) = gr) by (apply nth_error_nth; auto).
      destruct (WF gr (nth_error_In _ _ Eg)) as [ND HM].
      assert (HM' : forall i, In i (fst gr) -> (i < m)%nat /\ np i = glen q g).
      { intros i Hi. destruct (HM i Hi) as [A B]. split; [exact A|]. unfold np, tm_np, glen. rewrite B, HN. reflexivity. }
      assert (VW : forall j, (j < glen q g)%nat -> tval q x (Vw g j) = if gsel s g j then 1 else 0).
      { intros j Hj. apply (V (Vw g j)). simpl. auto. }
      assert (GS : forall j, gsel s g j = true <-> exists i, In i (fst gr) /\ s i = Some j).
      { intros j. unfold gsel. rewrite HN, existsb_exists. split.
        - intros [i [A B]]. exists i. split; [auto|]. unfold is_some in B. destruct (s i); [|discriminate]. apply Nat.eqb_eq in B. congruence.
        - intros [i [A B]]. exists i. split; [auto|]. rewrite B. simpl. apply Nat.eqb_refl. }
      split; [|split].
      * rewrite (sumn_ext _ _ _ VW). apply sumn_unique. intros a b _ _ A B. apply GS in A. apply GS in B.
        destruct A as [i [A1 A2]]. destruct B as [i' [B1 B2]]. apply (T5 gr i i' a b); auto. apply nth_error_In with g; auto.
      * intros i j Hi Hj. destruct (HM' i Hi) as [A B]. rewrite VW by auto. rewrite SE by (auto; fold np; lia).
        destruct (is_some (s i) j) eqn:E.
        -- assert (GT : gsel s g j = true).
           { apply GS. exists i. split; [auto|]. unfold is_some in E. destruct (s i); [|discriminate]. apply Nat.eqb_eq in E. congruence. }
           rewrite GT. lra.
        -- destruct (gsel s g j); lra.
      * intros j Hj. rewrite VW by auto.
        assert (NN : forall l, (forall i, In i l -> In i (fst gr)) -> 0 <= Rsum (map (fun i => tval q x (Vy i j)) l)
                     /\ forall i, In i l -> s i = Some j -> 1 <= Rsum (map (fun i => tval q x (Vy i j)) l)).
        { induction l as [|h l IH]; intros Hl.
          - simpl. split; [lra|intros i []].
          - cbn [map]. rewrite Rsum_cons. destruct (IH ltac:(intros; apply Hl; right; auto)) as [I1 I2].
            destruct (HM' h (Hl h (or_introl eq_refl))) as [A B]. split.
            + rewrite SE by (auto; fold np; lia). destruct (is_some (s h) j); lra.
            + intros i [->|Hi] E.
              * rewrite SE by (auto; fold np; lia). rewrite E. unfold is_some. rewrite Nat.eqb_refl. lra.
              * specialize (I2 i Hi E). rewrite SE by (auto; fold np; lia). destruct (is_some (s h) j); lra. }
        destruct (NN (fst gr) (fun i H => H)) as [N1 N2]. destruct (gsel s g j) eqn:E; [|lra].
        apply GS in E. destruct E as [i [E1 E2]]. apply (N2 i); auto.
    + apply eq_rows_iff; [fold c; lia|]. fold m np c nd. intros k d Hk Hd. assert (k = 0)%nat by lia. subst k.
      rewrite (sumn_ext m _ (fun i => tm_sN q * (tm_B q d i * elastic_force nd (tm_E q i) (tm_L q i) (t_area q s i) (tm_B q) i u))).
      * rewrite sumn_scale. rewrite <- (D2 d Hd), truss_K_force2. fold m nd. ring.
      * intros i Hi. rewrite (sumn_ext (np i) _ (fun j => if is_some (s i) j
           then tm_sN q * elastic_force nd (tm_E q i) (tm_L q i) (tm_A q (tm_pr q i j)) (tm_B q) i u else 0)).
        -- rewrite (sum_pick_opt (np i) (s i)) by (intros; apply (D1 i); auto). unfold t_area. destruct (s i); [ring|].
           unfold elastic_force, Rdiv. ring.
        -- intros j Hj. apply (V (VN i j 0)). simpl. fold c. repeat split; auto.
    + apply comp_rows_iff. fold c m np. intros k i j Hk Hi Hj. assert (k = 0)%nat by lia. subst k. rewrite comp_pos0.
      change (x (tpos q (VN i j 0))) with (tval q x (VN i j 0)). rewrite (V (VN i j 0)) by (simpl; fold c; repeat split; auto).
      rewrite SE by auto. destruct (FB i j Hi Hj). rewrite <- SF by auto. destruct (is_some (s i) j); lra.
    + apply str_rows_iff. fold c m np. intros k i j Hk Hi Hj. assert (k = 0)%nat by lia. subst k.
      rewrite (V (VN i j 0)) by (simpl; fold c; repeat split; auto). rewrite SE by auto.
      destruct (is_some (s i) j) eqn:E; [|lra].
      assert (Es : s i = Some j). { unfold is_some in E. destruct (s i); [|discriminate]. apply Nat.eqb_eq in E. congruence. }
      destruct (D4 i j Hi Es) as [A [B C]]. fold nd in A, B, C.
      generalize dependent (elastic_force nd (tm_E q i) (tm_L q i) (tm_A q (tm_pr q i j)) (tm_B q) i u). intros N A B C.
      unfold t_NRd, t_NbRd, tm_sA. set (r := IZR (floorZ (tm_NRd q (tm_pr q i j)))) in *. set (b := IZR (floorZ (tm_NbRd q i (tm_pr q i j)))) in *.
      apply (Rmult_le_compat_l (tm_sN q)) in A; [|lra]. apply (Rmult_le_compat_l (tm_sN q)) in B; [|lra]. apply (Rmult_le_compat_l (tm_sN q)) in C; [|lra].
      replace (tm_sN q * (tm_su q ^ 2 / tm_sN q * r)) with (r * tm_su q ^ 2) in A, B by (field; lra).
      rewrite !Rmult_1_r. split; [lra|]. unfold Rmin. destruct (Rle_dec _ _); lra.
Qed.
Lemma toptimal_lemma (top : bool) x : c = 1%nat -> tm_feasible q top x -> (forall x', tm_feasible q top x' -> tm_obj q top x <= tm_obj q top x') ->
  tm_obj q top x = t_weight q (ts x)
  /\ forall s u z, tdesign q (tm_ulb q / tm_su q) (tm_uub q / tm_su q) (tm_su q ^ 2 / tm_sN q) (tm_p q 0) s u ->
     (if top then topo_ok q s z else forall i, (i < m)%nat -> s i <> None) -> t_weight q (ts x) <= t_weight q s.
Proof.
  intros Hc F O. assert (E : tm_obj q top x = t_weight q (ts x)).
  { apply tobj_lemma; [intros i j _ H; apply (ts_lt x i j H)|apply (ts_ok top x F)]. }
  split; [exact E|]. intros s u z D T. rewrite <- E. destruct (tcomplete_lemma top s u z Hc D T) as [F' [S' _]].
  rewrite <- (tobj_lemma top _ s (proj1 D) S'). apply O; auto.
Qed.
End TM3.
