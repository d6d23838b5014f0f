From Verif Require Import Bool_tac Mat Sizing_proofs Sizing2_proofs Sizing3_proofs.
From Verif Require Import Tmilp_model Tmilp_spec Tmilp_proofs Tmilp2_proofs Tmilp3_proofs.
Require Import List Bool Lia Lra Psatz.
Import ListNotations.
Open Scope R_scope.

(** profiles of the members *)
Lemma fold_prof_out {X} (key : X -> nat) (val : X -> list nat) l f k : (forall z, In z l -> key z <> k) ->
  fold_left (fun f z => set_prof f (key z) (val z)) l f k = f k.
Proof.
  revert f. induction l as [|h l IH]; intros f H; [reflexivity|]. simpl. rewrite IH by (intros; apply H; right; auto).
  unfold set_prof. destruct (Nat.eqb_spec k (key h)) as [E|]; [|reflexivity]. exfalso. apply (H h); [left; auto|auto].
Qed.
Lemma prof_only_lemma q a i v b : tm_only q = a ++ (i, v) :: b -> (forall z, In z b -> fst z <> i) -> tm_prof q i = v.
Proof.
  intros H Hb. unfold tm_prof. rewrite H, fold_left_app. cbn [fold_left].
  rewrite (fold_prof_out fst snd) by auto. simpl. unfold set_prof. rewrite Nat.eqb_refl. reflexivity.
Qed.
Lemma fold_group_in g i f : In i (fst g) -> fold_left (fun f m => set_prof f m (snd g)) (fst g) f i = snd g.
Proof.
  revert f. induction (fst g) as [|h l IH]; intros f H; [destruct H|]. simpl.
  destruct (in_dec Nat.eq_dec i l) as [Hi|Hi]; [apply IH; auto|].
  rewrite (fold_prof_out (fun m => m) (fun _ => snd g)) by (intros z Hz E; subst; auto).
  destruct H as [->|H]; [|contradiction]. unfold set_prof. rewrite Nat.eqb_refl. reflexivity.
Qed.
Lemma fold_groups_out gs f i : (forall g, In g gs -> ~ In i (fst g)) ->
  fold_left (fun f g => fold_left (fun f m => set_prof f m (snd g)) (fst g) f) gs f i = f i.
Proof.
  revert f. induction gs as [|h gs IH]; intros f H; [reflexivity|]. simpl. rewrite IH by (intros; apply H; right; auto).
  apply (fold_prof_out (fun m => m) (fun _ => snd h)). intros z Hz E. subst. apply (H h); [left; auto|auto].
Qed.
Lemma prof_group_lemma q a g b i : tm_groups q = a ++ g :: b -> In i (fst g) -> (forall h, In h b -> ~ In i (fst h)) ->
  (forall z, In z (tm_only q) -> fst z <> i) -> tm_prof q i = snd g.
Proof.
  intros H Hi Hb Ho. unfold tm_prof. rewrite (fold_prof_out fst snd) by auto.
  rewrite H, fold_left_app. cbn [fold_left]. rewrite fold_groups_out by auto. apply fold_group_in; auto.
Qed.
Lemma prof_all_lemma q i : (forall g, In g (tm_groups q) -> ~ In i (fst g)) -> (forall z, In z (tm_only q) -> fst z <> i) ->
  tm_prof q i = seq 0 (tm_nprof q).
Proof. intros Hg Ho. unfold tm_prof. rewrite (fold_prof_out fst snd) by auto. rewrite fold_groups_out by auto. reflexivity. Qed.

(** sound, by name *)
Lemma tsound_all_lemma q top x : tgood q -> (0 < tm_nlc q)%nat -> tm_feasible q top x ->
  exists s, tselects q x s
   /\ (top = false -> forall i, (i < tm_nmem q)%nat -> s i <> None)
   /\ (top = true -> forall i, (i < tm_nmem q)%nat -> tval q x (VY i) = if present s i then 1 else 0)
   /\ tdesign q (tm_ulb q / tm_su q) (tm_uub q / tm_su q) (tm_su q ^ 2 / tm_sN q) (tm_p q 0) s (fun d => tval q x (Vu d 0) / tm_su q)
   /\ (forall i j, (i < tm_nmem q)%nat -> (j < tm_np q i)%nat -> tval q x (VN i j 0) = if is_some (s i) j
        then tm_sN q * elastic_force (tm_ndof q) (tm_E q i) (tm_L q i) (tm_A q (tm_pr q i j)) (tm_B q) i (fun d => tval q x (Vu d 0) / tm_su q)
        else 0)
   /\ tm_obj q top x = t_weight q s.
Proof.
  intros G Hc F. exists (ts q x). destruct (ts_ok q top x F) as [S1 S2]. split; [exact S1|]. split; [|split; [|split; [|split]]].
  - intros -> i Hi E. specialize (S2 i Hi). unfold present in S2. rewrite E in S2. lra.
  - intros ->. exact S2.
  - exact (tsound_lemma q G top x Hc F).
  - exact (force_state_lemma q G top x Hc F).
  - apply (tobj_lemma q G); auto. intros i j _ H. apply (ts_lt q x i j H).
Qed.
Lemma tcomplete_all_lemma q (top : bool) s u z : tgood q -> groups_wf q -> tm_ulb q <= 0 -> 0 <= tm_uub q -> tm_nlc q = 1%nat ->
  tdesign q (tm_ulb q / tm_su q) (tm_uub q / tm_su q) (tm_su q ^ 2 / tm_sN q) (tm_p q 0) s u ->
  (if top then topo_ok q s z else forall i, (i < tm_nmem q)%nat -> s i <> None) ->
  exists x, tm_feasible q top x /\ tselects q x s /\ (top = true -> node_values q x z)
   /\ (forall d, (d < tm_ndof q)%nat -> tval q x (Vu d 0) / tm_su q = u d) /\ tm_obj q top x = t_weight q s.
Proof.
  intros G WF Hl Hu Hc D T. destruct (tcomplete_lemma q G WF Hl Hu top s u z Hc D T) as [A [B [C E]]].
  exists (tmk q top s u z). split; [exact A|]. split; [exact B|]. split; [exact C|]. split; [exact E|].
  apply (tobj_lemma q G); auto. apply D.
Qed.
Lemma tdesign_ext q lo hi f p s s' u : (forall i, (i < tm_nmem q)%nat -> s i = s' i) -> tdesign q lo hi f p s u -> tdesign q lo hi f p s' u.
Proof.
  intros E [D1 [D2 [D3 D4]]]. repeat split.
  - intros i j Hi H. apply (D1 i j Hi). rewrite E; auto.
  - intros d Hd. rewrite <- (D2 d Hd). rewrite !truss_K_force2. apply sumn_ext. intros i Hi. unfold t_area. rewrite E by auto. reflexivity.
  - apply D3; auto.
  - apply D3; auto.
  - apply (D4 i j); auto. rewrite E; auto.
  - apply (D4 i j); auto. rewrite E; auto.
  - apply (D4 i j); auto. rewrite E; auto.
Qed.
Lemma selects_unique q x s s' : (forall i j, (i < tm_nmem q)%nat -> s i = Some j -> (j < tm_np q i)%nat) ->
  (forall i j, (i < tm_nmem q)%nat -> s' i = Some j -> (j < tm_np q i)%nat) ->
  tselects q x s -> tselects q x s' -> forall i, (i < tm_nmem q)%nat -> s i = s' i.
Proof.
  intros H H' S S' i Hi. specialize (S i). specialize (S' i). destruct (s i) as [j|] eqn:E.
  - assert (J := H i j Hi E). assert (A := S j Hi J). assert (B := S' j Hi J). simpl in A. rewrite Nat.eqb_refl in A. rewrite A in B.
    unfold is_some in B. destruct (s' i) as [k|]; [|lra]. destruct (Nat.eqb_spec k j); [congruence|lra].
  - destruct (s' i) as [k|] eqn:E'; [|reflexivity]. assert (J := H' i k Hi E'). assert (A := S k Hi J). assert (B := S' k Hi J).
    simpl in A, B. rewrite Nat.eqb_refl in B. lra.
Qed.
Lemma present_ext s s' i : s i = s' i -> present s i = present s' i.
Proof. intros E. unfold present. rewrite E. reflexivity. Qed.
Lemma count_ext n P Q : (forall i, (i < n)%nat -> P i = Q i) -> count n P = count n Q.
Proof. intros H. unfold count. f_equal. apply filter_ext_in. intros i Hi. apply in_seq in Hi. apply H. lia. Qed.
Lemma topo_iff_lemma q s z : tgood q -> groups_wf q -> tm_ulb q <= 0 -> 0 <= tm_uub q -> tm_nlc q = 1%nat ->
  (forall i j, (i < tm_nmem q)%nat -> s i = Some j -> (j < tm_np q i)%nat) ->
  (exists x, tm_feasible q true x /\ tselects q x s /\ node_values q x z)
  <-> topo_ok q s z /\ exists u, tdesign q (tm_ulb q / tm_su q) (tm_uub q / tm_su q) (tm_su q ^ 2 / tm_sN q) (tm_p q 0) s u.
Proof.
  intros G WF Hl Hu Hc Hs. split.
  - intros [x [F [S1 Z]]]. destruct (ts_ok q true x F) as [S2 Y2].
    assert (E := selects_unique q x s (ts q x) Hs (fun i j _ H => proj1 (ts_lt q x i j H)) S1 S2).
    assert (EP : forall i, (i < tm_nmem q)%nat -> present (ts q x) i = present s i) by (intros; symmetry; apply present_ext; auto).
    destruct (topo_sound_lemma q WF x F) as [[T1 [T2 [T3 [T4 T5]]]] Z2].
    assert (EZ : forall j, (j < tm_nnodes q)%nat -> tz q x j = z j).
    { intros j Hj. specialize (Z j Hj). rewrite (Z2 j Hj) in Z. destruct (tz q x j); destruct (z j); auto; lra. }
    split.
    + split; [|split; [|split; [|split]]].
      * intros j i Hj Hi Hz. rewrite <- EP by apply Hi. apply (T1 j i); auto. rewrite EZ; auto.
      * intros j Hj Hz. rewrite <- (count_ext (tm_nmem q) (fun i => existsb (Nat.eqb j) (tm_ends q i) && present (ts q x) i))
          by (intros i Hi; rewrite EP by auto; reflexivity). apply T2; auto. rewrite EZ; auto.
      * rewrite <- (count_ext (tm_nmem q) (present (ts q x))) by auto. rewrite <- (count_ext (tm_nnodes q) (tz q x) z) by auto.
        replace (map (fun j => if z j then supported q j else 0%nat) (seq 0 (tm_nnodes q)))
          with (map (fun j => if tz q x j then supported q j else 0%nat) (seq 0 (tm_nnodes q))); [exact T3|].
        apply map_ext_in. intros j Hj. apply in_seq in Hj. rewrite EZ by lia. reflexivity.
      * rewrite <- (count_ext (tm_nnodes q) (fun j => tz q x j && negb (supported q j =? 0)%nat)) by (intros; rewrite EZ by auto; reflexivity).
        exact T4.
      * apply (groups_sound q WF x s F S1 Hs).
    + exists (t_u q x 0). apply (tdesign_ext q _ _ _ _ (ts q x)); [intros; symmetry; auto|]. apply (tsound_lemma q G true x); auto. lia.
  - intros [T [u D]]. destruct (tcomplete_all_lemma q true s u z G WF Hl Hu Hc D T) as [x [F [S1 [Z _]]]]. exists x. auto.
Qed.
(** examples *)
Lemma floor5 : floorZ 5 = 5%Z. Proof. exact (floorZ_IZR 5). Qed.
Lemma one_bar_good sN su ulb uub n l : 0 < sN -> 0 < su -> tgood (one_bar sN su ulb uub n l).
Proof. intros H1 H2. unfold tgood; simpl. repeat split; auto; intros; lra. Qed.
Lemma one_bar_wf sN su ulb uub n l : groups_wf (one_bar sN su ulb uub n l).
Proof. intros g []. Qed.
Lemma one_bar_design sN su ulb uub n l lo hi f : lo <= l <= hi -> l <= f * 5 -> - l <= f * 5 -> - l <= 5 ->
  tdesign (one_bar sN su ulb uub n l) lo hi f (fun _ => l) (fun _ => Some 0%nat) (fun _ => l).
Proof.
  intros H1 H2 H3 H4. unfold tdesign, truss_K, elastic_force; simpl. repeat split.
  - intros i j Hi E. injection E as <-. change (tm_np (one_bar sN su ulb uub n l) i) with 1%nat. lia.
  - intros d Hd. unfold t_area. simpl. field.
  - lra.
  - lra.
  - rewrite floor5. lra.
  - rewrite floor5. lra.
  - rewrite floor5. lra.
Qed.
Lemma two_bars_good nm gs : tgood (two_bars nm gs).
Proof. unfold tgood; simpl. repeat split; try lra; intros; try lra. assert (H1 := pos_INR (tm_pr (two_bars nm gs) i j)). lra. Qed.
(** profiles a and b of the first two members, the third one absent *)
Lemma two_bars_design nm gs a b : (nm = 2 \/ nm = 3)%nat -> (a < 2)%nat -> (b < 2)%nat ->
  (forall i, (i < nm)%nat -> tm_prof (two_bars nm gs) i = [0; 1]%nat) ->
  tdesign (two_bars nm gs) (-10) 10 1 (fun _ => 2) (ab a b) (fun d => 2 / (INR (match d with 0%nat => a | _ => b end) + 1)).
Proof.
  intros Hn Ha Hb HP.
  assert (P : forall i j, (i < nm)%nat -> (j < 2)%nat -> tm_pr (two_bars nm gs) i j = j).
  { intros i j Hi Hj. unfold tm_pr. rewrite HP by auto. destruct j as [|[|j]]; try reflexivity; lia. }
  assert (Pos : forall j, 0 < INR j + 1) by (intros j; assert (H := pos_INR j); lra).
  assert (AR0 : t_area (two_bars nm gs) (ab a b) 0 = INR a + 1) by (unfold t_area, ab; simpl; rewrite P by lia; reflexivity).
  assert (AR1 : t_area (two_bars nm gs) (ab a b) 1 = INR b + 1) by (unfold t_area, ab; simpl; rewrite P by lia; reflexivity).
  assert (AR2 : t_area (two_bars nm gs) (ab a b) 2 = 0) by reflexivity.
  assert (Pa := Pos a). assert (Pb := Pos b). assert (Na := pos_INR a). assert (Nb := pos_INR b).
  split; [|split; [|split]].
  - intros i j Hi E. unfold tm_np. rewrite HP by auto. unfold ab in E. destruct i as [|[|i]]; try discriminate; injection E as <-; simpl; lia.
  - intros d Hd. rewrite truss_K_force2. unfold elastic_force. simpl in Hd.
    cbn [tm_nmem two_bars tm_ndof tm_E tm_L tm_B].
    destruct Hn as [ -> | -> ]; destruct d as [|[|d]]; try lia; cbn [sumn Nat.eqb]; rewrite ?AR0, ?AR1, ?AR2; field; lra.
  - intros d Hd. simpl in Hd. assert (K : forall k, -10 <= 2 / (INR k + 1) <= 10).
    { intros k. assert (Nk := pos_INR k). assert (2 / (INR k + 1) <= 2 / 1).
      { apply Rmult_le_compat_l; [lra|]. apply Rinv_le_contravar; lra. }
      assert (0 < 2 / (INR k + 1)) by (apply Rdiv_lt_0_compat; lra). lra. }
    apply K.
  - intros i j Hi E. cbv zeta. cbn [tm_NRd tm_NbRd two_bars]. rewrite floor5.
    replace (elastic_force _ _ _ _ _ _ _) with 2; [lra|].
    unfold elastic_force. unfold ab in E. cbn [tm_nmem two_bars] in Hi.
    destruct i as [|[|i]]; try discriminate; injection E as <-; rewrite P by (auto; lia);
      cbn [tm_ndof two_bars tm_E tm_L tm_B tm_A sumn Nat.eqb]; field; lra.
Qed.
