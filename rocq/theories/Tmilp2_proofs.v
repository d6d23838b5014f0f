From Verif Require Import Bool_tac Mat Sizing_proofs Sizing2_proofs Sizing3_proofs.
From Verif Require Import Tmilp_model Tmilp_spec Tmilp_proofs.
Require Import List Bool Lia Lra Psatz.
Import ListNotations.
Open Scope R_scope.

Lemma set_all_val l v a k : set_all a l v k = if existsb (Nat.eqb k) l then v else a k.
Proof.
  revert a. induction l as [|h l IH]; intros a; [reflexivity|]. unfold set_all in *. simpl. rewrite IH. unfold set_at.
  destruct (existsb (Nat.eqb k) l); destruct (Nat.eqb_spec k h); reflexivity.
Qed.
Lemma existsb_map_plus k a l : existsb (Nat.eqb (a + k)) (map (fun i => (a + i)%nat) l) = existsb (Nat.eqb k) l.
Proof.
  induction l as [|h l IH]; simpl; [reflexivity|]. rewrite IH. f_equal.
  destruct (Nat.eqb_spec (a + k) (a + h)); destruct (Nat.eqb_spec k h); auto; lia.
Qed.
Lemma existsb_out k l : (forall i, In i l -> i <> k) -> existsb (Nat.eqb k) l = false.
Proof.
  intros H. destruct (existsb (Nat.eqb k) l) eqn:E; [|reflexivity]. apply existsb_exists in E. destruct E as [i [H1 H2]].
  apply Nat.eqb_eq in H2. subst. exfalso. apply (H i H1). reflexivity.
Qed.
Lemma existsb_seq n k : existsb (Nat.eqb k) (seq 0 n) = (k <? n)%nat.
Proof.
  destruct (Nat.ltb_spec k n).
  - apply existsb_exists. exists k. split; [apply in_seq; lia|apply Nat.eqb_refl].
  - apply existsb_out. intros i Hi. apply in_seq in Hi. lia.
Qed.

Section TM2.
Variable q : tm_data.
Let m := tm_nmem q.
Let np := tm_np q.
Let ny := nsel q.
Let c := tm_nlc q.
Let nd := tm_ndof q.
Let nn := tm_nnodes q.
Let st := (ny + c * (ny + nd))%nat.
Let ng := length (tm_groups q).

Definition atb (j i : nat) : bool := existsb (Nat.eqb j) (tm_ends q i).
Lemma node_members_in j i : In i (node_members q j) <-> at_node q j i.
Proof.
  unfold node_members, at_node. rewrite in_flat_map. split.
  - intros [i' [H1 H2]]. apply in_map_iff in H2. destruct H2 as [x [<- H2]]. apply filter_In in H2. destruct H2 as [H2 H3].
    apply Nat.eqb_eq in H3. subst x. apply in_seq in H1. split; [lia|auto].
  - intros [H1 H2]. exists i. split; [apply in_seq; lia|]. apply in_map_iff. exists j. split; [reflexivity|].
    apply filter_In. split; [auto|apply Nat.eqb_refl].
Qed.
Lemma node_members_b j i : (i < m)%nat -> existsb (Nat.eqb i) (node_members q j) = atb j i.
Proof.
  intros Hi. unfold atb. apply Bool.eq_iff_eq_true. rewrite !existsb_exists. split.
  - intros [i' [H1 H2]]. apply Nat.eqb_eq in H2. subst i'. apply node_members_in in H1. exists j. split; [apply H1|apply Nat.eqb_refl].
  - intros [j' [H1 H2]]. apply Nat.eqb_eq in H2. subst j'. exists i. split; [|apply Nat.eqb_refl]. apply node_members_in. split; auto.
Qed.
Lemma nvars_top : tm_nvars q true = (st + (m + (nn + offs (glen q) ng)))%nat.
Proof. rewrite nvars_eq. fold m np ny c nd st ng nn. lia. Qed.
Lemma vdot_YZ a x : (forall k, (k < st)%nat -> a k = 0) -> (forall k, (st + m + nn <= k)%nat -> a k = 0) ->
  vdot (tm_nvars q true) a x = sumn m (fun i => a (st + i)%nat * tval q x (VY i)) + sumn nn (fun j => a (st + m + j)%nat * tval q x (Vz j)).
Proof.
  intros H1 H2. rewrite nvars_top. unfold vdot. rewrite !sumn_app.
  rewrite (sumn_zero st) by (intros k Hk; rewrite H1 by auto; lra).
  rewrite (sumn_zero (offs (glen q) ng)) by (intros k Hk; rewrite H2 by lia; lra).
  rewrite Rplus_0_l, Rplus_0_r. f_equal.
  apply sumn_ext. intros j Hj. unfold tval. cbn [tpos]. fold ny c nd m st. rewrite !Nat.add_assoc. reflexivity.
Qed.
Lemma Yn i : (i < m)%nat -> (st + i < tm_nvars q true)%nat. Proof. rewrite nvars_top. lia. Qed.
Lemma Zn j : (j < nn)%nat -> (st + m + j < tm_nvars q true)%nat. Proof. rewrite nvars_top. lia. Qed.

Lemma rows1_iff x : Forall (lin_holds (tm_nvars q true) x) (top_rows1 q)
  <-> forall j i, (j < nn)%nat -> at_node q j i -> tval q x (Vz j) <= tval q x (VY i).
Proof.
  unfold top_rows1. rewrite Forall_flat_map_seq.
  assert (E : forall j i, (j < nn)%nat -> at_node q j i ->
    (lin_holds (tm_nvars q true) x (mkLin (set_at (set_at zeros (Zstart q + j) 1) (Ystart q + i) (-1)) 0 false)
     <-> tval q x (Vz j) <= tval q x (VY i))).
  { intros j i Hj [Hi _]. fold m in Hi. rewrite Ystart_eq, Zstart_eq. fold ny c nd st m.
    unfold lin_holds. cbn [l_a l_b l_eq]. cbv zeta iota.
    rewrite vdot_set_at by (apply Yn; auto). rewrite vdot_set_at by (apply Zn; auto).
    rewrite vdot_zeros, set_at_other by lia. unfold zeros, tval. cbn [tpos]. fold ny c nd m st. split; intros; lra. }
  split.
  - intros H j i Hj Hi. apply E; auto. specialize (H j Hj). rewrite Forall_map, Forall_forall in H. apply H. apply node_members_in; auto.
  - intros H j Hj. rewrite Forall_map, Forall_forall. intros i Hi. apply node_members_in in Hi. apply E; auto.
Qed.
Lemma rows2_iff x : Forall (lin_holds (tm_nvars q true) x) (top_rows2 q)
  <-> forall j, (j < nn)%nat -> (if (supported q j =? 0)%nat then 2 else 1) * tval q x (Vz j)
        <= sumn m (fun i => if atb j i then tval q x (VY i) else 0).
Proof.
  unfold top_rows2. rewrite Forall_map, Forall_forall.
  assert (E : forall j, (j < nn)%nat ->
    (lin_holds (tm_nvars q true) x
      (mkLin (set_at (set_all zeros (map (fun i => (i + Ystart q)%nat) (node_members q j)) (-1)) (Zstart q + j)
               (if (supported q j =? 0)%nat then 2 else 1)) 0 false)
     <-> (if (supported q j =? 0)%nat then 2 else 1) * tval q x (Vz j) <= sumn m (fun i => if atb j i then tval q x (VY i) else 0))).
  { intros j Hj. rewrite Ystart_eq, Zstart_eq. fold ny c nd st m.
    rewrite (map_ext (fun i => (i + st)%nat) (fun i => (st + i)%nat)) by (intros; lia).
    unfold lin_holds. cbn [l_a l_b l_eq]. cbv zeta iota.
    set (A := set_all zeros (map (fun i => (st + i)%nat) (node_members q j)) (-1)).
    assert (Aout : forall k, (k < st)%nat \/ (st + m <= k)%nat -> A k = 0).
    { intros k Hk. unfold A. rewrite set_all_val, existsb_out; [reflexivity|]. intros i Hi. apply in_map_iff in Hi.
      destruct Hi as [z [<- Hz]]. apply node_members_in in Hz. destruct Hz as [Hz _]. fold m in Hz. lia. }
    rewrite vdot_set_at by (apply Zn; auto). rewrite (Aout (st + m + j)%nat) by lia.
    rewrite vdot_YZ by (intros; apply Aout; lia).
    rewrite (sumn_zero nn) by (intros k Hk; rewrite Aout by lia; lra).
    rewrite (sumn_ext m _ (fun i => -1 * (if atb j i then tval q x (VY i) else 0))).
    2:{ intros i Hi. unfold A. rewrite set_all_val, existsb_map_plus, node_members_b by auto. unfold zeros. destruct (atb j i); lra. }
    rewrite sumn_scale. change (x (st + m + j)%nat) with (tval q x (Vz j)). split; intros; lra. }
  split; intros H j Hj.
  - apply E; auto. apply H. apply in_seq. lia.
  - apply in_seq in Hj. apply E; [fold nn in Hj; lia|]. apply H. fold nn in Hj. lia.
Qed.
Lemma fold_sub_val n a k : fold_left (fun a j => if (supported q j =? 0)%nat then a
     else set_at a (st + m + j) (a (st + m + j)%nat - INR (supported q j))) (seq 0 n) a k
  = if ((st + m <=? k) && (k <? st + m + n))%nat then a k - INR (supported q (k - st - m)) else a k.
Proof.
  induction n.
  - simpl. destruct (Nat.leb_spec (st + m) k); destruct (Nat.ltb_spec k (st + m + 0)); simpl; try reflexivity. lia.
  - rewrite seq_S, fold_left_app. cbn [fold_left]. rewrite Nat.add_0_l.
    destruct (Nat.eqb_spec (supported q n) 0) as [E|E].
    + rewrite IHn. destruct (Nat.leb_spec (st + m) k); cbn [andb]; [|reflexivity].
      destruct (Nat.ltb_spec k (st + m + n)); destruct (Nat.ltb_spec k (st + m + S n)); try lia; try reflexivity.
      replace (k - st - m)%nat with n by lia. rewrite E. simpl. lra.
    + destruct (Nat.eq_dec k (st + m + n)) as [->|Hne].
      * rewrite set_at_same, IHn. destruct (Nat.leb_spec (st + m) (st + m + n)); [|lia]. destruct (Nat.ltb_spec (st + m + n) (st + m + n)); [lia|].
        destruct (Nat.ltb_spec (st + m + n) (st + m + S n)); [|lia]. cbn [andb].
        replace (st + m + n - st - m)%nat with n by lia. reflexivity.
      * rewrite set_at_other by auto. rewrite IHn. destruct (Nat.leb_spec (st + m) k); cbn [andb]; [|reflexivity].
        destruct (Nat.ltb_spec k (st + m + n)); destruct (Nat.ltb_spec k (st + m + S n)); try lia; reflexivity.
Qed.
Lemma row3_iff x : lin_holds (tm_nvars q true) x (top_row3 q)
  <-> sumn nn (fun j => (2 - INR (supported q j)) * tval q x (Vz j)) <= sumn m (fun i => tval q x (VY i)).
Proof.
  unfold top_row3. rewrite Ystart_eq, Zstart_eq. fold ny c nd st m nn.
  unfold lin_holds. cbn [l_a l_b l_eq]. cbv zeta iota.
  set (A1 := set_all zeros (map (fun i => (st + i)%nat) (seq 0 m)) (-1)).
  set (A2 := set_all A1 (map (fun j => (st + m + j)%nat) (seq 0 nn)) 2).
  assert (V1 : forall k, A1 k = if ((st <=? k) && (k <? st + m))%nat then -1 else 0).
  { intros k. unfold A1. rewrite set_all_val. destruct (Nat.leb_spec st k); cbn [andb].
    - replace k with (st + (k - st))%nat at 1 by lia. rewrite existsb_map_plus, existsb_seq.
      destruct (Nat.ltb_spec (k - st) m); destruct (Nat.ltb_spec k (st + m)); try lia; reflexivity.
    - rewrite existsb_out; [reflexivity|]. intros i Hi. apply in_map_iff in Hi. destruct Hi as [z [<- Hz]]. lia. }
  assert (V2 : forall k, A2 k = if ((st + m <=? k) && (k <? st + m + nn))%nat then 2 else A1 k).
  { intros k. unfold A2. rewrite set_all_val. destruct (Nat.leb_spec (st + m) k); cbn [andb].
    - replace k with (st + m + (k - (st + m)))%nat at 1 by lia. rewrite existsb_map_plus, existsb_seq.
      destruct (Nat.ltb_spec (k - (st + m)) nn); destruct (Nat.ltb_spec k (st + m + nn)); try lia; reflexivity.
    - rewrite existsb_out; [reflexivity|]. intros i Hi. apply in_map_iff in Hi. destruct Hi as [z [<- Hz]]. lia. }
  rewrite vdot_YZ.
  - rewrite (sumn_ext m _ (fun i => -1 * tval q x (VY i))).
    2:{ intros i Hi. rewrite fold_sub_val, V2, V1. destruct (Nat.leb_spec (st + m) (st + i)); [lia|]. cbn [andb].
        destruct (Nat.leb_spec st (st + i)); [|lia]. destruct (Nat.ltb_spec (st + i) (st + m)); [|lia]. cbn [andb]. reflexivity. }
    rewrite (sumn_ext nn _ (fun j => (2 - INR (supported q j)) * tval q x (Vz j))).
    2:{ intros j Hj. rewrite fold_sub_val, V2. destruct (Nat.leb_spec (st + m) (st + m + j)); [|lia].
        destruct (Nat.ltb_spec (st + m + j) (st + m + nn)); [|lia]. cbn [andb]. replace (st + m + j - st - m)%nat with j by lia. reflexivity. }
    rewrite sumn_scale. split; intros; lra.
  - intros k Hk. rewrite fold_sub_val, V2, V1. destruct (Nat.leb_spec (st + m) k); [lia|]. cbn [andb].
    destruct (Nat.leb_spec st k); [lia|]. reflexivity.
  - intros k Hk. rewrite fold_sub_val, V2, V1. destruct (Nat.ltb_spec k (st + m + nn)); [lia|].
    destruct (Nat.ltb_spec k (st + m)); [lia|]. rewrite !Bool.andb_false_r. reflexivity.
Qed.
Lemma fold_set_val n k : fold_left (fun a j => if (supported q j =? 0)%nat then a else set_at a (st + m + j) (-1)) (seq 0 n) zeros k
  = if ((st + m <=? k) && (k <? st + m + n) && negb (supported q (k - st - m) =? 0))%nat then -1 else 0.
Proof.
  induction n.
  - simpl. destruct (Nat.leb_spec (st + m) k); destruct (Nat.ltb_spec k (st + m + 0)); simpl; try reflexivity. lia.
  - rewrite seq_S, fold_left_app. cbn [fold_left]. rewrite Nat.add_0_l.
    destruct (Nat.eqb_spec (supported q n) 0) as [E|E].
    + rewrite IHn. destruct (Nat.leb_spec (st + m) k); cbn [andb]; [|reflexivity].
      destruct (Nat.ltb_spec k (st + m + n)); destruct (Nat.ltb_spec k (st + m + S n)); try lia; cbn [andb]; try reflexivity.
      replace (k - st - m)%nat with n by lia. rewrite E. reflexivity.
    + destruct (Nat.eq_dec k (st + m + n)) as [->|Hne].
      * rewrite set_at_same. destruct (Nat.leb_spec (st + m) (st + m + n)); [|lia]. destruct (Nat.ltb_spec (st + m + n) (st + m + S n)); [|lia]. cbn [andb].
        replace (st + m + n - st - m)%nat with n by lia. destruct (Nat.eqb_spec (supported q n) 0); [contradiction|]. reflexivity.
      * rewrite set_at_other by auto. rewrite IHn. destruct (Nat.leb_spec (st + m) k); cbn [andb]; [|reflexivity].
        destruct (Nat.ltb_spec k (st + m + n)); destruct (Nat.ltb_spec k (st + m + S n)); try lia; reflexivity.
Qed.
Lemma row4_iff x : lin_holds (tm_nvars q true) x (top_row4 q)
  <-> 2 <= sumn nn (fun j => if (supported q j =? 0)%nat then 0 else tval q x (Vz j)).
Proof.
  unfold top_row4. rewrite Zstart_eq. fold ny c nd st m nn.
  unfold lin_holds. cbn [l_a l_b l_eq]. cbv zeta iota. rewrite vdot_YZ.
  - rewrite (sumn_zero m).
    2:{ intros i Hi. rewrite fold_set_val. destruct (Nat.leb_spec (st + m) (st + i)); [lia|]. cbn [andb]. lra. }
    rewrite (sumn_ext nn _ (fun j => -1 * (if (supported q j =? 0)%nat then 0 else tval q x (Vz j)))).
    2:{ intros j Hj. rewrite fold_set_val. destruct (Nat.leb_spec (st + m) (st + m + j)); [|lia].
        destruct (Nat.ltb_spec (st + m + j) (st + m + nn)); [|lia]. replace (st + m + j - st - m)%nat with j by lia. cbn [andb].
        destruct (supported q j =? 0)%nat; simpl; lra. }
    rewrite sumn_scale. split; intros; lra.
  - intros k Hk. rewrite fold_set_val. destruct (Nat.leb_spec (st + m) k); [lia|]. reflexivity.
  - intros k Hk. rewrite fold_set_val. destruct (Nat.ltb_spec k (st + m + nn)); [lia|]. rewrite Bool.andb_false_r. reflexivity.
Qed.

(** groups *)
Lemma index_of_nth l p i j : nth_error l p = Some (Vy i j) -> (forall p', nth_error l p' = Some (Vy i j) -> p' = p) -> index_of (Vy i j) l = p.
Proof.
  revert p. induction l as [|t l IH]; intros p H U; [destruct p; discriminate|].
  destruct p as [|p].
  - simpl in H. injection H as ->. simpl. rewrite !Nat.eqb_refl. reflexivity.
  - simpl in H. assert (E : index_of (Vy i j) l = p).
    { apply IH; auto. intros p' Hp. assert (A := U (S p') Hp). lia. }
    destruct t as [i' j'| | | | |]; simpl; rewrite ?E; try reflexivity.
    destruct (Nat.eqb_spec i' i); destruct (Nat.eqb_spec j' j); simpl; try reflexivity.
    subst. exfalso. specialize (U 0%nat eq_refl). lia.
Qed.
Lemma index_of_vars i j : (i < m)%nat -> (j < np i)%nat -> index_of (Vy i j) (tm_vars q true) = (offs np i + j)%nat.
Proof.
  intros Hi Hj. assert (Hv : tvalid q true (Vy i j)) by (simpl; auto).
  apply index_of_nth.
  - exact (tlayout_lemma q true (Vy i j) Hv).
  - intros p' Hp. exact (tvars_pos_lemma q true p' (Vy i j) Hp).
Qed.
Lemma set_all_dot n l x : NoDup l -> (forall k, In k l -> (k < n)%nat) -> forall a, (forall k, In k l -> a k = 0) ->
  forall v, vdot n (set_all a l v) x = vdot n a x + v * Rsum (map x l).
Proof.
  intros ND HB. induction l as [|h l IH]; intros a Ha v; [simpl; lra|]. inversion ND; subst.
  unfold set_all. cbn [fold_left]. change (vdot n (set_all (set_at a h v) l v) x = vdot n a x + v * Rsum (map x (h :: l))).
  rewrite IH.
  - rewrite vdot_set_at by (apply HB; left; auto). rewrite (Ha h) by (left; auto). cbn [map]. rewrite Rsum_cons. ring.
  - auto.
  - intros k Hk. apply HB. right; auto.
  - intros k Hk. rewrite set_at_other by (intros ->; contradiction). apply Ha. right; auto.
Qed.
Lemma Rsum_seq f n : Rsum (map f (seq 0 n)) = sumn n f.
Proof. induction n; [reflexivity|]. rewrite seq_S, map_app, Rsum_app, IHn. simpl. lra. Qed.
Definition group_ok (x : vec) (g : nat) (mems : list nat) : Prop :=
  sumn (glen q g) (fun j => tval q x (Vw g j)) <= 1
  /\ (forall i j, In i mems -> (j < glen q g)%nat -> tval q x (Vy i j) <= tval q x (Vw g j))
  /\ (forall j, (j < glen q g)%nat -> tval q x (Vw g j) <= Rsum (map (fun i => tval q x (Vy i j)) mems)).
Hypothesis WF : groups_wf q.
Lemma group_rows_iff x g gr : nth_error (tm_groups q) g = Some gr ->
  Forall (lin_holds (tm_nvars q true) x) (group_rows q (offs (glen q) g) gr) <-> group_ok x g (fst gr).
Proof.
  intros Hg. assert (Hgn : (g < ng)%nat) by (apply nth_error_Some; congruence).
  assert (HL : length (snd gr) = glen q g).
  { unfold glen. rewrite (nth_error_nth _ _ _ Hg). reflexivity. }
  destruct (WF gr (nth_error_In _ _ Hg)) as [ND HM].
  assert (HM' : forall i, In i (fst gr) -> (i < m)%nat /\ np i = glen q g).
  { intros i Hi. destruct (HM i Hi) as [A B]. split; [exact A|]. unfold np, tm_np. rewrite B. exact HL. }
  assert (HWn : forall j, (j < glen q g)%nat -> (st + m + nn + offs (glen q) g + j < tm_nvars q true)%nat).
  { intros j Hj. rewrite nvars_top. assert (A := offs_lt (glen q) g j ng Hgn Hj). lia. }
  assert (Hyn : forall i j, (i < m)%nat -> (j < np i)%nat -> (offs np i + j < ny)%nat).
  { intros i j Hi Hj. apply (offs_lt np i j m Hi Hj). }
  assert (Hst : (ny <= st)%nat) by (unfold st; lia).
  unfold group_rows. rewrite HL. rewrite Wstart_eq. fold ny c nd st m nn.
  rewrite Forall_cons_iff, Forall_app, Forall_flat_map.
  assert (E1 : lin_holds (tm_nvars q true) x
     (mkLin (set_all zeros (map (fun i => (st + m + nn + offs (glen q) g + i)%nat) (seq 0 (glen q g))) 1) 1 false)
     <-> sumn (glen q g) (fun j => tval q x (Vw g j)) <= 1).
  { unfold lin_holds. cbn [l_a l_b l_eq]. cbv zeta iota. rewrite set_all_dot.
    - rewrite vdot_zeros, map_map, Rsum_seq.
      rewrite (sumn_ext _ _ (fun j => tval q x (Vw g j))) by (intros; reflexivity). split; intros; lra.
    - apply FinFun.Injective_map_NoDup; [intros a b; lia|apply seq_NoDup].
    - intros k Hk. apply in_map_iff in Hk. destruct Hk as [z [<- Hz]]. apply in_seq in Hz. apply HWn. lia.
    - intros; reflexivity. }
  assert (E2 : forall i j, In i (fst gr) -> (j < glen q g)%nat ->
     (lin_holds (tm_nvars q true) x
       (mkLin (set_at (set_at zeros (st + m + nn + offs (glen q) g + j) (-1)) (index_of (Vy i 0) (tm_vars q true) + j) 1) 0 false)
      <-> tval q x (Vy i j) <= tval q x (Vw g j))).
  { intros i j Hi Hj. destruct (HM' i Hi) as [Hm Hn]. rewrite index_of_vars by (try lia; auto).
    rewrite Nat.add_0_r. unfold lin_holds. cbn [l_a l_b l_eq]. cbv zeta iota.
    assert (A := Hyn i j Hm ltac:(lia)). assert (B := HWn j Hj).
    rewrite vdot_set_at by lia. rewrite vdot_set_at by auto. rewrite vdot_zeros, set_at_other by lia. unfold zeros, tval. cbn [tpos].
    fold ny c nd np m nn st. split; intros; lra. }
  assert (E3 : forall j, (j < glen q g)%nat ->
     (lin_holds (tm_nvars q true) x
       (mkLin (fold_left (fun a i => set_at a (index_of (Vy i j) (tm_vars q true)) (-1)) (fst gr)
                 (set_at zeros (st + m + nn + offs (glen q) g + j) 1)) 0 false)
      <-> tval q x (Vw g j) <= Rsum (map (fun i => tval q x (Vy i j)) (fst gr)))).
  { intros j Hj. unfold lin_holds. cbn [l_a l_b l_eq]. cbv zeta iota.
    assert (F : forall l a, (forall i, In i l -> In i (fst gr)) ->
       fold_left (fun a i => set_at a (index_of (Vy i j) (tm_vars q true)) (-1)) l a
       = set_all a (map (fun i => (offs np i + j)%nat) l) (-1)).
    { induction l as [|h l IH]; intros a H; [reflexivity|]. unfold set_all. cbn [fold_left map]. rewrite IH by (intros; apply H; right; auto).
      destruct (HM' h (H h (or_introl eq_refl))) as [Hm Hn]. rewrite index_of_vars by (auto; lia). reflexivity. }
    rewrite F by auto. assert (B := HWn j Hj). rewrite set_all_dot.
    - rewrite vdot_set_at by auto. rewrite vdot_zeros, map_map. unfold zeros.
      change (x (st + m + nn + offs (glen q) g + j)%nat) with (tval q x (Vw g j)).
      change (map (fun x0 => x (offs np x0 + j)%nat) (fst gr)) with (map (fun i => tval q x (Vy i j)) (fst gr)).
      split; intros; lra.
    - clear E1 E2 F. revert ND HM'. generalize (fst gr). clear HM. induction l as [|h l IH]; intros ND HM'; [constructor|]. inversion ND; subst.
      cbn [map]. constructor; [|apply IH; auto; intros; apply HM'; right; auto].
      intros Hin. apply in_map_iff in Hin. destruct Hin as [i [Ei Hi]]. assert (i <> h) by (intros ->; contradiction).
      destruct (HM' h (or_introl eq_refl)) as [A1 A2]. destruct (HM' i (or_intror Hi)) as [B1 B2].
      assert (P := tpos_inj_lemma q true (Vy i j) (Vy h j)). simpl in P. fold m np in P.
      specialize (P ltac:(split; lia) ltac:(split; lia) Ei). congruence.
    - intros k Hk. apply in_map_iff in Hk. destruct Hk as [i [<- Hi]]. destruct (HM' i Hi) as [Hm Hn].
      assert (A := Hyn i j Hm ltac:(lia)). rewrite nvars_top. lia.
    - intros k Hk. apply in_map_iff in Hk. destruct Hk as [i [<- Hi]]. destruct (HM' i Hi) as [Hm Hn].
      assert (A := Hyn i j Hm ltac:(lia)). rewrite set_at_other by lia. reflexivity. }
  unfold group_ok. rewrite E1. apply and_iff_compat_l.
  split.
  - intros [H1 H2]. rewrite Forall_forall in H1. rewrite Forall_map, Forall_forall in H2. split.
    + intros i j Hi Hj. specialize (H1 i Hi). rewrite Forall_map, Forall_forall in H1. apply E2; auto. apply H1. apply in_seq. lia.
    + intros j Hj. apply E3; auto. apply H2. apply in_seq. lia.
  - intros [H1 H2]. split.
    + apply Forall_forall. intros i Hi. rewrite Forall_map, Forall_forall. intros j Hj. apply in_seq in Hj. apply E2; auto; [lia|]. apply H1; auto. lia.
    + rewrite Forall_map, Forall_forall. intros j Hj. apply in_seq in Hj. apply E3; [lia|]. apply H2. lia.
Qed.
Lemma groups_rows_iff x : Forall (lin_holds (tm_nvars q true) x) (groups_rows q 0 (tm_groups q))
  <-> forall g gr, nth_error (tm_groups q) g = Some gr -> group_ok x g (fst gr).
Proof.
  assert (G : forall l a, (forall g gr, nth_error l g = Some gr -> nth_error (tm_groups q) (a + g) = Some gr) ->
    (Forall (lin_holds (tm_nvars q true) x) (groups_rows q (offs (glen q) a) l)
     <-> forall g gr, nth_error l g = Some gr -> group_ok x (a + g) (fst gr))).
  { induction l as [|h l IH]; intros a Ha.
    - split; [intros _ g gr H; destruct g; discriminate|constructor].
    - cbn [groups_rows]. assert (H0 := Ha 0%nat h eq_refl). rewrite Nat.add_0_r in H0.
      rewrite Forall_app, (group_rows_iff x a h H0).
      replace (offs (glen q) a + length (snd h))%nat with (offs (glen q) (S a)).
      2:{ rewrite offs_S. f_equal. unfold glen. rewrite (nth_error_nth _ _ _ H0). reflexivity. }
      rewrite IH.
      2:{ intros g gr H. specialize (Ha (S g) gr H). replace (S a + g)%nat with (a + S g)%nat by lia. auto. }
      split.
      + intros [A B] g gr H. destruct g as [|g].
        * simpl in H. injection H as <-. rewrite Nat.add_0_r. auto.
        * replace (a + S g)%nat with (S a + g)%nat by lia. apply B. auto.
      + intros H. split.
        * specialize (H 0%nat h eq_refl). rewrite Nat.add_0_r in H. auto.
        * intros g gr Hg. specialize (H (S g) gr Hg). replace (S a + g)%nat with (a + S g)%nat by lia. auto. }
  apply (G (tm_groups q) 0%nat). auto.
Qed.
End TM2.
