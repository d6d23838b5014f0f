From Verif Require Import Bool_tac Mat Sizing_proofs Sizing2_proofs Sizing3_proofs.
From Verif Require Import Tmilp_model Tmilp_spec.
Require Import List Bool Lia Lra Psatz.
Import ListNotations.
Open Scope R_scope.

(** lists laid out block after block *)
Lemma offs_S len n : offs len (S n) = (offs len n + len n)%nat.
Proof. unfold offs. rewrite seq_S, map_app, list_sum_app. simpl. lia. Qed.
Lemma offs_mono len i n : (i <= n)%nat -> (offs len i <= offs len n)%nat.
Proof. induction 1; [lia|]. rewrite offs_S. lia. Qed.
Lemma offs_lt len i j n : (i < n)%nat -> (j < len i)%nat -> (offs len i + j < offs len n)%nat.
Proof. intros H1 H2. assert (H := offs_mono len (S i) n ltac:(lia)). rewrite offs_S in H. lia. Qed.
Lemma blk_len {X} (f : nat -> list X) len n : (forall i, length (f i) = len i) -> length (flat_map f (seq 0 n)) = offs len n.
Proof.
  intros H. induction n; [reflexivity|]. rewrite seq_S, flat_map_app, app_length, offs_S, IHn. simpl.
  rewrite app_nil_r, H. reflexivity.
Qed.
Lemma blk_nth {X} (f : nat -> list X) len n i j : (forall i, length (f i) = len i) -> (i < n)%nat -> (j < len i)%nat ->
  nth_error (flat_map f (seq 0 n)) (offs len i + j) = nth_error (f i) j.
Proof.
  intros H. induction n; intros Hi Hj; [lia|]. rewrite seq_S, flat_map_app. simpl. rewrite app_nil_r.
  destruct (Nat.eq_dec i n) as [->|Hne].
  - rewrite nth_error_app2; rewrite (blk_len f len) by auto; [f_equal; lia|lia].
  - rewrite nth_error_app1; [apply IHn; [lia|auto]|]. rewrite (blk_len f len) by auto. apply offs_lt; [lia|auto].
Qed.
Lemma offs_inv len n v : (v < offs len n)%nat -> exists i j, (i < n)%nat /\ (j < len i)%nat /\ v = (offs len i + j)%nat.
Proof.
  induction n; intros H; [unfold offs in H; simpl in H; lia|]. rewrite offs_S in H.
  destruct (Nat.lt_ge_cases v (offs len n)) as [H1|H1].
  - destruct (IHn H1) as [i [j [A [B C]]]]. exists i, j. repeat split; auto.
  - exists n, (v - offs len n)%nat. repeat split; lia.
Qed.
Lemma offs_const c n : offs (fun _ => c) n = (n * c)%nat.
Proof. induction n; [reflexivity|]. rewrite offs_S, IHn. lia. Qed.
Lemma sumn_offs len n f : sumn (offs len n) f = sumn n (fun i => sumn (len i) (fun j => f (offs len i + j)%nat)).
Proof. induction n; [reflexivity|]. rewrite offs_S, sumn_app, IHn. reflexivity. Qed.
Lemma combine_seq {X} (l : list X) d : combine (seq 0 (length l)) l = map (fun g => (g, nth g l d)) (seq 0 (length l)).
Proof.
  assert (H : forall a, combine (seq a (length l)) l = map (fun g => (g, nth (g - a) l d)) (seq a (length l))).
  { induction l as [|y l IH]; intros a; [reflexivity|]. simpl. rewrite Nat.sub_diag. f_equal. rewrite IH.
    apply map_ext_in. intros g Hg. apply in_seq in Hg. replace (g - a)%nat with (S (g - S a)) by lia. reflexivity. }
  rewrite H. apply map_ext. intros g. rewrite Nat.sub_0_r. reflexivity.
Qed.
Lemma nth_error_mapseq {X} (f : nat -> X) n j : (j < n)%nat -> nth_error (map f (seq 0 n)) j = Some (f j).
Proof.
  intros H. rewrite nth_error_map, (nth_error_nth' _ 0%nat) by (rewrite seq_length; auto). rewrite seq_nth by auto. reflexivity.
Qed.
Lemma list_sum_flat (f : nat -> list nat) n : list_sum (flat_map f (seq 0 n)) = offs (fun i => list_sum (f i)) n.
Proof.
  induction n; [reflexivity|]. rewrite seq_S, flat_map_app, list_sum_app, offs_S, IHn. simpl. rewrite app_nil_r. reflexivity.
Qed.

Section TM.
Variable q : tm_data.
Let m := tm_nmem q.
Let np := tm_np q.
Let ny := nsel q.
Let c := tm_nlc q.
Let nd := tm_ndof q.
Let st := (ny + c * (ny + nd))%nat.

Lemma ny_eq : tm_ny q = ny.
Proof. reflexivity. Qed.
Lemma nstate_eq : tm_nstate q = (c * (ny + nd))%nat.
Proof.
  unfold tm_nstate. rewrite list_sum_flat.
  change (list_sum (map (fun _ => tm_ndof q) (seq 0 (tm_nlc q)))) with (offs (fun _ => nd) c). rewrite offs_const.
  replace (offs _ (tm_nmem q)) with (c * ny)%nat; [lia|]. unfold ny, nsel. fold m.
  induction m; [unfold offs; simpl; lia|]. rewrite !offs_S, <- IHn.
  change (list_sum (map (fun _ => tm_np q n) (seq 0 (tm_nlc q)))) with (offs (fun _ => tm_np q n) c). rewrite offs_const. lia.
Qed.
Lemma Ystart_eq : Ystart q = st.
Proof. unfold Ystart. rewrite nstate_eq. reflexivity. Qed.
Lemma Zstart_eq : Zstart q = (st + m)%nat.
Proof. unfold Zstart. rewrite nstate_eq. reflexivity. Qed.
Lemma Wstart_eq : Wstart q = (st + m + tm_nnodes q)%nat.
Proof. unfold Wstart. rewrite nstate_eq. reflexivity. Qed.

(** the layout *)
Let fy := fun i => map (Vy i) (seq 0 (np i)).
Let fN := fun k i => map (fun j => VN i j k) (seq 0 (np i)).
Let fk := fun k => flat_map (fN k) (seq 0 m) ++ map (fun d => Vu d k) (seq 0 nd).
Let fw := fun g => map (Vw g) (seq 0 (glen q g)).
Let ng := length (tm_groups q).
Let Ly := flat_map fy (seq 0 m).
Let LN := flat_map fk (seq 0 c).
Let Lt (top : bool) := if top then map VY (seq 0 m) ++ map Vz (seq 0 (tm_nnodes q)) ++ flat_map fw (seq 0 ng) else [].
Lemma flat_map_mapseq {X} (f : nat * (list nat * list nat) -> list X) (g : nat -> nat * (list nat * list nat)) l :
  flat_map f (map g l) = flat_map (fun i => f (g i)) l.
Proof. induction l; simpl; [reflexivity|]. rewrite IHl. reflexivity. Qed.
Lemma vars_eq top : tm_vars q top = Ly ++ LN ++ Lt top.
Proof.
  unfold tm_vars. f_equal. f_equal. destruct top; [|reflexivity]. unfold Lt. f_equal. f_equal.
  rewrite (combine_seq _ ([], [])), flat_map_mapseq. reflexivity.
Qed.
Lemma Ly_len : length Ly = ny.
Proof. unfold Ly. apply blk_len. intros i. unfold fy. rewrite map_length, seq_length. reflexivity. Qed.
Lemma fN_len k : length (flat_map (fN k) (seq 0 m)) = ny.
Proof. apply blk_len. intros i. unfold fN. rewrite map_length, seq_length. reflexivity. Qed.
Lemma fk_len k : length (fk k) = (ny + nd)%nat.
Proof. unfold fk. rewrite app_length, fN_len, map_length, seq_length. reflexivity. Qed.
Lemma LN_len : length LN = (c * (ny + nd))%nat.
Proof. unfold LN. rewrite (blk_len fk (fun _ => (ny + nd)%nat)) by apply fk_len. apply offs_const. Qed.
Lemma Lt_len : length (Lt true) = (m + tm_nnodes q + offs (glen q) ng)%nat.
Proof.
  unfold Lt. rewrite !app_length, !map_length, !seq_length, (blk_len fw (glen q)).
  - lia.
  - intros g. unfold fw. rewrite map_length, seq_length. reflexivity.
Qed.
Lemma nvars_eq top : tm_nvars q top = (st + (if top then m + tm_nnodes q + offs (glen q) ng else 0))%nat.
Proof.
  unfold tm_nvars. rewrite vars_eq, !app_length, Ly_len, LN_len. unfold st.
  destruct top; [rewrite Lt_len; lia|simpl; lia].
Qed.
Lemma nth_LN k r : (k < c)%nat -> (r < ny + nd)%nat -> nth_error LN (k * (ny + nd) + r) = nth_error (fk k) r.
Proof.
  intros Hk Hr. rewrite <- (offs_const (ny + nd) k). unfold LN. apply (blk_nth fk (fun _ => (ny + nd)%nat)); auto. apply fk_len.
Qed.
Lemma tpos_lt_lemma top t : tvalid q top t -> (tpos q t < tm_nvars q top)%nat.
Proof.
  rewrite nvars_eq. destruct t; simpl; fold m np ny c nd ng st; intros H.
  - assert (A := offs_lt np i j m ltac:(tauto) ltac:(tauto)). unfold st. change (offs np m) with ny in A. lia.
  - assert (A := offs_lt np i j m ltac:(tauto) ltac:(tauto)). change (offs np m) with ny in A. unfold st.
    assert ((k + 1) * (ny + nd) <= c * (ny + nd))%nat by (apply Nat.mul_le_mono_r; lia). lia.
  - unfold st. assert ((k + 1) * (ny + nd) <= c * (ny + nd))%nat by (apply Nat.mul_le_mono_r; lia). lia.
  - destruct H as [-> H]. lia.
  - destruct H as [-> H]. lia.
  - destruct H as [-> [H1 H2]]. assert (A := offs_lt (glen q) g j ng H1 H2). lia.
Qed.
Lemma tlayout_lemma top t : tvalid q top t -> nth_error (tm_vars q top) (tpos q t) = Some t.
Proof.
  rewrite vars_eq. destruct t; simpl; fold m np ny c nd ng st; intros H.
  - assert (A := offs_lt np i j m ltac:(tauto) ltac:(tauto)). change (offs np m) with ny in A.
    rewrite nth_error_app1 by (rewrite Ly_len; auto). unfold Ly. rewrite (blk_nth fy np); try tauto.
    + unfold fy. apply nth_error_mapseq. tauto.
    + intros z. unfold fy. rewrite map_length, seq_length. reflexivity.
  - assert (A := offs_lt np i j m ltac:(tauto) ltac:(tauto)). change (offs np m) with ny in A.
    assert (B : ((k + 1) * (ny + nd) <= c * (ny + nd))%nat) by (apply Nat.mul_le_mono_r; lia).
    rewrite nth_error_app2 by (rewrite Ly_len; lia). rewrite Ly_len.
    rewrite nth_error_app1 by (rewrite LN_len; lia).
    replace (ny + k * (ny + nd) + offs np i + j - ny)%nat with (k * (ny + nd) + (offs np i + j))%nat by lia.
    rewrite nth_LN by lia. unfold fk. rewrite nth_error_app1 by (rewrite fN_len; auto).
    rewrite (blk_nth (fN k) np); try tauto.
    + unfold fN. apply (nth_error_mapseq (fun j => VN i j k)). tauto.
    + intros z. unfold fN. rewrite map_length, seq_length. reflexivity.
  - assert (B : ((k + 1) * (ny + nd) <= c * (ny + nd))%nat) by (apply Nat.mul_le_mono_r; lia).
    rewrite nth_error_app2 by (rewrite Ly_len; lia). rewrite Ly_len.
    rewrite nth_error_app1 by (rewrite LN_len; lia).
    replace (ny + k * (ny + nd) + ny + d - ny)%nat with (k * (ny + nd) + (ny + d))%nat by lia.
    rewrite nth_LN by lia. unfold fk. rewrite nth_error_app2 by (rewrite fN_len; lia). rewrite fN_len.
    replace (ny + d - ny)%nat with d by lia. apply (nth_error_mapseq (fun d => Vu d k)). tauto.
  - destruct H as [-> H]. unfold st. rewrite nth_error_app2 by (rewrite Ly_len; lia). rewrite Ly_len.
    rewrite nth_error_app2 by (rewrite LN_len; lia). rewrite LN_len.
    replace (ny + c * (ny + nd) + i - ny - c * (ny + nd))%nat with i by lia. unfold Lt.
    rewrite nth_error_app1 by (rewrite map_length, seq_length; auto). apply nth_error_mapseq; auto.
  - destruct H as [-> H]. unfold st. rewrite nth_error_app2 by (rewrite Ly_len; lia). rewrite Ly_len.
    rewrite nth_error_app2 by (rewrite LN_len; lia). rewrite LN_len.
    replace (ny + c * (ny + nd) + m + j - ny - c * (ny + nd))%nat with (m + j)%nat by lia. unfold Lt.
    rewrite nth_error_app2 by (rewrite map_length, seq_length; lia). rewrite map_length, seq_length.
    replace (m + j - m)%nat with j by lia.
    rewrite nth_error_app1 by (rewrite map_length, seq_length; auto). apply nth_error_mapseq; auto.
  - destruct H as [-> [H1 H2]]. unfold st. rewrite nth_error_app2 by (rewrite Ly_len; lia). rewrite Ly_len.
    rewrite nth_error_app2 by (rewrite LN_len; lia). rewrite LN_len.
    replace (ny + c * (ny + nd) + m + tm_nnodes q + offs (glen q) g + j - ny - c * (ny + nd))%nat
      with (m + (tm_nnodes q + (offs (glen q) g + j)))%nat by lia. unfold Lt.
    rewrite nth_error_app2 by (rewrite map_length, seq_length; lia). rewrite map_length, seq_length.
    replace (m + (tm_nnodes q + (offs (glen q) g + j)) - m)%nat with (tm_nnodes q + (offs (glen q) g + j))%nat by lia.
    rewrite nth_error_app2 by (rewrite map_length, seq_length; lia). rewrite map_length, seq_length.
    replace (tm_nnodes q + (offs (glen q) g + j) - tm_nnodes q)%nat with (offs (glen q) g + j)%nat by lia.
    rewrite (blk_nth fw (glen q)); auto.
    + unfold fw. apply nth_error_mapseq; auto.
    + intros z. unfold fw. rewrite map_length, seq_length. reflexivity.
Qed.
Lemma tvars_valid_lemma top v t : nth_error (tm_vars q top) v = Some t -> tvalid q top t.
Proof.
  intros H. apply nth_error_In in H. rewrite vars_eq in H.
  apply in_app_or in H. destruct H as [H|H]; [|apply in_app_or in H; destruct H as [H|H]].
  - unfold Ly in H. apply in_flat_map in H. destruct H as [i [Hi H]]. apply in_seq in Hi.
    apply in_map_iff in H. destruct H as [j [<- Hj]]. apply in_seq in Hj. simpl. fold m np. split; lia.
  - unfold LN in H. apply in_flat_map in H. destruct H as [k [Hk H]]. apply in_seq in Hk. apply in_app_or in H. destruct H as [H|H].
    + apply in_flat_map in H. destruct H as [i [Hi H]]. apply in_seq in Hi.
      apply in_map_iff in H. destruct H as [j [<- Hj]]. apply in_seq in Hj. simpl. fold m np c. repeat split; lia.
    + apply in_map_iff in H. destruct H as [j [<- Hj]]. apply in_seq in Hj. simpl. fold nd c. split; lia.
  - destruct top; [|destruct H]. unfold Lt in H. apply in_app_or in H. destruct H as [H|H]; [|apply in_app_or in H; destruct H as [H|H]].
    + apply in_map_iff in H. destruct H as [j [<- Hj]]. apply in_seq in Hj. simpl. fold m. split; [reflexivity|lia].
    + apply in_map_iff in H. destruct H as [j [<- Hj]]. apply in_seq in Hj. simpl. split; [reflexivity|lia].
    + apply in_flat_map in H. destruct H as [i [Hi H]]. apply in_seq in Hi.
      apply in_map_iff in H. destruct H as [j [<- Hj]]. apply in_seq in Hj. simpl. fold ng. repeat split; lia.
Qed.
Lemma tpos_inj_lemma top t t' : tvalid q top t -> tvalid q top t' -> tpos q t = tpos q t' -> t = t'.
Proof.
  intros H H' E. assert (A := tlayout_lemma top t H). rewrite E, (tlayout_lemma top t' H') in A. congruence.
Qed.
Lemma nodup_nth {X} (l : list X) : (forall a b x, nth_error l a = Some x -> nth_error l b = Some x -> a = b) -> NoDup l.
Proof.
  intros H. apply NoDup_nth_error. intros i j Hi E. destruct (nth_error l i) as [x|] eqn:Ei.
  - apply (H i j x); auto.
  - apply nth_error_None in Ei. lia.
Qed.
Lemma tvars_pos_lemma top v t : nth_error (tm_vars q top) v = Some t -> v = tpos q t.
Proof.
  intros H. assert (Hv : (v < st + (if top then m + tm_nnodes q + offs (glen q) ng else 0))%nat).
  { rewrite <- nvars_eq. apply nth_error_Some. congruence. }
  assert (E : exists t', tvalid q top t' /\ tpos q t' = v).
  { destruct (Nat.lt_ge_cases v ny) as [H1|H1].
    { destruct (offs_inv np m v H1) as [i [j [A [B C]]]]. exists (Vy i j). split; [simpl; auto|]. simpl. auto. }
    destruct (Nat.lt_ge_cases v st) as [H2|H2].
    { unfold st in H2. assert (Hb : (v - ny < offs (fun _ => ny + nd)%nat c)%nat) by (rewrite offs_const; lia).
      destruct (offs_inv _ _ _ Hb) as [k [r [A [B C]]]]. rewrite offs_const in C.
      destruct (Nat.lt_ge_cases r ny) as [H3|H3].
      - destruct (offs_inv np m r H3) as [i [j [D [E F]]]]. exists (VN i j k). split; [simpl; auto|]. simpl. fold m np ny c nd. lia.
      - exists (Vu (r - ny) k). split; [simpl; fold nd c; split; lia|]. simpl. fold m np ny c nd. lia. }
    destruct top; [|lia].
    destruct (Nat.lt_ge_cases v (st + m)) as [H3|H3].
    { exists (VY (v - st)). split; [simpl; fold m; split; [auto|lia]|]. simpl. fold m np ny c nd st. lia. }
    destruct (Nat.lt_ge_cases v (st + m + tm_nnodes q)) as [H4|H4].
    { exists (Vz (v - st - m)). split; [simpl; split; [auto|lia]|]. simpl. fold m np ny c nd st. lia. }
    destruct (offs_inv (glen q) ng (v - st - m - tm_nnodes q)) as [g [j [A [B C]]]]; [lia|].
    exists (Vw g j). split; [simpl; auto|]. simpl. fold m np ny c nd st. lia. }
  destruct E as [t' [E1 E2]]. subst v. rewrite (tlayout_lemma top t' E1) in H. congruence.
Qed.

(** ---------------- selection rows ---------------- *)
Lemma lead_app l r : (forall t, In t l -> exists i j, t = Vy i j) -> (match r with Vy _ _ :: _ => False | _ => True end) -> lead_y (l ++ r) = l.
Proof.
  intros H Hr. induction l as [|t l IH]; simpl.
  - destruct r as [|t r]; [reflexivity|]. destruct t; simpl in *; tauto.
  - destruct (H t (or_introl eq_refl)) as [i [j ->]]. rewrite IH; [reflexivity|]. intros t' Ht. apply H. right; auto.
Qed.
Lemma lead_vars top : lead_y (tm_vars q top) = Ly.
Proof.
  rewrite vars_eq. apply lead_app.
  - intros t Ht. unfold Ly in Ht. apply in_flat_map in Ht. destruct Ht as [i [_ Ht]]. apply in_map_iff in Ht.
    destruct Ht as [j [<- _]]. eauto.
  - destruct (LN ++ Lt top) as [|t r] eqn:E; [exact I|]. destruct t; auto. exfalso.
    assert (H : In (Vy i j) (LN ++ Lt top)) by (rewrite E; left; auto). apply in_app_or in H. destruct H as [H|H].
    + unfold LN in H. apply in_flat_map in H. destruct H as [k [Hk H]]. apply in_app_or in H. destruct H as [H|H].
      * apply in_flat_map in H. destruct H as [i' [Hi H]]. apply in_map_iff in H. destruct H as [? [H _]]. discriminate.
      * apply in_map_iff in H. destruct H as [? [H _]]. discriminate.
    + unfold Lt in H. destruct top; [|destruct H]. apply in_app_or in H. destruct H as [H|H]; [|apply in_app_or in H; destruct H as [H|H]].
      * apply in_map_iff in H. destruct H as [? [H _]]. discriminate.
      * apply in_map_iff in H. destruct H as [? [H _]]. discriminate.
      * apply in_flat_map in H. destruct H as [i' [Hi H]]. apply in_map_iff in H. destruct H as [? [H _]]. discriminate.
Qed.
Lemma Ly_nth i j : (i < m)%nat -> (j < np i)%nat -> nth_error Ly (offs np i + j) = Some (Vy i j).
Proof.
  intros Hi Hj. unfold Ly. rewrite (blk_nth fy np); auto.
  - unfold fy. apply nth_error_mapseq; auto.
  - intros z. unfold fy. rewrite map_length, seq_length. reflexivity.
Qed.
Lemma nvars_split top : exists r, tm_nvars q top = (ny + r)%nat.
Proof. rewrite nvars_eq. unfold st. exists (c * (ny + nd) + (if top then m + tm_nnodes q + offs (glen q) ng else 0))%nat. lia. Qed.
Lemma Aeq_out top i v : (ny <= v)%nat -> Aeq q top i v = 0.
Proof.
  intros H. unfold Aeq. rewrite lead_vars. replace (nth_error Ly v) with (@None tvar); [reflexivity|].
  symmetry. apply nth_error_None. rewrite Ly_len. auto.
Qed.
Lemma Aeq_val top i x : (i < m)%nat -> vdot (tm_nvars q top) (Aeq q top i) x = sumn (np i) (fun j => tval q x (Vy i j)).
Proof.
  intros Hi. destruct (nvars_split top) as [r ->]. unfold vdot. rewrite sz_sumn_cut.
  2:{ intros v Hv. rewrite Aeq_out by auto. lra. }
  unfold ny, nsel. rewrite sumn_offs. fold np m.
  rewrite (sumn_ext m _ (fun i' => if (i' =? i)%nat then sumn (np i') (fun j => x (offs np i' + j)%nat) else 0)).
  - rewrite (sumn_delta m i (fun i' => sumn (np i') (fun j => x (offs np i' + j)%nat))) by auto. reflexivity.
  - intros i' Hi'. unfold Aeq. rewrite lead_vars. destruct (Nat.eqb_spec i' i).
    + apply sumn_ext. intros j Hj. rewrite Ly_nth by auto. subst i'. rewrite Nat.eqb_refl. ring.
    + apply sumn_zero. intros j Hj. rewrite Ly_nth by auto. destruct (Nat.eqb_spec i' i); [contradiction|]. ring.
Qed.
Lemma sel_rows_iff top x : Forall (lin_holds (tm_nvars q top) x) (tm_sel_rows q top)
  <-> forall i, (i < m)%nat -> sumn (np i) (fun j => tval q x (Vy i j)) = if top then tval q x (VY i) else 1.
Proof.
  unfold tm_sel_rows. rewrite Forall_map, Forall_forall. fold m.
  assert (E : forall i, (i < m)%nat -> (lin_holds (tm_nvars q top) x
     (mkLin (if top then set_at (Aeq q top i) (Ystart q + i) (-1) else Aeq q top i) (if top then 0 else 1) true)
     <-> sumn (np i) (fun j => tval q x (Vy i j)) = if top then tval q x (VY i) else 1)).
  { intros i Hi. unfold lin_holds. destruct top; cbn [l_a l_b l_eq]; cbv zeta iota.
    - rewrite Ystart_eq, vdot_set_at.
      + rewrite Aeq_val, Aeq_out by (auto; unfold st; lia). unfold tval at 3. cbn [tpos]. fold ny c nd st.
        split; intros H; lra.
      + rewrite nvars_eq. lia.
    - rewrite Aeq_val by auto. split; intros H; lra. }
  split; intros H i Hi.
  - apply E; auto. apply H. apply in_seq. lia.
  - apply E; [apply in_seq in Hi; lia|]. apply H. apply in_seq in Hi. lia.
Qed.

(** ---------------- objective ---------------- *)
Lemma weight_loop_val n a cv v : weight_loop q (seq a n) (offs np a) cv v
  = if (v <? offs np a)%nat then cv v else if (v <? offs np (a + n))%nat then weight_loop q (seq a n) (offs np a) zeros v else cv v.
Proof.
  revert a cv. induction n; intros a cv.
  - simpl. rewrite Nat.add_0_r. destruct (Nat.ltb_spec v (offs np a)); auto.
  - cbn [seq weight_loop]. fold (np a). rewrite <- offs_S.
    rewrite IHn. rewrite (IHn (S a) (set_slice zeros _ _ _)).
    replace (a + S n)%nat with (S a + n)%nat by lia. unfold set_slice.
    assert (A := offs_mono np a (S a) ltac:(lia)). assert (B := offs_mono np (S a) (S a + n) ltac:(lia)).
    destruct (Nat.ltb_spec v (offs np (S a))); destruct (Nat.ltb_spec v (offs np a)); destruct (Nat.leb_spec (offs np a) v);
      destruct (Nat.ltb_spec v (offs np (S a + n))); simpl; try reflexivity; lia.
Qed.
Lemma weight_at n a i j : (a <= i)%nat -> (i < a + n)%nat -> (j < np i)%nat ->
  weight_loop q (seq a n) (offs np a) zeros (offs np i + j)%nat = t_w q i j.
Proof.
  revert a. induction n; intros a H1 H2 H3; [lia|]. cbn [seq weight_loop]. fold (np a). rewrite <- offs_S.
  destruct (Nat.eq_dec i a) as [->|Hne].
  - rewrite weight_loop_val. rewrite offs_S. destruct (Nat.ltb_spec (offs np a + j) (offs np a + np a)); [|lia].
    rewrite set_slice_in by lia. f_equal. lia.
  - rewrite weight_loop_val. assert (A := offs_mono np (S a) i ltac:(lia)). assert (B := offs_lt np i j (S a + n) ltac:(lia) H3).
    destruct (Nat.ltb_spec (offs np i + j) (offs np (S a))); [lia|].
    destruct (Nat.ltb_spec (offs np i + j) (offs np (S a + n))); [|lia]. apply IHn; lia.
Qed.
Lemma obj_val_lemma top x : tm_obj q top x = sumn m (fun i => sumn (np i) (fun j => t_w q i j * tval q x (Vy i j))).
Proof.
  unfold tm_obj. destruct (nvars_split top) as [r ->]. unfold vdot. change 0%nat with (offs np 0). fold m. rewrite sz_sumn_cut.
  2:{ intros v Hv. rewrite weight_loop_val. rewrite Nat.add_0_l. change (offs np m) with ny.
      destruct (Nat.ltb_spec v (offs np 0)); [unfold zeros; lra|]. destruct (Nat.ltb_spec v ny); [lia|unfold zeros; lra]. }
  unfold ny, nsel. rewrite sumn_offs. fold np m. apply sumn_ext. intros i Hi. apply sumn_ext. intros j Hj.
  rewrite weight_at by (auto; lia). reflexivity.
Qed.

(** ---------------- equilibrium rows ---------------- *)
Lemma B0_val d n a s0 av v : B0_loop q d (seq a n) (s0 + offs np a) av v
  = if ((s0 + offs np a <=? v) && (v <? s0 + offs np (a + n)))%nat then av v + B0_loop q d (seq a n) (s0 + offs np a) zeros v else av v.
Proof.
  revert a av. induction n; intros a av.
  - simpl. rewrite Nat.add_0_r. destruct (Nat.leb_spec (s0 + offs np a) v); destruct (Nat.ltb_spec v (s0 + offs np a)); simpl; try reflexivity. lia.
  - cbn [seq B0_loop]. fold (np a). rewrite <- Nat.add_assoc, <- offs_S. rewrite IHn.
    match goal with |- context [B0_loop q d (seq (S a) n) _ ?f v] => match f with zeros => fail 1 | _ => rewrite (IHn (S a) f) end end.
    replace (a + S n)%nat with (S a + n)%nat by lia.
    assert (A := offs_mono np a (S a) ltac:(lia)). assert (B := offs_mono np (S a) (S a + n) ltac:(lia)).
    unfold zeros.
    destruct (Nat.leb_spec (s0 + offs np (S a)) v); destruct (Nat.leb_spec (s0 + offs np a) v);
      destruct (Nat.ltb_spec v (s0 + offs np (S a))); destruct (Nat.ltb_spec v (s0 + offs np (S a + n))); simpl; try lia; try lra.
Qed.
Lemma B0_at d n a s0 i j : (a <= i)%nat -> (i < a + n)%nat -> (j < np i)%nat ->
  B0_loop q d (seq a n) (s0 + offs np a) zeros (s0 + offs np i + j)%nat = tm_B q d i.
Proof.
  revert a. induction n; intros a H1 H2 H3; [lia|]. cbn [seq B0_loop]. fold (np a). rewrite <- Nat.add_assoc, <- offs_S.
  rewrite B0_val. assert (B := offs_lt np i j (S a + n) ltac:(lia) H3).
  destruct (Nat.eq_dec i a) as [->|Hne].
  - rewrite offs_S. destruct (Nat.leb_spec (s0 + (offs np a + np a)) (s0 + offs np a + j)); [lia|]. cbn [andb].
    destruct (Nat.leb_spec (s0 + offs np a) (s0 + offs np a + j)); [|lia].
    destruct (Nat.ltb_spec (s0 + offs np a + j) (s0 + (offs np a + np a))); [|lia]. cbn [andb]. unfold zeros. lra.
  - assert (A := offs_mono np (S a) i ltac:(lia)).
    destruct (Nat.leb_spec (s0 + offs np (S a)) (s0 + offs np i + j)); [|lia].
    destruct (Nat.ltb_spec (s0 + offs np i + j) (s0 + offs np (S a + n))); [|lia]. cbn [andb].
    destruct (Nat.ltb_spec (s0 + offs np i + j) (s0 + offs np (S a))); [lia|]. rewrite Bool.andb_false_r.
    rewrite IHn by lia. unfold zeros. lra.
Qed.
Lemma B0_dot top d x : (0 < c)%nat ->
  vdot (tm_nvars q top) (tm_B0 q d) x = sumn m (fun i => tm_B q d i * sumn (np i) (fun j => tval q x (VN i j 0))).
Proof.
  intros Hc. assert (exists r, tm_nvars q top = ny + (ny + r))%nat as [r ->].
  { rewrite nvars_eq. unfold st. exists (ny * (c - 1) + c * nd + (if top then m + tm_nnodes q + offs (glen q) ng else 0))%nat.
    destruct c; [lia|]. simpl. destruct top; lia. }
  unfold vdot. unfold tm_B0. rewrite ny_eq. fold m.
  assert (V : forall v, B0_loop q d (seq 0 m) ny zeros v = if ((ny <=? v) && (v <? ny + ny))%nat then B0_loop q d (seq 0 m) ny zeros v else 0).
  { intros v. assert (H := B0_val d m 0 ny zeros v). replace (ny + offs np 0)%nat with ny in H by (unfold offs; simpl; lia).
    change (offs np (0 + m)) with ny in H. rewrite H. unfold zeros.
    destruct (Nat.leb_spec ny v); destruct (Nat.ltb_spec v (ny + ny)); reflexivity. }
  rewrite sumn_app, (sumn_zero ny).
  2:{ intros v Hv. rewrite V. destruct (Nat.leb_spec ny v); [lia|]. simpl. lra. }
  rewrite Rplus_0_l, sz_sumn_cut.
  2:{ intros v Hv. rewrite V. destruct (Nat.ltb_spec (ny + v) (ny + ny)); [lia|]. rewrite Bool.andb_false_r. lra. }
  unfold ny at 1, nsel at 1. rewrite sumn_offs. fold np m. apply sumn_ext. intros i Hi. rewrite <- sumn_scale. apply sumn_ext. intros j Hj.
  assert (H := B0_at d m 0 ny i j ltac:(lia) ltac:(lia) Hj). replace (ny + offs np 0)%nat with ny in H by (unfold offs; simpl; lia).
  rewrite Nat.add_assoc, H. f_equal. unfold tval. cbn [tpos]. fold ny nd np. f_equal. lia.
Qed.
Lemma eq_rows_iff top x : (0 < c)%nat -> Forall (lin_holds (tm_nvars q top) x) (flat_map (tm_eq_rows q) (seq 0 c))
  <-> forall k d, (k < c)%nat -> (d < nd)%nat ->
       sumn m (fun i => tm_B q d i * sumn (np i) (fun j => tval q x (VN i j 0))) = tm_p q k d * tm_sN q.
Proof.
  intros Hc. rewrite Forall_flat_map_seq. unfold tm_eq_rows. split.
  - intros H k d Hk Hd. specialize (H k Hk). rewrite Forall_map, Forall_forall in H. specialize (H d ltac:(apply in_seq; fold nd; lia)).
    unfold lin_holds in H. cbn [l_a l_b l_eq] in H. cbv zeta iota in H. rewrite B0_dot in H by auto. lra.
  - intros H k Hk. rewrite Forall_map, Forall_forall. intros d Hd. apply in_seq in Hd. fold nd in Hd.
    unfold lin_holds. cbn [l_a l_b l_eq]. cbv zeta iota. rewrite B0_dot by auto. rewrite (H k d) by (auto; lia). lra.
Qed.

(** ---------------- compatibility and strength rows ---------------- *)
Lemma pair_loop_iff (P : lin -> Prop) f ps y n : Forall P (pair_loop f ps y n)
  <-> forall r i j, nth_error ps r = Some (i, j) -> Forall P (f (y + r) (n + r) i j)%nat.
Proof.
  revert y n. induction ps as [|[i0 j0] ps IH]; intros y n; simpl.
  - split; [intros _ r i j H; destruct r; discriminate|constructor].
  - rewrite Forall_app, IH. split.
    + intros [H1 H2] r i j H. destruct r as [|r]; simpl in H.
      * injection H as <- <-. rewrite !Nat.add_0_r. auto.
      * specialize (H2 r i j H). replace (y + S r)%nat with (y + 1 + r)%nat by lia. replace (n + S r)%nat with (n + 1 + r)%nat by lia. auto.
    + intros H. split.
      * specialize (H 0%nat i0 j0 eq_refl). rewrite !Nat.add_0_r in H. auto.
      * intros r i j E. specialize (H (S r) i j E). replace (y + S r)%nat with (y + 1 + r)%nat in H by lia.
        replace (n + S r)%nat with (n + 1 + r)%nat in H by lia. auto.
Qed.
Lemma pairs_len : length (tm_pairs q) = ny.
Proof. unfold tm_pairs. apply blk_len. intros i. rewrite map_length, seq_length. reflexivity. Qed.
Lemma pairs_nth i j : (i < m)%nat -> (j < np i)%nat -> nth_error (tm_pairs q) (offs np i + j) = Some (i, j).
Proof.
  intros Hi Hj. unfold tm_pairs. rewrite (blk_nth (fun i => map (fun j => (i, j)) (seq 0 (tm_np q i))) np); auto.
  - apply (nth_error_mapseq (fun j => (i, j))); auto.
  - intros z. rewrite map_length, seq_length. reflexivity.
Qed.
Lemma pairs_iff (P : lin -> Prop) f y n : Forall P (pair_loop f (tm_pairs q) y n)
  <-> forall i j, (i < m)%nat -> (j < np i)%nat -> Forall P (f (y + (offs np i + j)) (n + (offs np i + j)) i j)%nat.
Proof.
  rewrite pair_loop_iff. split.
  - intros H i j Hi Hj. apply H. apply pairs_nth; auto.
  - intros H r i j E. assert (Hr : (r < offs np m)%nat).
    { change (offs np m) with ny. rewrite <- pairs_len. apply nth_error_Some. congruence. }
    destruct (offs_inv np m r Hr) as [i' [j' [A [B C]]]]. subst r. rewrite pairs_nth in E by auto. injection E as <- <-. auto.
Qed.
Lemma comp_loop_iff (P : lin -> Prop) n a N0 : Forall P (comp_loop q (seq a n) N0)
  <-> forall k, (k < n)%nat -> Forall P (pair_loop (tm_comp2 q (ny + (a + k + 1) * ny + (a + k) * nd)) (tm_pairs q) 0 (N0 + k * ny)).
Proof.
  revert a N0. induction n; intros a N0; cbn [seq comp_loop].
  - split; [intros _ k Hk; lia|constructor].
  - rewrite Forall_app, IHn, pairs_len, ny_eq. fold nd. split.
    + intros [H1 H2] k Hk. destruct k as [|k].
      * rewrite !Nat.add_0_r. auto.
      * specialize (H2 k ltac:(lia)). replace (S a + k)%nat with (a + S k)%nat in H2 by lia.
        replace (N0 + S k * ny)%nat with (N0 + ny + k * ny)%nat by lia. auto.
    + intros H. split.
      * specialize (H 0%nat ltac:(lia)). rewrite !Nat.add_0_r in H. auto.
      * intros k Hk. specialize (H (S k) ltac:(lia)). replace (a + S k)%nat with (S a + k)%nat in H by lia.
        replace (N0 + S k * ny)%nat with (N0 + ny + k * ny)%nat in H by lia. auto.
Qed.
Lemma str_loop_iff (P : lin -> Prop) n a N0 : Forall P (str_loop q (seq a n) N0)
  <-> forall k, (k < n)%nat -> Forall P (pair_loop (tm_str2 q) (tm_pairs q) 0 (N0 + k * (ny + nd))).
Proof.
  revert a N0. induction n; intros a N0; cbn [seq str_loop].
  - split; [intros _ k Hk; lia|constructor].
  - rewrite Forall_app, IHn, pairs_len. fold nd. split.
    + intros [H1 H2] k Hk. destruct k as [|k].
      * rewrite !Nat.add_0_r. auto.
      * specialize (H2 k ltac:(lia)). replace (N0 + S k * (ny + nd))%nat with (N0 + ny + nd + k * (ny + nd))%nat by lia. auto.
    + intros H. split.
      * specialize (H 0%nat ltac:(lia)). rewrite !Nat.add_0_r in H. auto.
      * intros k Hk. specialize (H (S k) ltac:(lia)). replace (N0 + S k * (ny + nd))%nat with (N0 + ny + nd + k * (ny + nd))%nat in H by lia. auto.
Qed.
Definition t_stiff (i j : nat) : R := t_k0 q i * tm_A q (tm_pr q i j) * tm_sA q.
Definition t_el (x : vec) (k i : nat) : R := sumn nd (fun d => tm_B q d i * tval q x (Vu d k)).
Lemma comp2_iff nv us y nN i j (x : vec) : (y < nN)%nat -> (nN < us)%nat -> (us + nd <= nv)%nat ->
  Forall (lin_holds nv x) (tm_comp2 q us y nN i j)
  <-> t_stiff i j * sumn nd (fun d => tm_B q d i * x (us + d)%nat) - x nN <= t_Nub q i j * (1 - x y)
      /\ x nN - t_stiff i j * sumn nd (fun d => tm_B q d i * x (us + d)%nat) <= - t_Nlb q i j * (1 - x y).
Proof.
  intros H1 H2 H3. unfold tm_comp2. fold nd.
  assert (Hyn : (y < nv)%nat) by lia. assert (HNn : (nN < nv)%nat) by lia. assert (HyN : y <> nN) by lia. assert (HNy : nN <> y) by lia.
  set (bv := fun d => t_k0 q i * tm_A q (tm_pr q i j) * tm_B q d i * tm_sA q).
  set (a := set_slice (set_at (set_at zeros y (t_Nub q i j)) nN (-1)) us (us + nd) bv).
  assert (Hsum : sumn nd (fun d => bv d * x (us + d)%nat) = t_stiff i j * sumn nd (fun d => tm_B q d i * x (us + d)%nat)).
  { rewrite <- sumn_scale. apply sumn_ext. intros d Hd. unfold bv, t_stiff. ring. }
  assert (Ha0 : forall d, (d < nd)%nat -> set_at (set_at zeros y (t_Nub q i j)) nN (-1) (us + d)%nat = 0).
  { intros d Hd. rewrite !set_at_other by lia. reflexivity. }
  assert (Ha : vdot nv a x = t_Nub q i j * x y - x nN + t_stiff i j * sumn nd (fun d => tm_B q d i * x (us + d)%nat)).
  { unfold a. rewrite vdot_set_slice by auto. rewrite <- Hsum.
    rewrite (sumn_ext nd _ (fun d => bv d * x (us + d)%nat)).
    2:{ intros d Hd. rewrite Ha0 by auto. ring. }
    rewrite !vdot_set_at by auto. rewrite vdot_zeros, set_at_other by auto. unfold zeros. ring. }
  assert (Hay : a y = t_Nub q i j).
  { unfold a. rewrite set_slice_out by lia. rewrite set_at_other, set_at_same by auto. reflexivity. }
  assert (HaN : a nN = -1).
  { unfold a. rewrite set_slice_out by lia. apply set_at_same. }
  set (b := set_at (set_at a nN 1) y (- t_Nlb q i j)).
  assert (Hbu : forall d, (d < nd)%nat -> b (us + d)%nat = bv d).
  { intros d Hd. unfold b. rewrite !set_at_other by lia. unfold a. rewrite set_slice_in by lia. f_equal. lia. }
  assert (Hb : vdot nv (neg_slice b us (us + nd)) x
     = - t_Nlb q i j * x y + x nN - t_stiff i j * sumn nd (fun d => tm_B q d i * x (us + d)%nat)).
  { rewrite vdot_neg_slice by auto.
    rewrite (sumn_ext nd _ (fun d => bv d * x (us + d)%nat)).
    2:{ intros d Hd. rewrite Hbu by auto. reflexivity. }
    rewrite Hsum. unfold b. rewrite !vdot_set_at by auto. rewrite Ha, HaN, set_at_other, Hay by auto. ring. }
  rewrite !Forall_cons_iff. unfold lin_holds; cbn [l_a l_b l_eq]; cbv iota zeta. rewrite Ha, Hb. split.
  - intros [G1 [G2 _]]. split; lra.
  - intros [G1 G2]. split; [lra|]. split; [lra|]. constructor.
Qed.
Lemma str2_iff nv y nN i j (x : vec) : (y < nN)%nat -> (nN < nv)%nat ->
  Forall (lin_holds nv x) (tm_str2 q y nN i j)
  <-> x nN <= t_NRd q i j * x y /\ - x nN <= Rmin (t_NRd q i j) (t_NbRd q i j) * x y.
Proof.
  intros H1 H2. unfold tm_str2.
  assert (Hyn : (y < nv)%nat) by lia. assert (HyN : y <> nN) by lia. assert (HNy : nN <> y) by lia.
  set (a := set_at (set_at zeros y (- t_NRd q i j)) nN 1).
  assert (Ha : vdot nv a x = x nN - t_NRd q i j * x y).
  { unfold a. rewrite !vdot_set_at by auto. rewrite vdot_zeros, set_at_other by auto. unfold zeros. ring. }
  assert (Hb : vdot nv (set_at (set_at a nN (-1)) y (- Rmin (t_NRd q i j) (t_NbRd q i j))) x
     = - x nN - Rmin (t_NRd q i j) (t_NbRd q i j) * x y).
  { rewrite !vdot_set_at by auto. rewrite Ha. rewrite (set_at_other a) by auto. unfold a.
    rewrite set_at_same, set_at_other, set_at_same by auto. ring. }
  rewrite !Forall_cons_iff. unfold lin_holds; cbn [l_a l_b l_eq]; cbv iota zeta. rewrite Ha, Hb. split.
  - intros [G1 [G2 _]]. split; lra.
  - intros [G1 G2]. split; [lra|]. split; [lra|]. constructor.
Qed.
(** where the compatibility rows of load case k look for the force variable *)
Definition comp_pos (i j k : nat) : nat := (ny + k * ny + offs np i + j)%nat.
Lemma comp_rows_iff top x : Forall (lin_holds (tm_nvars q top) x) (comp_loop q (seq 0 c) (tm_ny q))
  <-> forall k i j, (k < c)%nat -> (i < m)%nat -> (j < np i)%nat ->
      t_stiff i j * t_el x k i - x (comp_pos i j k) <= t_Nub q i j * (1 - tval q x (Vy i j))
      /\ x (comp_pos i j k) - t_stiff i j * t_el x k i <= - t_Nlb q i j * (1 - tval q x (Vy i j)).
Proof.
  rewrite comp_loop_iff, ny_eq.
  assert (E : forall k i j, (k < c)%nat -> (i < m)%nat -> (j < np i)%nat ->
     (Forall (lin_holds (tm_nvars q top) x) (tm_comp2 q (ny + (0 + k + 1) * ny + (0 + k) * nd) (0 + (offs np i + j)) (ny + k * ny + (offs np i + j)) i j)
      <-> t_stiff i j * t_el x k i - x (comp_pos i j k) <= t_Nub q i j * (1 - tval q x (Vy i j))
      /\ x (comp_pos i j k) - t_stiff i j * t_el x k i <= - t_Nlb q i j * (1 - tval q x (Vy i j)))).
  { intros k i j Hk Hi Hj. assert (A := offs_lt np i j m Hi Hj). change (offs np m) with ny in A.
    assert (B : ((k + 1) * (ny + nd) <= c * (ny + nd))%nat) by (apply Nat.mul_le_mono_r; lia).
    rewrite comp2_iff.
    - replace (sumn nd (fun d => tm_B q d i * x (ny + (0 + k + 1) * ny + (0 + k) * nd + d)%nat)) with (t_el x k i).
      + replace (ny + k * ny + (offs np i + j))%nat with (comp_pos i j k) by (unfold comp_pos; lia). reflexivity.
      + unfold t_el. apply sumn_ext. intros d Hd. f_equal. unfold tval. f_equal. cbn [tpos]. fold ny nd. lia.
    - lia.
    - lia.
    - rewrite nvars_eq. unfold st. lia. }
  split.
  - intros H k i j Hk Hi Hj. apply E; auto. exact (proj1 (pairs_iff _ _ _ _) (H k Hk) i j Hi Hj).
  - intros H k Hk. apply pairs_iff. intros i j Hi Hj. apply E; auto.
Qed.
Lemma str_rows_iff top x : Forall (lin_holds (tm_nvars q top) x) (str_loop q (seq 0 c) (tm_ny q))
  <-> forall k i j, (k < c)%nat -> (i < m)%nat -> (j < np i)%nat ->
      tval q x (VN i j k) <= t_NRd q i j * tval q x (Vy i j)
      /\ - tval q x (VN i j k) <= Rmin (t_NRd q i j) (t_NbRd q i j) * tval q x (Vy i j).
Proof.
  rewrite str_loop_iff, ny_eq.
  assert (E : forall k i j, (k < c)%nat -> (i < m)%nat -> (j < np i)%nat ->
     (Forall (lin_holds (tm_nvars q top) x) (tm_str2 q (0 + (offs np i + j)) (ny + k * (ny + nd) + (offs np i + j)) i j)
      <-> tval q x (VN i j k) <= t_NRd q i j * tval q x (Vy i j)
      /\ - tval q x (VN i j k) <= Rmin (t_NRd q i j) (t_NbRd q i j) * tval q x (Vy i j))).
  { intros k i j Hk Hi Hj. assert (A := offs_lt np i j m Hi Hj). change (offs np m) with ny in A.
    assert (B : ((k + 1) * (ny + nd) <= c * (ny + nd))%nat) by (apply Nat.mul_le_mono_r; lia).
    rewrite str2_iff.
    - unfold tval. cbn [tpos]. fold ny nd np. rewrite Nat.add_assoc. reflexivity.
    - lia.
    - rewrite nvars_eq. unfold st. lia. }
  split.
  - intros H k i j Hk Hi Hj. apply E; auto. exact (proj1 (pairs_iff _ _ _ _) (H k Hk) i j Hi Hj).
  - intros H k Hk. apply pairs_iff. intros i j Hi Hj. apply E; auto.
Qed.
End TM.
