From Verif Require Import Bool_tac Mat Sizing_proofs.
From Verif Require Import Sizing_model Sizing_spec.
Require Import Psatz.
Open Scope R_scope.

Lemma sz_sumn_cut n r f : (forall i, (n <= i)%nat -> f i = 0) -> sumn (n + r) f = sumn n f.
Proof. intros H. rewrite sumn_app, (sumn_zero r); [lra|]. intros i _. apply H. lia. Qed.

Lemma lp_obj_lemma q x : lp_obj q x = volume (lp_nmem q) (lp_L q) x.
Proof.
  unfold lp_obj, volume, vdot, lp_nvars. rewrite sz_sumn_cut.
  - apply sumn_ext. intros i Hi. destruct (Nat.ltb_spec i (lp_nmem q)); [reflexivity|lia].
  - intros i Hi. destruct (Nat.ltb_spec i (lp_nmem q)); [lia|lra].
Qed.
Lemma lp_pack_lemma q A N : plastic_ok q A N ->
  exists x, lp_feasible q x /\ (forall i, (i < lp_nmem q)%nat -> x i = A i) /\ lp_obj q x = volume (lp_nmem q) (lp_L q) A.
Proof.
  intros H. set (m := lp_nmem q).
  exists (fun v => if (v <? m)%nat then A v else N (v / m - 1)%nat (v mod m)%nat).
  assert (HA : forall i, (i < m)%nat -> (if (i <? m)%nat then A i else N (i / m - 1)%nat (i mod m)%nat) = A i).
  { intros i Hi. destruct (Nat.ltb_spec i m); [reflexivity|lia]. }
  split; [|split].
  - apply lp_feasible_lemma. destruct H as [H1 H2]. unfold plastic_ok. fold m. fold m in H1. split.
    + intros i Hi. simpl. rewrite HA by auto. apply H1; auto.
    + intros k Hk. destruct (H2 k Hk) as [H3 H4].
      assert (HN : forall i, (i < m)%nat -> (if ((k + 1) * m + i <? m)%nat then A ((k + 1) * m + i)%nat
          else N (((k + 1) * m + i) / m - 1)%nat (((k + 1) * m + i) mod m)%nat) = N k i).
      { intros i Hi. destruct (Nat.ltb_spec ((k + 1) * m + i) m); [nia|].
        rewrite Nat.div_add_l by lia. rewrite Nat.div_small by lia.
        replace (((k + 1) * m + i) mod m)%nat with i.
        - f_equal. lia.
        - rewrite Nat.add_comm, Nat.mod_add by lia. rewrite Nat.mod_small; lia. }
      split.
      * intros d Hd. rewrite <- (H3 d Hd). apply sumn_ext. intros i Hi. rewrite HN by auto. reflexivity.
      * intros i Hi. rewrite HN, HA by auto. apply H4; auto.
  - exact HA.
  - rewrite lp_obj_lemma. unfold volume. apply sumn_ext. intros i Hi. fold m in Hi. cbv beta. rewrite HA by auto. reflexivity.
Qed.
(** An optimum of the LP is a least volume of all plastic designs. *)
Lemma lp_optimal_lemma q x : lp_feasible q x -> (forall x', lp_feasible q x' -> lp_obj q x <= lp_obj q x') ->
  plastic_ok q x (fun k i => x ((k + 1) * lp_nmem q + i)%nat)
  /\ forall A N, plastic_ok q A N -> volume (lp_nmem q) (lp_L q) x <= volume (lp_nmem q) (lp_L q) A.
Proof.
  intros H Ho. split; [apply lp_feasible_lemma; auto|].
  intros A N HA. destruct (lp_pack_lemma q A N HA) as [x' [H1 [_ H2]]].
  rewrite <- H2, <- lp_obj_lemma. auto.
Qed.

(** ---------------- MILP: positions ---------------- *)
Lemma combine_app_len {X Y} (a b : list X) (c d : list Y) :
  length a = length c -> combine (a ++ b) (c ++ d) = combine a c ++ combine b d.
Proof.
  revert c. induction a; intros [|y c]; simpl; intros H; try discriminate; [reflexivity|].
  f_equal. apply IHa. lia.
Qed.
Lemma flat_map_len_const {X} (f : nat -> list X) p l : (forall k, length (f k) = p) -> length (flat_map f l) = (length l * p)%nat.
Proof. intros H. induction l; simpl; [reflexivity|]. rewrite app_length, H, IHl. lia. Qed.
Lemma in_counted_block {X} (f : nat -> list X) p : (forall k, length (f k) = p) ->
  forall m a s n t, In (n, t) (combine (seq s (m * p)) (flat_map f (seq a m)))
   <-> exists k, (k < m)%nat /\ In (n, t) (combine (seq (s + k * p) p) (f (a + k)%nat)).
Proof.
  intros Hf. induction m; intros a s n t; simpl.
  - split; [tauto|]. intros [k [H _]]. lia.
  - rewrite seq_app, combine_app_len by (rewrite seq_length, Hf; reflexivity).
    rewrite in_app_iff, IHm. split.
    + intros [H|[k [Hk H]]].
      * exists 0%nat. split; [lia|]. rewrite Nat.mul_0_l, !Nat.add_0_r. exact H.
      * exists (S k). split; [lia|]. replace (s + S k * p)%nat with (s + p + k * p)%nat by lia.
        replace (a + S k)%nat with (S a + k)%nat by lia. exact H.
    + intros [[|k] [Hk H]].
      * left. rewrite Nat.mul_0_l, !Nat.add_0_r in H. exact H.
      * right. exists k. split; [lia|]. replace (s + p + k * p)%nat with (s + S k * p)%nat by lia.
        replace (S a + k)%nat with (a + S k)%nat by lia. exact H.
Qed.
Lemma in_counted_map {X} (g : nat -> X) p s n t :
  In (n, t) (combine (seq s p) (map g (seq 0 p))) <-> exists j, (j < p)%nat /\ n = (s + j)%nat /\ t = g j.
Proof.
  assert (H : map g (seq 0 p) = flat_map (fun j => [g j]) (seq 0 p)).
  { generalize (seq 0 p) as l. induction l; simpl; [reflexivity|]. rewrite IHl. reflexivity. }
  rewrite H. assert (Hb := in_counted_block (fun j => [g j]) 1 (fun _ => eq_refl) p 0 s n t).
  rewrite Nat.mul_1_r in Hb. rewrite Hb. split.
  - intros [k [Hk H1]]. simpl in H1. destruct H1 as [H1|[]]. injection H1 as H1 H2. exists k. repeat split; [auto|lia|auto].
  - intros [j [Hj [H1 H2]]]. exists j. split; [auto|]. simpl. left. rewrite H1, H2, Nat.mul_1_r. reflexivity.
Qed.

Section MI.
Variable q : mi_data.
Let m := mi_nmem q.
Let pn := mi_nprof q.
Let c := mi_nlc q.
Let nd := mi_ndof q.

Lemma mi_in_triples n t :
  In (n, t) (combine (seq (mi_ny q) (length (mi_triples q))) (mi_triples q))
  <-> exists k i j, (k < c)%nat /\ (i < m)%nat /\ (j < pn)%nat
      /\ n = (m * pn + k * (m * pn) + i * pn + j)%nat /\ t = (k, i, j).
Proof.
  unfold mi_triples. fold m pn c.
  set (f := fun k => flat_map (fun i => map (fun j => (k, i, j)) (seq 0 pn)) (seq 0 m)).
  assert (Hf : forall k, length (f k) = (m * pn)%nat).
  { intros k. unfold f. rewrite (flat_map_len_const _ pn), seq_length; [reflexivity|].
    intros i. rewrite map_length, seq_length. reflexivity. }
  rewrite (flat_map_len_const f (m * pn)%nat) by auto. rewrite seq_length.
  rewrite (in_counted_block f (m * pn)%nat Hf). unfold mi_ny. fold m pn. split.
  - intros [k [Hk H]]. unfold f in H.
    rewrite (in_counted_block (fun i => map (fun j => ((0 + k)%nat, i, j)) (seq 0 pn)) pn) in H
      by (intros; rewrite map_length, seq_length; reflexivity).
    destruct H as [i [Hi H]]. apply in_counted_map in H. destruct H as [j [Hj [H1 H2]]].
    exists k, i, j. repeat split; auto.
  - intros [k [i [j [Hk [Hi [Hj [H1 H2]]]]]]]. exists k. split; [auto|]. unfold f.
    rewrite (in_counted_block (fun i => map (fun j => ((0 + k)%nat, i, j)) (seq 0 pn)) pn)
      by (intros; rewrite map_length, seq_length; reflexivity).
    exists i. split; [auto|]. apply in_counted_map. exists j. repeat split; auto.
Qed.
Lemma mi_counted_iff (P : lin -> Prop) f :
  Forall P (mi_counted q f) <-> forall k i j, (k < c)%nat -> (i < m)%nat -> (j < pn)%nat ->
     Forall P (f (m * pn + k * (m * pn) + i * pn + j)%nat (k, i, j)).
Proof.
  unfold mi_counted. rewrite Forall_flat_map, Forall_forall. split.
  - intros H k i j Hk Hi Hj.
    apply (H (_, (k, i, j))). apply mi_in_triples. exists k, i, j. repeat split; auto.
  - intros H [n t] Hin. apply mi_in_triples in Hin. destruct Hin as [k [i [j [Hk [Hi [Hj [H1 H2]]]]]]].
    subst. simpl. apply H; auto.
Qed.
(** the variables lie inside the vector *)
Lemma mi_y_lt i j : (i < m)%nat -> (j < pn)%nat -> (i * pn + j < m * pn)%nat.
Proof. intros. nia. Qed.
Lemma mi_N_lt k i j : (k < c)%nat -> (i < m)%nat -> (j < pn)%nat ->
  (m * pn <= m * pn + k * (m * pn) + i * pn + j < m * pn + c * (m * pn))%nat.
Proof. intros Hk Hi Hj. assert (H := mi_y_lt i j Hi Hj). nia. Qed.
Lemma mi_nvars_eq : mi_nvars q = (m * pn + c * (m * pn) + c * nd)%nat.
Proof. reflexivity. Qed.

(** selection rows *)
Lemma mi_sel_val i x : (i < m)%nat ->
  vdot (mi_nvars q) (fun v => if (v <? mi_ny q)%nat && (v / mi_nprof q =? i)%nat then 1 else 0) x
  = sumn pn (fun j => x (i * pn + j)%nat).
Proof.
  intros Hi. unfold vdot. rewrite mi_nvars_eq. unfold mi_ny. fold m pn.
  replace (m * pn + c * (m * pn) + c * nd)%nat with (m * pn + (c * (m * pn) + c * nd))%nat by lia.
  rewrite sz_sumn_cut.
  2:{ intros v Hv. destruct (Nat.ltb_spec v (m * pn)); [lia|]. simpl. lra. }
  rewrite sz_sumn_block.
  rewrite (sumn_ext m _ (fun i' => if (i' =? i)%nat then sumn pn (fun j => x (i' * pn + j)%nat) else 0)).
  - apply sumn_delta; auto.
  - intros i' Hi'. destruct (Nat.eqb_spec i' i).
    + apply sumn_ext. intros j Hj. assert (H := mi_y_lt i' j Hi' Hj).
      destruct (Nat.ltb_spec (i' * pn + j) (m * pn)); [|lia].
      rewrite Nat.div_add_l, Nat.div_small by lia. subst i'. rewrite Nat.add_0_r, Nat.eqb_refl. simpl. ring.
    + apply sumn_zero. intros j Hj. rewrite Nat.div_add_l, Nat.div_small, Nat.add_0_r by lia.
      destruct (Nat.eqb_spec i' i); [contradiction|]. rewrite Bool.andb_false_r. lra.
Qed.
(** equilibrium rows *)
Lemma mi_B0_val d v : mi_B0 q d v = if ((m * pn <=? v) && (v <? m * pn + m * pn))%nat then mi_B q d ((v - m * pn) / pn)%nat else 0.
Proof.
  unfold mi_B0. fold m pn.
  set (F := fun (a : vec) (i : nat) =>
      let s := (m * pn + i * pn)%nat in let e := (m * pn + (i + 1) * pn)%nat in
      fun v : nat => if (s <=? v)%nat && (v <? e)%nat then a v + mi_B q d i else a v).
  assert (HF : forall a i v, F a i v = if (m * pn + i * pn <=? v)%nat && (v <? m * pn + (i + 1) * pn)%nat then a v + mi_B q d i else a v)
    by reflexivity.
  assert (H : forall l, fold_left F (seq 0 l) zeros v
      = if ((m * pn <=? v) && (v <? m * pn + l * pn))%nat then mi_B q d ((v - m * pn) / pn)%nat else 0).
  { induction l.
    - simpl. destruct (Nat.leb_spec (m * pn) v); destruct (Nat.ltb_spec v (m * pn + 0)); simpl; try reflexivity. lia.
    - rewrite seq_S, fold_left_app. cbn [fold_left Nat.add]. rewrite HF, IHl. clear HF IHl.
      destruct (Nat.leb_spec (m * pn) v).
      2:{ destruct (Nat.leb_spec (m * pn + l * pn) v); [lia|]. reflexivity. }
      destruct (Nat.leb_spec (m * pn + l * pn) v).
      + destruct (Nat.ltb_spec v (m * pn + l * pn)); [lia|].
        replace (S l * pn)%nat with ((l + 1) * pn)%nat by lia.
        destruct (Nat.ltb_spec v (m * pn + (l + 1) * pn)); simpl; [|reflexivity].
        replace ((v - m * pn) / pn)%nat with l; [lra|].
        apply Nat.div_unique with (v - m * pn - l * pn)%nat; nia.
      + destruct (Nat.ltb_spec v (m * pn + l * pn)); [|lia].
        destruct (Nat.ltb_spec v (m * pn + S l * pn)); [reflexivity|nia]. }
  apply H.
Qed.
Lemma mi_eq_val d x : (0 < c)%nat ->
  vdot (mi_nvars q) (mi_B0 q d) x
  = sumn m (fun i => mi_B q d i * sumn pn (fun j => x (m * pn + i * pn + j)%nat)).
Proof.
  intros Hc. unfold vdot. rewrite mi_nvars_eq.
  replace (m * pn + c * (m * pn) + c * nd)%nat with (m * pn + (m * pn + ((c - 1) * (m * pn) + c * nd)))%nat by nia.
  rewrite sumn_app, (sumn_zero (m * pn)).
  2:{ intros v Hv. rewrite mi_B0_val. destruct (Nat.leb_spec (m * pn) v); [lia|]. simpl. lra. }
  rewrite Rplus_0_l, sz_sumn_cut.
  2:{ intros v Hv. rewrite mi_B0_val. destruct (Nat.ltb_spec (m * pn + v) (m * pn + m * pn)); [lia|].
      rewrite Bool.andb_false_r. lra. }
  rewrite sz_sumn_block. apply sumn_ext. intros i Hi. rewrite <- sumn_scale. apply sumn_ext. intros j Hj.
  assert (H := mi_y_lt i j Hi Hj). rewrite mi_B0_val.
  destruct (Nat.leb_spec (m * pn) (m * pn + (i * pn + j))); [|lia].
  destruct (Nat.ltb_spec (m * pn + (i * pn + j)) (m * pn + m * pn)); [|lia].
  replace (m * pn + (i * pn + j) - m * pn)%nat with (i * pn + j)%nat by lia.
  rewrite Nat.div_add_l, Nat.div_small, Nat.add_0_r by lia. simpl.
  replace (m * pn + i * pn + j)%nat with (m * pn + (i * pn + j))%nat by lia. reflexivity.
Qed.
(** compatibility rows *)
Definition elong (x : vec) (k i : nat) : R := sumn nd (fun d => mi_B q d i * disp_var q x k d).
Lemma mi_comp_iff k i j x : (k < c)%nat -> (i < m)%nat -> (j < pn)%nat ->
  Forall (lin_holds (mi_nvars q) x) (mi_comp_rows q (m * pn + k * (m * pn) + i * pn + j)%nat (k, i, j))
  <-> c_k0 q i * mi_A q j * Ascale * elong x k i - force_var q x k i j
        <= s_Nub q i j * (1 - x (i * pn + j)%nat)
      /\ force_var q x k i j - c_k0 q i * mi_A q j * Ascale * elong x k i
        <= - s_Nlb q i j * (1 - x (i * pn + j)%nat).
Proof.
  intros Hk Hi Hj.
  assert (Hy := mi_y_lt i j Hi Hj). assert (HN := mi_N_lt k i j Hk Hi Hj).
  unfold mi_comp_rows. fold m pn c nd.
  set (nN := (m * pn + k * (m * pn) + i * pn + j)%nat) in *.
  set (y := (i * pn + j)%nat) in *.
  replace (m * pn + c * m * pn + k * nd)%nat with (m * pn + c * (m * pn) + k * nd)%nat by nia.
  set (us := (m * pn + c * (m * pn) + k * nd)%nat).
  assert (Hus : (us + nd <= mi_nvars q)%nat) by (rewrite mi_nvars_eq; unfold us; nia).
  assert (Hyn : (y < mi_nvars q)%nat) by (rewrite mi_nvars_eq; lia).
  assert (HNn : (nN < mi_nvars q)%nat) by (rewrite mi_nvars_eq; lia).
  assert (HyN : y <> nN) by lia.
  assert (HNy : nN <> y) by lia.
  set (bv := fun d => c_k0 q i * mi_A q j * mi_B q d i * Ascale).
  set (a := set_slice (set_at (set_at zeros y (s_Nub q i j)) nN (-1)) us (us + nd) bv).
  assert (Hsum : sumn nd (fun d => bv d * x (us + d)%nat) = c_k0 q i * mi_A q j * Ascale * elong x k i).
  { unfold elong. rewrite <- sumn_scale. apply sumn_ext. intros d Hd. unfold bv, disp_var. fold m pn c nd us. ring. }
  assert (Ha0 : forall d, (d < nd)%nat -> set_at (set_at zeros y (s_Nub q i j)) nN (-1) (us + d)%nat = 0).
  { intros d Hd. rewrite !set_at_other by (unfold us; lia). reflexivity. }
  assert (Ha : vdot (mi_nvars q) a x = s_Nub q i j * x y - x nN + c_k0 q i * mi_A q j * Ascale * elong x k i).
  { unfold a. rewrite vdot_set_slice by auto. rewrite <- Hsum.
    rewrite (sumn_ext nd _ (fun d => bv d * x (us + d)%nat)).
    2:{ intros d Hd. rewrite Ha0 by auto. ring. }
    rewrite !vdot_set_at by auto. rewrite vdot_zeros, set_at_other by auto. unfold zeros. ring. }
  assert (Hay : a y = s_Nub q i j).
  { unfold a. rewrite set_slice_out by (unfold us; lia). rewrite set_at_other, set_at_same by auto. reflexivity. }
  assert (HaN : a nN = -1).
  { unfold a. rewrite set_slice_out by (unfold us; lia). apply set_at_same. }
  set (b := set_at (set_at a nN 1) y (- s_Nlb q i j)).
  assert (Hbu : forall d, (d < nd)%nat -> b (us + d)%nat = bv d).
  { intros d Hd. unfold b. rewrite !set_at_other by (unfold us; lia). unfold a.
    rewrite set_slice_in by lia. f_equal. lia. }
  assert (Hb : vdot (mi_nvars q) (neg_slice b us (us + nd)) x
     = - s_Nlb q i j * x y + x nN - c_k0 q i * mi_A q j * Ascale * elong x k i).
  { rewrite vdot_neg_slice by auto.
    rewrite (sumn_ext nd _ (fun d => bv d * x (us + d)%nat)).
    2:{ intros d Hd. rewrite Hbu by auto. reflexivity. }
    rewrite Hsum. unfold b. rewrite !vdot_set_at by auto. rewrite Ha, HaN, set_at_other, Hay by auto. ring. }
  rewrite !Forall_cons_iff. unfold lin_holds; simpl l_a; simpl l_b; simpl l_eq; cbv iota zeta.
  rewrite Ha, Hb. unfold force_var. fold m pn nN. split.
  - intros [H1 [H2 _]]. split; lra.
  - intros [H1 H2]. split; [lra|]. split; [lra|]. constructor.
Qed.
(** strength rows *)
Lemma mi_str_iff k i j x : (k < c)%nat -> (i < m)%nat -> (j < pn)%nat ->
  Forall (lin_holds (mi_nvars q) x) (mi_str_rows q (m * pn + k * (m * pn) + i * pn + j)%nat (k, i, j))
  <-> force_var q x k i j <= s_NRd q j * x (i * pn + j)%nat
      /\ - force_var q x k i j <= Rmin (s_NRd q j) (s_NbRd q i j) * x (i * pn + j)%nat.
Proof.
  intros Hk Hi Hj.
  assert (Hy := mi_y_lt i j Hi Hj). assert (HN := mi_N_lt k i j Hk Hi Hj).
  unfold mi_str_rows. fold pn.
  set (nN := (m * pn + k * (m * pn) + i * pn + j)%nat) in *.
  set (y := (i * pn + j)%nat) in *.
  assert (Hyn : (y < mi_nvars q)%nat) by (rewrite mi_nvars_eq; lia).
  assert (HNn : (nN < mi_nvars q)%nat) by (rewrite mi_nvars_eq; lia).
  assert (HyN : y <> nN) by lia.
  assert (HNy : nN <> y) by lia.
  set (a := set_at (set_at zeros y (- s_NRd q j)) nN 1).
  assert (Ha : vdot (mi_nvars q) a x = x nN - s_NRd q j * x y).
  { unfold a. rewrite !vdot_set_at by auto. rewrite vdot_zeros, set_at_other by auto. unfold zeros. ring. }
  assert (Hb : vdot (mi_nvars q) (set_at (set_at a nN (-1)) y (- Rmin (s_NRd q j) (s_NbRd q i j))) x
     = - x nN - Rmin (s_NRd q j) (s_NbRd q i j) * x y).
  { rewrite !vdot_set_at by auto. rewrite Ha. rewrite (set_at_other a) by auto. unfold a.
    rewrite set_at_same, set_at_other, set_at_same by auto. ring. }
  rewrite !Forall_cons_iff. unfold lin_holds; simpl l_a; simpl l_b; simpl l_eq; cbv iota zeta.
  rewrite Ha, Hb. unfold force_var. fold m pn nN. split.
  - intros [H1 [H2 _]]. split; lra.
  - intros [H1 H2]. split; [lra|]. split; [lra|]. constructor.
Qed.
(** all rows *)
Lemma mi_rows_iff x : (0 < c)%nat ->
  Forall (lin_holds (mi_nvars q) x) (mi_rows q)
  <-> (forall i, (i < m)%nat -> sumn pn (fun j => x (i * pn + j)%nat) = 1)
      /\ (forall k d, (k < c)%nat -> (d < nd)%nat ->
           sumn m (fun i => mi_B q d i * sumn pn (fun j => force_var q x 0 i j)) = mi_p q k d * Nscale)
      /\ (forall k i j, (k < c)%nat -> (i < m)%nat -> (j < pn)%nat ->
           (c_k0 q i * mi_A q j * Ascale * elong x k i - force_var q x k i j
              <= s_Nub q i j * (1 - x (i * pn + j)%nat)
            /\ force_var q x k i j - c_k0 q i * mi_A q j * Ascale * elong x k i
              <= - s_Nlb q i j * (1 - x (i * pn + j)%nat))
           /\ force_var q x k i j <= s_NRd q j * x (i * pn + j)%nat
           /\ - force_var q x k i j <= Rmin (s_NRd q j) (s_NbRd q i j) * x (i * pn + j)%nat).
Proof.
  intros Hc. unfold mi_rows. rewrite !Forall_app, !mi_counted_iff, Forall_flat_map_seq.
  unfold mi_sel_rows. rewrite Forall_map, Forall_forall. fold m c.
  assert (He : forall d, vdot (mi_nvars q) (mi_B0 q d) x = sumn m (fun i => mi_B q d i * sumn pn (fun j => force_var q x 0 i j))).
  { intros d. rewrite mi_eq_val by auto. apply sumn_ext. intros i _. f_equal. apply sumn_ext. intros j _.
    unfold force_var. fold m pn. f_equal. lia. }
  split.
  - intros [H1 [H2 [H3 H4]]]. repeat split.
    + intros i Hi. specialize (H1 i ltac:(apply in_seq; lia)). unfold lin_holds in H1. simpl in H1.
      rewrite mi_sel_val in H1 by auto. lra.
    + intros k d Hk Hd. specialize (H2 k Hk). unfold mi_eq_rows in H2. rewrite Forall_map, Forall_forall in H2.
      specialize (H2 d ltac:(apply in_seq; fold nd; lia)). unfold lin_holds in H2. simpl in H2. rewrite He in H2. lra.
    + apply (proj1 (mi_comp_iff k i j x ltac:(auto) ltac:(auto) ltac:(auto)) (H3 k i j ltac:(auto) ltac:(auto) ltac:(auto))).
    + apply (proj1 (mi_comp_iff k i j x ltac:(auto) ltac:(auto) ltac:(auto)) (H3 k i j ltac:(auto) ltac:(auto) ltac:(auto))).
    + apply (proj1 (mi_str_iff k i j x ltac:(auto) ltac:(auto) ltac:(auto)) (H4 k i j ltac:(auto) ltac:(auto) ltac:(auto))).
    + apply (proj1 (mi_str_iff k i j x ltac:(auto) ltac:(auto) ltac:(auto)) (H4 k i j ltac:(auto) ltac:(auto) ltac:(auto))).
  - intros [H1 [H2 H3]]. split; [|split; [|split]].
    + intros i Hi. apply in_seq in Hi. unfold lin_holds; simpl. rewrite mi_sel_val by lia. rewrite H1 by lia. lra.
    + intros k Hk. unfold mi_eq_rows. rewrite Forall_map, Forall_forall. intros d Hd. apply in_seq in Hd. fold nd in Hd.
      unfold lin_holds; simpl. rewrite He, (H2 k d) by (auto; lia). lra.
    + intros k i j Hk Hi Hj. apply mi_comp_iff; auto. apply H3; auto.
    + intros k i j Hk Hi Hj. apply mi_str_iff; auto. apply H3; auto.
Qed.
End MI.
