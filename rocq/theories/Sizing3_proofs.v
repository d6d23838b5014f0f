From Verif Require Import Bool_tac Mat Sizing_proofs Sizing2_proofs.
From Verif Require Import Sizing_model Sizing_spec.
Require Import Psatz.
Open Scope R_scope.

Lemma bin_all_zero n f : (forall j, (j < n)%nat -> f j = 0 \/ f j = 1) -> sumn n f <= 0 -> forall j, (j < n)%nat -> f j = 0.
Proof.
  induction n; intros H Hs j Hj; [lia|]. simpl in Hs.
  assert (0 <= sumn n f) by (apply sumn_nonneg; intros i Hi; destruct (H i ltac:(lia)); lra).
  destruct (H n ltac:(lia)) as [Hn|Hn].
  - destruct (Nat.eq_dec j n); [subst; auto|]. apply IHn; [intros; apply H; lia|lra|lia].
  - lra.
Qed.
Lemma bin_sum_one n f : (forall j, (j < n)%nat -> f j = 0 \/ f j = 1) -> sumn n f = 1 ->
  exists j, (j < n)%nat /\ f j = 1 /\ forall j', (j' < n)%nat -> j' <> j -> f j' = 0.
Proof.
  induction n; intros H Hs; simpl in Hs; [lra|].
  destruct (H n ltac:(lia)) as [Hn|Hn].
  - destruct IHn as [j [H1 [H2 H3]]]; [intros; apply H; lia|lra|].
    exists j. repeat split; [lia|auto|]. intros j' Hj' Hne. destruct (Nat.eq_dec j' n); [subst; auto|]. apply H3; [lia|auto].
  - exists n. repeat split; [lia|auto|]. intros j' Hj' Hne. apply (bin_all_zero n f); [intros; apply H; lia|lra|lia].
Qed.
Lemma sumn_pick n k (v : R) : (k < n)%nat -> sumn n (fun j => if (j =? k)%nat then v else 0) = v.
Proof. intros H. rewrite (sumn_delta n k (fun _ => v)); auto. Qed.

Section MI3.
Variable q : mi_data.
Let m := mi_nmem q.
Let pn := mi_nprof q.
Let c := mi_nlc q.
Let nd := mi_ndof q.
Definition pick (x : vec) (i : nat) : nat :=
  match find (fun j => Reqb (x (i * mi_nprof q + j)%nat) 1) (seq 0 (mi_nprof q)) with Some j => j | None => 0%nat end.
Definition u_mm (x : vec) (k : nat) : vec := fun d => 10 * disp_var q x k d.

Lemma pick_ok x : (forall v, (v < mi_ny q)%nat -> x v = 0 \/ x v = 1) ->
  (forall i, (i < m)%nat -> sumn pn (fun j => x (i * pn + j)%nat) = 1) ->
  (forall i, (i < m)%nat -> (pick x i < pn)%nat) /\ selects q x (pick x).
Proof.
  intros Hb Hs.
  assert (Hi : forall i, (i < m)%nat -> (pick x i < pn)%nat /\ x (i * pn + pick x i)%nat = 1
     /\ forall j, (j < pn)%nat -> j <> pick x i -> x (i * pn + j)%nat = 0).
  { intros i Hi. destruct (bin_sum_one pn (fun j => x (i * pn + j)%nat)) as [j0 [H1 [H2 H3]]].
    - intros j Hj. apply Hb. unfold mi_ny. fold m pn. nia.
    - apply Hs; auto.
    - unfold pick. fold pn. destruct (find _ _) as [j|] eqn:E.
      + apply find_some in E. destruct E as [E1 E2]. apply in_seq in E1. apply Reqb_true in E2.
        split; [lia|]. split; [auto|]. intros j' Hj' Hne.
        destruct (Nat.eq_dec j' j0) as [->|Hne2]; [|apply H3; auto].
        exfalso. rewrite (H3 j) in E2 by (try lia; congruence). lra.
      + exfalso. assert (En := find_none _ _ E j0 ltac:(apply in_seq; lia)). simpl in En.
        apply Reqb_false in En. contradiction. }
  split; [intros i Hm; apply (Hi i Hm)|]. intros i j Hm Hj. fold m in Hm. fold pn in Hj. fold pn.
  destruct (Hi i Hm) as [H1 [H2 H3]]. destruct (Nat.eqb_spec j (pick x i)); [subst; auto|]. apply H3; auto.
Qed.

Lemma c_k0_val i j u : c_k0 q i * mi_A q j * Ascale * (sumn nd (fun d => mi_B q d i * (u d / 10)))
  = elastic_force nd (mi_E q i) (mi_L q i) (mi_A q j) (mi_B q) i u * Nscale.
Proof.
  unfold elastic_force.
  rewrite (sumn_ext nd _ (fun d => / 10 * (mi_B q d i * u d))) by (intros; field).
  rewrite sumn_scale. unfold c_k0, Escale, Ascale, uscale, Nscale.
  replace (mi_E q i * mi_A q j / mi_L q i) with (mi_E q i / mi_L q i * mi_A q j) by (unfold Rdiv; ring).
  generalize (mi_E q i / mi_L q i). intros r. field.
Qed.
Lemma elong_u x k i : elong q x k i = sumn nd (fun d => mi_B q d i * (u_mm x k d / 10)).
Proof. unfold elong. fold nd. apply sumn_ext. intros d _. unfold u_mm. field. Qed.

Lemma truss_K_force (A : vec) d u :
  sumn nd (fun e => truss_K m (mi_E q) (mi_L q) A (mi_B q) d e * u e)
  = sumn m (fun i => mi_B q d i * elastic_force nd (mi_E q i) (mi_L q i) (A i) (mi_B q) i u).
Proof.
  unfold truss_K, elastic_force.
  rewrite (sumn_ext nd _ (fun e => sumn m (fun i => mi_B q d i * (mi_E q i * A i / mi_L q i) * mi_B q e i * u e)))
    by (intros; rewrite <- sumn_scale_r; reflexivity).
  rewrite sumn_swap. apply sumn_ext. intros i _. rewrite <- !sumn_scale. apply sumn_ext. intros e _. ring.
Qed.

Lemma mi_bound_u x : (forall v, (v < mi_nvars q)%nat -> mi_lb q v <= x v <= mi_ub q v) ->
  forall k d, (k < c)%nat -> (d < nd)%nat -> s_ulb q <= disp_var q x k d <= s_uub q.
Proof.
  intros H k d Hk Hd. unfold disp_var. fold m pn c nd.
  assert (Hv : (m * pn + c * (m * pn) + k * nd + d < mi_nvars q)%nat) by (rewrite mi_nvars_eq; fold m pn c nd; nia).
  specialize (H _ Hv). unfold mi_lb, mi_ub, mi_ny in H. fold m pn c in H.
  destruct (Nat.ltb_spec (m * pn + c * (m * pn) + k * nd + d) (m * pn)); [lia|].
  destruct (Nat.ltb_spec (m * pn + c * (m * pn) + k * nd + d) (m * pn + c * (m * pn))); [lia|]. exact H.
Qed.

(** what every feasible point says *)
Lemma mi_state_lemma x : (0 < c)%nat -> mi_feasible q x ->
  exists s, (forall i, (i < m)%nat -> (s i < pn)%nat) /\ selects q x s
   /\ forall k, (k < c)%nat ->
       (forall d, (d < nd)%nat -> mi_ulb q <= u_mm x k d <= mi_uub q)
       /\ forall i, (i < m)%nat ->
          let N := elastic_force nd (mi_E q i) (mi_L q i) (mi_A q (s i)) (mi_B q) i (u_mm x k) in
          (forall j, (j < pn)%nat -> force_var q x k i j = if (j =? s i)%nat then N * Nscale else 0)
          /\ N <= IZR (floorZ (mi_NRd q (s i)))
          /\ - N <= IZR (floorZ (mi_NRd q (s i))) /\ - N <= IZR (floorZ (mi_NbRd q i (s i))).
Proof.
  intros Hc [Hb [Hbin Hr]]. apply mi_rows_iff in Hr; [|exact Hc]. fold m pn c nd in Hr.
  destruct Hr as [H1 [H2 H3]]. destruct (pick_ok x Hbin H1) as [Hp Hs].
  exists (pick x). split; [exact Hp|]. split; [exact Hs|]. intros k Hk. split.
  - intros d Hd. assert (Hu := mi_bound_u x Hb k d Hk Hd). unfold u_mm, s_ulb, s_uub, uscale in *. lra.
  - intros i Hi N.
    assert (HF : forall j, (j < pn)%nat -> force_var q x k i j = if (j =? pick x i)%nat then N * Nscale else 0).
    { intros j Hj. destruct (H3 k i j Hk Hi Hj) as [[Ha Hb2] [Hc2 Hd]].
      assert (Hsel := Hs i j Hi Hj). fold pn in Hsel. rewrite Hsel in Ha, Hb2, Hc2, Hd.
      destruct (Nat.eqb_spec j (pick x i)).
      - subst j. rewrite elong_u, c_k0_val in Ha, Hb2. fold N in Ha, Hb2. lra.
      - lra. }
    split; [exact HF|].
    destruct (H3 k i (pick x i) Hk Hi (Hp i Hi)) as [_ [Hc2 Hd]].
    assert (Hsel := Hs i (pick x i) Hi (Hp i Hi)). fold pn in Hsel. rewrite Hsel, Nat.eqb_refl in Hc2, Hd.
    rewrite HF, Nat.eqb_refl in Hc2, Hd by (apply Hp; auto).
    unfold s_NRd, s_NbRd, Nscale in Hc2, Hd.
    assert (Hm1 := Rmin_l (IZR (floorZ (mi_NRd q (pick x i))) * (1 / 1000)) (IZR (floorZ (mi_NbRd q i (pick x i))) * (1 / 1000))).
    assert (Hm2 := Rmin_r (IZR (floorZ (mi_NRd q (pick x i))) * (1 / 1000)) (IZR (floorZ (mi_NbRd q i (pick x i))) * (1 / 1000))).
    repeat split; lra.
Qed.
Lemma mi_loads_lemma x : mi_feasible q x -> forall k d, (k < c)%nat -> (d < nd)%nat -> mi_p q k d = mi_p q 0 d.
Proof.
  intros [_ [_ Hr]] k d Hk Hd. assert (Hc : (0 < c)%nat) by lia. apply mi_rows_iff in Hr; [|exact Hc].
  destruct Hr as [_ [H2 _]]. fold m pn c nd in H2.
  assert (Ha := H2 k d Hk Hd). assert (Hb := H2 0%nat d Hc Hd). unfold Nscale in *. lra.
Qed.
Lemma mi_sound_lemma x : (0 < c)%nat -> mi_feasible q x ->
  exists s, selects q x s /\ design_ok q s (mi_p q 0) (u_mm x 0).
Proof.
  intros Hc Hf. destruct (mi_state_lemma x Hc Hf) as [s [Hp [Hs Hk]]].
  exists s. split; [exact Hs|]. destruct (Hk 0%nat Hc) as [Hu Hi].
  split; [exact Hp|]. split; [|split].
  - intros d Hd. fold nd in Hd. fold nd m. rewrite truss_K_force.
    destruct Hf as [_ [_ Hr]]. apply mi_rows_iff in Hr; [|exact Hc]. destruct Hr as [_ [H2 _]]. fold m pn c nd in H2.
    specialize (H2 0%nat d Hc Hd).
    rewrite (sumn_ext m _ (fun i => Nscale * (mi_B q d i * elastic_force nd (mi_E q i) (mi_L q i) (mi_A q (s i)) (mi_B q) i (u_mm x 0)))) in H2.
    + rewrite sumn_scale in H2. unfold Nscale in H2. lra.
    + intros i Him. destruct (Hi i Him) as [HF _].
      rewrite (sumn_ext pn _ (fun j => if (j =? s i)%nat then elastic_force nd (mi_E q i) (mi_L q i) (mi_A q (s i)) (mi_B q) i (u_mm x 0) * Nscale else 0)).
      * rewrite sumn_pick by (apply Hp; auto). ring.
      * intros j Hj. apply HF; auto.
  - exact Hu.
  - intros i Him. apply (Hi i Him).
Qed.
(** objective *)
Lemma mi_obj_lemma x s : (forall i, (i < m)%nat -> (s i < pn)%nat) -> selects q x s -> mi_obj q x = truss_weight q s.
Proof.
  intros Hp Hs. unfold mi_obj, vdot, truss_weight. rewrite mi_nvars_eq. unfold mi_ny. fold m pn c nd.
  replace (m * pn + c * (m * pn) + c * nd)%nat with (m * pn + (c * (m * pn) + c * nd))%nat by lia.
  rewrite sz_sumn_cut.
  2:{ intros v Hv. destruct (Nat.ltb_spec v (m * pn)); [lia|]. lra. }
  rewrite sz_sumn_block. apply sumn_ext. intros i Hi.
  rewrite (sumn_ext pn _ (fun j => if (j =? s i)%nat then mi_w q j * mi_L q i else 0)).
  - apply (sumn_delta pn (s i) (fun j => mi_w q j * mi_L q i)). apply Hp; auto.
  - intros j Hj. assert (Hy : (i * pn + j < m * pn)%nat) by nia.
    destruct (Nat.ltb_spec (i * pn + j) (m * pn)); [|lia].
    assert (E1 : ((i * pn + j) mod pn = j)%nat).
    { rewrite Nat.add_comm, Nat.mod_add by lia. apply Nat.mod_small; auto. }
    rewrite E1. rewrite Nat.div_add_l, Nat.div_small, Nat.add_0_r by lia.
    assert (Hsel := Hs i j Hi Hj). fold pn in Hsel. rewrite Hsel. destruct (Nat.eqb_spec j (s i)); [|lra].
    unfold s_L, uscale. field.
Qed.

(** building a feasible point *)
Hypothesis HL : forall i, (i < m)%nat -> 0 < mi_L q i.
Hypothesis HE : forall i, (i < m)%nat -> 0 <= mi_E q i.
Hypothesis HA : forall j, (j < pn)%nat -> 0 <= mi_A q j.
Hypothesis Hul : mi_ulb q <= 0.
Hypothesis Huu : 0 <= mi_uub q.

Lemma elong_bounds i v : (forall d, (d < nd)%nat -> s_ulb q <= v d <= s_uub q) ->
  s_nlb q i <= sumn nd (fun d => mi_B q d i * v d) <= s_nub q i.
Proof.
  intros H. unfold s_nlb, s_nub. fold nd. rewrite <- !sumn_plus. split; apply sz_sumn_le; intros d Hd;
    specialize (H d Hd); unfold Rmax, Rmin; repeat destruct (Rle_dec _ _); nra.
Qed.
Lemma k_pos i j : (i < m)%nat -> (j < pn)%nat -> 0 <= c_k0 q i * mi_A q j * Ascale.
Proof.
  intros Hi Hj. unfold c_k0, Escale, Ascale, uscale, Nscale.
  assert (H1 := HL i Hi). assert (H2 := HE i Hi). assert (H3 := HA j Hj).
  assert (H4 : 0 <= mi_E q i / mi_L q i) by (apply Rmult_le_pos; [auto|left; apply Rinv_0_lt_compat; auto]).
  revert H4. generalize (mi_E q i / mi_L q i). intros r H4.
  replace (r * (1 / 1000 / (1 / 10) ^ 2) / (1 / 10) * mi_A q j * (1 / 10) ^ 2) with (/ 100 * (r * mi_A q j)) by field.
  assert (0 <= r * mi_A q j) by (apply Rmult_le_pos; auto). lra.
Qed.
Lemma Nbounds_val i j : (i < m)%nat -> s_Nlb q i j = c_k0 q i * mi_A q j * Ascale * s_nlb q i
  /\ s_Nub q i j = c_k0 q i * mi_A q j * Ascale * s_nub q i.
Proof.
  intros Hi. assert (H1 := HL i Hi). unfold s_Nlb, s_Nub, s_k0, s_L, c_k0, Escale, Ascale, uscale, Nscale.
  split; field; lra.
Qed.
Lemma force_bounds i j v : (i < m)%nat -> (j < pn)%nat -> (forall d, (d < nd)%nat -> s_ulb q <= v d <= s_uub q) ->
  s_Nlb q i j <= c_k0 q i * mi_A q j * Ascale * sumn nd (fun d => mi_B q d i * v d) <= s_Nub q i j.
Proof.
  intros Hi Hj Hv. destruct (Nbounds_val i j Hi) as [-> ->]. assert (Hk := k_pos i j Hi Hj).
  destruct (elong_bounds i v Hv). split; apply Rmult_le_compat_l; auto.
Qed.

Definition mk_x (s : nat -> nat) (u : nat -> vec) : vec := fun v =>
  let ny := (mi_nmem q * mi_nprof q)%nat in
  if (v <? ny)%nat then (if ((v mod mi_nprof q) =? s (v / mi_nprof q))%nat then 1 else 0)
  else if (v <? ny + mi_nlc q * ny)%nat then
    let k := ((v - ny) / ny)%nat in let r := ((v - ny) mod ny)%nat in
    let i := (r / mi_nprof q)%nat in
    if ((r mod mi_nprof q) =? s i)%nat
    then elastic_force (mi_ndof q) (mi_E q i) (mi_L q i) (mi_A q (s i)) (mi_B q) i (u k) * Nscale else 0
  else let w := (v - ny - mi_nlc q * ny)%nat in u (w / mi_ndof q)%nat (w mod mi_ndof q)%nat / 10.
Lemma divmod_block n a b : (b < n)%nat -> ((a * n + b) / n = a /\ (a * n + b) mod n = b)%nat.
Proof.
  intros H. split.
  - rewrite Nat.div_add_l, Nat.div_small by lia. lia.
  - rewrite Nat.add_comm, Nat.mod_add by lia. apply Nat.mod_small; auto.
Qed.
Lemma mk_x_y s u i j : (i < m)%nat -> (j < pn)%nat -> mk_x s u (i * pn + j)%nat = if (j =? s i)%nat then 1 else 0.
Proof.
  intros Hi Hj. unfold mk_x. fold m pn. cbv zeta. assert (i * pn + j < m * pn)%nat by nia.
  destruct (Nat.ltb_spec (i * pn + j) (m * pn)); [|lia].
  destruct (divmod_block pn i j Hj) as [-> ->]. reflexivity.
Qed.
Lemma mk_x_N s u k i j : (k < c)%nat -> (i < m)%nat -> (j < pn)%nat ->
  force_var q (mk_x s u) k i j
  = if (j =? s i)%nat then elastic_force nd (mi_E q i) (mi_L q i) (mi_A q (s i)) (mi_B q) i (u k) * Nscale else 0.
Proof.
  intros Hk Hi Hj. unfold force_var, mk_x. fold m pn c nd. cbv zeta.
  assert (HN := mi_N_lt q k i j Hk Hi Hj). fold m pn c in HN.
  destruct (Nat.ltb_spec (m * pn + k * (m * pn) + i * pn + j) (m * pn)); [lia|].
  destruct (Nat.ltb_spec (m * pn + k * (m * pn) + i * pn + j) (m * pn + c * (m * pn))); [|lia].
  replace (m * pn + k * (m * pn) + i * pn + j - m * pn)%nat with (k * (m * pn) + (i * pn + j))%nat by lia.
  assert (Hy : (i * pn + j < m * pn)%nat) by nia.
  destruct (divmod_block (m * pn) k (i * pn + j) Hy) as [-> ->].
  destruct (divmod_block pn i j Hj) as [-> ->]. reflexivity.
Qed.
Lemma mk_x_u s u k d : (k < c)%nat -> (d < nd)%nat -> disp_var q (mk_x s u) k d = u k d / 10.
Proof.
  intros Hk Hd. unfold disp_var, mk_x. fold m pn c nd. cbv zeta.
  destruct (Nat.ltb_spec (m * pn + c * (m * pn) + k * nd + d) (m * pn)); [lia|].
  destruct (Nat.ltb_spec (m * pn + c * (m * pn) + k * nd + d) (m * pn + c * (m * pn))); [lia|].
  replace (m * pn + c * (m * pn) + k * nd + d - m * pn - c * (m * pn))%nat with (k * nd + d)%nat by lia.
  destruct (divmod_block nd k d Hd) as [-> ->]. reflexivity.
Qed.
(** every variable is one of the three kinds *)
Lemma var_cases v : (v < mi_nvars q)%nat ->
  (exists i j, (i < m)%nat /\ (j < pn)%nat /\ v = (i * pn + j)%nat)
  \/ (exists k i j, (k < c)%nat /\ (i < m)%nat /\ (j < pn)%nat /\ v = (m * pn + k * (m * pn) + i * pn + j)%nat)
  \/ (exists k d, (k < c)%nat /\ (d < nd)%nat /\ v = (m * pn + c * (m * pn) + k * nd + d)%nat).
Proof.
  rewrite mi_nvars_eq. fold m pn c nd. intros Hv.
  destruct (Nat.lt_ge_cases v (m * pn)) as [H|H].
  - left. assert (Hpn : pn <> 0%nat) by (intros E; rewrite E in H; lia).
    exists (v / pn)%nat, (v mod pn)%nat. assert (Hd := Nat.div_mod v pn Hpn). assert (Hm := Nat.mod_upper_bound v pn Hpn).
    repeat split; [|auto|lia]. apply Nat.div_lt_upper_bound; auto. lia.
  - destruct (Nat.lt_ge_cases v (m * pn + c * (m * pn))) as [H2|H2].
    + right; left. assert (Hny : (m * pn <> 0)%nat) by (intros E; rewrite E in H2; lia).
      assert (Hpn : pn <> 0%nat) by (intros E; rewrite E in Hny; lia).
      set (w := (v - m * pn)%nat). set (r := (w mod (m * pn))%nat).
      assert (Hd := Nat.div_mod w (m * pn) Hny). assert (Hm := Nat.mod_upper_bound w (m * pn) Hny). fold r in Hd, Hm.
      assert (Hd2 := Nat.div_mod r pn Hpn). assert (Hm2 := Nat.mod_upper_bound r pn Hpn).
      exists (w / (m * pn))%nat, (r / pn)%nat, (r mod pn)%nat. repeat split.
      * apply Nat.div_lt_upper_bound; auto. unfold w. lia.
      * apply Nat.div_lt_upper_bound; auto. lia.
      * auto.
      * assert (v = m * pn + w)%nat by (unfold w; lia). lia.
    + right; right. assert (Hnd : nd <> 0%nat) by (intros E; rewrite E in Hv; lia).
      set (w := (v - m * pn - c * (m * pn))%nat).
      assert (Hd := Nat.div_mod w nd Hnd). assert (Hm := Nat.mod_upper_bound w nd Hnd).
      exists (w / nd)%nat, (w mod nd)%nat. repeat split.
      * apply Nat.div_lt_upper_bound; auto. unfold w. lia.
      * auto.
      * assert (v = m * pn + c * (m * pn) + w)%nat by (unfold w; lia). lia.
Qed.
Lemma mi_bnd_y i j : (i < m)%nat -> (j < pn)%nat -> mi_lb q (i * pn + j)%nat = 0 /\ mi_ub q (i * pn + j)%nat = 1.
Proof.
  intros Hi Hj. unfold mi_lb, mi_ub, mi_ny. fold m pn. assert (i * pn + j < m * pn)%nat by nia.
  destruct (Nat.ltb_spec (i * pn + j) (m * pn)); [auto|lia].
Qed.
Lemma mi_bnd_N k i j : (k < c)%nat -> (i < m)%nat -> (j < pn)%nat ->
  mi_lb q (m * pn + k * (m * pn) + i * pn + j)%nat = s_Nlb q i j /\ mi_ub q (m * pn + k * (m * pn) + i * pn + j)%nat = s_Nub q i j.
Proof.
  intros Hk Hi Hj. unfold mi_lb, mi_ub, mi_ny. fold m pn c.
  assert (HN := mi_N_lt q k i j Hk Hi Hj). fold m pn c in HN.
  destruct (Nat.ltb_spec (m * pn + k * (m * pn) + i * pn + j) (m * pn)); [lia|].
  destruct (Nat.ltb_spec (m * pn + k * (m * pn) + i * pn + j) (m * pn + c * (m * pn))); [|lia].
  replace (m * pn + k * (m * pn) + i * pn + j - m * pn)%nat with (k * (m * pn) + (i * pn + j))%nat by lia.
  assert (Hy : (i * pn + j < m * pn)%nat) by nia. cbv zeta.
  destruct (divmod_block (m * pn) k (i * pn + j) Hy) as [_ ->].
  destruct (divmod_block pn i j Hj) as [-> ->]. auto.
Qed.
Lemma mi_bnd_u k d : (k < c)%nat -> (d < nd)%nat ->
  mi_lb q (m * pn + c * (m * pn) + k * nd + d)%nat = s_ulb q /\ mi_ub q (m * pn + c * (m * pn) + k * nd + d)%nat = s_uub q.
Proof.
  intros Hk Hd. unfold mi_lb, mi_ub, mi_ny. fold m pn c.
  destruct (Nat.ltb_spec (m * pn + c * (m * pn) + k * nd + d) (m * pn)); [lia|].
  destruct (Nat.ltb_spec (m * pn + c * (m * pn) + k * nd + d) (m * pn + c * (m * pn))); [lia|]. auto.
Qed.

Lemma mk_x_feasible s (u : nat -> vec) : (0 < c)%nat -> (forall i, (i < m)%nat -> (s i < pn)%nat) ->
  (forall k d, (k < c)%nat -> (d < nd)%nat -> mi_ulb q <= u k d <= mi_uub q) ->
  (forall k i, (k < c)%nat -> (i < m)%nat ->
       let N := elastic_force nd (mi_E q i) (mi_L q i) (mi_A q (s i)) (mi_B q) i (u k) in
       N <= IZR (floorZ (mi_NRd q (s i)))
       /\ - N <= IZR (floorZ (mi_NRd q (s i))) /\ - N <= IZR (floorZ (mi_NbRd q i (s i)))) ->
  (forall k d, (k < c)%nat -> (d < nd)%nat ->
     sumn m (fun i => mi_B q d i * elastic_force nd (mi_E q i) (mi_L q i) (mi_A q (s i)) (mi_B q) i (u 0%nat)) = mi_p q k d) ->
  mi_feasible q (mk_x s u).
Proof.
  intros Hc Hs Hu HR Heq.
  assert (Hsu : forall k d, (k < c)%nat -> (d < nd)%nat -> s_ulb q <= u k d / 10 <= s_uub q).
  { intros k d Hk Hd. specialize (Hu k d Hk Hd). unfold s_ulb, s_uub, uscale. lra. }
  assert (H0 : forall d, (d < nd)%nat -> s_ulb q <= (fun _ : nat => 0) d <= s_uub q).
  { intros d Hd. unfold s_ulb, s_uub, uscale. lra. }
  assert (HNb : forall k i j, (k < c)%nat -> (i < m)%nat -> (j < pn)%nat ->
     s_Nlb q i j <= elastic_force nd (mi_E q i) (mi_L q i) (mi_A q j) (mi_B q) i (u k) * Nscale <= s_Nub q i j).
  { intros k i j Hk Hi Hj. rewrite <- c_k0_val. apply (force_bounds i j (fun d => u k d / 10)); auto. }
  assert (HN0 : forall i j, (i < m)%nat -> (j < pn)%nat -> s_Nlb q i j <= 0 <= s_Nub q i j).
  { intros i j Hi Hj. assert (H := force_bounds i j (fun _ => 0) Hi Hj H0).
    rewrite sumn_zero in H by (intros; lra). lra. }
  split; [|split].
  - intros v Hv. destruct (var_cases v Hv) as [[i [j [Hi [Hj ->]]]]|[[k [i [j [Hk [Hi [Hj ->]]]]]]|[k [d [Hk [Hd ->]]]]]].
    + destruct (mi_bnd_y i j Hi Hj) as [-> ->]. rewrite mk_x_y by auto. destruct (j =? s i)%nat; lra.
    + destruct (mi_bnd_N k i j Hk Hi Hj) as [-> ->]. assert (H := mk_x_N s u k i j Hk Hi Hj).
      unfold force_var in H. fold m pn in H. rewrite H. destruct (Nat.eqb_spec j (s i)).
      * subst j. apply HNb; auto.
      * apply HN0; auto.
    + destruct (mi_bnd_u k d Hk Hd) as [-> ->]. assert (H := mk_x_u s u k d Hk Hd).
      unfold disp_var in H. fold m pn c nd in H. rewrite H. apply Hsu; auto.
  - intros v Hv. unfold mi_ny in Hv. fold m pn in Hv.
    destruct (var_cases v) as [[i [j [Hi [Hj ->]]]]|[[k [i [j [Hk [Hi [Hj ->]]]]]]|[k [d [Hk [Hd ->]]]]]].
    + rewrite mi_nvars_eq. fold m pn c nd. lia.
    + rewrite mk_x_y by auto. destruct (j =? s i)%nat; auto.
    + lia.
    + lia.
  - apply mi_rows_iff; [exact Hc|]. fold m pn c nd. split; [|split].
    + intros i Hi. rewrite (sumn_ext pn _ (fun j => if (j =? s i)%nat then 1 else 0)).
      * apply sumn_pick. apply Hs; auto.
      * intros j Hj. apply mk_x_y; auto.
    + intros k d Hk Hd. rewrite <- (Heq k d Hk Hd). rewrite Rmult_comm, <- sumn_scale. apply sumn_ext. intros i Hi.
      rewrite (sumn_ext pn _ (fun j => if (j =? s i)%nat then elastic_force nd (mi_E q i) (mi_L q i) (mi_A q (s i)) (mi_B q) i (u 0%nat) * Nscale else 0)).
      * rewrite sumn_pick by (apply Hs; auto). ring.
      * intros j Hj. apply mk_x_N; auto.
    + intros k i j Hk Hi Hj. rewrite mk_x_N, mk_x_y by auto.
      assert (He : c_k0 q i * mi_A q j * Ascale * elong q (mk_x s u) k i
         = elastic_force nd (mi_E q i) (mi_L q i) (mi_A q j) (mi_B q) i (u k) * Nscale).
      { rewrite <- c_k0_val. f_equal. unfold elong. fold nd. apply sumn_ext. intros d Hd. rewrite mk_x_u by auto. reflexivity. }
      rewrite He. assert (Hb := HNb k i j Hk Hi Hj).
      destruct (Nat.eqb_spec j (s i)).
      * subst j. destruct (HR k i Hk Hi) as [R1 [R2 R3]]. unfold s_NRd, s_NbRd, Nscale.
        repeat split; try lra. apply Rle_trans with (Rmin (IZR (floorZ (mi_NRd q (s i))) * (1 / 1000)) (IZR (floorZ (mi_NbRd q i (s i))) * (1 / 1000))); [|lra].
        apply Rmin_glb; lra.
      * repeat split; lra.
Qed.
Lemma mi_complete_lemma s u : c = 1%nat -> design_ok q s (mi_p q 0) u ->
  exists x, mi_feasible q x /\ selects q x s /\ mi_obj q x = truss_weight q s.
Proof.
  intros Hc1 [Hs [Heq [Hu HR]]]. fold m pn nd in Hs, Heq, Hu, HR.
  assert (Hc : (0 < c)%nat) by lia.
  assert (Hsel : selects q (mk_x s (fun _ => u)) s) by (intros i j Hi Hj; apply mk_x_y; auto).
  exists (mk_x s (fun _ => u)). split; [|split; [exact Hsel|apply mi_obj_lemma; auto]].
  apply mk_x_feasible; auto.
  { intros k i Hk Hi. apply (HR i Hi). }
  intros k d Hk Hd. replace k with 0%nat by lia. rewrite <- (Heq d Hd), truss_K_force. reflexivity.
Qed.
Lemma mi_optimal_lemma x : c = 1%nat -> mi_feasible q x -> (forall x', mi_feasible q x' -> mi_obj q x <= mi_obj q x') ->
  exists s, selects q x s /\ design_ok q s (mi_p q 0) (u_mm x 0)
   /\ forall s' u', design_ok q s' (mi_p q 0) u' -> truss_weight q s <= truss_weight q s'.
Proof.
  intros Hc Hf Ho. destruct (mi_sound_lemma x) as [s [H1 H2]]; [lia|auto|].
  exists s. split; [auto|]. split; [auto|]. intros s' u' H'.
  destruct (mi_complete_lemma s' u' Hc H') as [x' [Hf' [_ Hw]]].
  rewrite <- Hw, <- (mi_obj_lemma x s); auto. apply H2.
Qed.
(** the later load cases are not tied to any load *)
Lemma mi_later_lemma x : (0 < c)%nat -> mi_feasible q x ->
  (forall j, (j < pn)%nat -> 0 <= IZR (floorZ (mi_NRd q j))) ->
  (forall i j, (i < m)%nat -> (j < pn)%nat -> 0 <= IZR (floorZ (mi_NbRd q i j))) ->
  exists x', mi_feasible q x' /\ mi_obj q x' = mi_obj q x
   /\ (forall d, (d < nd)%nat -> disp_var q x' 0 d = disp_var q x 0 d)
   /\ forall k, (0 < k < c)%nat -> (forall d, (d < nd)%nat -> disp_var q x' k d = 0)
        /\ forall i j, (i < m)%nat -> (j < pn)%nat -> force_var q x' k i j = 0.
Proof.
  intros Hc Hf HR1 HR2. destruct (mi_sound_lemma x Hc Hf) as [s [Hsel [Hs [Heq [Hu HR]]]]].
  fold m pn nd in Hs, Heq, Hu, HR.
  set (u := fun k d => if (k =? 0)%nat then u_mm x 0 d else 0).
  assert (HN0 : forall i, elastic_force nd (mi_E q i) (mi_L q i) (mi_A q (s i)) (mi_B q) i (fun _ => 0) = 0).
  { intros i. unfold elastic_force. rewrite sumn_zero by (intros; lra). lra. }
  assert (Hx : selects q (mk_x s u) s) by (intros i j Hi Hj; apply mk_x_y; auto).
  exists (mk_x s u). split; [|split; [|split]].
  - apply mk_x_feasible; auto.
    + intros k d Hk Hd. unfold u. destruct (k =? 0)%nat; [apply Hu; auto|lra].
    + intros k i Hk Hi. unfold u. destruct (k =? 0)%nat; cbv zeta; [apply HR; auto|].
      rewrite HN0. assert (H1 := HR1 (s i) (Hs i Hi)). assert (H2 := HR2 i (s i) Hi (Hs i Hi)). lra.
    + intros k d Hk Hd. rewrite (mi_loads_lemma x Hf k d Hk Hd), <- (Heq d Hd), truss_K_force. reflexivity.
  - rewrite (mi_obj_lemma x s), (mi_obj_lemma (mk_x s u) s); auto.
  - intros d Hd. rewrite mk_x_u by auto. unfold u, u_mm. simpl. lra.
  - intros k Hk. split.
    + intros d Hd. rewrite mk_x_u by lia. unfold u. destruct (Nat.eqb_spec k 0); [lia|]. lra.
    + intros i j Hi Hj. rewrite mk_x_N by lia. unfold u. destruct (Nat.eqb_spec k 0); [lia|]. rewrite HN0.
      destruct (j =? s i)%nat; lra.
Qed.
End MI3.
