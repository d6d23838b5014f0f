(** Sheeting diaphragms. *)
From Verif Require Import Base Bool_tac EC3_model EC3_proofs Sections_proofs Cold_proofs Loads2_proofs Cold5_proofs Cold_model Skin_model Skin_spec.
Require Import Reals List Lra Lia Bool Psatz ZArith.
Import ListNotations.
Local Open Scope R_scope.
Ltac pm := first [assumption | lra | apply pow_lt; pm | apply Rdiv_lt_0_compat; pm | apply Rmult_lt_0_compat; pm].

(** ---- beta1. *)
Lemma fold_app1 : forall l x, fold_right Rplus 0 (l ++ [x]) = fold_right Rplus 0 l + x.
Proof. induction l as [|y l IH]; intros x; cbn; [lra|rewrite IH; lra]. Qed.
Lemma cube_sum_S : forall e d m, cube_sum e d (S m) = cube_sum e d m + ((2 * (INR m + 1) - e) / d) ^ 3.
Proof. intros. unfold cube_sum. rewrite seq_S, map_app. cbn [map plus]. apply fold_app1. Qed.
Lemma odd_cubes : forall d m, d <> 0 -> cube_sum 1 d m = INR m ^ 2 * (2 * INR m ^ 2 - 1) / d ^ 3.
Proof. intros d m H. induction m as [|m IH]; [unfold cube_sum; cbn; field; auto|]. rewrite cube_sum_S, IH, S_INR. field. auto. Qed.
Lemma even_cubes : forall d m, d <> 0 -> cube_sum 0 d m = 2 * INR m ^ 2 * (INR m + 1) ^ 2 / d ^ 3.
Proof. intros d m H. induction m as [|m IH]; [unfold cube_sum; cbn; field; auto|]. rewrite cube_sum_S, IH, S_INR. field. auto. Qed.
Lemma even2 : forall m, Nat.even (2 * m) = true. Proof. intros. rewrite Nat.even_mul. reflexivity. Qed.
Lemma odd2 : forall m, Nat.even (2 * m + 1) = false. Proof. intros. rewrite Nat.even_add, even2. reflexivity. Qed.
Lemma beta1_lemma : forall m, (1 <= m)%nat ->
  beta1 (2 * m) true = INR m ^ 2 * (2 * INR m ^ 2 - 1) / (2 * INR m - 1) ^ 3 /\
  beta1 (2 * m + 1) true = (INR m + 1) ^ 2 / (4 * INR m) /\
  beta1 (2 * m) false = (2 * INR m ^ 2 - 1) / (8 * INR m) /\
  beta1 (2 * m + 1) false = 2 * INR m ^ 2 * (INR m + 1) ^ 2 / (2 * INR m + 1) ^ 3.
Proof.
  intros m Hm. assert (P : 1 <= INR m) by (apply (le_INR 1); auto). unfold beta1. rewrite even2, odd2.
  replace (2 * m / 2)%nat with m by (rewrite Nat.mul_comm, Nat.div_mul; lia). replace ((2 * m + 1 - 1) / 2)%nat with m by (rewrite Nat.add_sub, Nat.mul_comm, Nat.div_mul; lia).
  rewrite plus_INR, mult_INR. change (INR 2) with 2. change (INR 1) with 1. split; [|split; [|split]].
  - rewrite odd_cubes by lra. reflexivity.
  - rewrite even_cubes by lra. replace (2 * INR m + 1 - 1) with (2 * INR m) by ring. field. lra.
  - rewrite odd_cubes by lra. field. lra.
  - rewrite even_cubes by lra. reflexivity.
Qed.
Lemma half : forall n, (2 <= n)%nat -> exists m, (1 <= m)%nat /\ (n = 2 * m \/ n = 2 * m + 1)%nat.
Proof.
  intros n H. exists (n / 2)%nat. pose proof (Nat.div_mod n 2 ltac:(lia)). pose proof (Nat.mod_upper_bound n 2 ltac:(lia)).
  split; [apply Nat.div_le_lower_bound; lia|]. lia.
Qed.
Lemma beta1_mono_lemma : forall n, (2 <= n)%nat -> 1 <= beta1 n true <= beta1 (n + 1) true /\ 0 < beta1 n false < beta1 n true.
Proof.
  assert (G : forall n, (2 <= n)%nat -> beta1 n true <= beta1 (n + 1) true).
  { intros n H. destruct (half n H) as (m & Hm & [-> | ->]); assert (P : 1 <= INR m) by (apply (le_INR 1); auto).
    - destruct (beta1_lemma m Hm) as (-> & -> & _). apply Rmult_le_reg_r with ((2 * INR m - 1) ^ 3 * (4 * INR m)); [assert (0 < 2 * INR m - 1) by lra; assert (0 < INR m) by lra; pm|].
      replace (INR m ^ 2 * (2 * INR m ^ 2 - 1) / (2 * INR m - 1) ^ 3 * ((2 * INR m - 1) ^ 3 * (4 * INR m))) with (INR m ^ 2 * (2 * INR m ^ 2 - 1) * (4 * INR m)) by (field; lra).
      replace ((INR m + 1) ^ 2 / (4 * INR m) * ((2 * INR m - 1) ^ 3 * (4 * INR m))) with ((INR m + 1) ^ 2 * (2 * INR m - 1) ^ 3) by (field; lra).
      assert (E : (INR m + 1) ^ 2 * (2 * INR m - 1) ^ 3 = INR m ^ 2 * (2 * INR m ^ 2 - 1) * (4 * INR m) + (INR m - 1) ^ 2 * (4 * INR m ^ 2 + 2 * INR m - 1)) by ring.
      rewrite E. assert (0 <= (INR m - 1) ^ 2 * (4 * INR m ^ 2 + 2 * INR m - 1)) by (apply Rmult_le_pos; [apply pow2_ge_0|nra]). lra.
    - destruct (beta1_lemma m Hm) as (_ & -> & _). replace (2 * m + 1 + 1)%nat with (2 * S m)%nat by lia. destruct (beta1_lemma (S m) ltac:(lia)) as (-> & _). rewrite S_INR.
      apply Rmult_le_reg_r with ((2 * INR m + 1) ^ 3 * (4 * INR m)); [assert (0 < 2 * INR m + 1) by lra; assert (0 < INR m) by lra; pm|].
      replace ((INR m + 1) ^ 2 / (4 * INR m) * ((2 * INR m + 1) ^ 3 * (4 * INR m))) with ((INR m + 1) ^ 2 * (2 * INR m + 1) ^ 3) by (field; lra).
      replace (2 * (INR m + 1) - 1) with (2 * INR m + 1) by ring.
      replace ((INR m + 1) ^ 2 * (2 * (INR m + 1) ^ 2 - 1) / (2 * INR m + 1) ^ 3 * ((2 * INR m + 1) ^ 3 * (4 * INR m))) with ((INR m + 1) ^ 2 * ((2 * (INR m + 1) ^ 2 - 1) * (4 * INR m))) by (field; lra).
      apply Rmult_le_compat_l; [apply pow2_ge_0|]. nra. }
  assert (L : forall n, (2 <= n)%nat -> 1 <= beta1 n true).
  { intros n H. induction H as [|n H IH].
    - destruct (beta1_lemma 1 ltac:(lia)) as (E & _). change (2 * 1)%nat with 2%nat in E. rewrite E. change (INR 1) with 1. lra.
    - pose proof (G n H). rewrite Nat.add_1_r in H0. lra. }
  intros n H. split; [split; [apply L; auto|apply G; auto]|].
  destruct (half n H) as (m & Hm & [-> | ->]); assert (P : 1 <= INR m) by (apply (le_INR 1); auto); destruct (beta1_lemma m Hm) as (E1 & E2 & E3 & E4).
  - rewrite E1, E3. clear E1 E2 E3 E4 G L H. assert (1 <= INR m ^ 2) by nra. split; [apply Rdiv_lt_0_compat; lra|].
    replace ((2 * INR m ^ 2 - 1) / (8 * INR m)) with (INR m ^ 2 * (2 * INR m ^ 2 - 1) * / (2 * INR m) ^ 3) by (field; lra).
    apply Rmult_lt_compat_l; [assert (0 < INR m ^ 2) by (apply pow_lt; lra); nra|]. apply Rinv_lt_contravar; [assert (0 < 2 * INR m) by lra; assert (0 < 2 * INR m - 1) by lra; pm|].
    assert (0 < 2 * INR m - 1) by lra. set (x := 2 * INR m) in *. clearbody x. assert (x ^ 3 - (x - 1) ^ 3 = 3 * x * (x - 1) + 1) by ring. nra.
  - rewrite E2, E4. clear E1 E2 E3 E4 G L H. split; [assert (0 < INR m) by lra; assert (0 < INR m + 1) by lra; assert (0 < 2 * INR m + 1) by lra; pm|].
    replace ((INR m + 1) ^ 2 / (4 * INR m)) with (2 * INR m ^ 2 * (INR m + 1) ^ 2 * / (2 * INR m) ^ 3) by (field; lra).
    apply Rmult_lt_compat_l; [assert (0 < INR m) by lra; assert (0 < INR m + 1) by lra; pm|]. apply Rinv_lt_contravar; [assert (0 < 2 * INR m) by lra; assert (0 < 2 * INR m + 1) by lra; pm|].
    assert (0 < 2 * INR m) by lra. set (x := 2 * INR m) in *. clearbody x. assert ((x + 1) ^ 3 - x ^ 3 = 3 * x * x + 3 * x + 1) by ring. nra.
Qed.

(** ---- Table 5.9. *)
Lemma truncZ_pos : forall x, 0 <= x -> truncZ x = floorZ x.
Proof. intros x H. unfold truncZ. destruct Rle_dec; [reflexivity|lra]. Qed.
Lemma idx_lemma : forall q (i : nat), INR (i + 1) / 10 <= q < INR (i + 2) / 10 -> (truncZ (q / (1/10)) - 1 = Z.of_nat i)%Z.
Proof.
  intros q i H. rewrite !plus_INR in H. change (INR 1) with 1 in H. change (INR 2) with 2 in H. pose proof (pos_INR i).
  rewrite truncZ_pos by lra. rewrite (floorZ_unique _ (Z.of_nat i + 1)); [lia|]. rewrite plus_IZR, <- INR_IZR_INZ. lra.
Qed.
Lemma py_nth_nat : forall A (l : list A) i, py_nth l (Z.of_nat i) = nth_error l i.
Proof. intros. unfold py_nth. rewrite (proj2 (Z.ltb_ge _ _)) by lia. rewrite Nat2Z.id. reflexivity. Qed.
Lemma K_lemma : forall k a j i, 0 < sk_p k ->
  5 * IZR a <= 90 - s_angle (sk_s k) < 5 * IZR a + 5 ->
  INR (j + 1) / 10 <= s_h (sk_s k) / sk_p k < INR (j + 2) / 10 -> INR (i + 1) / 10 <= s_bt (sk_s k) / sk_p k < INR (i + 2) / 10 ->
  skin_K k = match table_at (5 * a) j i with Some v => Some (IZR v / 1000) | None => None end.
Proof.
  intros k a j i P A J I0. unfold skin_K, table_at, K1_rows. rewrite !pdiv_ok by lra. cbn [bind]. rewrite (floorZ_unique _ a) by lra.
  rewrite (idx_lemma _ _ J), (idx_lemma _ _ I0). destruct (find _ K1) as [e|]; [|reflexivity]. rewrite py_nth_nat. destruct (nth_error (snd e) j); [|reflexivity].
  rewrite py_nth_nat. reflexivity.
Qed.
Definition entries : list Z := concat (concat (map snd K1)).
Lemma entries_range : forallb (fun v => Z.leb 13 v && Z.leb v 6453) entries = true. Proof. vm_compute. reflexivity. Qed.
Lemma py_nth_In : forall A (l : list A) i x, py_nth l i = Some x -> In x l.
Proof. intros A l i x H. unfold py_nth in H. destruct (Z.ltb i 0); [destruct (Z.ltb _ 0); [discriminate|]|]; apply nth_error_In in H; auto. Qed.
Lemma K_range_lemma : forall k v, skin_K k = Some v -> 13/1000 <= v <= 6453/1000 /\ 40 < s_angle (sk_s k) <= 90.
Proof.
  intros k v E. unfold skin_K in E. apply bind_inv in E. destruct E as (l2d & _ & E). apply bind_inv in E. destruct E as (h2d & _ & E).
  unfold K1_rows in E. destruct (find _ K1) as [e|] eqn:F; [|discriminate E]. destruct (py_nth (snd e) _) as [r|] eqn:R1; [|discriminate E].
  destruct (py_nth r _) as [z|] eqn:R2; [|discriminate E]. apply some_inj in E. subst v.
  apply py_nth_In in R1. apply py_nth_In in R2. pose proof (find_some _ _ F) as [F1 F2].
  split.
  - assert (In z entries). { unfold entries. apply in_concat. exists r. split; auto. apply in_concat. exists (snd e). split; auto. apply in_map; auto. }
    pose proof entries_range as Q. rewrite forallb_forall in Q. specialize (Q z H). apply andb_prop in Q. destruct Q as [Q1 Q2].
    apply Z.leb_le in Q1. apply Z.leb_le in Q2. apply IZR_le in Q1. apply IZR_le in Q2. lra.
  - apply Z.eqb_eq in F2. assert (A : (0 <= fst e <= 45)%Z).
    { assert (Q : forallb (fun e => Z.leb 0 (fst e) && Z.leb (fst e) 45) K1 = true) by (vm_compute; reflexivity). rewrite forallb_forall in Q. specialize (Q e F1).
      apply andb_prop in Q. destruct Q as [Q1 Q2]. apply Z.leb_le in Q1. apply Z.leb_le in Q2. lia. }
    rewrite F2 in A. destruct (floorZ_spec ((90 - s_angle (sk_s k)) / 5)) as [S1 S2].
    assert (A1 : (0 <= floorZ ((90 - s_angle (sk_s k)) / 5) <= 9)%Z) by lia. destruct A1 as [A1 A2]. apply IZR_le in A1. apply IZR_le in A2. lra.
Qed.
(** Rows and columns without gaps; deeper profiles with vertical webs are more flexible. *)
Lemma table_closed_lemma : forall a j i v j' i', table_at a j i = Some v -> (j' <= j)%nat -> (i' <= i)%nat -> exists v', table_at a j' i' = Some v'.
Proof.
  assert (Q : forallb (fun e => forallb (fun j => forallb (fun j' => Nat.leb (length (nth j (snd e) [])) (length (nth j' (snd e) []))) (seq 0 (S j))) (seq 0 (length (snd e)))) K1 = true) by (vm_compute; reflexivity).
  intros a j i v j' i' H J I0. unfold table_at in *. destruct (find _ K1) as [e|] eqn:F; [|discriminate H]. apply find_some in F. destruct F as [F _].
  rewrite forallb_forall in Q. specialize (Q e F). rewrite forallb_forall in Q. destruct (nth_error (snd e) j) as [r|] eqn:R1; [|discriminate H].
  assert (L : (j < length (snd e))%nat) by (apply nth_error_Some; rewrite R1; discriminate). assert (Q' := Q j (proj2 (in_seq (length (snd e)) 0 j) ltac:(lia))). cbv beta in Q'.
  rewrite forallb_forall in Q'. specialize (Q' j' (proj2 (in_seq (S j) 0 j') ltac:(lia))). apply Nat.leb_le in Q'.
  assert (L2 : (i < length r)%nat) by (apply nth_error_Some; rewrite H; discriminate). rewrite (nth_error_nth _ _ [] R1) in Q'.
  destruct (nth_error (snd e) j') as [r'|] eqn:R2; [|apply nth_error_None in R2; lia]. rewrite (nth_error_nth _ _ [] R2) in Q'.
  destruct (nth_error r' i') as [v'|] eqn:R3; [eauto|apply nth_error_None in R3; lia].
Qed.
Lemma table_depth_lemma : forall j i v v', table_at 0 j i = Some v -> table_at 0 (S j) i = Some v' -> (v < v')%Z.
Proof.
  assert (Q : forallb (fun j => forallb (fun i => match table_at 0 j i, table_at 0 (S j) i with Some v, Some v' => Z.ltb v v' | _, _ => true end) (seq 0 9)) (seq 0 8) = true) by (vm_compute; reflexivity).
  intros j i v v' H1 H2. destruct (le_lt_dec 8 j) as [L|L]; [|destruct (le_lt_dec 9 i) as [M|M]].
  - exfalso. unfold table_at in H1. cbn [find K1 fst snd Z.eqb] in H1. rewrite (proj2 (nth_error_None _ j)) in H1 by (cbn; lia). discriminate.
  - exfalso. unfold table_at in H1. cbn [find K1 fst snd Z.eqb] in H1. do 8 (destruct j as [|j]; [cbn [nth_error] in H1; rewrite (proj2 (nth_error_None _ i)) in H1 by (cbn; lia); discriminate|]). lia.
  - rewrite forallb_forall in Q. specialize (Q j (proj2 (in_seq 8 0 j) ltac:(lia))). cbv beta in Q. rewrite forallb_forall in Q. specialize (Q i (proj2 (in_seq 9 0 i) ltac:(lia))).
    rewrite H1, H2 in Q. apply Z.ltb_lt. exact Q.
Qed.
