(** Proofs about the beam element. *)
From Verif Require Import Tac Beam_spec Fem2_proofs.

Ltac mx := cbn [sumn existsb fst snd Nat.eqb andb orb nth pos]; unfold mzero, mrows, vlist; cbn [nth].
Ltac six i := destruct i as [|[|[|[|[|[|i]]]]]].

Lemma k_local_sym E A I L : sym (k_local E A I L).
Proof. intros i j. six i; six j; reflexivity. Qed.

Lemma k_local_energy E A I L u : L <> 0 ->
  quad 6 (k_local E A I L) u = E * A / L * (u 0%nat - u 3%nat) ^ 2
    + E * I / L * ((u 2%nat - u 5%nat) ^ 2 + 3 * (u 2%nat + u 5%nat - 2 * (u 4%nat - u 1%nat) / L) ^ 2).
Proof. intros HL. unfold quad, k_local, put. mx. field; auto. Qed.

Lemma k_local_psd_lemma E A I L : 0 < E -> 0 <= A -> 0 <= I -> 0 < L -> psd 6 (k_local E A I L).
Proof.
  intros HE HA HI HL u. rewrite k_local_energy by lra.
  assert (0 <= E * A / L) by (apply Rmult_le_pos; [nra|left; apply Rinv_0_lt_compat; lra]).
  assert (0 <= E * I / L) by (apply Rmult_le_pos; [nra|left; apply Rinv_0_lt_compat; lra]).
  pose proof (pow2_ge_0 (u 0%nat - u 3%nat)).
  pose proof (pow2_ge_0 (u 2%nat - u 5%nat)).
  pose proof (pow2_ge_0 (u 2%nat + u 5%nat - 2 * (u 4%nat - u 1%nat) / L)).
  apply Rplus_le_le_0_compat; apply Rmult_le_pos; auto; lra.
Qed.

Lemma k_local_rigid_lemma E A I L a b th i : L <> 0 -> (i < 6)%nat -> mvec 6 (k_local E A I L) (rigid_local L a b th) i = 0.
Proof.
  intros HL Hi. unfold mvec, k_local, put, rigid_local.
  six i; try lia; mx; field; auto.
Qed.

Lemma k_local_zero_energy_lemma E A I L u : 0 < E -> 0 < A -> 0 < I -> 0 < L ->
  quad 6 (k_local E A I L) u = 0 ->
  exists a b th, forall i, (i < 6)%nat -> u i = rigid_local L a b th i.
Proof.
  intros HE HA HI HL Q. rewrite k_local_energy in Q by lra.
  assert (P1 : 0 < E * A / L) by (apply Rmult_lt_0_compat; [nra|apply Rinv_0_lt_compat; lra]).
  assert (P2 : 0 < E * I / L) by (apply Rmult_lt_0_compat; [nra|apply Rinv_0_lt_compat; lra]).
  set (p := u 0%nat - u 3%nat) in *. set (q := u 2%nat - u 5%nat) in *.
  set (r := u 2%nat + u 5%nat - 2 * (u 4%nat - u 1%nat) / L) in *.
  pose proof (pow2_ge_0 p). pose proof (pow2_ge_0 q). pose proof (pow2_ge_0 r).
  assert (p ^ 2 = 0) by nra.
  assert (q ^ 2 + 3 * r ^ 2 = 0) by nra.
  assert (Z0 : forall x, x ^ 2 = 0 -> x = 0) by (intros x Hx; nra).
  assert (p = 0) by (apply Z0; auto). assert (q = 0) by (apply Z0; nra). assert (Hr : r = 0) by (apply Z0; nra).
  exists (u 0%nat), (u 1%nat), (u 2%nat). intros i Hi. unfold rigid_local.
  six i; try lia; cbn [vlist nth]; auto; unfold p, q in *; try lra.
  unfold r in Hr. assert (u 5%nat = u 2%nat) by lra.
  assert (2 * (u 4%nat - u 1%nat) / L = 2 * u 2%nat) by lra.
  assert (u 4%nat - u 1%nat = L * u 2%nat).
  { apply (Rmult_eq_reg_l (2 / L)). 2:{ apply Rgt_not_eq. apply Rmult_lt_0_compat; [lra|apply Rinv_0_lt_compat; lra]. }
    replace (2 / L * (L * u 2%nat)) with (2 * u 2%nat) by (field; lra).
    replace (2 / L * (u 4%nat - u 1%nat)) with (2 * (u 4%nat - u 1%nat) / L) by (field; lra). auto. }
  lra.
Qed.

(** ---------- length and transformation ---------- *)
Lemma sqrt_pow dx dy : sqrt (dx ^ 2 + dy ^ 2) = dist2 dx dy.
Proof. unfold dist2. f_equal. ring. Qed.
Lemma length_on_grid dx dy : on_grid (dist2 dx dy) -> elem_length dx dy = dist2 dx dy.
Proof.
  intros (z & Hz & _). unfold elem_length, roundn. rewrite sqrt_pow, Hz.
  replace (IZR z / 1000 * 10 ^ 3) with (IZR z) by (simpl; field). rewrite roundZ_IZR. simpl; field.
Qed.
Lemma length_err dx dy : Rabs (dist2 dx dy - elem_length dx dy) <= 1 / 2000.
Proof.
  unfold elem_length, roundn. rewrite sqrt_pow. pose proof (roundZ_err (dist2 dx dy * 10 ^ 3)) as Q.
  set (d := dist2 dx dy) in *. set (z := IZR (roundZ (d * 10 ^ 3))) in *.
  replace (d - z / 10 ^ 3) with ((d * 10 ^ 3 - z) * / 1000) by (simpl; field).
  rewrite Rabs_mult. rewrite (Rabs_right (/ 1000)) by lra. lra.
Qed.
Lemma dist2_sq dx dy : dist2 dx dy * dist2 dx dy = dx * dx + dy * dy.
Proof. apply sqrt_sqrt. nra. Qed.
Lemma on_grid_pos d : on_grid d -> 0 < d.
Proof. intros (z & -> & H). apply IZR_lt in H. lra. Qed.

Lemma cos_norm dx dy : on_grid (dist2 dx dy) ->
  let c := cosines dx dy in fst c * fst c + snd c * snd c = 1 /\
  dx = dist2 dx dy * fst c /\ dy = dist2 dx dy * snd c.
Proof.
  intros G. pose proof (on_grid_pos _ G). unfold cosines; simpl. rewrite length_on_grid by auto.
  pose proof (dist2_sq dx dy) as S2.
  assert (D : dist2 dx dy <> 0) by lra.
  split; [|split]; try (field; auto).
  replace (dx / dist2 dx dy * (dx / dist2 dx dy) + dy / dist2 dx dy * (dy / dist2 dx dy)) with ((dx * dx + dy * dy) / (dist2 dx dy * dist2 dx dy)) by (field; auto).
  rewrite <- S2. field; auto.
Qed.

Lemma beam_T_eval c : forall i j, (i < 6)%nat -> (j < 6)%nat -> beam_T c i j =
  mrows [[fst c; snd c; 0; 0; 0; 0]; [- snd c; fst c; 0; 0; 0; 0]; [0; 0; 1; 0; 0; 0];
         [0; 0; 0; fst c; snd c; 0]; [0; 0; 0; - snd c; fst c; 0]; [0; 0; 0; 0; 0; 1]] i j.
Proof. intros i j Hi Hj. six i; try lia; six j; try lia; reflexivity. Qed.

Lemma beam_T_orth c : fst c * fst c + snd c * snd c = 1 -> orthogonal 6 (beam_T c).
Proof.
  intros N i j Hi Hj. split.
  - unfold mmul, mtr.
    rewrite (sumn_ext 6 _ (fun k => mrows [[fst c; snd c; 0; 0; 0; 0]; [- snd c; fst c; 0; 0; 0; 0]; [0; 0; 1; 0; 0; 0];
         [0; 0; 0; fst c; snd c; 0]; [0; 0; 0; - snd c; fst c; 0]; [0; 0; 0; 0; 0; 1]] i k * mrows [[fst c; snd c; 0; 0; 0; 0]; [- snd c; fst c; 0; 0; 0; 0]; [0; 0; 1; 0; 0; 0];
         [0; 0; 0; fst c; snd c; 0]; [0; 0; 0; - snd c; fst c; 0]; [0; 0; 0; 0; 0; 1]] j k)) by (intros k Hk; rewrite !beam_T_eval by auto; reflexivity).
    six i; try lia; six j; try lia; mx; lra.
  - unfold mmul, mtr.
    rewrite (sumn_ext 6 _ (fun k => mrows [[fst c; snd c; 0; 0; 0; 0]; [- snd c; fst c; 0; 0; 0; 0]; [0; 0; 1; 0; 0; 0];
         [0; 0; 0; fst c; snd c; 0]; [0; 0; 0; - snd c; fst c; 0]; [0; 0; 0; 0; 0; 1]] k i * mrows [[fst c; snd c; 0; 0; 0; 0]; [- snd c; fst c; 0; 0; 0; 0]; [0; 0; 1; 0; 0; 0];
         [0; 0; 0; fst c; snd c; 0]; [0; 0; 0; - snd c; fst c; 0]; [0; 0; 0; 0; 0; 1]] k j)) by (intros k Hk; rewrite !beam_T_eval by auto; reflexivity).
    six i; try lia; six j; try lia; mx; lra.
Qed.
Lemma T_orthogonal_lemma dx dy : on_grid (dist2 dx dy) -> orthogonal 6 (beam_T (cosines dx dy)).
Proof. intros G. apply beam_T_orth. apply (cos_norm dx dy G). Qed.

Lemma beam_T_mvec c u i : (i < 6)%nat -> mvec 6 (beam_T c) u i =
  vlist [fst c * u 0%nat + snd c * u 1%nat; - snd c * u 0%nat + fst c * u 1%nat; u 2%nat;
         fst c * u 3%nat + snd c * u 4%nat; - snd c * u 3%nat + fst c * u 4%nat; u 5%nat] i.
Proof.
  intros Hi. unfold mvec. rewrite (sumn_ext 6 _ (fun j => mrows [[fst c; snd c; 0; 0; 0; 0]; [- snd c; fst c; 0; 0; 0; 0]; [0; 0; 1; 0; 0; 0];
         [0; 0; 0; fst c; snd c; 0]; [0; 0; 0; - snd c; fst c; 0]; [0; 0; 0; 0; 0; 1]] i j * u j)) by (intros j Hj; rewrite beam_T_eval by auto; reflexivity).
  six i; try lia; mx; ring.
Qed.
Lemma beam_Tt_mvec c u i : (i < 6)%nat -> mvec 6 (mtr (beam_T c)) u i =
  vlist [fst c * u 0%nat - snd c * u 1%nat; snd c * u 0%nat + fst c * u 1%nat; u 2%nat;
         fst c * u 3%nat - snd c * u 4%nat; snd c * u 3%nat + fst c * u 4%nat; u 5%nat] i.
Proof.
  intros Hi. unfold mvec, mtr. rewrite (sumn_ext 6 _ (fun j => mrows [[fst c; snd c; 0; 0; 0; 0]; [- snd c; fst c; 0; 0; 0; 0]; [0; 0; 1; 0; 0; 0];
         [0; 0; 0; fst c; snd c; 0]; [0; 0; 0; - snd c; fst c; 0]; [0; 0; 0; 0; 0; 1]] j i * u j)) by (intros j Hj; rewrite beam_T_eval by auto; reflexivity).
  six i; try lia; mx; ring.
Qed.
Lemma T_norm_lemma dx dy u : on_grid (dist2 dx dy) -> norm2 6 (mvec 6 (beam_T (cosines dx dy)) u) = norm2 6 u.
Proof.
  intros G. destruct (cos_norm dx dy G) as (N & _ & _). set (c := cosines dx dy) in *.
  unfold norm2. rewrite (sumn_ext 6 (fun i => mvec 6 (beam_T c) u i * mvec 6 (beam_T c) u i) (fun i => vlist [fst c * u 0%nat + snd c * u 1%nat; - snd c * u 0%nat + fst c * u 1%nat; u 2%nat;
         fst c * u 3%nat + snd c * u 4%nat; - snd c * u 3%nat + fst c * u 4%nat; u 5%nat] i ^ 2)).
  2:{ intros i Hi. rewrite beam_T_mvec by auto. ring. }
  mx.
  replace (u 0%nat * u 0%nat) with ((fst c * fst c + snd c * snd c) * (u 0%nat * u 0%nat)) by (rewrite N; ring).
  replace (u 1%nat * u 1%nat) with ((fst c * fst c + snd c * snd c) * (u 1%nat * u 1%nat)) by (rewrite N; ring).
  replace (u 3%nat * u 3%nat) with ((fst c * fst c + snd c * snd c) * (u 3%nat * u 3%nat)) by (rewrite N; ring).
  replace (u 4%nat * u 4%nat) with ((fst c * fst c + snd c * snd c) * (u 4%nat * u 4%nat)) by (rewrite N; ring).
  ring.
Qed.
Lemma T_energy_lemma E A I dx dy u :
  quad 6 (beam_k E A I dx dy) u = quad 6 (k_local E A I (elem_length dx dy)) (mvec 6 (beam_T (cosines dx dy)) u).
Proof. apply quad_congruence. Qed.

(** the squared length of a translation is scaled by (d / rounded d)^2 *)
Lemma T_scale_lemma dx dy a b : elem_length dx dy <> 0 ->
  let u := vlist [a; b; 0; 0; 0; 0] in
  norm2 6 (mvec 6 (beam_T (cosines dx dy)) u) = (dist2 dx dy / elem_length dx dy) ^ 2 * norm2 6 u /\
  Rabs (dist2 dx dy / elem_length dx dy - 1) <= 1 / 2000 / Rabs (elem_length dx dy).
Proof.
  intros H u. split.
  - unfold norm2 at 1. rewrite (sumn_ext 6 _ (fun i => vlist [fst (cosines dx dy) * u 0%nat + snd (cosines dx dy) * u 1%nat; - snd (cosines dx dy) * u 0%nat + fst (cosines dx dy) * u 1%nat; u 2%nat;
         fst (cosines dx dy) * u 3%nat + snd (cosines dx dy) * u 4%nat; - snd (cosines dx dy) * u 3%nat + fst (cosines dx dy) * u 4%nat; u 5%nat] i ^ 2)) by (intros i Hi; rewrite beam_T_mvec by auto; ring).
    unfold norm2, u. mx. unfold cosines; cbn [fst snd].
    replace ((dist2 dx dy / elem_length dx dy) ^ 2) with ((dist2 dx dy * dist2 dx dy) / (elem_length dx dy) ^ 2) by (field; auto).
    rewrite dist2_sq. field; auto.
  - pose proof (length_err dx dy) as Q.
    replace (dist2 dx dy / elem_length dx dy - 1) with ((dist2 dx dy - elem_length dx dy) * / elem_length dx dy) by (field; auto).
    rewrite Rabs_mult, Rabs_inv. unfold Rdiv. apply Rmult_le_compat_r; auto. left. apply Rinv_0_lt_compat. apply Rabs_pos_lt; auto.
Qed.

Lemma round_10004 : elem_length (10004 / 10000) 0 = 1.
Proof.
  unfold elem_length, roundn. replace (sqrt ((10004 / 10000) ^ 2 + 0 ^ 2)) with (10004 / 10000).
  2:{ replace ((10004 / 10000) ^ 2 + 0 ^ 2) with ((10004 / 10000) ^ 2) by ring. rewrite sqrt_pow2; lra. }
  replace (10004 / 10000 * 10 ^ 3) with (10004 / 10) by (simpl; field).
  replace (roundZ (10004 / 10)) with 1000%Z.
  - simpl. field.
  - pose proof (roundZ_err (10004 / 10)) as Q. destruct (Rle_dec 0 (10004 / 10 - IZR (roundZ (10004 / 10)))).
    + rewrite Rabs_right in Q by lra.
      assert (H1 : (999 < roundZ (10004 / 10))%Z) by (apply lt_IZR; lra).
      assert (H2 : (roundZ (10004 / 10) < 1001)%Z) by (apply lt_IZR; lra). lia.
    + rewrite Rabs_left in Q by lra.
      assert (H1 : (999 < roundZ (10004 / 10))%Z) by (apply lt_IZR; lra).
      assert (H2 : (roundZ (10004 / 10) < 1001)%Z) by (apply lt_IZR; lra). lia.
Qed.
Lemma T_refuted_lemma : exists dx dy, 1 <= dist2 dx dy /\ ~ orthogonal 6 (beam_T (cosines dx dy)) /\
  exists E A I i, 0 < E /\ 0 < A /\ 0 < I /\ (i < 6)%nat /\ mvec 6 (beam_k E A I dx dy) (rigid_global dx dy 0 0 1) i <> 0.
Proof.
  exists (10004 / 10000), 0. split; [|split].
  - unfold dist2. replace (10004 / 10000 * (10004 / 10000) + 0 * 0) with ((10004 / 10000) ^ 2) by ring. rewrite sqrt_pow2; lra.
  - intros O. destruct (O 0%nat 0%nat ltac:(lia) ltac:(lia)) as [Q _]. unfold cosines in Q. rewrite round_10004 in Q.
    unfold mmul, mtr in Q. cbv [sumn beam_T blocks Nat.mul Nat.add Nat.ltb Nat.leb Nat.div Nat.modulo Nat.divmod fst snd Nat.sub Nat.eqb andb mrows nth] in Q. cbn [Nat.eqb] in Q. lra.
  - exists 1, 1, 1, 2%nat. repeat split; try lra; try lia.
    unfold beam_k, to_global. rewrite mvec_mmul. rewrite (beam_Tt_mvec _ _ 2) by lia. cbn [vlist nth].
    rewrite mvec_mmul. rewrite (mvec_ext 6 _ _ (vlist [0; 0; 1; 0; (10004 / 10000) ^ 2; 1])).
    2:{ intros i Hi. rewrite beam_T_mvec by auto. unfold cosines. rewrite round_10004. unfold rigid_global.
        six i; try lia; cbn [vlist nth fst snd]; field. }
    rewrite round_10004. unfold mvec, k_local, put. mx. lra.
Qed.

(** ---------- element in global coordinates ---------- *)
Lemma beam_k_sym_lemma E A I dx dy : sym (beam_k E A I dx dy).
Proof. intros i j. apply congruence_sym. apply k_local_sym. Qed.
Lemma length_nonneg dx dy : 0 <= elem_length dx dy.
Proof.
  unfold elem_length, roundn. assert (0 <= roundZ (sqrt (dx ^ 2 + dy ^ 2) * 10 ^ 3))%Z.
  { pose proof (roundZ_err (sqrt (dx ^ 2 + dy ^ 2) * 10 ^ 3)) as Q.
    assert (0 <= sqrt (dx ^ 2 + dy ^ 2) * 10 ^ 3) by (apply Rmult_le_pos; [apply sqrt_pos|simpl; lra]).
    set (x := sqrt (dx ^ 2 + dy ^ 2) * 10 ^ 3) in *.
    destruct (Z_lt_le_dec (roundZ x) 0); auto. assert (L : (roundZ x <= -1)%Z) by lia. apply IZR_le in L.
    rewrite Rabs_right in Q; lra. }
  apply IZR_le in H. apply Rmult_le_pos; [auto|]. left. apply Rinv_0_lt_compat. simpl; lra.
Qed.
Lemma beam_k_psd_lemma E A I dx dy : 0 < E -> 0 <= A -> 0 <= I -> elem_length dx dy <> 0 -> psd 6 (beam_k E A I dx dy).
Proof.
  intros HE HA HI HL u. rewrite T_energy_lemma. apply k_local_psd_lemma; auto.
  pose proof (length_nonneg dx dy). lra.
Qed.
Lemma rigid_to_local dx dy a b th i : on_grid (dist2 dx dy) -> (i < 6)%nat ->
  let c := cosines dx dy in
  mvec 6 (beam_T c) (rigid_global dx dy a b th) i =
  rigid_local (elem_length dx dy) (fst c * a + snd c * b) (- snd c * a + fst c * b) th i.
Proof.
  intros G Hi c. destruct (cos_norm dx dy G) as (N & X & Y). fold c in N, X, Y.
  rewrite beam_T_mvec by auto. rewrite length_on_grid by auto. unfold rigid_global, rigid_local. set (L := dist2 dx dy) in *.
  six i; try lia; cbn [vlist nth]; auto.
  - rewrite X, Y at 1. ring.
  - transitivity (- snd c * a + fst c * b + th * L * (fst c * fst c + snd c * snd c)); [rewrite X, Y at 1; ring|rewrite N; ring].
Qed.
Lemma beam_k_rigid_lemma E A I dx dy a b th i : on_grid (dist2 dx dy) -> (i < 6)%nat ->
  mvec 6 (beam_k E A I dx dy) (rigid_global dx dy a b th) i = 0.
Proof.
  intros G Hi. unfold beam_k, to_global. rewrite mvec_mmul.
  unfold mvec at 1. apply sumn_zero. intros k Hk. rewrite mvec_mmul.
  rewrite (mvec_ext 6 _ _ _ k (fun j Hj => rigid_to_local dx dy a b th j G Hj)).
  rewrite k_local_rigid_lemma; auto; [ring|]. rewrite length_on_grid by auto. pose proof (on_grid_pos _ G). lra.
Qed.
Lemma beam_k_zero_energy_lemma E A I dx dy u : 0 < E -> 0 < A -> 0 < I -> on_grid (dist2 dx dy) ->
  quad 6 (beam_k E A I dx dy) u = 0 ->
  exists a b th, forall i, (i < 6)%nat -> u i = rigid_global dx dy a b th i.
Proof.
  intros HE HA HI G Q. rewrite T_energy_lemma in Q. pose proof (on_grid_pos _ G) as HL.
  destruct (k_local_zero_energy_lemma E A I (elem_length dx dy) _ HE HA HI ltac:(rewrite length_on_grid; auto) Q) as (a & b & th & H).
  destruct (cos_norm dx dy G) as (N & X & Y). rewrite length_on_grid in H by auto.
  set (c := cosines dx dy) in *. set (L := dist2 dx dy) in *.
  pose proof (fun i Hi => eq_trans (eq_sym (beam_T_mvec c u i Hi)) (H i Hi)) as K.
  pose proof (K 0%nat ltac:(lia)) as K0. pose proof (K 1%nat ltac:(lia)) as K1. pose proof (K 2%nat ltac:(lia)) as K2.
  pose proof (K 3%nat ltac:(lia)) as K3. pose proof (K 4%nat ltac:(lia)) as K4. pose proof (K 5%nat ltac:(lia)) as K5.
  clear K H Q. unfold rigid_local in *. cbn [vlist nth] in *.
  exists (u 0%nat), (u 1%nat), (u 2%nat). intros i Hi. unfold rigid_global.
  assert (U0 : forall x y p q, fst c * x + snd c * y = p -> - snd c * x + fst c * y = q ->
               x = fst c * p - snd c * q /\ y = snd c * p + fst c * q).
  { intros x y p q <- <-. split.
    - transitivity ((fst c * fst c + snd c * snd c) * x); [rewrite N|]; ring.
    - transitivity ((fst c * fst c + snd c * snd c) * y); [rewrite N|]; ring. }
  destruct (U0 _ _ _ _ K0 K1) as [A0 A1]. destruct (U0 _ _ _ _ K3 K4) as [A3 A4].
  six i; try lia; cbn [vlist nth]; auto.
  - rewrite A3, A0, Y, K2. ring.
  - rewrite A4, A1, X, K2. ring.
  - congruence.
Qed.

(** ---------- geometric and second order stiffness ---------- *)
Lemma kg_sym_lemma P L : sym (kg_local P L).
Proof. intros i j. unfold kg_local, place. six i; six j; cbn -[Rmult Rdiv pow]; try reflexivity. Qed.
Lemma kg_energy P L u : L <> 0 ->
  quad 6 (kg_local P L) u =
  P * L * (1 / 12 * (u 2%nat - u 5%nat) ^ 2
   + ((u 4%nat - u 1%nat) / L) ^ 2 + 1 / 20 * (2 * (u 4%nat - u 1%nat) / L - u 2%nat - u 5%nat) ^ 2).
Proof. intros H. unfold quad, kg_local, place. mx. field; auto. Qed.
