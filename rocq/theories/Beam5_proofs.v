(** Proofs about the 3D beam. *)
From Verif Require Import Tac Beam_spec Fem2_proofs Beam_proofs Beam2_proofs.
(** ---------- 3D beam ---------- *)
Ltac twelve i := do 12 (destruct i as [|i]; [|]).
Lemma put_sym ps v M :
  forallb (fun p => existsb (fun p' => andb (fst p' =? snd p)%nat (snd p' =? fst p)%nat) ps) ps = true ->
  sym M -> sym (put ps v M).
Proof.
  intros H S1 i j. unfold put.
  assert (K : forall i j, existsb (fun p : nat * nat => andb (fst p =? i)%nat (snd p =? j)%nat) ps = true ->
              existsb (fun p : nat * nat => andb (fst p =? j)%nat (snd p =? i)%nat) ps = true).
  { intros a b Hab. apply existsb_exists in Hab. destruct Hab as ((x & y) & I1 & E1). cbn [fst snd] in E1.
    apply andb_prop in E1. destruct E1 as [E1 E2]. apply Nat.eqb_eq in E1, E2. subst.
    rewrite forallb_forall in H. apply (H (a, b) I1). }
  destruct (existsb (fun p => (fst p =? i)%nat && (snd p =? j)%nat) ps) eqn:A1;
  destruct (existsb (fun p => (fst p =? j)%nat && (snd p =? i)%nat) ps) eqn:A2; auto.
  - apply K in A1. congruence.
  - apply K in A2. congruence.
Qed.
Lemma k3_sym_lemma E G A I1 I2 J L : sym (k_local3 E G A I1 I2 J L).
Proof.
  unfold k_local3. cbv zeta. repeat (apply put_sym; [reflexivity|]). intros i j; reflexivity.
Qed.
Lemma k3_energy_lemma E G A I1 I2 J L u : L <> 0 ->
  quad 12 (k_local3 E G A I1 I2 J L) u =
    E * A / L * (u 0%nat - u 6%nat) ^ 2 + G * J / L * (u 3%nat - u 9%nat) ^ 2
    + E * I2 / L * ((u 5%nat - u 11%nat) ^ 2 + 3 * (u 5%nat + u 11%nat - 2 * (u 7%nat - u 1%nat) / L) ^ 2)
    + E * I1 / L * ((u 4%nat - u 10%nat) ^ 2 + 3 * (u 4%nat + u 10%nat + 2 * (u 8%nat - u 2%nat) / L) ^ 2).
Proof. intros H. unfold quad, k_local3, put. mx. field; auto. Qed.
Lemma k3_psd_lemma E G A I1 I2 J L : 0 <= E -> 0 <= G -> 0 <= A -> 0 <= I1 -> 0 <= I2 -> 0 <= J -> 0 < L ->
  psd 12 (k_local3 E G A I1 I2 J L).
Proof.
  intros HE HG HA H1 H2 HJ HL u. rewrite k3_energy_lemma by lra.
  assert (IV : 0 <= / L) by (left; apply Rinv_0_lt_compat; lra).
  repeat apply Rplus_le_le_0_compat; apply Rmult_le_pos;
    try (apply Rmult_le_pos; auto; apply Rmult_le_pos; auto); try apply pow2_ge_0;
    apply Rplus_le_le_0_compat; try apply pow2_ge_0; apply Rmult_le_pos; try lra; apply pow2_ge_0.
Qed.
(** Rigid motion of a member on the local x axis: translation (a,b,c), rotation (rx,ry,rz). *)
Lemma k3_rigid_lemma E G A I1 I2 J L a b c rx ry rz i : L <> 0 -> (i < 12)%nat ->
  mvec 12 (k_local3 E G A I1 I2 J L)
    (vlist [a; b; c; rx; ry; rz; a; b + rz * L; c - ry * L; rx; ry; rz]) i = 0.
Proof.
  intros H Hi. unfold mvec, k_local3, put.
  do 12 (destruct i as [|i]; [mx; field; auto|]). lia.
Qed.
(** Line loads on the 3D beam. *)
Lemma floc3_y_lemma L q1 q2 : L <> 0 ->
  let f := vlist (floc3 L 1 q1 q2 false) in
  integral (lin_load q1 q2 L) L (f 1%nat + f 7%nat) /\
  integral (fun x => x * lin_load q1 q2 L x) L (f 5%nat + f 11%nat + L * f 7%nat).
Proof. intros H. apply (perp_resultant_lemma q1 q2 L H). Qed.
(** moment about the y axis of a force in direction z at x is - x times the force *)
Lemma floc3_z_refuted_lemma : exists L q1 q2, 0 < L /\
  let f := vlist (floc3 L 1 q1 q2 true) in
  ~ integral (fun x => - x * lin_load q1 q2 L x) L (f 4%nat + f 10%nat - L * f 8%nat).
Proof.
  exists 1, 1, 0. split; [lra|]. intros f W.
  assert (V : integral (fun x => - x * lin_load 1 0 1 x) 1 (- 1 / 6)).
  { apply (integral_poly _ 1 0 (-1 / 2) (1 / 3) 0 0 0); [intros x; unfold lin_load; field|field]. }
  pose proof (integral_unique_lemma _ 1 _ _ ltac:(lra) V W) as E. unfold f, vlist, floc3 in E. cbn [nth] in E. lra.
Qed.
Lemma floc3_factor_refuted_lemma L f q1 q2 z : floc3 L f q1 q2 z = floc3 L 1 q1 q2 z.
Proof. reflexivity. Qed.
