(** Further exact statements about end forces, semi-rigid joints and 3d loads. *)
From Verif Require Import Tac Bool_tac Beam_spec Fem2_proofs Beam_proofs Beam2_proofs Beam3_proofs Beam4_proofs Beam5_proofs Beam6_proofs.
Require Import Psatz.

Lemma unloaded_forces_lemma : forall E A I L q, L <> 0 ->
  let '((n1, n2), (m1, m2), (v1, v2)) := fint (end_forces (k_local E A I L) q None) in
  n1 = E * A / L * (q 3%nat - q 0%nat) /\ n2 = n1 /\ v1 = v2 /\ m2 - m1 = v2 * L /\
  m1 = E * I / L * (6 / L * (q 4%nat - q 1%nat) - 4 * q 2%nat - 2 * q 5%nat).
Proof.
  intros E A I L q HL. unfold fint, end_forces, mvec, k_local, put. mx. repeat split; field; auto.
Qed.
Lemma joint_limits_lemma : forall v, rot_clamp None = 10 ^ 20 /\
  (v <= 1/10000 -> rot_clamp (Some v) = 1/10000) /\ (1/10000 < v < 10 ^ 20 -> rot_clamp (Some v) = v) /\ (10 ^ 20 <= v -> rot_clamp (Some v) = 10 ^ 20).
Proof.
  intros v. unfold rot_clamp, kHinge, kRigid. assert (K : / 10 ^ 4 = 1/10000) by (cbn; lra). rewrite K.
  assert (B : 1 / 10000 < 10 ^ 20) by (cbn; lra). repeat split; intros.
  - now rewrite leb_t by lra.
  - rewrite leb_f by lra. now rewrite leb_f by lra.
  - rewrite leb_f by lra. now rewrite leb_t by lra.
Qed.
Lemma sr_fresh_lemma : forall s h1 h2 k0 ops1 ops2 E A I1 L, Forall no_set ops2 ->
  s = fold_left cstep (ops1 ++ EvictAll :: ops2) (mkCe (h1, h2) k0 []) -> ce_key s = (E, A, I1, L) ->
  forall i j, sr_cached s i j = sr_k E A I1 L (fst (ce_h s)) (snd (ce_h s)) i j.
Proof.
  intros s h1 h2 k0 ops1 ops2 E A I1 L F Es K i j. unfold sr_cached. rewrite K.
  pose proof (set_before_eval_lemma (h1, h2) k0 ops1 ops2 F) as H. cbv zeta in H. rewrite <- Es in H. rewrite H. reflexivity.
Qed.
Lemma load3_entries_lemma : forall L f q1 q2 i,
  (~ In i [1; 5; 7; 11]%nat -> nth i (floc3 L f q1 q2 false) 0 = 0) /\ (~ In i [2; 4; 8; 10]%nat -> nth i (floc3 L f q1 q2 true) 0 = 0) /\
  length (floc3 L f q1 q2 false) = 12%nat /\ length (floc3 L f q1 q2 true) = 12%nat.
Proof.
  intros L f q1 q2 i. unfold floc3. split; [|split; [|split; reflexivity]]; intros H; cbn in H;
  do 13 (destruct i as [|i]; [cbn; try reflexivity; exfalso; tauto|]); destruct i; reflexivity.
Qed.
