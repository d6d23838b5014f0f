(** Further theorems about C42, C45, C94 and C95. *)
From Verif Require Import Tac Bool_tac Beam_spec Beam_proofs Beam2_proofs Beam3_proofs Beam4_proofs Beam5_proofs Beam6_proofs Beam9_proofs.

Theorem C42_3d_entries : forall L f q1 q2 i,
  (~ In i [1; 5; 7; 11]%nat -> nth i (floc3 L f q1 q2 false) 0 = 0) /\ (~ In i [2; 4; 8; 10]%nat -> nth i (floc3 L f q1 q2 true) 0 = 0) /\
  length (floc3 L f q1 q2 false) = 12%nat /\ length (floc3 L f q1 q2 true) = 12%nat.
Proof. exact load3_entries_lemma. Qed.
Print Assumptions C42_3d_entries.
Theorem C45_limits : forall v, rot_clamp None = 10 ^ 20 /\
  (v <= 1/10000 -> rot_clamp (Some v) = 1/10000) /\ (1/10000 < v < 10 ^ 20 -> rot_clamp (Some v) = v) /\ (10 ^ 20 <= v -> rot_clamp (Some v) = 10 ^ 20).
Proof. exact joint_limits_lemma. Qed.
Print Assumptions C45_limits.
Theorem C94_unloaded : forall E A I L q, L <> 0 ->
  let '((n1, n2), (m1, m2), (v1, v2)) := fint (end_forces (k_local E A I L) q None) in
  n1 = E * A / L * (q 3%nat - q 0%nat) /\ n2 = n1 /\ v1 = v2 /\ m2 - m1 = v2 * L /\
  m1 = E * I / L * (6 / L * (q 4%nat - q 1%nat) - 4 * q 2%nat - 2 * q 5%nat).
Proof. exact unloaded_forces_lemma. Qed.
Print Assumptions C94_unloaded.
Theorem C95_fresh_matrix : forall s h1 h2 k0 ops1 ops2 E A I1 L, Forall no_set ops2 ->
  s = fold_left cstep (ops1 ++ EvictAll :: ops2) (mkCe (h1, h2) k0 []) -> ce_key s = (E, A, I1, L) ->
  forall i j, sr_cached s i j = sr_k E A I1 L (fst (ce_h s)) (snd (ce_h s)) i j.
Proof. exact sr_fresh_lemma. Qed.
Print Assumptions C95_fresh_matrix.
Example C95_fresh_ex : Forall (@no_set (R * R)) [SetKey (1, 2, 3, 4); Eval].
Proof. repeat constructor. Qed.
