(** Further theorems about C25, C27, C28, C32 and C89. *)
From Verif Require Import Base Problem_proofs Solvers_proofs Solvers2_proofs Solvers9_proofs.
From Verif Require Import Solvers_model Solvers_spec.

(** C25: the iteration ends at the limit, at the time limit, or after the first small
    step to a feasible point, and not before. *)
Theorem C25_stopping : forall P act late maxiter bf0 bx0 x0 bf bx states, osolve P act late maxiter bf0 bx0 x0 = Some (bf, bx, states) ->
  (length states = maxiter \/ ((length states < maxiter)%nat /\ late (length states) = true) \/
     exists pre y z, x0 :: states = pre ++ [y; z] /\ small_step P y z) /\
  (forall pre y z w post, x0 :: states = pre ++ y :: z :: w :: post -> ~ small_step P y z) /\
  (forall i, (i < length states)%nat -> late i = false).
Proof. exact osolve_stop_lemma. Qed.
Print Assumptions C25_stopping.
Example C25_stopping_ex : exists bf bx, osolve (mkOp (fun x => nth 0 x 0) [] 0 [(0, 10)]) (fun _ => [0]) (fun _ => false) 5 None None [3] = Some (bf, bx, [[3]]).
Proof.
  unfold osolve. cbn -[stop_x stop_f np_clip]. assert (E : np_clip 0 10 (3 + 0) = 3) by (rewrite clip_id; lra). rewrite E.
  assert (F : stop_f 3 3 = true) by (unfold stop_f; apply Rleb_true; rewrite Rminus_eq_0, Rabs_R0, (Rabs_right 3) by lra; unfold ABS_F_TOL, REL_F_TOL; lra).
  rewrite F, orb_true_r. cbn. eauto.
Qed.
(** C27: if no particle is feasible, the first of the least violated is taken. *)
Theorem C27_least_violated : forall bf swarm, swarm <> [] -> Forall (fun p => 1 / 100000000 < p_scv p) swarm ->
  exists l1 p l2, swarm = l1 ++ p :: l2 /\ update_best swarm (g_new bf) = Some (mkG bf None (Some (p_x p))) /\
    Forall (fun q => p_scv p < p_scv q) l1 /\ Forall (fun q => p_scv p <= p_scv q) l2.
Proof. exact least_violation_lemma. Qed.
Print Assumptions C27_least_violated.
Example C27_least_ex : Forall (fun p => 1 / 100000000 < p_scv p) [mkPart [1] 0 3; mkPart [2] 0 1].
Proof. repeat constructor; cbn; lra. Qed.
(** C28 *)
Theorem C28_free_move : (forall x v lb ub, lb <= x + v <= ub -> pso_coord x v lb ub = x + v) /\
  (forall w c1 c2 v x own glob vmin vmax, vmin <= w * v + c1 * own + c2 * glob - (c1 + c2) * x <= vmax ->
     pso_velocity w c1 c2 v x own glob vmin vmax = w * v + c1 * own + c2 * glob - (c1 + c2) * x).
Proof. exact pso_free_lemma. Qed.
Print Assumptions C28_free_move.
(** C32 *)
Theorem C32_integer_values : forall lb ub x, In x (arange lb ub) <-> exists z, x = IZR z /\ (lb <= z <= ub)%Z.
Proof. exact arange_lemma. Qed.
Print Assumptions C32_integer_values.
Theorem C32_integer_entries : forall k vs x N p i lb ub, length x = length vs -> neighborhood k vs x = Some N -> Forall (fun v => v <> NCont) vs ->
  In p N -> nth_error vs i = Some (NInt lb ub) -> exists z, nth_error p i = Some (IZR z) /\ (lb <= z <= ub)%Z.
Proof. exact integer_neighborhood_lemma. Qed.
Print Assumptions C32_integer_entries.
Example C32_integer_ex : exists N, neighborhood 2 [NInt 1 4] [3] = Some N /\ Forall (fun v => v <> NCont) [NInt 1 4].
Proof. eexists. split; [reflexivity|repeat constructor; congruence]. Qed.
(** C89: the auxiliary variable relaxes every row. *)
Theorem C89_relaxation : forall (rows : list (list R * R)) x,
  (forall b1 b2, b1 <= b2 -> Forall (slp_row_ok x b1) rows -> Forall (slp_row_ok x b2) rows) /\
  (exists b, 0 <= b /\ Forall (slp_row_ok x b) rows) /\
  (Forall (slp_row_ok x 0) rows <-> Forall (fun r => dot (fst r) x <= snd r) rows).
Proof. exact slp_relax_lemma. Qed.
Print Assumptions C89_relaxation.
