(** Property C359: runs of the particle swarm solver. *)
Require Import Reals List Bool Lra Lia Psatz PeanoNat.
Import ListNotations.
From Verif Require Import Base EC3_model Bool_tac EC3_proofs Plate_proofs Swarm_proofs.
From Verif Require Import Swarm_model Swarm_spec.
Local Open Scope R_scope.

(** C359 *)
Theorem C359_at_most : forall imp m s, (fst (run imp m s) <= m)%nat.
Proof. exact run_le_lemma. Qed.
Print Assumptions C359_at_most.
Theorem C359_early_return : forall imp m w, let n := fst (run imp m (fresh w)) in (n < m)%nat -> (10 <= n)%nat /\ idle imp (n - 10) 11.
Proof. exact run_stop_lemma. Qed.
Print Assumptions C359_early_return.
Theorem C359_returns : forall imp m w j, (j + 10 <= m)%nat -> idle imp j 11 -> (fst (run imp m (fresh w)) <= j + 10)%nat.
Proof. exact run_must_lemma. Qed.
Print Assumptions C359_returns.
Theorem C359_inertia : forall imp m w, let r := run imp m (fresh w) in
  exists k, s_w (snd r) = w * (9 / 10) ^ k /\ s_red (snd r) = (95 / 100) ^ k /\ (k <= 5 * improvements imp (fst r) + 5)%nat.
Proof. exact run_reduce_lemma. Qed.
Print Assumptions C359_inertia.
Theorem C359_start : forall lb ub y u, lb <= y <= ub -> 0 <= u < 1 -> in_box (seed_coord lb ub y u) /\ c_v (seed_coord lb ub y u) = (2 * u - 1) * ((ub - lb) / 5).
Proof. exact seed_lemma. Qed.
Print Assumptions C359_start.
Theorem C359_step : forall w r i c, 0 <= r -> 0 <= i_u i < 1 -> c_lb c <= c_ub c -> let c' := advance w r i c in
  c_lb c' = c_lb c /\ c_ub c' = c_ub c /\ c_lb c <= c_x c' <= c_ub c /\ Rabs (c_v c') <= r * ((c_ub c - c_lb c) / 5).
Proof. exact advance_lemma. Qed.
Print Assumptions C359_step.
Theorem C359_free_step : forall w r i c, i_crazy i = false -> 0 <= r -> c_lb c <= c_ub c -> let v := w * c_v c + i_c1 i * (i_own i - c_x c) + i_c2 i * (i_best i - c_x c) in
  Rabs v <= r * ((c_ub c - c_lb c) / 5) -> c_lb c <= c_x c + v <= c_ub c -> advance w r i c = mkCo (c_lb c) (c_ub c) (c_x c + v) v.
Proof. exact still_lemma. Qed.
Print Assumptions C359_free_step.
Theorem C359_swarm_in_box : forall n imp ins s c, 0 <= s_red s <= 1 -> (forall k, 0 <= i_u (ins k) < 1) -> in_box c -> let c' := snd (evolve imp ins n s c) in
  c_lb c' = c_lb c /\ c_ub c' = c_ub c /\ in_box c'.
Proof. exact evolve_lemma. Qed.
Print Assumptions C359_swarm_in_box.
(** A solver that has not found any feasible particle gives up after ten generations, whatever the limit. *)
Theorem C359_no_feasible_refuted : forall imp m w, (10 <= m)%nat -> (forall k, imp k = false) -> fst (run imp m (fresh w)) = 10%nat.
Proof. exact run_idle_lemma. Qed.
Print Assumptions C359_no_feasible_refuted.
(** A solver used again keeps its counters and its reduced inertia and gives up after one generation. *)
Theorem C359_second_run_refuted : forall imp m imp' m' w, (fst (run imp m (fresh w)) < m)%nat -> (1 <= m')%nat -> imp' 0%nat = false -> imp' 1%nat = false ->
  let s := snd (run imp m (fresh w)) in fst (run imp' m' s) = 1%nat /\ s_w (snd (run imp' m' s)) = s_w s.
Proof. exact run_again_lemma. Qed.
Print Assumptions C359_second_run_refuted.
Example C359_ex : fst (run (fun k => Nat.ltb k 3) 100 (fresh (9/10))) = 13%nat /\ idle (fun k => Nat.ltb k 3) 3 11 /\
  s_icnt (snd (run (fun k => Nat.ltb k 3) 100 (fresh (9/10)))) = 11%nat /\ in_box (seed_coord 0 10 4 (1/2)).
Proof. split; [reflexivity|]. split; [intros k K; apply Nat.ltb_ge; lia|]. split; [reflexivity|]. apply seed_lemma; lra. Qed.
