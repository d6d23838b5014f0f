(** Model of a run of the particle swarm solver: velocities, craziness, moves, inertia and the stagnation test
    (metku/optimization/solvers/pso.py:22-62, 100-107, 136-179, 205-227, 258-341, 377-387). *)
Require Import Reals List Bool.
Import ListNotations.
From Verif Require Export EC3_model.
Local Open Scope R_scope.

(** The counters of the solver, its inertia and the factor by which the velocity limits have been reduced since the
    population was made (pso.py:35, 44-48, 60-61). *)
Record sched := mkSched { s_cnt : nat; s_icnt : nat; s_w : R; s_red : R }.
(** pso.py:105-106, 117-118, 127-128: the counters in update_best; [imp]: a new best solution was found. *)
Definition count (imp : bool) (s : sched) : sched :=
  if imp then mkSched 0 0 (s_w s) (s_red s) else mkSched (S (s_cnt s)) (S (s_icnt s)) (s_w s) (s_red s).
(** pso.py:323-327: reduction of inertia and velocity limits. *)
Definition reduce (s : sched) : sched :=
  if Nat.ltb 5 (s_icnt s) then mkSched (s_cnt s) (s_icnt s) (s_w s * (9 / 10)) (s_red s * (95 / 100)) else s.
(** pso.py:217-218, 227: initial population: the limits are set afresh, the counters and the inertia are not. *)
Definition begin (imp : bool) (s : sched) : sched := count imp (mkSched (s_cnt s) (s_icnt s) (s_w s) 1).
(** pso.py:288-327: the loop; [imp k]: generation [k] found a new best solution.  Number of generations made and the
    state in which the solver is left. *)
Fixpoint generations (imp : nat -> bool) (maxiter : nat) (s : sched) : nat * sched :=
  match maxiter with
  | O => (O, s)
  | S m =>
      let s1 := count (imp O) s in
      if Nat.ltb 10 (s_cnt s1) then (1%nat, s1)
      else let '(n, t) := generations (fun k => imp (S k)) m (reduce s1) in (S n, t)
  end.
(** pso.py:258-341 solve: [imp O] belongs to the initial population. *)
Definition run (imp : nat -> bool) (maxiter : nat) (s : sched) : nat * sched :=
  generations (fun k => imp (S k)) maxiter (begin (imp O) s).
(** pso.py:35, 60-61: a new solver. *)
Definition fresh (w : R) : sched := mkSched 0 0 w 1.

(** A coordinate of a particle: bounds, position, velocity (pso.py:345-375). *)
Record coord := mkCo { c_lb : R; c_ub : R; c_x : R; c_v : R }.
(** pso.py:217: velocity limit of the coordinate, with the reduction factor [r]. *)
Definition vlim (r : R) (c : coord) : R := 2 / 10 * (c_ub c - c_lb c) * r.
(** pso.py:222-224: random start, [u] and [y] random number and random value. *)
Definition seed_coord (lb ub y u : R) : coord :=
  let v := 2 / 10 * (ub - lb) in mkCo lb ub y ((v - - v) * u + - v).
(** Random numbers and best positions that enter the update of a coordinate (pso.py:142-152, 176-179). *)
Record input := mkIn { i_c1 : R; i_c2 : R; i_own : R; i_best : R; i_crazy : bool; i_u : R }.
(** pso.py:152-157, 176-179, 382-387: velocity update, craziness and move. *)
Definition advance (w r : R) (i : input) (c : coord) : coord :=
  let m := vlim r c in
  let v0 := w * c_v c + i_c1 i * (i_own i - c_x c) + i_c2 i * (i_best i - c_x c) in
  let v1 := Rmin (Rmax v0 (- m)) m in
  let v2 := if i_crazy i then (m - - m) * i_u i + - m else v1 in
  mkCo (c_lb c) (c_ub c) (Rmin (Rmax (c_x c + v2) (c_lb c)) (c_ub c)) v2.
(** pso.py:288-327: the coordinate and the state of the solver after [n] generations without return. *)
Fixpoint evolve (imp : nat -> bool) (ins : nat -> input) (n : nat) (s : sched) (c : coord) : sched * coord :=
  match n with
  | O => (s, c)
  | S n => evolve (fun k => imp (S k)) (fun k => ins (S k)) n (reduce (count (imp O) s)) (advance (s_w s) (s_red s) (ins O) c)
  end.
