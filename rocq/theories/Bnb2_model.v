(** Model of the relaxation solved in a node of branch and bound and of the optimality-based tightening of bounds
    (metku/optimization/solvers/bnb.py:318-411, 554-602, variables.py:118-136, solvers/lp.py:31-140). *)
Require Import Reals List Bool.
Import ListNotations.
From Verif Require Export Base EC3_model.
Local Open Scope R_scope.

(** A variable: bounds, locked, value (variables.py:74-107). *)
Record nvar := mkNv { n_lo : R; n_up : R; n_locked : bool; n_val : R }.
(** bnb.py:364 bounds that coincide. *)
Definition coincide (v : nvar) : bool := Rltb (Rabs (n_up v - n_lo v)) (1 / 1000000).
(** bnb.py:363: the variables of the problem that are not locked (structopt.py:174-180). *)
Definition unlocked (vs : list nvar) : list nvar := filter (fun v => negb (n_locked v)) vs.
(** bnb.py:363-367: variables whose bounds coincide are locked at the upper bound (variables.py:118-130). *)
Definition lock_equal (v : nvar) : nvar :=
  if n_locked v then v else if coincide v then mkNv (n_lo v) (n_up v) true (n_up v) else v.
(** bnb.py:369-373: the starting point without the entries of those variables; [None]: IndexError of numpy.delete. *)
Fixpoint reduce (vs : list nvar) (x0 : list R) : option (list R) :=
  match vs with
  | [] => Some x0
  | v :: r =>
      if n_locked v then reduce r x0
      else match x0 with
           | [] => if coincide v then None else reduce r []
           | y :: x => bind (reduce r x) (fun t => Some (if coincide v then t else y :: t))
           end
  end.
(** bnb.py:384-392: an array of [cells] zeros is filled from all variables; [None]: IndexError. *)
Fixpoint assemble (cells : nat) (vs : list nvar) (x : list R) : option (list R) :=
  match vs with
  | [] => Some (repeat 0 cells)
  | v :: r =>
      match cells with
      | O => None
      | S c => if n_locked v then bind (assemble c r x) (fun t => Some (n_val v :: t))
               else match x with [] => None | y :: x' => bind (assemble c r x') (fun t => Some (y :: t)) end
      end
  end.
(** Outcome: point and value stored in the node if any (bnb.py:395-400), variables afterwards, returned flag. *)
Record outcome := mkOut { o_node : option (R * list R); o_vars : list nvar; o_flag : bool }.
(** bnb.py:402-404: the variables locked here are unlocked. *)
Definition unlock_equal (v0 v : nvar) : nvar :=
  if negb (n_locked v0) && coincide v0 then mkNv (n_lo v) (n_up v) false (n_val v) else v.
(** bnb.py:318-406 lower_bound with a starting point. [solve]: value, point, result.success and feasible of the solver for
    the locked problem and starting point; the values that the solver leaves in free variables are not modelled. *)
Definition lower_bound (solve : list nvar -> list R -> R * list R * bool * bool) (vs : list nvar) (x0 : list R) : option outcome :=
  let cells := length (unlocked vs) in
  let ws := map lock_equal vs in
  bind (reduce vs x0) (fun start =>
  let '(f, x, success, feasible) := solve ws start in
  bind (assemble cells ws x) (fun xnew =>
  Some (mkOut (if success then Some (f, xnew) else if feasible then Some (f, xnew) else None)
              (map (fun p => unlock_equal (fst p) (snd p)) (combine vs ws)) feasible))).

(** Bounds of the free variables (structopt.py:680-689). *)
Definition bounds := list (R * R).
(** bnb.py:576-588: one variable, smallest value; gurobi raises when the point of an infeasible problem is read
    (lp.py:122-125), which ends the tightening. [lp min i] is the linear program of lp.py:31-140 with the current bounds. *)
Definition raise_lower (lp : bool -> nat -> bounds -> option (list R)) (i : nat) (bx : bounds) : option bounds :=
  bind (lp true i bx) (fun x =>
  let '(l, u) := nth i bx (0, 0) in
  Some (if Rltb l (nth i x 0) then set_nth i (nth i x 0, u) bx else bx)).
(** bnb.py:592-600: largest value. *)
Definition cut_upper (lp : bool -> nat -> bounds -> option (list R)) (i : nat) (bx : bounds) : option bounds :=
  bind (lp false i bx) (fun x =>
  let '(l, u) := nth i bx (0, 0) in
  Some (if Rltb (nth i x 0) u then set_nth i (l, nth i x 0) bx else bx)).
(** bnb.py:554-602 optimality_tightening (gurobi) for the variables [is]. *)
Fixpoint tighten (lp : bool -> nat -> bounds -> option (list R)) (is : list nat) (bx : bounds) : option bounds :=
  match is with [] => Some bx | i :: r => bind (raise_lower lp i bx) (fun b => bind (cut_upper lp i b) (fun b' => tighten lp r b')) end.
(** bnb.py:607-619 the check after the tightenings. *)
Definition bounds_ok (bx : bounds) : bool := forallb (fun p => negb (Rltb (snd p) (fst p))) bx.
