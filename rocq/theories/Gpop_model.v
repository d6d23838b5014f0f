(** Model of the populations of the genetic algorithm (metku/optimization/solvers/ga.py:152-233, 252). *)
Require Import List Bool ZArith.
Import ListNotations.
From Verif Require Export EC3_model.
Local Open Scope R_scope.

(** A design variable: integer or index variable, bounds (ga.py:162-172). *)
Record gvar := mkGv { g_int : bool; g_lb : R; g_ub : R }.
(** ga.py:152-174 attribute_generator at call number [c] of the process: the default list that counts the calls is
    shared by all solvers and problems.  [u]: random numbers of the calls, in [0, 1); np.random.randint raises on
    an empty range. *)
Definition gene (vars : list gvar) (x0 : option (list R)) (u : nat -> R) (c : nat) : option R :=
  match vars with
  | [] => None
  | _ => let idx := Nat.modulo c (length vars) in
    match x0 with
    | Some x => nth_error x idx
    | None => bind (nth_error vars idx) (fun v =>
        if g_int v then if Rltb (g_lb v) (g_ub v) then Some (g_lb v + IZR (floorZ (u c * (g_ub v - g_lb v)))) else None
        else Some (g_lb v + u c * (g_ub v - g_lb v)))
    end
  end.
(** ga.py:186-188: an individual of [n] genes, the first one made by call [c]. *)
Fixpoint individual (vars : list gvar) (x0 : option (list R)) (u : nat -> R) (n c : nat) : option (list R) :=
  match n with
  | O => Some []
  | S n => bind (gene vars x0 u c) (fun g => bind (individual vars x0 u n (S c)) (fun r => Some (g :: r)))
  end.
(** ga.py:206-207, 252: [k] individuals. *)
Fixpoint population (vars : list gvar) (x0 : option (list R)) (u : nat -> R) (k c : nat) : option (list (list R)) :=
  match k with
  | O => Some []
  | S k => bind (individual vars x0 u (length vars) c) (fun i => bind (population vars x0 u k (c + length vars)) (fun r => Some (i :: r)))
  end.
(** Counter after making a population of [k] individuals of [n] genes (ga.py:160). *)
Definition calls (c k n : nat) : nat := c + k * n.

(** ga.py:216-219: offspring that can be chosen; randint excludes its end. *)
Definition may_choose (len idx : nat) : bool := if Nat.ltb 1 len then Nat.ltb idx (len - 1) else Nat.eqb idx 0.
(** ga.py:210-233 new_population: individuals are references into the store [h]; [values]: values of the variables
    of the best design; the shuffle of 227 acts on a copy and has no effect. *)
Definition new_population (h : nat -> list R) (off : list nat) (idx : nat) (values : list R) (best : option nat) (size : nat) :
  option ((nat -> list R) * list nat) :=
  bind (nth_error off idx) (fun r =>
  if Nat.ltb (length values) (length (h r)) then None
  else Some (fun k => if Nat.eqb k r then firstn (length (h r)) values else h k,
             concat (repeat off (size / length off + 1)) ++ match best with Some b => [b] | None => [] end)).
