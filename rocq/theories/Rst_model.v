(** Model of random designs, random feasible starting points and stopping criteria of the optimisation solvers
    (metku/optimization/structopt.py:205-224, 271-293, solvers/optsolver.py:29-45, 110-151, 339-366). *)
Require Import Reals ZArith List Bool.
Import ListNotations.
From Verif Require Export EC3_model.
Local Open Scope R_scope.

(** The kinds of variables told apart by random_values: integer, index, binary and boolean variables are one kind
    (structopt.py:285-292, variables.py:213-370). *)
Inductive rkind := RCont | RInt | RDisc (values : list R).
(** A variable with its bounds (variables.py:74-107). *)
Record rvar := mkRv { r_kind : rkind; r_lb : R; r_ub : R }.
(** structopt.py:290, min(values, key=abs(x - t)): the first of the nearest values, [best] being the nearest so far. *)
Fixpoint nearest (best : R) (l : list R) (t : R) : R :=
  match l with
  | [] => best
  | v :: r => nearest (if Rltb (Rabs (v - t)) (Rabs (best - t)) then v else best) r t
  end.
(** structopt.py:284-292: value drawn for one variable with the random number [u] in [0, 1); rng.integers raises on an
    empty range and min on an empty list. *)
Definition draw (v : rvar) (u : R) : option R :=
  match r_kind v with
  | RInt => if Rltb (r_lb v) (r_ub v + 1) then Some (r_lb v + IZR (floorZ (u * (r_ub v + 1 - r_lb v)))) else None
  | RDisc [] => None
  | RDisc (a :: r) => Some (nearest a r ((r_ub v - r_lb v) * u + r_lb v))
  | RCont => Some ((r_ub v - r_lb v) * u + r_lb v)
  end.
(** structopt.py:271-293 random_values: [us] are the random numbers. *)
Fixpoint random_values (vs : list rvar) (us : nat -> R) : option (list R) :=
  match vs with
  | [] => Some []
  | v :: r => bind (draw v (us O)) (fun x => bind (random_values r (fun i => us (S i))) (fun t => Some (x :: t)))
  end.

(** optsolver.py:349-352, 356-359: one entry of a random point; np.random.randint excludes its end and raises on an
    empty range. *)
Definition point_entry (cont : bool) (v : rvar) (u : R) : option R :=
  if cont then Some (r_lb v + (r_ub v - r_lb v) * u)
  else if Rltb (r_lb v) (r_ub v) then Some (r_lb v + IZR (floorZ (u * (r_ub v - r_lb v)))) else None.
(** optsolver.py:347-352: a random point. *)
Fixpoint point (cont : bool) (vs : list rvar) (us : nat -> R) : option (list R) :=
  match vs with
  | [] => Some []
  | v :: r => bind (point_entry cont v (us O)) (fun x => bind (point cont r (fun i => us (S i))) (fun t => Some (x :: t)))
  end.
(** constraints.py:29 types of constraints. *)
Inductive rtype := RLe | RGe | REq.
(** A constraint: type and function (constraints.py:165-177). *)
Definition rcon := (rtype * (list R -> R))%type.
(** optsolver.py:353 the condition of the loop, with the constraint values of optsolver.py:42-45. *)
Definition rejected (cs : list rcon) (x : list R) : bool := existsb (fun c => Rltb (- (15 / 100)) (snd c x)) cs.
(** optsolver.py:339-366 random_feasible_point: [us k] are the random numbers of draw [k]; [None]: an exception, or not
    finished within the first [fuel] draws. *)
Fixpoint feasible_point (cont : bool) (vs : list rvar) (cs : list rcon) (us : nat -> nat -> R) (fuel : nat) : option (list R) :=
  match fuel with
  | O => None
  | S fuel => bind (point cont vs (us O)) (fun x => if rejected cs x then feasible_point cont vs cs (fun k => us (S k)) fuel else Some x)
  end.
(** structopt.py:193-224 feasible: one constraint. *)
Definition con_ok (tol : R) (c : rcon) (x : list R) : bool :=
  match fst c with
  | RLe => negb (Rltb tol (snd c x))
  | RGe => negb (Rltb (snd c x) (- tol))
  | REq => negb (Rltb tol (Rabs (snd c x)))
  end.

(** np.linalg.norm (optsolver.py:129). *)
Definition norm2 (x : list R) : R := sqrt (Rsum (map (fun a => a ^ 2) x)).
(** Difference of two arrays of equal length (optsolver.py:129). *)
Fixpoint vsub (a b : list R) : list R :=
  match a, b with u :: a', v :: b' => (u - v) :: vsub a' b' | _, _ => [] end.
(** optsolver.py:122-131 stopping_criterion('x', x=[x0, x1], xtol). *)
Definition stop_x (xtol : R) (x0 x1 : list R) : bool := Rltb (norm2 (vsub x1 x0)) (xtol * norm2 x0).
(** optsolver.py:132-149 stopping_criterion('f', f=[f0, f1]). *)
Definition stop_f (atol rtol f0 f1 : R) : bool := Rleb (Rabs (f1 - f0)) (atol + rtol * Rabs f0).
