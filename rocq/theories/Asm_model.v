(** Model of numerical gradients and of the assembly of approximate sub-problems
    (metku/optimization/opt_functions.py:19-44, constraints.py:220-232, structopt.py:439-526, solvers/mma.py:25-86). *)
Require Import Reals List Bool.
Import ListNotations.
From Verif Require Export Approx_model.
Local Open Scope R_scope.

(** opt_functions.py:37: step of the forward difference. *)
Definition num_step (x : R) : R := Rmax (1 / 1000000 * Rabs x) (1 / 100000000).
(** opt_functions.py:33-42 NumGrad: entry [i] of the gradient. *)
Definition num_diff (f : list R -> R) (x : list R) (i : nat) : R :=
  (f (set_nth i (nth i x 0 + num_step (nth i x 0)) x) - f x) / num_step (nth i x 0).
(** opt_functions.py:19-44 NumGrad (dtype np.float taken as float). *)
Definition num_grad (f : list R -> R) (x : list R) : list R := map (num_diff f x) (seq 0 (length x)).

(** constraints.py:29 types of constraints. *)
Inductive atype := ALe | AGe | AEq.
(** A constraint: coefficients and right-hand side (constraints.py:104-123), or a function of the values stored in the
    variables of its problem and of the vector given to it, with an optional gradient (constraints.py:165-177). *)
Inductive acon :=
| ALin (a : list R) (b : R) (ty : atype)
| ANon (f : list R -> list R -> R) (g : option (list R -> list R)) (ty : atype).
(** A variable: locked or not, stored value (variables.py:74-136). *)
Record avar := mkAv { av_locked : bool; av_value : R }.
(** constraints.py:192-206 and structopt.py:183-191: the vector of all variables for the vector [x] of the free ones. *)
Fixpoint fill (vs : list avar) (x : list R) : list R :=
  match vs with
  | [] => []
  | v :: r => if av_locked v then av_value v :: fill r x else match x with [] => [] | y :: x' => y :: fill r x' end
  end.
(** structopt.py:174-180: the free variables. *)
Definition free (vs : list avar) : list avar := filter (fun v => negb (av_locked v)) vs.
(** constraints.py:125-149, 179-208: value of the constraint called at [x] in a problem with the variables [vs].
    The tolerance X_TOL of the substitution is left out (see OptVars); numpy's dot needs equal lengths. *)
Definition call (vs : list avar) (c : acon) (x : list R) : option R :=
  match c with
  | ALin a b _ => if Nat.eqb (length a) (length (fill vs x)) then Some (dot a (fill vs x) - b) else None
  | ANon f _ _ => Some (f (fill vs x) (fill vs x))
  end.
(** constraints.py:223-232 df: the function is called directly, with the free vector and without substitution;
    [s]: values stored in the variables. *)
Definition con_df (s : list R) (f : list R -> list R -> R) (g : option (list R -> list R)) (x : list R) : list R :=
  match g with None => num_grad (f s) x | Some g => g x end.

(** The three kinds of sub-problems: structopt.py:439-476 conlin, 478-526 mma, and mma.py:25-86 MMAProblem. *)
Inductive sub := SConlin | SMma | SMmaP.
(** structopt.py:468-470, 519-521; mma.py:79-81: value used for the approximation of a constraint at [x]; the first
    two call the function directly, the third one calls the constraint. *)
Definition base_value (k : sub) (vs : list avar) (f : list R -> list R -> R) (x : list R) : R :=
  match k with SMmaP => f (fill vs x) (fill vs x) | _ => f (fill vs x) x end.
(** conlin_fun or mma_fun (structopt.py:460, 510; mma.py:69). *)
Definition approx (k : sub) (L U x : list R) (fx : R) (df y : list R) : R :=
  match k with SConlin => conlin x fx df y | _ => mma x fx df L U y end.
(** structopt.py:462-474, 513-524; mma.py:73-84: linear constraints are shared, the others are copied with the function
    replaced; the gradient attribute of the copy is kept. *)
Definition sub_con (k : sub) (vs : list avar) (L U x : list R) (c : acon) : acon :=
  match c with
  | ALin a b ty => ALin a b ty
  | ANon f g ty => ANon (fun _ y => approx k L U x (base_value k vs f x) (con_df (fill vs x) f g x) y) g ty
  end.
(** structopt.py:450-452, 499-501; mma.py:54-62: the variables of the sub-problem are the free ones, with the values [x]. *)
Definition sub_vars (x : list R) : list avar := map (mkAv false) x.
(** structopt.py:460, 510; mma.py:63-69: the objective function; it is called as a function, so that its gradient is taken with
    substitution. *)
Definition obj_fun (vs : list avar) (f : list R -> list R -> R) (x : list R) : R := f (fill vs x) (fill vs x).
(** structopt.py:454-460, 503-510; mma.py:63-69: the approximate objective function. *)
Definition sub_obj (k : sub) (vs : list avar) (f : list R -> list R -> R) (g : option (list R -> list R)) (L U x y : list R) : R :=
  approx k L U x (obj_fun vs f x) (match g with None => num_grad (obj_fun vs f) x | Some g => g x end) y.

(** Which problem a constraint belongs to (constraints.py:45, structopt.py:135). *)
Inductive owner := OwnProblem | OwnSub.
(** structopt.py:134-135 add sets the problem of an added constraint: owner of the constraints of the original problem
    after a sub-problem has been made. *)
Definition owner_after (c : acon) : owner := match c with ALin _ _ _ => OwnSub | ANon _ _ _ => OwnProblem end.
(** constraints.py:67-83, 125-149 with that owner: value of a constraint of the original problem called at [y] after a
    sub-problem at [x] has been made, and the stored free values of the original problem, before [s]. *)
Definition call_after (vs : list avar) (s x y : list R) (c : acon) : option (R * list R) :=
  match owner_after c with
  | OwnSub => match call (sub_vars x) c y with Some r => Some (r, s) | None => None end
  | OwnProblem => match call vs c y with Some r => Some (r, y) | None => None end
  end.
