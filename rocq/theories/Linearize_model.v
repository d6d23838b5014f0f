(** Model of OptimizationProblem.linearize (structopt.py:330-437) for a point
    inside the variable bounds, and of the linear program SLP builds from it.
    Index and binary variables are not modelled here: linearize reads the
    attribute [idx] that index variables do not have, and raises. *)
From Verif Require Export Solvers_model.

(** Variables as far as linearize uses them: locked flag with the locked value
    (variables.py:119-136), and the upper bound (variables.py:74-107). *)
Record lvar := mkLv { lv_locked : bool; lv_val : R; lv_ub : R }.

(** constraints.py:91-149 (LinearConstraint) and 164-214 (NonLinearConstraint):
    coefficients over all variables, or a function of the full vector. *)
Inductive lcon := LinC (a : list R) (b : R) | NonC (f : list R -> R).

(** constraints.py:192-206: full vector from the free one; locked variables keep
    their value. *)
Fixpoint full (vs : list lvar) (x : list R) : list R :=
  match vs with
  | [] => []
  | v :: r => if lv_locked v then lv_val v :: full r x
              else match x with [] => [] | xi :: x' => xi :: full r x' end
  end.

(** constraints.py:125-149, 179-208: value of a constraint at the free vector x. *)
Definition con_at (vs : list lvar) (c : lcon) (x : list R) : R :=
  match c with LinC a b => dot a (full vs x) - b | NonC f => f (full vs x) end.

(** structopt.py:165-171 the unlocked variables. *)
Definition free_l (vs : list lvar) : list lvar := filter (fun v => negb (lv_locked v)) vs.

(** structopt.py:383-385 step of the forward difference, turned round at the upper bound. *)
Definition fd_step (v ub : R) : R :=
  let h := Rmax (1 / 1000000 * Rabs v) (1 / 100000000) in
  if Rltb ub (v + h) then - h else h.

(** structopt.py:405-411: entry of the Jacobian for constraint [c] with value [b]
    and the i-th free variable; xh is the perturbed point. *)
Definition entry (vs : list lvar) (i : nat) (h : R) (xh : list R) (c : lcon * R) : R :=
  match fst c with
  | LinC a _ => nth i a 0
  | NonC _ => (con_at vs (fst c) xh - snd c) / h
  end.

(** structopt.py:370-419: the loop over the free variables. [x] are the current
    values of the free variables; each pass perturbs one, computes a column and
    restores it. Result: columns and the values afterwards. *)
Fixpoint lin_loop (vs : list lvar) (cs : list (lcon * R)) (i : nat) (ubs : list R) (x : list R)
  : list (list R) * list R :=
  match ubs with
  | [] => ([], x)
  | ub :: r =>
      let prev := nth i x 0 in
      let h := fd_step prev ub in
      let xh := set_nth i (prev + h) x in
      let col := map (entry vs i h xh) cs in
      let x' := set_nth i prev xh in
      let '(cols, xf) := lin_loop vs cs (S i) r x' in
      (col :: cols, xf)
  end.

(** structopt.py:419 [A[:, i] = dg]: row j of the matrix with the given columns. *)
Definition row_of (cols : list (list R)) (j : nat) : list R := map (fun c => nth j c 0) cols.

(** structopt.py:330-437 (linearize, only_potential=False): the rows (A[j], B[j])
    with B = A.x - b, and the values of the free variables afterwards. *)
Definition linearize (vs : list lvar) (cons : list lcon) (x : list R) : list (list R * R) * list R :=
  let cs := map (fun c => (c, con_at vs c x)) cons in
  let '(cols, xf) := lin_loop vs cs 0 (map lv_ub (free_l vs)) x in
  (map (fun j => (row_of cols j, dot (row_of cols j) xf - nth j (map snd cs) 0)) (seq 0 (length cs)), xf).
