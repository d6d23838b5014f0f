(** Model of the iterative solvers: OptSolver, SLP, PSO, GridSearch, TwoPhase,
    and the discrete neighbourhood used by branch and bound.
    Files are relative to /repo/metku/optimization. *)
From Verif Require Export Problem_model Tac.

(** ---------------- OptSolver ---------------- *)

(** solvers/optsolver.py:47-68 (is_feasible) on the list of (type, value) pairs. *)
Fixpoint is_feasible (tol : R) (gs : list (ctype * R)) : bool :=
  match gs with
  | [] => true
  | (CLt, g) :: r => if Rltb tol g then false else is_feasible tol r
  | (CGt, g) :: r => if Rltb g (- tol) then false else is_feasible tol r
  | (CEq, g) :: r => if Rltb tol (Rabs g) then false else is_feasible tol r
  end.

(** solvers/optsolver.py:188 numpy.clip of one number. *)
Definition np_clip (lb ub x : R) : R := Rmin (Rmax x lb) ub.

(** solvers/optsolver.py:186 [self.X += action]; arrays of different length raise
    (numpy's broadcasting of length-one arrays is not modelled). *)
Fixpoint vadd (x a : list R) : option (list R) :=
  match x, a with
  | [], [] => Some []
  | xi :: x', ai :: a' => match vadd x' a' with Some r => Some (xi + ai :: r) | None => None end
  | _, _ => None
  end.

(** solvers/optsolver.py:187-189 clipping of every component; an index past the
    variables raises. *)
Fixpoint clip_all (bounds : list (R * R)) (x : list R) : option (list R) :=
  match x, bounds with
  | [], _ => Some []
  | _ :: _, [] => None
  | xi :: x', (l, u) :: b' =>
      match clip_all b' x' with Some r => Some (np_clip l u xi :: r) | None => None end
  end.

(** solvers/optsolver.py:178-193 (step) and solvers/slp.py:133-140: the new iterate.
    The step length bookkeeping is not modelled. *)
Definition ostep (bounds : list (R * R)) (x a : list R) : option (list R) :=
  match vadd x a with Some y => clip_all bounds y | None => None end.

(** constants.py:23-24 *)
Definition ABS_F_TOL : R := 1 / 100000000.
(** constants.py:24 *)
Definition REL_F_TOL : R := 1 / 10000.
(** constants.py:25 *)
Definition G_TOL : R := 1 / 100000000.
(** constants.py:26 *)
Definition XS_TOL : R := 1 / 100000000.

(** numpy.linalg.norm of a vector (used in solvers/optsolver.py:129). *)
Definition vnorm (x : list R) : R := sqrt (Rsum (map (fun a => a ^ 2) x)).
(** componentwise difference (solvers/optsolver.py:129). *)
Fixpoint vsub (x y : list R) : list R :=
  match x, y with xi :: x', yi :: y' => xi - yi :: vsub x' y' | _, _ => [] end.

(** solvers/optsolver.py:129 *)
Definition stop_x (x0 x1 : list R) : bool := Rltb (vnorm (vsub x1 x0)) (XS_TOL * vnorm x0).
(** solvers/optsolver.py:147 *)
Definition stop_f (f0 f1 : R) : bool := Rleb (Rabs (f1 - f0)) (ABS_F_TOL + REL_F_TOL * Rabs f0).

(** What the solver sees of the problem (structopt.py: obj, cons, con_tol, vars).
    Objective and constraints are taken as functions of the vector. *)
Record oprob := mkOp {
  op_f : list R -> R;
  op_cons : list (ctype * (list R -> R));
  op_tol : R;
  op_bounds : list (R * R) }.

(** solvers/optsolver.py:29-45, 47-68: feasibility of a point. *)
Definition op_feasible (P : oprob) (x : list R) : bool :=
  is_feasible (op_tol P) (map (fun c => (fst c, snd c x)) (op_cons P)).

(** solvers/optsolver.py:17-27: the part of the solver that the loop updates.
    [o_bestf = None] is numpy.inf; [o_states] is problem.states with log=True. *)
Record ostate := mkOs {
  o_X : list R; o_bestf : option R; o_bestx : option (list R); o_states : list (list R) }.

(** solvers/optsolver.py:287 [fval < self.best_f]. *)
Definition lt_inf (f : R) (b : option R) : bool :=
  match b with None => true | Some v => Rltb f v end.

(** solvers/optsolver.py:238-331: the iteration loop. [act k] is what take_action
    returned in iteration k, [late k] says that the time limit was exceeded then. *)
Fixpoint oloop (P : oprob) (act : nat -> list R) (late : nat -> bool) (fuel k : nat) (s : ostate)
  : option ostate :=
  match fuel with
  | O => Some s
  | S fuel' =>
      if late k then Some s
      else
        match ostep (op_bounds P) (o_X s) (act k) with
        | None => None
        | Some x =>
            let feas := op_feasible P x in
            let fval := op_f P x in
            let better := andb (lt_inf fval (o_bestf s)) feas in
            let s' := mkOs x (if better then Some fval else o_bestf s)
                             (if better then Some x else o_bestx s) (o_states s ++ [x]) in
            if andb feas (orb (stop_x (o_X s) x) (stop_f (op_f P (o_X s)) fval)) then Some s'
            else oloop P act late fuel' (S k) s'
        end
  end.

(** solvers/optsolver.py:195-337 (solve) with a starting point; [bf], [bx] are the
    best value and point the solver object holds when solve is called (numpy.inf
    and None for a new solver). Result: returned value, returned point, visited
    points. *)
Definition osolve (P : oprob) (act : nat -> list R) (late : nat -> bool) (maxiter : nat)
           (bf : option R) (bx : option (list R)) (x0 : list R) : option (option R * list R * list (list R)) :=
  match oloop P act late maxiter 0 (mkOs x0 bf bx []) with
  | None => None
  | Some s =>
      match o_bestx s with
      | None => Some (Some (op_f P (o_X s)), o_X s, o_states s)
      | Some b => Some (o_bestf s, b, o_states s)
      end
  end.

(** ---------------- history of iterates, with array aliasing ---------------- *)

(** Arrays live in a heap and are named by their position. [h_cur] is self.X,
    [h_xvals] is self.xvals, [h_states] is problem.states (lists of numbers,
    solvers/optsolver.py:303), cell 0 is the array the caller passed as x0. *)
Record hstate := mkHs {
  h_heap : list (list R); h_cur : nat; h_xvals : list nat; h_states : list (list R) }.

(** solvers/optsolver.py:216-225: [is_array] says that x0 is already a float array,
    which numpy.asarray does not copy; numpy.array(x0) always copies. *)
Definition hinit (is_array : bool) (x0 : list R) : hstate :=
  if is_array then mkHs [x0; x0] 0 [1%nat] [] else mkHs [x0; x0; x0] 2 [1%nat] [].

(** solvers/optsolver.py:186-193 (and slp.py:133-140) followed by 271, 303, 306:
    the step changes the array self.X in place, returns a copy, and the copy is
    stored both as self.X and in xvals. *)
Definition hstep (bounds : list (R * R)) (s : hstate) (a : list R) : option hstate :=
  match ostep bounds (nth (h_cur s) (h_heap s) []) a with
  | None => None
  | Some y =>
      let heap1 := set_nth (h_cur s) y (h_heap s) in
      let new := length heap1 in
      Some (mkHs (heap1 ++ [y]) new (h_xvals s ++ [new]) (h_states s ++ [y]))
  end.

(** solvers/optsolver.py:238-331: a run of the loop, history only. *)
Fixpoint hrun (bounds : list (R * R)) (acts : list (list R)) (s : hstate) : option hstate :=
  match acts with
  | [] => Some s
  | a :: r => match hstep bounds s a with None => None | Some s' => hrun bounds r s' end
  end.

(** solvers/optsolver.py:22: the contents of self.xvals as the caller reads them. *)
Definition read_xvals (s : hstate) : list (list R) := map (fun i => nth i (h_heap s) []) (h_xvals s).

(** ---------------- SLP ---------------- *)

(** solvers/slp.py:31-34: kind of move limits. *)
Inductive mltype := MRange | MRelative.

(** solvers/slp.py:70-87: bounds of one variable in the sub-problem; [ml], [mu]
    are the two relative move limits. *)
Definition move_box (ty : mltype) (ml mu vlb vub value : R) : R * R :=
  let delta := match ty with MRange => vub - vlb | MRelative => value end in
  (Rmax vlb (value - ml * delta), Rmin vub (value + mu * delta)).

(** solvers/slp.py:130: reduction of the move limits, one step. *)
Definition shrink (gamma m : R) : R := m - m * gamma.
(** solvers/slp.py:130 after k steps. *)
Fixpoint shrink_n (gamma : R) (k : nat) (m : R) : R :=
  match k with O => m | S k' => shrink gamma (shrink_n gamma k' m) end.

(** solvers/slp.py:91-96: constraints of the sub-problem for a point and a value
    of the auxiliary variable beta; rows are (A[i], B[i]). *)
Definition slp_row_ok (x : list R) (beta : R) (row : list R * R) : Prop :=
  dot (fst row) x <= snd row + beta.

(** ---------------- PSO ---------------- *)

(** solvers/pso.py:343-375: an evaluated particle: position, objective value and sum
    of constraint violations. *)
Record part := mkPart { p_x : list R; p_fv : R; p_scv : R }.

(** solvers/pso.py:39-41: recorded swarm best; None is numpy.inf / no point. *)
Record gbest := mkG { g_f : option R; g_scv : option R; g_x : option (list R) }.

(** solvers/pso.py:110 [best_scv > G_TOL] *)
Definition above_tol (s : option R) : bool := match s with None => true | Some v => Rltb G_TOL v end.

(** solvers/pso.py:108-127: treatment of one particle. *)
Definition visit (g : gbest) (p : part) : gbest :=
  if above_tol (g_scv g) then
    if Rleb (p_scv p) G_TOL then mkG (Some (p_fv p)) (Some (p_scv p)) (Some (p_x p)) else g
  else if andb (Rleb (p_scv p) G_TOL) (lt_inf (p_fv p) (g_f g))
       then mkG (Some (p_fv p)) (Some (p_scv p)) (Some (p_x p)) else g.

(** solvers/pso.py:132-134: numpy.argmin picks the first smallest. *)
Fixpoint least_scv (l : list part) : option part :=
  match l with
  | [] => None
  | p :: r => match least_scv r with
              | None => Some p
              | Some q => if Rleb (p_scv p) (p_scv q) then Some p else Some q
              end
  end.

(** solvers/pso.py:100-134 (update_best); the generation counters are not modelled.
    None: numpy.argmin of an empty list raises. *)
Definition update_best (swarm : list part) (g : gbest) : option gbest :=
  let g' := fold_left visit swarm g in
  match g_x g' with
  | Some _ => Some g'
  | None => match least_scv swarm with
            | None => None
            | Some p => Some (mkG (g_f g') (g_scv g') (Some (p_x p)))
            end
  end.

(** solvers/pso.py:270, 288-306: one update per generation. *)
Fixpoint pso_run (gens : list (list part)) (g : gbest) : option gbest :=
  match gens with
  | [] => Some g
  | s :: r => match update_best s g with None => None | Some g' => pso_run r g' end
  end.

(** solvers/pso.py:36-41: state of a new solver object; [bf] is the constructor's best_f. *)
Definition g_new (bf : option R) : gbest := mkG bf None None.

(** solvers/pso.py:84-94: personal best of a particle after one evaluation. *)
Definition visit_own (g : gbest) (p : part) : gbest :=
  let new := mkG (Some (p_fv p)) (Some (p_scv p)) (Some (p_x p)) in
  if above_tol (g_scv g) then
    match g_scv g with
    | None => new
    | Some s => if Rleb (p_scv p) s then new else g
    end
  else if andb (Rleb (p_scv p) G_TOL)
               (match g_f g with None => true | Some f => Rleb (p_fv p) f end)
       then new else g.

(** Python's [min(values, key=...)] (solvers/pso.py:393): the first value with the
    smallest key; None is the ValueError on an empty list. *)
Fixpoint min_by (key : R -> R) (l : list R) : option R :=
  match l with
  | [] => None
  | v :: r => match min_by key r with
              | None => Some v
              | Some w => if Rleb (key v) (key w) then Some v else Some w
              end
  end.

(** solvers/pso.py:382-387: new position of one coordinate before rounding. *)
Definition pso_coord (x v lb ub : R) : R := Rmin (Rmax (x + v) lb) ub.

(** solvers/pso.py:377-394 (move): [disc] holds vars[0].values when the first
    variable is a list variable. Arrays of different length raise. *)
Fixpoint pso_move (disc : option (list R)) (x v : list R) (bounds : list (R * R)) : option (list R) :=
  match x, v, bounds with
  | [], [], [] => Some []
  | xi :: x', vi :: v', (l, u) :: b' =>
      let y := pso_coord xi vi l u in
      let c := match disc with None => Some y | Some vals => min_by (fun w => Rabs (w - y)) vals end in
      match c, pso_move disc x' v' b' with
      | Some yi, Some r => Some (yi :: r)
      | _, _ => None
      end
  | _, _, _ => None
  end.

(** solvers/pso.py:151-157 one velocity component; c1, c2 are the random factors. *)
Definition pso_velocity (w c1 c2 v x own glob vmin vmax : R) : R :=
  Rmin (Rmax (w * v + c1 * (own - x) + c2 * (glob - x)) vmin) vmax.
(** solvers/pso.py:179 velocity after craziness; r is a random number in [0,1). *)
Definition pso_crazy (r vmin vmax : R) : R := (vmax - vmin) * r + vmin.

(** ---------------- itertools.product and GridSearch ---------------- *)

(** itertools.product(lists) (used in solvers/grid_search.py:22 and structopt.py:863). *)
Fixpoint product {A} (ls : list (list A)) : list (list A) :=
  match ls with
  | [] => [[]]
  | l :: r => flat_map (fun a => map (cons a) (product r)) l
  end.

(** sorted(p.items()) (solvers/grid_search.py:20); names are numbered by their order. *)
Fixpoint ins_key {V} (e : nat * V) (l : list (nat * V)) : list (nat * V) :=
  match l with
  | [] => [e]
  | a :: r => if (fst e <=? fst a)%nat then e :: l else a :: ins_key e r
  end.
(** solvers/grid_search.py:20 *)
Definition sort_items {V} (l : list (nat * V)) : list (nat * V) := fold_right ins_key [] l.

(** solvers/grid_search.py:18-24: the parameter combinations; an empty dictionary
    raises in the unpacking of zip. *)
Definition grid {V} (params : list (nat * list V)) : option (list (list (nat * V))) :=
  match sort_items params with
  | [] => None
  | items => Some (map (fun v => combine (map fst items) v) (product (map snd items)))
  end.

(** solvers/grid_search.py:35-70: the calls made by run -- argument of the problem
    constructor (always 'discrete', represented by tt) and options of the solver.
    The grid of problem parameters built in lines 26-33 is not read. *)
Definition gs_run {V} (solver_grid problem_grid : list (list (nat * V))) : list (unit * list (nat * V)) :=
  map (fun o => (tt, o)) solver_grid.

(** ---------------- TwoPhase ---------------- *)

(** numpy.argmin((values - x)**2) (solvers/two_phase.py:62): position of the first
    nearest value. *)
Fixpoint argmin_from (i : nat) (key : R -> R) (l : list R) : option (nat * R) :=
  match l with
  | [] => None
  | v :: r => match argmin_from (S i) key r with
              | None => Some (i, v)
              | Some (j, w) => if Rleb (key v) (key w) then Some (i, v) else Some (j, w)
              end
  end.

(** solvers/two_phase.py:61-67: the values kept for one variable; the limits are
    non-negative whole numbers. None: argmin of an empty list raises. *)
Definition window (values : list R) (x : R) (ll ul : nat) : option (list R) :=
  match argmin_from 0 (fun v => (v - x) ^ 2) values with
  | None => None
  | Some (idx, _) =>
      let lb := (idx - ll)%nat in
      let ub := Nat.min (length values) (idx + ul) in
      Some (firstn (ub - lb) (skipn lb values))
  end.

(** ---------------- discrete neighbourhood ---------------- *)

(** numpy.argsort(abs(values - x)) applied to values (structopt.py:837-843). The order
    of values at equal distance is that of a stable sort (numpy leaves it open). *)
Fixpoint ins_by (key : R -> R) (v : R) (l : list R) : list R :=
  match l with
  | [] => [v]
  | a :: r => if Rleb (key v) (key a) then v :: l else a :: ins_by key v r
  end.
(** structopt.py:837 *)
Definition sort_by (key : R -> R) (l : list R) : list R := fold_right (ins_by key) [] l.

(** structopt.py:837-843: the k nearest values. *)
Definition nearest_k (k : nat) (x : R) (vals : list R) : list R :=
  firstn k (sort_by (fun v => Rabs (v - x)) vals).

(** Variable kinds told apart by discrete_neighborhood (structopt.py:832, 844). *)
Inductive nvar := NDisc (vals : list R) | NInt (lb ub : Z) | NCont.

(** numpy.arange(lb, ub+1) (structopt.py:851). *)
Definition arange (lb ub : Z) : list R :=
  map (fun i => IZR (lb + Z.of_nat i)) (seq 0 (Z.to_nat (ub + 1 - lb))).

(** structopt.py:830-857: the list of value lists; a variable of another kind adds none. *)
Fixpoint nbhd_lists (k : nat) (vs : list nvar) (x : list R) : option (list (list R)) :=
  match vs, x with
  | [], _ => Some []
  | NDisc vals :: r, xi :: x' =>
      match nbhd_lists k r x' with Some l => Some (nearest_k k xi vals :: l) | None => None end
  | NInt lb ub :: r, xi :: x' =>
      match nbhd_lists k r x' with Some l => Some (nearest_k k xi (arange lb ub) :: l) | None => None end
  | NCont :: r, _ => nbhd_lists k r (tl x)
  | _ :: _, [] => None
  end.

(** structopt.py:822-864 (discrete_neighborhood, method 'nearest'). *)
Definition neighborhood (k : nat) (vs : list nvar) (x : list R) : option (list (list R)) :=
  match nbhd_lists k vs x with Some l => Some (product l) | None => None end.
