(** Model of the remaining solvers: the translations to external solvers (SLSQP, COBYLA, trust
    region, LP, MILP, MISLP), the heuristics (ant colony, genetic, variable neighbourhood search),
    steepest descent, the augmented Lagrangian method, and of variable groups.
    Files are relative to /repo/metku/optimization. *)
From Verif Require Export Solvers_model.

(* ------------------------------------------------ translations *)

(** The strings used for constraint types (constraints.py:29, solvers/slsqp.py:41-57). *)
Inductive cstr := sLt | sLe | sGt | sGe | sEq | sOther.
(** A constraint as the translations see it: a nonlinear one has the attribute con, its value is
    taken as a function of the vector of free variables; a linear one has coefficients for all
    variables and a right-hand side (constraints.py:104-208). *)
Inductive tcon := NonLin (ty : cstr) (g : list R -> R) | Lin (ty : cstr) (a : list R) (b : R).
(** constraints.py:44 the type of a constraint. *)
Definition t_type (c : tcon) : cstr := match c with NonLin ty _ => ty | Lin ty _ _ => ty end.
(** A variable: class, bounds and, if it is locked, its value (variables.py:74-107). *)
Inductive vclass := vCont | vInt | vBin | vDisc (values : list R).
(** See [vclass]. *)
Record tvar := mkTv { tv_class : vclass; tv_lb : R; tv_ub : R; tv_fixed : option R }.
(** structopt.py:165-171 the unlocked variables. *)
Definition tfree (vs : list tvar) : list tvar := filter (fun v => match tv_fixed v with None => true | _ => false end) vs.
(** constraints.py:138-142: values of all variables when the free ones have the values x (inside
    their bounds). *)
Fixpoint tall (vs : list tvar) (x : list R) : list R :=
  match vs with
  | [] => []
  | v :: vs' => match tv_fixed v with
                | Some w => w :: tall vs' x
                | None => match x with [] => 0 :: tall vs' [] | xi :: x' => xi :: tall vs' x' end
                end
  end.
(** constraints.py:125-163 and 179-208: the value of a constraint at x. *)
Definition t_val (vs : list tvar) (c : tcon) (x : list R) : R :=
  match c with NonLin _ g => g x | Lin _ a b => dot a (tall vs x) - b end.

(** What SLSQP and COBYLA of scipy are given: 'eq' (true) or 'ineq' and a function. *)
Definition scon := (bool * (list R -> R))%type.
(** solvers/slsqp.py:33-44 (and optsolver.py:70-81). *)
Definition eqcons (vs : list tvar) (cs : list tcon) : list (list R -> R) :=
  flat_map (fun c => match t_type c with sEq => [t_val vs c] | _ => [] end) cs.
(** solvers/slsqp.py:46-59 (and optsolver.py:83-96); neg_call is constraints.py:99-101. *)
Definition ieqcons (vs : list tvar) (cs : list tcon) : list (list R -> R) :=
  flat_map (fun c => match t_type c with
    | sLt | sLe => [fun x => - t_val vs c x]
    | sGt | sGe => [t_val vs c]
    | _ => [] end) cs.
(** solvers/slsqp.py:113-121. *)
Definition slsqp_cons (vs : list tvar) (cs : list tcon) : list scon :=
  map (fun g => (true, g)) (eqcons vs cs) ++ map (fun g => (false, g)) (ieqcons vs cs).
(** solvers/slsqp.py:61-71. *)
Definition slsqp_bounds (vs : list tvar) : list (R * R) := map (fun v => (tv_lb v, tv_ub v)) (tfree vs).
(** solvers/slsqp.py:88-91 the starting point when none is given. *)
Definition slsqp_x0 (vs : list tvar) : list R := map tv_ub (tfree vs).
(** solvers/slsqp.py:170-211: COBYLA gets the same constraints and no bounds. *)
Definition cobyla_problem (vs : list tvar) (cs : list tcon) : list scon * list (R * R) := (slsqp_cons vs cs, []).

(** What the trust-region method of scipy is given: lower limit, function or coefficients, upper
    limit; [None] is an infinite limit. *)
Inductive tfun := TF (g : list R -> R) | TA (a : list R).
(** solvers/trust_region.py:110-148. *)
Definition tr_limits (ty : cstr) (b : R) : option R * option R :=
  match ty with
  | sLt | sLe => (None, Some b)
  | sGt | sGe => (Some b, None)
  | sEq => (Some b, Some b)
  | sOther => (None, None)
  end.
(** solvers/trust_region.py:110-148: the constraints. *)
Definition tr_cons (cs : list tcon) : list (option R * tfun * option R) :=
  map (fun c => match c with
    | NonLin ty g => let '(l, u) := tr_limits ty 0 in (l, TF g, u)
    | Lin ty a b => let '(l, u) := tr_limits ty b in (l, TA a, u) end) cs.

(** A row of a linear program: coefficients, sense and right-hand side. *)
Definition lrow := (list R * ctype * R)%type.
(** solvers/lp.py:84-102: only linear constraints are passed on; a type other than '<' and '>'
    becomes an equation. The coefficients are paired with the free variables (zip). *)
Definition lp_rows (cs : list tcon) : list lrow :=
  flat_map (fun c => match c with
    | NonLin _ _ => []
    | Lin ty a b => [(a, match ty with sLt => CLt | sGt => CGt | _ => CEq end, b)] end) cs.
(** solvers/lp.py:57-69: value of the sum over zip(c, x), to be minimised or maximised. *)
Definition lp_obj (c x : list R) : R := dot c x.
(** solvers/milp.py:47-57: variables of the mixed-integer program; true: binary. *)
Definition milp_vars (vs : list tvar) : list (bool * R * R) :=
  map (fun v => (match tv_class v with vBin => true | _ => false end, tv_lb v, tv_ub v)) (tfree vs).

(* ------------------------------------------------ MISLP *)

(** numpy.argmin of the squared distances (solvers/mislp.py:77). *)
Definition nearest_idx (values : list R) (x : R) : option nat :=
  match argmin_from 0 (fun v => (v - x) ^ 2) values with None => None | Some (i, _) => Some i end.
(** solvers/mislp.py:64-99: the range of a variable in the sub-problem. [None]: IndexError for a
    catalogue with one value. *)
Definition mislp_range (ty : mltype) (ml mu : R) (v : tvar) (value : R) : option (R * R) :=
  let delta := match ty with MRange => tv_ub v - tv_lb v | MRelative => value end in
  let fin l u := Some (Rmax (value - l) (tv_lb v), Rmin (value + u) (tv_ub v)) in
  match tv_class v with
  | vBin => Some (0, 1)
  | vDisc values =>
      match nearest_idx values value with
      | None => None
      | Some 0%nat => match nth_error values 1 with Some v1 => fin (ml * delta) (Rmax (mu * delta) (v1 - value)) | None => None end
      | Some idx =>
          let lo := Rmax (ml * delta) (value - nth (idx - 1) values 0) in
          if Nat.eqb idx (length values - 1) then fin lo (mu * delta)
          else fin lo (Rmax (mu * delta) (nth (idx + 1) values 0 - value))
      end
  | _ => fin (ml * delta) (mu * delta)
  end.
(** solvers/mislp.py:109-115: rows of the sub-problem: coefficients, equation?, right-hand side; an
    inequality may be exceeded by beta. Constraints of other types get no row. *)
Definition mislp_rows (rows : list (list R * cstr * R)) : list (list R * bool * R) :=
  flat_map (fun r => let '(a, ty, b) := r in match ty with sLt => [(a, false, b)] | sEq => [(a, true, b)] | _ => [] end) rows.
(** solvers/mislp.py:117-137: selections: position of the variable and its catalogue; one binary
    variable per catalogue value, only if the problem has no binary variables. *)
Definition mislp_select (vs : list tvar) : list (nat * list R) :=
  if existsb (fun v => match tv_class v with vBin => true | _ => false end) vs then []
  else flat_map (fun iv => match tv_class (snd iv) with vDisc values => [(fst iv, values)] | _ => [] end)
         (combine (seq 0 (length vs)) vs).
(** solvers/mislp.py:176-177, 184: the new iterate from the solution of the sub-problem. *)
Definition mislp_next (sol : list R) : list R := map (roundn 3) sol.

(** solvers/mislp.py:194-215 ortools_mip_feasibility for given x: constraints are coefficients,
    lower and upper limit. *)
Fixpoint mip_feasible (cons : list (list R * R * R)) (x : list R) : bool :=
  match cons with
  | [] => true
  | (a, l, u) :: r => if orb (Rltb (u + 1/100000) (dot a x)) (Rltb (dot a x) (l - 1/100000)) then false else mip_feasible r x
  end.

(* ------------------------------------------------ ant colony *)

(** solvers/aco.py:81-83: weights of one member. *)
Definition aco_weights (alpha beta : R) (pher heur : list R) : list R :=
  map (fun ph => Rpower (fst ph) alpha * Rpower (snd ph) beta) (combine pher heur).
(** solvers/aco.py:219-221: probabilities of the catalogue values for one member; the sum is not 0. *)
Definition aco_probs (w : list R) : list R := map (fun wi => wi / Rsum w) w.
(** solvers/aco.py:139-144 local update of the pheromones (one row per member) for the choices of
    one ant (one position per member). *)
Fixpoint aco_local (xi : R) (m : list (list R)) (choice : list nat) : list (list R) :=
  match m, choice with
  | row :: m', j :: c' => set_nth j (nth j row 0 * xi) row :: aco_local xi m' c'
  | m, _ => m
  end.
(** solvers/aco.py:146-151: what one ant adds; rank is its position in the ranking. *)
Definition aco_deposit (rho : R) (top rank : nat) (fitness : R) : R := rho * (INR top - INR rank) / fitness.
(** solvers/aco.py:159-164 for one ant. *)
Fixpoint aco_add (d : R) (m : list (list R)) (choice : list nat) : list (list R) :=
  match m, choice with
  | row :: m', j :: c' => set_nth j (nth j row 0 + d) row :: aco_add d m' c'
  | m, _ => m
  end.
(** An evaluated ant: choices, design and fitness (solvers/aco.py:102-119, 205-241). *)
Record ant := mkAnt { a_choice : list nat; a_x : list R; a_fit : R }.
(** solvers/aco.py:159 sorted by fitness (stable). *)
Fixpoint ins_ant (a : ant) (l : list ant) : list ant :=
  match l with [] => [a] | b :: r => if Rleb (a_fit a) (a_fit b) then a :: l else b :: ins_ant a r end.
(** solvers/aco.py:159. *)
Definition sort_ants (l : list ant) : list ant := fold_right ins_ant [] l.
(** solvers/aco.py:161-167: the first [top] ants of the ranking; [None]: IndexError. *)
Fixpoint aco_global_from (rho : R) (top rank n : nat) (l : list ant) (m : list (list R)) : option (list (list R)) :=
  match n, l with
  | O, _ => Some m
  | S n', a :: l' => aco_global_from rho top (S rank) n' l' (aco_add (aco_deposit rho top rank (a_fit a)) m (a_choice a))
  | S _, [] => None
  end.
(** solvers/aco.py:153-167. *)
Definition aco_global (rho : R) (top : nat) (ants : list ant) (m : list (list R)) : option (list (list R)) :=
  aco_global_from rho top 0 top (sort_ants ants) m.
(** solvers/aco.py:121-137: best of one generation; infinity is [None]. *)
Definition aco_best (ants : list ant) : option (R * list R) :=
  fold_left (fun b a => match b with None => Some (a_fit a, a_x a) | Some (f, _) => if Rltb (a_fit a) f then Some (a_fit a, a_x a) else b end) ants None.
(** solvers/aco.py:169-202: the loop, with the generations given; state: best so far and the number
    of generations without improvement; the pheromones are not needed here. *)
Fixpoint aco_loop (nmax : nat) (gens : list (list ant)) (best : option (R * list R)) (N : nat) : option (R * list R) * nat :=
  match gens with
  | [] => (best, N)
  | g :: gens' =>
      let '(best', N') :=
        match aco_best g, best with
        | None, _ => (best, S N)
        | Some b, None => (Some b, 0%nat)
        | Some b, Some c => if Rltb (fst b) (fst c) then (Some b, 0%nat) else (best, S N)
        end in
      if Nat.ltb nmax N' then (best', N') else aco_loop nmax gens' best' N'
  end.

(* ------------------------------------------------ genetic algorithm *)

(** solvers/ga.py:72-74: the default penalty of the constraint values. *)
Definition ga_penalty (g : list R) : R := 2000000 * Rsum (map (fun v => (Rmin (Rmax v 0) 100) ^ 2) g).
(** solvers/ga.py:110-111: the point at which an individual is evaluated: clamped, rounded. *)
Definition ga_point (bounds : list (R * R)) (ind : list R) : list R :=
  map (fun xb => roundn 3 (clamp (fst (snd xb)) (snd (snd xb)) (fst xb))) (combine ind bounds).
(** solvers/ga.py:110-122: fitness of an individual. *)
Definition ga_value (f : list R -> R) (g : list R -> list R) (bounds : list (R * R)) (ind : list R) : R :=
  let X := ga_point bounds ind in f X + ga_penalty (g X).
(** Best value, best design, previous best, counter (solvers/ga.py:88-93). *)
Record gstate := mkGa { ga_f : R; ga_x : option (list R); ga_prev : R; ga_count : nat }.
(** solvers/ga.py:103-139 eval_individual: the state, the individual afterwards and the fitness.
    The stored design are the variable values before rounding. *)
Definition ga_eval (f : list R -> R) (g : list R -> list R) (bounds : list (R * R)) (s : gstate) (ind : list R) : gstate * list R * R :=
  let v := ga_value f g bounds ind in
  if Rltb v (ga_f s) then
    (mkGa v (Some (map (fun xb => clamp (fst (snd xb)) (snd (snd xb)) (fst xb)) (combine ind bounds))) (ga_f s) 0, ga_point bounds ind, v)
  else (s, ind, v).
(** A sequence of evaluations (solvers/ga.py:256, 304-318). *)
Fixpoint ga_run (f : list R -> R) (g : list R -> list R) (bounds : list (R * R)) (inds : list (list R)) (s : gstate) : gstate :=
  match inds with [] => s | i :: r => ga_run f g bounds r (fst (fst (ga_eval f g bounds s i))) end.
(** Equality of lists of numbers (the dictionary key tuple(child), solvers/ga.py:303-313). *)
Fixpoint eq_list (a b : list R) : bool :=
  match a, b with [], [] => true | x :: a', y :: b' => if Req_EM_T x y then eq_list a' b' else false | _, _ => false end.
(** solvers/ga.py:303-313: fitness of a child through the dictionary of analysed individuals; the
    key is taken after the evaluation. Result: dictionary, state and the fitness. *)
Definition ga_cached (f : list R -> R) (g : list R -> list R) (bounds : list (R * R))
           (d : list (list R * R)) (s : gstate) (ind : list R) : list (list R * R) * gstate * R :=
  match find (fun e => eq_list (fst e) ind) d with
  | Some e => (d, s, snd e)
  | None => let '(s', ind', v) := ga_eval f g bounds s ind in ((ind', v) :: d, s', v)
  end.

(* ------------------------------------------------ variable neighbourhood search *)

(** Accepted point, best value and constraint values of DiscreteVNS (solvers/vns.py:183-190). *)
Record dvns := mkDv { d_X : list R; d_best : R; d_cons : list R }.
(** numpy.clip(values, 0, 100) squared and summed (solvers/vns.py:263-264). *)
Definition viol100 (g : list R) : R := Rsum (map (fun v => (Rmin (Rmax v 0) 100) ^ 2) g).
(** solvers/vns.py:252 the trial point; the upper limit is that of the first variable. *)
Definition dvns_trial (ub0 : R) (X a : list R) : option (list R) :=
  match vadd X a with Some y => Some (map (fun v => Rmin (Rmax v 0) ub0) y) | None => None end.
(** solvers/vns.py:238-284 step: new state (with the constraint values of the trial), the trial and
    whether it was accepted. *)
Definition dvns_step (f : list R -> R) (g : list R -> list R) (ub0 : R) (s : dvns) (a : list R) : option (dvns * list R * bool) :=
  match dvns_trial ub0 (d_X s) a with
  | None => None
  | Some y =>
      let gv := g y in
      if andb (Rltb 0 (d_best s - f y)) (andb (Rleb 0 (viol100 (d_cons s) - viol100 gv)) (forallb (fun v => Rleb v 0) gv))
      then Some (mkDv (d_X s) (f y) gv, y, true)
      else Some (mkDv (d_X s) (d_best s) gv, y, false)
  end.
(** solvers/vns.py:327-347: the loop for a sequence of random actions (those already tried are left
    out): an accepted trial becomes the current point. Result: state and accepted points. *)
Fixpoint dvns_run (f : list R -> R) (g : list R -> list R) (ub0 : R) (acts : list (list R)) (s : dvns) : option (dvns * list (list R)) :=
  match acts with
  | [] => Some (s, [])
  | a :: acts' =>
      match dvns_step f g ub0 s a with
      | None => None
      | Some (s', y, true) =>
          match dvns_run f g ub0 acts' (mkDv y (d_best s') (d_cons s')) with Some (t, l) => Some (t, y :: l) | None => None end
      | Some (s', _, false) => dvns_run f g ub0 acts' s'
      end
  end.
(** solvers/vns.py:183-190, 315-323: the state at the start. *)
Definition dvns_init (g : list R -> list R) (x0 : list R) : dvns := mkDv x0 10000 (g x0).
(** solvers/vns.py:333-336 and 353: returned pair; a pair (value, point) unless time ran out. *)
Inductive vns_result := ValueAndPoint (v : R) (x : list R) | PointAndValue (x : list R) (v : R).
(** solvers/vns.py:287-353. *)
Definition dvns_result (f : list R -> R) (late : bool) (s : dvns) : vns_result :=
  if late then PointAndValue (d_X s) (f (d_X s)) else ValueAndPoint (f (d_X s)) (d_X s).

(** solvers/vns.py:42-73: search bounds of a variable in VNS; true: index variable. The step length
    is positive. Only index and continuous variables. *)
Definition vns_bounds (step : nat) (index : bool) (lb ub value : R) : R * R :=
  if index then (Rmax 0 (value - INR step), Rmin ub (value + INR step))
  else let delta := (ub - lb) / 10 in (Rmax lb (value - delta * INR step), Rmin ub (value + delta * INR step)).
(** solvers/vns.py:43-58: search bounds of a discrete variable. *)
Definition vns_disc_bounds (step : nat) (values : list R) (lb ub value : R) : option (R * R) :=
  let delta := (ub - lb) / (INR step * INR (length values)) in
  let l := lb - delta in let u := ub + delta in
  match nearest_idx values value with
  | None => None
  | Some 0%nat => match nth_error values 1 with Some v1 => Some (l, Rmax u (v1 - value)) | None => None end
  | Some idx =>
      let l' := Rmax l (value - nth (idx - 1) values 0) in
      if Nat.eqb idx (length values - 1) then Some (l', u) else Some (l', Rmax u (nth (idx + 1) values 0 - value))
  end.
(** State of VNS: best value, expansions, step length (solvers/vns.py:16-32). *)
Record vstate := mkVst { v_fopt : R; v_exp : nat; v_step : nat }.
(** Componentwise comparison of arrays ([true]) or comparison of Python lists (solvers/vns.py:88). *)
Definition all_differ (arrays : bool) (x y : list R) : bool :=
  if arrays then forallb (fun p => negb (Reqb (fst p) (snd p))) (combine x y) else negb (eq_list x y).
(** solvers/vns.py:34-106 take_action for variables (index?, lb, ub); [res] are the results of the
    inner solver: value, point, and the values it left in the variables. Result: the action, the
    bounds left in the variables, the state. [None]: the results ran out. *)
Fixpoint vns_action (arrays : bool) (maxexp : nat) (vars : list (bool * R * R)) (prev : list R)
         (res : list (R * list R * list R)) (values : list R) (s : vstate) : option (list R * list (R * R) * vstate) :=
  let nb := map (fun vv => let '(i, l, u) := fst vv in vns_bounds (v_step s) i l u (snd vv)) (combine vars values) in
  let orig := map (fun v => let '(_, l, u) := v in (l, u)) vars in
  if Nat.leb 10 (v_exp s) then Some (map (fun _ => 0) vars, nb, s)
  else match res with
  | [] => None
  | (f, x, after) :: res' =>
      if andb (Rltb f (v_fopt s)) (all_differ arrays x prev) then
        Some (vsub x prev, orig, mkVst f 0 (v_step s))
      else if Nat.leb maxexp (v_exp s) then Some (map (fun _ => 0) vars, nb, s)
      else vns_action arrays maxexp vars prev res' after (mkVst (v_fopt s) (S (v_exp s)) (S (v_step s)))
  end.

(* ------------------------------------------------ steepest descent *)

(** solvers/steepest.py:23-25. *)
Definition SD_GRAD_TOL : R := 1 / 100000000.
(** x + a d (solvers/steepest.py:96). *)
Definition vaxpy (a : R) (d x : list R) : list R := map (fun p => fst p + a * snd p) (combine x d).
(** solvers/steepest.py:75 the direction. *)
Definition sd_dir (df : list R) : list R := map (fun g => - g / vnorm df) df.
(** solvers/steepest.py:53-107: the iterates (last first) with their values, for a line search [ls]
    giving a step length, [None] when it fails. The result is [None] if after a failed line search
    x[k] does not exist (IndexError). *)
Fixpoint sd_loop (f : list R -> R) (grad : list R -> list R) (ls : list R -> list R -> option R) (fuel : nat)
         (hist : list (list R)) (x : list R) (fprev : option R) (stop : nat) : option (list (list R)) :=
  match fuel with
  | O => Some hist
  | S fuel' =>
      let df := grad x in
      if Rltb (vnorm df) SD_GRAD_TOL then Some hist
      else
        let d := sd_dir df in
        match ls x d with
        | Some a =>
            let y := vaxpy a d x in
            let stop' := if Rleb (Rabs (f y - f x)) (1 / 100000000 + 1 / 10000 * Rabs (f x)) then S stop else stop in
            if Nat.eqb stop' 2 then Some (y :: hist) else sd_loop f grad ls fuel' (y :: hist) y (Some (f x)) stop'
        | None =>
            match fprev with
            | None => None
            | Some fp =>
                let stop' := if Rleb (Rabs (f x - fp)) (1 / 100000000 + 1 / 10000 * Rabs fp) then S stop else stop in
                if Nat.eqb stop' 2 then Some hist else match fuel' with O => Some hist | _ => None end
            end
        end
  end.
(** solvers/steepest.py:53-107. *)
Definition sd_solve (f : list R -> R) (grad : list R -> list R) (ls : list R -> list R -> option R) (maxiter : nat) (x0 : list R) : option (list (list R)) :=
  sd_loop f grad ls maxiter [x0] x0 None 0.

(* ------------------------------------------------ augmented Lagrangian *)

(** Constraints (type, multiplier, function) and variables (lb, ub, multipliers). *)
Record alm := mkAlm { al_cons : list (ctype * R * (list R -> R)); al_vars : list (R * R * R * R) }.
(** structopt.py:995-1040 the augmented Lagrangian at x. *)
Definition aug_lag (f : list R -> R) (s : alm) (Rineq Req : R) (x : list R) : R :=
  f x + Rsum (map (fun c => let '(ty, m, g) := c in aug_term ty Rineq Req m (g x)) (al_cons s))
  + Rsum (map (fun vx => let '(lb, ub, lm, um) := fst vx in
      (if Rlt_dec XLB lb then aug_bound Rineq lm (- snd vx + lb) else 0) + (if Rlt_dec ub XUB then aug_bound Rineq um (snd vx - ub) else 0))
      (combine (al_vars s) x)).
(** structopt.py:1042-1076 as used at solvers/alm.py:158. *)
Definition alm_update (s : alm) (Rineq Req : R) (x : list R) : alm :=
  mkAlm (map (fun c => let '(ty, m, g) := c in (ty, upd_mult ty Rineq Req m (g x), g)) (al_cons s))
    (map (fun vx => let '(lb, ub, lm, um) := fst vx in
       let m := upd_bounds Rineq (mkMvar (snd vx) lb ub lm um) in (lb, ub, m_lbm m, m_ubm m)) (combine (al_vars s) x)).
(** solvers/alm.py:31-168: the iterates (last first) and the final multipliers; [argmin] is what
    scipy's minimisation returns for the augmented Lagrangian and a starting point. The list of
    values compared by the second criterion is [fs], which a used solver object already fills. *)
Fixpoint alm_loop (f : list R -> R) (argmin : (list R -> R) -> list R -> list R) (fuel k : nat) (Rineq Req : R)
         (s : alm) (hist : list (list R)) (fs : list R) (stop : nat) : alm * list (list R) * (R * R) :=
  match fuel with
  | O => (s, hist, (Rineq, Req))
  | S fuel' =>
      let x := hd [] hist in
      let y := argmin (aug_lag f s Rineq Req) x in
      let fs' := fs ++ [f y] in
      if stop_x x y then (s, y :: hist, (Rineq, Req))
      else
        let stop' := if stop_f (nth k fs' 0) (nth (S k) fs' 0) then S stop else stop in
        if Nat.eqb stop' 2 then (s, y :: hist, (Rineq, Req))
        else alm_loop f argmin fuel' (S k) (Rineq * (15/10)) (Req * (15/10)) (alm_update s Rineq Req y) (y :: hist) fs' stop'
  end.

(* ------------------------------------------------ variable groups *)

(** A variable made by a group: attribute, value, bounds or catalogue (variable_group.py:40-102). *)
Record gvar := mkGv { gv_attr : nat; gv_value : R; gv_lb : R; gv_ub : R; gv_values : list R }.
(** Python's zip of four lists (variable_group.py:59-62). *)
Fixpoint group_cont (attrs : list nat) (lbs ubs vals : list R) : list gvar :=
  match attrs, lbs, ubs, vals with
  | a :: attrs', l :: lbs', u :: ubs', v :: vals' => mkGv a v l u [] :: group_cont attrs' lbs' ubs' vals'
  | _, _, _, _ => []
  end.
(** variable_group.py:73-83: discrete variables; their bounds are the extremes of the catalogue
    (variables.py:360-362). [None]: min of an empty list raises. *)
Fixpoint group_disc (attrs : list nat) (vals : list R) (cats : list (list R)) : option (list gvar) :=
  match attrs, vals, cats with
  | a :: attrs', v :: vals', c :: cats' =>
      match list_min c, list_max c, group_disc attrs' vals' cats' with
      | Some l, Some u, Some r => Some (mkGv a v l u c :: r)
      | _, _, _ => None
      end
  | _, _, _ => Some []
  end.
(** variable_group.py:46-47: values when none are given. *)
Definition group_values (n : nat) (vals : option (list R)) : list R := match vals with Some v => v | None => repeat 0 n end.
