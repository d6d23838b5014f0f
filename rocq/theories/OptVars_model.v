(** Model of optimisation variables, problems, constraints and objectives.
    Sources: metku/optimization/variables.py, structopt.py, constraints.py,
    objective.py, constants.py. *)
From Verif Require Export Base.

(** variables.py:16, 213, 277, 296, 343 -- the variable classes.  [KIndex n]
    has [n = len(values)]; [KDiscrete] carries its catalogue. *)
Inductive kind :=
| KCont
| KInteger
| KIndex (nvalues : nat)
| KDiscrete (values : list R).

(** variables.py:159-202 -- what a variable writes into the structure:
    nothing (target None), one named property (l.202), a list of properties
    without target_fun (l.181), or a list of properties with a target_fun that
    has no entry for the property (l.176-179).  Functional targets
    (target_fun[p]) and the special targets of BinaryVariable (l.185-200) are
    not modelled. *)
Inductive target := TNone | TSingle | TList | TListFun.

(** variables.py:74-107 -- the fields of a variable used below.  [v_written]
    is the number last written into the target property (observable in the
    structure), [None] if nothing was written yet.  Names, profiles and branch
    priority are omitted. *)
Record var := mkVar {
  v_kind : kind;
  v_lb : R;
  v_ub : R;
  v_value : option R;
  v_locked : bool;
  v_scaling : R;
  v_target : target;
  v_written : option R }.

(** isinstance(var, IndexVariable), variables.py:296. *)
Definition is_index (v : var) : bool :=
  match v_kind v with KIndex _ => true | _ => false end.

(** The number written to the target by variables.py:159-202 (first component
    of the target only: all objects get the same value). *)
Definition written_by (v : var) (x : R) : option R :=
  match v_target v with
  | TNone => v_written v
  | TSingle => Some (x * v_scaling v)
  | TList => Some x
  | TListFun => Some (x * v_scaling v)
  end.

(** variables.py:149-202 Variable.substitute (also inherited by
    IntegerVariable and DiscreteVariable). *)
Definition base_substitute (v : var) (x : R) : var :=
  if v_locked v then v
  else mkVar (v_kind v) (v_lb v) (v_ub v) (Some x) (v_locked v)
             (v_scaling v) (v_target v) (written_by v x).

(** Python list indexing [values[i]] succeeds for -n <= i < n. *)
Definition py_index_ok (n : nat) (i : Z) : bool :=
  ((- Z.of_nat n <=? i) && (i <? Z.of_nat n))%Z.

(** The position selected by a (possibly negative) Python index. *)
Definition py_index_pos (n : nat) (i : Z) : Z :=
  (if i <? 0 then i + Z.of_nat n else i)%Z.

(** variables.py:320-334 IndexVariable.substitute.  [None] models the raised
    ValueError.  The catalogue entry at position k is represented by the number
    k, so the structure receives the position of the selected entry; line 334
    then stores the index, whether or not the variable is locked. *)
Definition index_substitute (n : nat) (v : var) (x : R) : option var :=
  let i := truncZ x in
  if py_index_ok n i then
    let wr := if v_locked v then v_written v
              else match v_target v with
                   | TNone => v_written v
                   | _ => Some (IZR (py_index_pos n i))
                   end in
    Some (mkVar (v_kind v) (v_lb v) (v_ub v) (Some (IZR i)) (v_locked v)
                (v_scaling v) (v_target v) wr)
  else None.

(** Dynamic dispatch of var.substitute(x). *)
Definition substitute (v : var) (x : R) : option var :=
  match v_kind v with
  | KIndex n => index_substitute n v x
  | _ => Some (base_substitute v x)
  end.

(** Assignment to self.locked, variables.py:130, 136. *)
Definition set_locked (v : var) (b : bool) : var :=
  mkVar (v_kind v) (v_lb v) (v_ub v) (v_value v) b (v_scaling v) (v_target v) (v_written v).

(** variables.py:119-130 Variable.lock(val=None). *)
Definition lock (v : var) (val : option R) : option var :=
  match val with
  | None => Some (set_locked v true)
  | Some x => match substitute v x with
              | None => None
              | Some v' => Some (set_locked v' true)
              end
  end.

(** variables.py:132-136 Variable.unlock. *)
Definition unlock (v : var) : var := set_locked v false.

(** variables.py:138-147 Variable.scale. *)
Definition scale (v : var) (s : R) : var :=
  mkVar (v_kind v) (v_lb v / s) (v_ub v / s) (v_value v) (v_locked v) s (v_target v) (v_written v).

(** structopt.py:165-171 OptimizationProblem.vars -- the unlocked variables. *)
Definition free_vars (vs : list var) : list var := filter (fun v => negb (v_locked v)) vs.
(** structopt.py:147-153 locked_vars. *)
Definition locked_vars (vs : list var) : list var := filter v_locked vs.

(** structopt.py:182-190 fixed_vals. *)
Definition fixed_vals (vs : list var) : list (option R) :=
  map (fun v => if v_locked v then v_value v else None) vs.

(** structopt.py:724-741 substitute_variables, effect on the variables.  The
    two zips of the code (clamping, then substituting) over [self.vars] are
    fused into one pass over all variables in declaration order that skips
    locked ones; [zip] stops at the shorter list.  An exception in a
    substitution aborts ([None]). *)
Fixpoint subst_vars (xs : list R) (vs : list var) : option (list var) :=
  match vs with
  | [] => Some []
  | v :: vs' =>
      if v_locked v then
        match subst_vars xs vs' with None => None | Some r => Some (v :: r) end
      else
        match xs with
        | [] => Some (v :: vs')
        | x :: xs' =>
            match substitute v (clamp (v_lb v) (v_ub v) x) with
            | None => None
            | Some v' =>
                match subst_vars xs' vs' with None => None | Some r => Some (v' :: r) end
            end
        end
  end.

(** structopt.py:728 -- the clamped vector (zip with the free variables). *)
Fixpoint clamped (xs : list R) (fvs : list var) : list R :=
  match xs, fvs with
  | x :: xs', v :: vs' => clamp (v_lb v) (v_ub v) x :: clamped xs' vs'
  | _, _ => []
  end.

(** Python list.pop() -- removes and returns the last element; [None] is the
    IndexError on an empty list. *)
Definition pop (l : list R) : option (R * list R) :=
  match rev l with
  | [] => None
  | x :: r => Some (x, rev r)
  end.

(** Python's [not l] for a list (constraints.py:205 / objective.py:62 [if not X]). *)
Definition py_empty {A} (l : list A) : bool := match l with [] => true | _ => false end.

(** constraints.py:201-206 and objective.py:53-66 -- filling the positions of
    the free variables; [X] is the reversed design vector. *)
Fixpoint refill_loop (fv : list (option R)) (X : list R) : option (list (option R)) :=
  match fv with
  | [] => Some []
  | val :: rest =>
      match (match val with
             | None => match pop X with None => None | Some (x, X') => Some (Some x, X') end
             | Some w => Some (Some w, X)
             end) with
      | None => None
      | Some (val', X') =>
          if py_empty X' then Some (val' :: rest)
          else match refill_loop rest X' with
               | None => None
               | Some r => Some (val' :: r)
               end
      end
  end.

(** constraints.py:192-206 / objective.py:45-66: the vector handed to the user
    function. *)
Definition refill (vs : list var) (x : list R) : option (list (option R)) :=
  refill_loop (fixed_vals vs) (rev x).

(** [None] entries that survive make the next numeric use fail. *)
Fixpoint all_some (l : list (option R)) : option (list R) :=
  match l with
  | [] => Some []
  | None :: _ => None
  | Some x :: r => match all_some r with None => None | Some t => Some (x :: t) end
  end.

(** objective.py:32-76 ObjectiveFunction.__call__ (without FEA): returns the
    vector given to the user function and the variables after the call. *)
Definition objective_call (vs : list var) (x : list R) : option (list R * list var) :=
  match refill vs x with
  | None => None
  | Some fv =>
      match all_some fv with
      | None => None
      | Some full =>
          match subst_vars full vs with
          | None => None
          | Some vs' => Some (full, vs')
          end
      end
  end.

(** objective.py:70-73 sign of the returned value. *)
Inductive obj_type := OMin | OMax.
(** objective.py:70-73. *)
Definition objective_value (ty : obj_type) (f : list R -> R) (full : list R) : R :=
  match ty with OMin => f full | OMax => - f full end.

(** optimization/constants.py *)
Definition X_TOL : R := 1 / 100000000.

(** numpy.linalg.norm(X - x) for vectors of equal length. *)
Fixpoint sumsq_diff (a b : list R) : R :=
  match a, b with
  | u :: a', v :: b' => (u - v) * (u - v) + sumsq_diff a' b'
  | _, _ => 0
  end.
(** numpy.linalg.norm(X - x), constraints.py:81. *)
Definition norm_diff (a b : list R) : R := sqrt (sumsq_diff a b).

(** constraints.py:67-83 Constraint.__call__: substitute only if the stored
    values differ from x by more than X_TOL.  Unset values or different lengths
    raise ([None]; numpy broadcasting of length-one arrays is not modelled). *)
Definition con_sync (vs : list var) (x : list R) : option (list var) :=
  match all_some (map v_value (free_vars vs)) with
  | None => None
  | Some X =>
      if Nat.eqb (length X) (length x) then
        if Rlt_dec X_TOL (norm_diff X x) then subst_vars x vs else Some vs
      else None
  end.

(** constraints.py:179-208 NonLinearConstraint.__call__: the vector given to
    the user function, and the variables afterwards. *)
Definition nonlin_call (vs : list var) (x : list R) : option (list (option R) * list var) :=
  match con_sync vs x with
  | None => None
  | Some vs' =>
      match refill vs' x with
      | None => None
      | Some fv => Some (fv, vs')
      end
  end.

(** constraints.py:138-142 -- values of all variables; IndexVariable has no
    attribute [idx] (variables.py:336-340 is commented out), so an
    AttributeError is raised ([None]). *)
Definition lin_values (vs : list var) : option (list R) :=
  if existsb is_index vs then None else all_some (map v_value vs).

(** constraints.py:125-149 LinearConstraint.__call__ with numeric right-hand
    side. numpy's dot needs equal lengths. *)
Definition lin_call (a : list R) (b : R) (vs : list var) (x : list R)
  : option (R * list var) :=
  match con_sync vs x with
  | None => None
  | Some vs' =>
      match lin_values vs' with
      | None => None
      | Some X => if Nat.eqb (length a) (length X) then Some (dot a X - b, vs') else None
      end
  end.

(** ---- operation histories on the variables of a problem ---- *)
(** structopt.py:724 (substitute_variables), variables.py:149/320, 119, 132,
    objective.py:32, constraints.py:62. *)
Inductive vop :=
| OSubst (xs : list R)            (* problem.substitute_variables(xs) *)
| OVarSubst (i : nat) (x : R)     (* all_vars[i].substitute(x) *)
| OLock (i : nat) (val : option R)
| OUnlock (i : nat)
| OObj (xs : list R)              (* problem.obj(xs) *)
| OCon (xs : list R).             (* some constraint evaluated at xs *)

(** Applying a call to the i-th variable of structopt.py all_vars. *)
Fixpoint update_at (i : nat) (f : var -> option var) (vs : list var) : option (list var) :=
  match vs, i with
  | [], _ => Some []
  | v :: vs', O => match f v with None => None | Some v' => Some (v' :: vs') end
  | v :: vs', S i' => match update_at i' f vs' with None => None | Some r => Some (v :: r) end
  end.

(** One API call of the history; each case is the function cited at [vop]. *)
Definition vstep (vs : list var) (o : vop) : option (list var) :=
  match o with
  | OSubst xs => subst_vars xs vs
  | OVarSubst i x => update_at i (fun v => substitute v x) vs
  | OLock i val => update_at i (fun v => lock v val) vs
  | OUnlock i => update_at i (fun v => Some (unlock v)) vs
  | OObj xs => match objective_call vs xs with None => None | Some (_, vs') => Some vs' end
  | OCon xs => con_sync vs xs
  end.

(** A finite sequence of such calls, stopped by the first exception. *)
Fixpoint vrun (ops : list vop) (vs : list var) : option (list var) :=
  match ops with
  | [] => Some vs
  | o :: ops' => match vstep vs o with None => None | Some vs' => vrun ops' vs' end
  end.

(** ---- the analysis cache ---- *)

(** structopt.py:101 fea_done: load id -> flag.  The second component is a
    ghost: the variable values in force when the structure was last analysed
    for that load id. *)
Definition snapshot := list (option R).
(** structopt.py:60-110: variables, X, x0 and fea_done of a problem. *)
Record prob := mkProb {
  p_vars : list var;
  p_X : option (list R);
  p_x0 : option (list R);
  p_done : list (nat * (bool * snapshot)) }.

(** The values in force (ghost, see [snapshot]). *)
Definition snap (vs : list var) : snapshot := map v_value vs.

(** numpy.any(self.X): false for None, for the empty and for the zero vector. *)
Definition np_any (X : option (list R)) : bool :=
  match X with None => false | Some l => existsb (fun x => negb (Reqb x 0)) l end.

(** structopt.py:724-741 substitute_variables including X, x0 and fea_done. *)
Definition prob_substitute (p : prob) (xs : list R) : option prob :=
  let xv := clamped xs (free_vars (p_vars p)) in
  match subst_vars xs (p_vars p) with
  | None => None
  | Some vs' =>
      Some (mkProb vs' (Some xv)
                   (if np_any (p_X p) then p_x0 p else Some xv)
                   (map (fun e => (fst e, (false, snd (snd e)))) (p_done p)))
  end.

(** self.problem.fea_done[load_id], constraints.py:91-93. *)
Fixpoint lookup_done (d : list (nat * (bool * snapshot))) (l : nat) : option (bool * snapshot) :=
  match d with
  | [] => None
  | (k, v) :: d' => if Nat.eqb k l then Some v else lookup_done d' l
  end.

(** self.fea_done[load_id] = True, structopt.py:558. *)
Fixpoint set_done (d : list (nat * (bool * snapshot))) (l : nat) (v : bool * snapshot)
  : list (nat * (bool * snapshot)) :=
  match d with
  | [] => [(l, v)]
  | (k, w) :: d' => if Nat.eqb k l then (k, v) :: d' else (k, w) :: set_done d' l v
  end.

(** structopt.py:550-559 fea(load_id): analyse the current structure. *)
Definition fea (p : prob) (l : nat) : prob :=
  mkProb (p_vars p) (p_X p) (p_x0 p) (set_done (p_done p) l (true, snap (p_vars p))).

(** constraints.py:89-94: analyse the load ids that are not marked done. *)
Definition ensure_fea (p : prob) (l : nat) : prob :=
  match lookup_done (p_done p) l with
  | None => fea p l
  | Some (false, _) => fea p l
  | Some (true, _) => p
  end.

(** constraints.py:62-94 Constraint.__call__ with fea_required. *)
Definition con_call (p : prob) (x : list R) (lids : list nat) : option prob :=
  match all_some (map v_value (free_vars (p_vars p))) with
  | None => None
  | Some X =>
      if Nat.eqb (length X) (length x) then
        match (if Rlt_dec X_TOL (norm_diff X x) then prob_substitute p x else Some p) with
        | None => None
        | Some p' => Some (fold_left ensure_fea lids p')
        end
      else None
  end.

(** objective.py:32-68 ObjectiveFunction.__call__ including its FEA guard
    [not self.problem.fea_done], which is an emptiness test of the dict; the
    analysis (load id ALL, numbered 0 here) precedes the substitution. *)
Definition obj_call (fea_required : bool) (p : prob) (x : list R) : option prob :=
  let p1 := if fea_required && py_empty (p_done p) then fea p 0 else p in
  match refill (p_vars p1) x with
  | None => None
  | Some fv => match all_some fv with
               | None => None
               | Some full => prob_substitute p1 full
               end
  end.

(** structopt.py:384-412: the variables changed behind the problem's back. *)
Definition set_vars (p : prob) (vs : list var) : prob :=
  mkProb vs (p_X p) (p_x0 p) (p_done p).

(** structopt.py:384-412, one free variable [k] of linearize: the variable is
    substituted directly, the objective is evaluated if no gradient is given,
    then a constraint is evaluated at the perturbed values [xh]. *)
Definition linearize_probe (grad_given : bool) (p : prob) (i : nat) (xi : R) (lids : list nat)
  : option prob :=
  match update_at i (fun v => substitute v xi) (p_vars p) with
  | None => None
  | Some vs1 =>
      let p1 := set_vars p vs1 in
      match all_some (map v_value (free_vars vs1)) with
      | None => None
      | Some xh =>
          match (if grad_given then Some p1 else obj_call false p1 xh) with
          | None => None
          | Some p2 => con_call p2 xh lids
          end
      end
  end.

(** API histories that go through the problem (no direct var.substitute). *)
Inductive pop_op :=
| PSubst (xs : list R)
| PCon (xs : list R) (lids : list nat)
| PObj (fea_required : bool) (xs : list R).

(** One such call (functions cited at [prob_substitute], [con_call], [obj_call]). *)
Definition pstep (p : prob) (o : pop_op) : option prob :=
  match o with
  | PSubst xs => prob_substitute p xs
  | PCon xs lids => con_call p xs lids
  | PObj b xs => obj_call b p xs
  end.

(** A finite sequence of such calls. *)
Fixpoint prun (ops : list pop_op) (p : prob) : option prob :=
  match ops with
  | [] => Some p
  | o :: ops' => match pstep p o with None => None | Some p' => prun ops' p' end
  end.
