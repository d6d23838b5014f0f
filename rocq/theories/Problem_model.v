(** Model of feasibility, penalty functions, multipliers, discrete variables,
    the potentially active set and the binary reformulation.
    Sources: metku/optimization/structopt.py, variables.py, opt_functions.py. *)
From Verif Require Export Base.

(** constraints.py:35-60: the constraint types '<', '>' and '='. *)
Inductive ctype := CLt | CGt | CEq.

(** structopt.py:193-226 feasible(x): the loop over the constraints with their
    values at x (con(x) is abstracted by its value). *)
Fixpoint feasible (tol : R) (gs : list (ctype * R)) : bool :=
  match gs with
  | [] => true
  | (ty, g) :: r =>
      match ty with
      | CLt => if Rlt_dec tol g then false else feasible tol r
      | CGt => if Rlt_dec g (- tol) then false else feasible tol r
      | CEq => if Rlt_dec tol (Rabs g) then false else feasible tol r
      end
  end.

(** optimization/constants.py XUB *)
Definition XUB : R := 100000000.
(** optimization/constants.py XLB *)
Definition XLB : R := - 100000000.

(** A free variable seen by the penalty functions: (x_i, lb, ub). *)
Definition bvar := (R * R * R)%type.

(** structopt.py:917-933, one constraint term of exterior_penalty_fun (p is a
    natural exponent). *)
Definition ext_con (Rw : R) (p : nat) (F : R) (c : ctype * R) : R :=
  let '(ty, val) := c in
  match ty with
  | CEq => F + val ^ p
  | CLt => F + Rw * (Rmax 0 val) ^ p
  | CGt => F + Rw * (Rmin 0 val) ^ 2
  end.

(** structopt.py:936-943, the bound terms of one variable. *)
Definition ext_var (Rw : R) (F : R) (v : bvar) : R :=
  let '(x, lb, ub) := v in
  let F1 := if Rlt_dec XLB lb then F + Rw * (Rmax 0 (- x + lb)) ^ 2 else F in
  if Rlt_dec ub XUB then F1 + Rw * (Rmax 0 (x - ub)) ^ 2 else F1.

(** structopt.py:908-945 exterior_penalty_fun(R, p). *)
Definition exterior_penalty (Rw : R) (p : nat) (obj : R) (gs : list (ctype * R)) (vs : list bvar) : R :=
  fold_left (ext_var Rw) vs (fold_left (ext_con Rw p) gs obj).

(** structopt.py:876-893, one constraint term of exact_penalty_fun. *)
Definition exact_con (Rw : R) (F : R) (c : ctype * R) : R :=
  let '(ty, val) := c in
  match ty with
  | CEq => F + Rabs val
  | CLt => F + Rw * Rmax 0 val
  | CGt => F + Rw * Rmin 0 val
  end.

(** structopt.py:896-903. *)
Definition exact_var (Rw : R) (F : R) (v : bvar) : R :=
  let '(x, lb, ub) := v in
  let F1 := if Rlt_dec XLB lb then F + Rw * Rmax 0 (- x + lb) else F in
  if Rlt_dec ub XUB then F1 + Rw * Rmax 0 (x - ub) else F1.

(** structopt.py:866-905 exact_penalty_fun(R); the objective is not included. *)
Definition exact_penalty (Rw : R) (gs : list (ctype * R)) (vs : list bvar) : R :=
  fold_left (exact_var Rw) vs (fold_left (exact_con Rw) gs 0).

(** structopt.py:957-977 barrier_fun with barrier_type 'inverse'. *)
Definition inv_con (Rw : R) (F : R) (c : ctype * R) : R :=
  let '(ty, val) := c in
  match ty with
  | CEq => F
  | CLt => F - 1 / Rw / val
  | CGt => F + 1 / Rw / val
  end.

(** structopt.py:979-986. *)
Definition inv_var (Rw : R) (F : R) (v : bvar) : R :=
  let '(x, lb, ub) := v in
  let F1 := if Rlt_dec XLB lb then F - 1 / Rw / (- x + lb) else F in
  if Rlt_dec ub XUB then F1 - 1 / Rw / (x - ub) else F1.

(** structopt.py:947-993 barrier_fun(R, 'inverse'). *)
Definition inverse_barrier (Rw obj : R) (gs : list (ctype * R)) (vs : list bvar) : R :=
  fold_left (inv_var Rw) vs (fold_left (inv_con Rw) gs obj).

(** structopt.py:1013-1028, the term of one constraint in the augmented
    Lagrangian, as a function of its multiplier and value. *)
Definition aug_term (ty : ctype) (Rineq Req mult val : R) : R :=
  match ty with
  | CEq => - mult * val + Req * val ^ 2
  | CLt => Rineq * (Rmax (5/10 * mult / Rineq + val) 0) ^ 2
  | CGt => Rineq * (Rmax (5/10 * mult / Rineq - val) 0) ^ 2
  end.

(** structopt.py:1048-1067, multiplier update of one constraint. *)
Definition upd_mult (ty : ctype) (Rineq Req mult val : R) : R :=
  match ty with
  | CEq => mult - 2 * Req * val
  | CLt => Rmax (mult + 2 * Rineq * val) 0
  | CGt => Rmax (mult - 2 * Rineq * val) 0
  end.

(** structopt.py:1030-1037, bound term of the augmented Lagrangian. *)
Definition aug_bound (Rineq bmult val : R) : R := Rineq * (Rmax (5/10 * bmult / Rineq + val) 0) ^ 2.

(** The bound data of a variable: value, bounds, multipliers (variables.py:100-104). *)
Record mvar := mkMvar { m_x : R; m_lb : R; m_ub : R; m_lbm : R; m_ubm : R }.

(** structopt.py:1069-1076, bound multipliers of one variable; note that the
    upper one is computed from [lb_mult], after that has been updated. *)
Definition upd_bounds (Rineq : R) (v : mvar) : mvar :=
  let lbm := if Rlt_dec XLB (m_lb v) then Rmax (m_lbm v + 2 * Rineq * (- m_x v + m_lb v)) 0 else m_lbm v in
  let ubm := if Rlt_dec (m_ub v) XUB then Rmax (lbm + 2 * Rineq * (m_x v - m_ub v)) 0 else m_ubm v in
  mkMvar (m_x v) (m_lb v) (m_ub v) lbm ubm.

(** structopt.py:1042-1076 update_lag_mult: constraints (type, multiplier,
    value at x) and variables. *)
Definition update_lag_mult (Rineq Req : R) (cs : list (ctype * R * R)) (vs : list mvar)
  : list R * list mvar :=
  (map (fun c => let '(ty, mult, val) := c in upd_mult ty Rineq Req mult val) cs,
   map (upd_bounds Rineq) vs).

(** opt_functions.py:306-322 potentially_active_constraints; ACT_EPS = 0.25.
    A constraint is represented by its position. *)
Fixpoint pot_active_from (i : nat) (gs : list (ctype * R)) : list nat :=
  match gs with
  | [] => []
  | (ty, g) :: r =>
      match ty with
      | CEq => i :: pot_active_from (S i) r
      | CLt => if Rlt_dec (- (25/100)) g then i :: pot_active_from (S i) r else pot_active_from (S i) r
      | CGt => if Rlt_dec g (25/100) then i :: pot_active_from (S i) r else pot_active_from (S i) r
      end
  end.
(** opt_functions.py:306-322. *)
Definition potentially_active (gs : list (ctype * R)) : list nat := pot_active_from 0 gs.

(** optimization/constants.py INT_TOL *)
Definition INT_TOL : R := 1 / 10000.
(** optimization/constants.py DISC_TOL *)
Definition DISC_TOL : R := 1 / 1000.

(** math.isclose(a, b, abs_tol=t) with the default rel_tol = 1e-9. *)
Definition isclose (a b t : R) : bool :=
  Rleb (Rabs (a - b)) (Rmax (1 / 1000000000 * Rmax (Rabs a) (Rabs b)) t).

(** variables.py:233-246 IntegerVariable.is_allowed_value. *)
Definition int_allowed (lb ub x : R) : bool :=
  if Rle_dec lb x then if Rle_dec x ub then isclose x (IZR (roundZ x)) INT_TOL else false else false.

(** variables.py:248-256 IntegerVariable.discrete_violation. *)
Definition int_violation (x : R) : R :=
  let v := Rabs (x - IZR (roundZ x)) in
  if Rle_dec v INT_TOL then 0 else v.

(** variables.py:374-394 DiscreteVariable.is_allowed_value; bounds are min and
    max of the catalogue (l.363-364). [None]: exception on an empty catalogue. *)
Definition disc_allowed (values : list R) (x : R) : option bool :=
  match list_min values, list_max values, list_min (map (fun v => Rabs (v - x)) values) with
  | Some lb, Some ub, Some d =>
      Some (if Rle_dec lb x then if Rle_dec x ub then Rltb d INT_TOL else false else false)
  | _, _, _ => None
  end.

(** variables.py:396-406 DiscreteVariable.discrete_violation. *)
Definition disc_violation (values : list R) (x : R) : option R :=
  match list_min (map (fun v => Rabs (v - x)) values) with
  | Some d => Some (if Rle_dec d DISC_TOL then 0 else d)
  | None => None
  end.

(** variables.py:408-411 smaller_discrete_value. *)
Definition smaller_value (values : list R) (x : R) : option R :=
  list_max (filter (fun v => Rltb (v - x) 0) values).

(** variables.py:415-418 larger_discrete_value. *)
Definition larger_value (values : list R) (x : R) : option R :=
  list_min (filter (fun v => Rltb 0 (v - x)) values).

(** ---- index2binary (opt_functions.py:207-304) ---- *)

(** Variables as Python object identities: an original variable, property
    variable k of group g, binary variable j of group g. *)
Inductive tag := TOther (i : nat) | TProp (g k : nat) | TBin (g j : nat).

(** Identity comparison used by list.index / list.remove. *)
Definition tag_eqb (a b : tag) : bool :=
  match a, b with
  | TOther i, TOther j => Nat.eqb i j
  | TProp g k, TProp g' k' => Nat.eqb g g' && Nat.eqb k k'
  | TBin g j, TBin g' j' => Nat.eqb g g' && Nat.eqb j j'
  | _, _ => false
  end.

(** One original variable: [None] is kept as it is; [Some profs] is an index
    variable whose catalogue is [profs], each profile given by its list of
    properties in the order of disc_vars. *)
Definition ivar := option (list (list R)).

(** opt_functions.py:281 Pnew.del_var(var). *)
Definition del_var (t : tag) (l : list tag) : list tag := filter (fun u => negb (tag_eqb t u)) l.

(** opt_functions.py:219-284: the loop over the snapshot of P.vars.  Only the
    order of the variables matters here (values and targets are omitted);
    [K] is len(disc_vars). *)
Fixpoint convert (K : nat) (i : nat) (vars : list ivar) (cur : list tag) : list tag :=
  match vars with
  | [] => cur
  | None :: r => convert K (S i) r cur
  | Some profs :: r =>
      convert K (S i) r
        (del_var (TOther i)
           (cur ++ map (TProp i) (seq 0 K) ++ map (TBin i) (seq 0 (length profs))))
  end.

(** The final variable list; initially the original variables in order. *)
Definition final_vars (K : nat) (vars : list ivar) : list tag :=
  convert K 0 vars (map TOther (seq 0 (length vars))).

(** list.index *)
Fixpoint index_of (t : tag) (l : list tag) : option nat :=
  match l with
  | [] => None
  | u :: r => if tag_eqb t u then Some 0%nat
              else match index_of t r with Some n => Some (S n) | None => None end
  end.

(** a[Pnew.vars.index(v)] = c ; [None] would be the ValueError of index. *)
Definition assign (l : list tag) (a : list R) (tc : tag * R) : list R :=
  match index_of (fst tc) l with Some n => set_nth n (snd tc) a | None => a end.

(** opt_functions.py:291-297: coefficients of one property constraint. *)
Definition prop_row (l : list tag) (g k : nat) (profs : list (list R)) : list R :=
  fold_left (assign l)
    ((TProp g k, 1) ::
     map (fun j => (TBin g j, - roundn 3 (nth k (nth j profs []) 0))) (seq 0 (length profs)))
    (repeat 0 (length l)).

(** opt_functions.py:300-303: coefficients of the uniqueness constraint. *)
Definition sum_row (l : list tag) (g : nat) (profs : list (list R)) : list R :=
  fold_left (assign l) (map (fun j => (TBin g j, 1)) (seq 0 (length profs))) (repeat 0 (length l)).

(** opt_functions.py:286-304: all generated constraints (row, rhs), type '='. *)
Fixpoint gen_cons (K : nat) (l : list tag) (g : nat) (vars : list ivar) : list (list R * R) :=
  match vars with
  | [] => []
  | None :: r => gen_cons K l (S g) r
  | Some profs :: r =>
      map (fun k => (prop_row l g k profs, 0)) (seq 0 K) ++
      (sum_row l g profs, 1) :: gen_cons K l (S g) r
  end.
