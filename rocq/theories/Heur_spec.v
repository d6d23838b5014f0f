(** Vocabulary of the statements about translations to external solvers and heuristics. *)
From Verif Require Export Solvers_spec Heur_model.

(** What a constraint with a type string demands of its value. *)
Definition demands (ty : cstr) (v : R) : Prop :=
  match ty with sLt | sLe => v <= 0 | sGt | sGe => 0 <= v | sEq => v = 0 | sOther => True end.
(** All constraints of a problem hold when the free variables have the values x. *)
Definition all_hold (vs : list tvar) (cs : list tcon) (x : list R) : Prop :=
  Forall (fun c => demands (t_type c) (t_val vs c x)) cs.
(** A point meets what scipy's SLSQP/COBYLA are given: 'eq' is zero, 'ineq' is non-negative. *)
Definition scipy_ok (sc : list scon) (x : list R) : Prop :=
  Forall (fun c : scon => if fst c then snd c x = 0 else 0 <= snd c x) sc.
(** A value between limits that may be missing. *)
Definition between (l u : option R) (v : R) : Prop :=
  (match l with Some a => a <= v | None => True end) /\ (match u with Some b => v <= b | None => True end).
(** A point meets what scipy's trust-region method is given. *)
Definition tr_ok (tc : list (option R * tfun * option R)) (x : list R) : Prop :=
  Forall (fun c => let '(l, f, u) := c in between l u (match f with TF g => g x | TA a => dot a x end)) tc.
(** A point meets the rows of a linear program. *)
Definition rows_ok (rows : list lrow) (x : list R) : Prop :=
  Forall (fun r => let '(a, ty, b) := r in match ty with CLt => dot a x <= b | CGt => b <= dot a x | CEq => dot a x = b end) rows.
(** A point is allowed by the variables of the mixed-integer program. *)
Definition milp_ok (l : list (bool * R * R)) (x : list R) : Prop :=
  Forall2 (fun v xi => let '(b, lo, hi) := v in (b = true -> xi = 0 \/ xi = 1) /\ lo <= xi <= hi) l x.
(** A point is allowed by the variables of the problem. *)
Definition var_ok (v : tvar) (xi : R) : Prop :=
  tv_lb v <= xi <= tv_ub v /\
  match tv_class v with
  | vCont => True
  | vInt => exists z, xi = IZR z
  | vBin => xi = 0 \/ xi = 1
  | vDisc values => In xi values
  end.

(** Choice of a catalogue value by binaries. *)
Definition picks (values : list R) (x : R) : Prop :=
  exists y, length y = length values /\ Forall (fun b => b = 0 \/ b = 1) y /\ Rsum y = 1 /\ dot y values = x.

(** The entry of a matrix. *)
Definition ent (m : list (list R)) (i j : nat) : R := nth j (nth i m []) 0.
(** A choice fits a matrix: one position inside every row. *)
Definition fits (m : list (list R)) (choice : list nat) : Prop := Forall2 (fun row j => (j < length row)%nat) m choice.
(** What an ant with deposit d adds to the entry (i, j). *)
Definition adds (i j : nat) (a : ant) (d : R) : R := if Nat.eqb (nth i (a_choice a) 0%nat) j then d else 0.
(** Ants in order of fitness. *)
Fixpoint ranked (l : list ant) : Prop :=
  match l with [] => True | a :: r => Forall (fun b => a_fit a <= a_fit b) r /\ ranked r end.

(** What the genetic algorithm has evaluated: designs and their fitness. *)
Definition ga_values (f : list R -> R) (g : list R -> list R) (bounds : list (R * R)) (inds : list (list R)) : list R :=
  map (ga_value f g bounds) inds.

(** Consecutive values (last first) never increase in time. *)
Fixpoint decreasing (f : list R -> R) (hist : list (list R)) : Prop :=
  match hist with
  | y :: ((x :: _) as r) => f y <= f x /\ decreasing f r
  | _ => True
  end.

(** The constraints with their multipliers left out. *)
Definition con_of (c : ctype * R * (list R -> R)) (x : list R) : ctype * R := let '(ty, _, g) := c in (ty, g x).
(** x satisfies all constraints of an augmented Lagrangian and the bounds that are not markers. *)
Definition al_feasible (s : alm) (x : list R) : Prop :=
  Forall (fun c => holds (con_of c x)) (al_cons s) /\
  Forall2 (fun v xi => let '(lb, ub, _, _) := v in bounds_hold (xi, lb, ub)) (al_vars s) x.
(** Multipliers of inequalities and bounds are not negative. *)
Definition mult_ok (s : alm) : Prop :=
  Forall (fun c => let '(ty, m, _) := c in ty <> CEq -> 0 <= m) (al_cons s) /\
  Forall (fun v => let '(_, _, lm, um) := v in 0 <= lm /\ 0 <= um) (al_vars s).
(** No variable has both a lower and an upper bound. *)
Definition one_sided (s : alm) : Prop := Forall (fun v => let '(lb, ub, _, _) := v in XUB <= ub) (al_vars s).
(** Strictly decreasing values, starting below b. *)
Fixpoint falling (b : R) (l : list R) : Prop := match l with [] => True | v :: r => v < b /\ falling v r end.
