(** Model of the constraints of resistance and stiffness in the optimisation of end plate joints and of the options
    that select them (metku/optimization/problems/end_plate.py:32-84, 178-352). The responses of the joint are inputs;
    geometry constraints are in Epo_model. *)
From Verif Require Export EC3_model Base.
Require Import List Bool. Import ListNotations.
Local Open Scope R_scope.

(** The options (end_plate.py:63-71, 87-99). *)
Inductive eopt := Ogeometry | Obending | Oshear | Otarget | Origid | Opinned | Oinitial.
(** Comparison of keys (end_plate.py:76). *)
Definition eopt_eqb (a b : eopt) : bool :=
  match a, b with
  | Ogeometry, Ogeometry | Obending, Obending | Oshear, Oshear | Otarget, Otarget
  | Origid, Origid | Opinned, Opinned | Oinitial, Oinitial => true
  | _, _ => false end.
(** A dictionary of options in insertion order (end_plate.py:35, 63-71). *)
Definition opts := list (eopt * bool).
(** Assignment to a key (end_plate.py:76). *)
Fixpoint oset (k : eopt) (b : bool) (d : opts) : opts :=
  match d with [] => [(k, b)] | (k', b') :: d => if eopt_eqb k k' then (k', b) :: d else (k', b') :: oset k b d end.
(** Keyword argument of create_constraints, false by default (end_plate.py:261-269). *)
Fixpoint oget (k : eopt) (d : opts) : bool :=
  match d with [] => false | (k', b) :: d => if eopt_eqb k k' then b else oget k d end.
(** end_plate.py:62-71: the options for [constraints=None]. *)
Definition all_opts : opts :=
  [(Ogeometry, true); (Obending, true); (Oshear, true); (Otarget, true); (Origid, false); (Opinned, false); (Oinitial, false)].

(** Responses of the joint in N and mm for a design, and design actions in kNm and kN (end_plate.py:188, 203, 231,
    269): resistances MjRd and VjRd, initial and secant stiffness. *)
Record resp := mkResp { rM : R; rV : R; rSini : R; rS : R }.
(** Type of a constraint (constraints.py:30). *)
Inductive ckind := Kle | Kge.
(** A constraint: its type and its function of the responses; [None]: ZeroDivisionError (end_plate.py:318-352). *)
Definition econ := (ckind * (resp -> option R))%type.

(** end_plate.py:178-191 moment_resistance_constraints. *)
Definition m_con (MEd : R) : econ := (Kle, fun r => bind (pdiv MEd (rM r * / 1000000)) (fun q => Some (q - 1))).
(** end_plate.py:193-206 shear_resistance_constraints. *)
Definition v_con (VEd : R) : econ := (Kle, fun r => Some (VEd - rV r * / 1000)).
(** end_plate.py:224-243: the stiffness that is compared. *)
Definition s_val (initial : bool) (r : resp) : R := if initial then rSini r else rS r.
(** end_plate.py:208-248, 334-346 stiffness_constraint; [dev] in percent. *)
Definition s_cons (initial : bool) (dev St : R) : list econ :=
  [(Kle, fun r => Some (/ 100 * (s_val initial r * / 1000000 - (1 + dev * / 100) * St)));
   (Kge, fun r => Some (/ 100 * (s_val initial r * / 1000000 - (1 - dev * / 100) * St)))].
(** end_plate.py:250-270 rigid_joint_constraint. *)
Definition r_con (Srigid : R) : econ := (Kge, fun r => Some (1 * (rSini r * / 1000000 - Srigid))).
(** end_plate.py:272-358 create_constraints without the geometry constraints. Simplified: the target is read when the
    constraint is made, the code reads it when it is evaluated. *)
Definition create_constraints (d : opts) (MEd VEd : R) (target : option R) (dev Srigid : R) : list econ :=
  (if oget Obending d then [m_con MEd] else []) ++
  (if oget Oshear d then [v_con VEd] else []) ++
  (if oget Otarget d then match target with Some St => s_cons (oget Oinitial d) dev St | None => [] end else []) ++
  (if oget Origid d then [r_con Srigid] else []).
(** end_plate.py:61-79 of the constructor: the options in force, which are the dictionary of the caller afterwards. *)
Definition options (given : option opts) (target : option R) : opts :=
  let d := match given with Some d => d | None => all_opts end in
  match target with None => oset Otarget false d | Some _ => d end.
(** end_plate.py:32-79: the constraints of a new problem (Srigid is 0 until the caller sets it, line 54) and the
    dictionary given, after the call. *)
Definition new_problem (given : option opts) (MEd VEd : R) (target : option R) (dev Srigid : R) : list econ * option opts :=
  let d := options given target in
  (create_constraints d MEd VEd target dev Srigid, match given with Some _ => Some d | None => None end).
(** constraints.py:30: a design with the given responses meets a constraint. *)
Definition meets (r : resp) (c : econ) : Prop :=
  match snd c r with Some v => match fst c with Kle => v <= 0 | Kge => 0 <= v end | None => False end.
(** A design meets all constraints (structopt.py:790-797). *)
Definition accepted (cs : list econ) (r : resp) : Prop := Forall (meets r) cs.
