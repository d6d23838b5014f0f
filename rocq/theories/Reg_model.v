(** Model of the registration of variables and constraints in a problem
    (metku/optimization/structopt.py:83-93, 118-180, 231-261, 656-674; constraints.py:45, 67-83, 125-149). *)
Require Import List Bool PeanoNat.
Import ListNotations.

(** Kinds of variables (variables.py:16, 213, 259, 277, 296, 343, 418). *)
Inductive kind := KVar | KInt | KBool | KBin | KIdx | KDisc | KSect.
(** A problem: the list __vars (structopt.py:85-89) and the list cons (structopt.py:90-93) of objects, which are
    compared by identity (no __eq__ in variables.py or constraints.py); the attribute locked of each variable
    (variables.py:74-136) and whether the attribute problem of each constraint is this problem (constraints.py:45). *)
Record prob := mkPr { p_vars : list nat; p_cons : list nat; p_locked : nat -> bool; p_own : nat -> bool }.
(** Membership, "in" (structopt.py:127, 132). *)
Definition mem (x : nat) (l : list nat) : bool := existsb (Nat.eqb x) l.
(** structopt.py:126-128 add of a variable. *)
Definition add_var (v : nat) (p : prob) : prob :=
  if mem v (p_vars p) then p else mkPr (p_vars p ++ [v]) (p_cons p) (p_locked p) (p_own p).
(** structopt.py:131-136 add of a constraint. *)
Definition add_con (c : nat) (p : prob) : prob :=
  if mem c (p_cons p) then p
  else mkPr (p_vars p) (p_cons p ++ [c]) (p_locked p) (fun k => if Nat.eqb k c then true else p_own p k).
(** structopt.py:174-180 vars: the contents of the list returned. *)
Definition free_vars (p : prob) : list nat := filter (fun v => negb (p_locked p v)) (p_vars p).
(** A list object: the list __vars of the problem (structopt.py:85), or another list with the given contents. *)
Inductive lref := RStored | ROwn (l : list nat).
(** structopt.py:174-180 vars: a list comprehension makes a new list. *)
Definition get_vars (p : prob) : lref := ROwn (free_vars p).
(** structopt.py:156-162 all_vars: the list __vars itself. *)
Definition get_all (p : prob) : lref := RStored.
(** Contents of a list object while the problem is [p] (structopt.py:188 "for val in vals"). *)
Definition contents (r : lref) (p : prob) : list nat := match r with RStored => p_vars p | ROwn l => l end.
(** list.append on a list object (structopt.py:658, 663). *)
Definition append (r : lref) (v : nat) (p : prob) : prob :=
  match r with RStored => mkPr (p_vars p ++ [v]) (p_cons p) (p_locked p) (p_own p) | ROwn _ => p end.
(** structopt.py:147-154 locked_vars. *)
Definition locked_vars (p : prob) : list nat := filter (p_locked p) (p_vars p).
(** structopt.py:250-254 clear_vars. *)
Definition clear_vars (p : prob) : prob := mkPr [] (p_cons p) (p_locked p) (p_own p).
(** What the setter of vars is given: a list of its own, the list returned by vars, or the list returned by all_vars,
    which is the list of the problem itself (structopt.py:156-180). *)
Inductive source := SList (l : list nat) | SFree | SAll.
(** structopt.py:182-189 the setter of vars: the list of the problem is cleared before the values are read. *)
Definition set_vars (s : source) (p : prob) : prob :=
  let r := match s with SList l => ROwn l | SFree => get_vars p | SAll => get_all p end in
  let q := clear_vars p in fold_left (fun q v => add_var v q) (contents r q) q.
(** list.remove (structopt.py:261); [None]: ValueError. *)
Fixpoint remove_first (v : nat) (l : list nat) : option (list nat) :=
  match l with
  | [] => None
  | x :: r => if Nat.eqb x v then Some r else match remove_first v r with Some r' => Some (x :: r') | None => None end
  end.
(** Operations on a problem. *)
Inductive op :=
| OAddVar (v : nat) | OAddCon (c : nat) | OAddOther | OSet (s : source) | OClear | ODel (v : nat) | OLock (v : nat) (b : bool)
| OAddVariable (v : nat) | OAddVariables (l : list nat) | OAddConstraint (c : nat).
(** One operation; [None]: an exception is raised (structopt.py:143-144, 261). add_variable and add_variables
    (structopt.py:656-663) append to the list returned by vars; add_constraint (665-667) appends only. *)
Definition exec (p : prob) (o : op) : option prob :=
  match o with
  | OAddVar v => Some (add_var v p)
  | OAddCon c => Some (add_con c p)
  | OAddOther => None
  | OSet s => Some (set_vars s p)
  | OClear => Some (clear_vars p)
  | ODel v => match remove_first v (p_vars p) with Some l => Some (mkPr l (p_cons p) (p_locked p) (p_own p)) | None => None end
  | OLock v b => Some (mkPr (p_vars p) (p_cons p) (fun k => if Nat.eqb k v then b else p_locked p k) (p_own p))
  | OAddVariable v => Some (append (get_vars p) v p)
  | OAddVariables l => Some (fold_left (fun q v => append (get_vars q) v q) l p)
  | OAddConstraint c => Some (mkPr (p_vars p) (p_cons p ++ [c]) (p_locked p) (p_own p))
  end.
(** A sequence of operations; the first exception ends it (structopt.py:118-144, 656-667). *)
Fixpoint exec_all (p : prob) (os : list op) : option prob :=
  match os with [] => Some p | o :: r => match exec p o with Some q => exec_all q r | None => None end end.
(** structopt.py:83-93 constructor; the constraints are stored as given. [own]: constraints whose attribute problem is
    already this problem (none, as the problem is new). *)
Definition new_prob (vs cs : list nat) (locked : nat -> bool) : prob :=
  fold_left (fun q v => add_var v q) vs (mkPr [] cs locked (fun _ => false)).
(** structopt.py:231-248 type_of_vars; [None]: IndexError. A variable of any kind is an instance of Variable. *)
Definition type_of_vars (kind_of : nat -> kind) (p : prob) : option kind :=
  match free_vars p with
  | [] => None
  | v :: _ => Some (match kind_of v with KBin => KBin | KIdx => KIdx | KDisc => KDisc | KInt => KInt | KBool => KInt | KVar => KVar | KSect => KVar end)
  end.
(** constraints.py:138: a linear constraint reads the variables of its problem; [None]: AttributeError when it has none. *)
Definition linear_reads (p : prob) (c : nat) : option (list nat) := if p_own p c then Some (p_vars p) else None.
