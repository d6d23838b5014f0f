(** Vocabulary used in the statements about optimisation variables. *)
From Verif Require Export OptVars_model.

(** A variable whose bounds are consistent; an index variable has at least one
    catalogue entry and the bounds set by its constructor (variables.py:311-313). *)
Definition wf_var (v : var) : Prop :=
  v_lb v <= v_ub v /\
  match v_kind v with
  | KIndex n => (1 <= n)%nat /\ v_lb v = 0 /\ v_ub v = INR n - 1
  | _ => True
  end.

Definition within_bounds (v : var) : Prop :=
  match v_value v with Some x => v_lb v <= x <= v_ub v | None => True end.

(** What a variable stores when given an in-bounds number: an index variable
    stores the truncated integer, all others the number itself. *)
Definition stored (v : var) (x : R) : R := if is_index v then IZR (truncZ x) else x.

(** Everything but the value (and what was written to the structure) agrees. *)
Definition same_frame (v v' : var) : Prop :=
  v_kind v' = v_kind v /\ v_lb v' = v_lb v /\ v_ub v' = v_ub v /\
  v_locked v' = v_locked v /\ v_scaling v' = v_scaling v /\ v_target v' = v_target v.

(** Positionwise description of the outcome of a substitution. *)
Definition untouched_if_locked (v v' : var) : Prop :=
  same_frame v v' /\ (v_locked v = true -> v' = v).

(** C01: any history of substitutions. *)
Fixpoint run_substs (xss : list (list R)) (vs : list var) : option (list var) :=
  match xss with
  | [] => Some vs
  | xs :: r => match subst_vars xs vs with None => None | Some vs' => run_substs r vs' end
  end.

Definition unlocks (i : nat) (o : vop) : Prop := match o with OUnlock j => j = i | _ => False end.

(** Index variables are safe through the problem-level operations. *)
Definition problem_level (o : vop) : Prop :=
  match o with OSubst _ | OObj _ | OCon _ => True | _ => False end.

Definition locks_have_values (vs : list var) : Prop :=
  forall v, In v vs -> v_locked v = true -> v_value v <> None.

(** The declarative specification of the completed vector: a locked position
    carries the locked value, and the free positions, read in declaration
    order, carry the design vector. *)
Definition completes (vs : list var) (xs : list R) (r : list (option R)) : Prop :=
  length r = length vs /\
  (forall i v, nth_error vs i = Some v -> v_locked v = true -> nth_error r i = Some (v_value v)) /\
  map snd (filter (fun vr => negb (v_locked (fst vr))) (combine vs r)) = map Some xs.

Definition free_have_values (vs : list var) : Prop := Forall (fun v => v_value v <> None) (free_vars vs).

Definition l1 (a : list R) : R := Rsum (map Rabs a).

Definition no_index (vs : list var) : Prop := Forall (fun v => is_index v = false) vs.

Definition in_box (vs : list var) (x : list R) : Prop :=
  Forall2 (fun v y => v_lb v <= y <= v_ub v) (free_vars vs) x.

Definition fresh_prob (vs : list var) : prob := mkProb vs None None [].

Fixpoint run_psubsts (xss : list (list R)) (p : prob) : option prob :=
  match xss with
  | [] => Some p
  | xs :: r => match prob_substitute p xs with None => None | Some p' => run_psubsts r p' end
  end.

Definition nonzero (X : list R) : Prop := exists x, In x X /\ x <> 0.

(** If no intermediate point is the zero vector, x0 is the first point. *)
Fixpoint trace (xss : list (list R)) (p : prob) : list (option (list R)) :=
  match xss with
  | [] => []
  | xs :: r => match prob_substitute p xs with None => [] | Some p' => p_X p' :: trace r p' end
  end.
