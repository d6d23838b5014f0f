(** Vocabulary of the statements about solvers. *)
From Verif Require Export Solvers_model Problem_spec.

Definition inside (bounds : list (R * R)) (x : list R) : Prop :=
  Forall2 (fun b y => fst b <= y <= snd b) bounds x.
Definition ordered (bounds : list (R * R)) : Prop := Forall (fun b => fst b <= snd b) bounds.

(** Every constraint of the problem holds at x within its tolerance. *)
Definition ok_at (P : oprob) (x : list R) : Prop :=
  Forall (fun c => holds_within (op_tol P) (fst c, snd c x)) (op_cons P).

(** The sequence of points visited from x0 by the given step vectors. *)
Fixpoint iterates (bounds : list (R * R)) (x0 : list R) (acts : list (list R)) : option (list (list R)) :=
  match acts with
  | [] => Some []
  | a :: r => match ostep bounds x0 a with
              | None => None
              | Some x => match iterates bounds x r with None => None | Some l => Some (x :: l) end
              end
  end.

(** A particle counted as feasible by the swarm. *)
Definition pfeas (p : part) : Prop := p_scv p <= G_TOL.

(** [sel] are k of the values (or all of them if there are fewer), and no value
    left out is strictly nearer to x than a value kept. *)
Definition k_nearest (k : nat) (x : R) (vals sel : list R) : Prop :=
  exists rest, Permutation vals (sel ++ rest) /\ length sel = Nat.min k (length vals) /\
    forall v w, In v sel -> In w rest -> Rabs (v - x) <= Rabs (w - x).

(** Values a variable may take. *)
Definition nvar_values (v : nvar) : option (list R) :=
  match v with NDisc l => Some l | NInt lb ub => Some (arange lb ub) | NCont => None end.

(** Components of x belonging to variables that have a value list. *)
Fixpoint listed (vs : list nvar) (x : list R) : list (list R * R) :=
  match vs, x with
  | v :: r, xi :: x' =>
      match nvar_values v with Some l => (l, xi) :: listed r x' | None => listed r x' end
  | _, _ => []
  end.

(** v is a catalogue value at least as near to x as every other one. *)
Definition nearest_value (vals : list R) (x v : R) : Prop :=
  In v vals /\ forall w, In w vals -> Rabs (v - x) <= Rabs (w - x).

(** One value chosen for every parameter. *)
Definition assignment {V} (params : list (nat * list V)) (g : list (nat * V)) : Prop :=
  exists g', Permutation g g' /\ Forall2 (fun p e => fst e = fst p /\ In (snd e) (snd p)) params g'.
