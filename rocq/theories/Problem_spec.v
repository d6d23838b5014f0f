(** Vocabulary for the statements about constraints, penalties, multipliers and
    discrete variables. *)
From Verif Require Export Problem_model.

(** What it means for a constraint to hold, by type. *)
Definition holds (c : ctype * R) : Prop :=
  match c with (CLt, g) => g <= 0 | (CGt, g) => 0 <= g | (CEq, g) => g = 0 end.

(** ... and to hold within a tolerance. *)
Definition holds_within (tol : R) (c : ctype * R) : Prop :=
  match c with (CLt, g) => g <= tol | (CGt, g) => - tol <= g | (CEq, g) => - tol <= g <= tol end.

(** ... and to hold strictly (interior point). *)
Definition holds_strictly (c : ctype * R) : Prop :=
  match c with (CLt, g) => g < 0 | (CGt, g) => 0 < g | (CEq, _) => True end.

(** The bounds of a variable that are not the "no bound" markers. *)
Definition bounds_hold (v : bvar) : Prop :=
  let '(x, lb, ub) := v in (XLB < lb -> lb <= x) /\ (ub < XUB -> x <= ub).
Definition bounds_hold_strictly (v : bvar) : Prop :=
  let '(x, lb, ub) := v in (XLB < lb -> lb < x) /\ (ub < XUB -> x < ub).

(** Distance to the closest element of a catalogue. *)
Definition is_distance (values : list R) (x d : R) : Prop :=
  (exists v, In v values /\ d = Rabs (v - x)) /\ (forall v, In v values -> d <= Rabs (v - x)).

(** The vector of all values in a problem with variables [l] under an assignment. *)
Definition satisfies (l : list tag) (sigma : tag -> R) (c : list R * R) : Prop :=
  dot (fst c) (map sigma l) - snd c = 0.

Definition binaries_01 (vars : list ivar) (sigma : tag -> R) : Prop :=
  forall g profs j, nth_error vars g = Some (Some profs) -> (j < length profs)%nat ->
    sigma (TBin g j) = 0 \/ sigma (TBin g j) = 1.

(** Group [g] has selected exactly profile [j], and the property variables
    carry its rounded properties. *)
Definition selects (K : nat) (sigma : tag -> R) (g : nat) (profs : list (list R)) (j : nat) : Prop :=
  (j < length profs)%nat /\ sigma (TBin g j) = 1 /\
  (forall j', (j' < length profs)%nat -> j' <> j -> sigma (TBin g j') = 0) /\
  (forall k, (k < K)%nat -> sigma (TProp g k) = roundn 3 (nth k (nth j profs []) 0)).
