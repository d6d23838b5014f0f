(** Vocabulary of the statements about branch and bound. *)
From Verif Require Export BnB_model Problem_spec.

Definition in_bounds (bx : box) (x : list R) : Prop :=
  Forall2 (fun b y => fst b <= y <= snd b) bx x.

(** A value the variable may take in a solution of the discrete problem. *)
Definition adm1 (v : bv) (x : R) : Prop :=
  match b_kind v with
  | BCont => True
  | BInt => exists z, x = IZR z
  | BDisc vals => In x vals
  end.
Definition admissible (vs : list bv) (x : list R) : Prop := Forall2 adm1 vs x.

(** A row a.x (type) b. *)
Definition row_holds (x : list R) (c : ctype * list R * R) : Prop :=
  let '(ty, a, b) := c in
  match ty with CLt => dot a x <= b | CGt => dot a x >= b | CEq => dot a x = b end.

(** Contract of the exact sub-solvers, for the admissible points the user regards
    as feasible. *)
Definition obt_sound (P : bprob) (Feas : list R -> Prop) (O : oracles) : Prop :=
  forall k bx x, admissible (p_vs P) x -> Feas x -> in_bounds bx x -> in_bounds (o_obt O k bx) x.
Definition relax_sound (P : bprob) (Feas : list R -> Prop) (O : oracles) : Prop :=
  forall k bx x, admissible (p_vs P) x -> Feas x -> in_bounds bx x ->
    exists flb xR, o_relax O k bx = Some (flb, xR) /\ flb <= p_f P x.

(** Every linear constraint is a '<' row whose coefficients are zero or larger
    than 1e-9, with one coefficient per variable. *)
Definition good_rows (vs : list bv) (lcons : list (ctype * list R * R)) : Prop :=
  Forall (fun c => fst (fst c) = CLt /\ length (snd (fst c)) = length vs /\
                   Forall (fun a => a = 0 \/ 1 / 1000000000 < Rabs a) (snd (fst c))) lcons.

(** The branches of a node refer to existing variables. *)
Definition wf_path (n : nat) (path : list (nat * bool * R)) : Prop :=
  Forall (fun br => (fst (fst br) < n)%nat) path.

(** Incumbent b1 is at least as good as incumbent b2; no incumbent is worst. *)
Definition best_le (b1 b2 : option (R * list R)) : Prop :=
  match b2 with
  | None => True
  | Some (f2, _) => match b1 with None => False | Some (f1, _) => f1 <= f2 end
  end.

(** Every constraint, read in its own direction, holds within the tolerance. *)
Definition ok_within (tol : R) (cons : list (ctype * (list R -> R))) (x : list R) : Prop :=
  Forall (fun c => holds_within tol (fst c, snd c x)) cons.

(** Order on node bounds; a root node without a bound counts as minus infinity. *)
Definition lb_le (a b : option R) : Prop :=
  match a, b with None, _ => True | Some _, None => False | Some x, Some y => x <= y end.
