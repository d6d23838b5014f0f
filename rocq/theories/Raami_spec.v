(** Specification vocabulary for frames. *)
From Verif Require Export Raami_model.

(** A decimal digit. *)
Definition digit (c : ascii) : Prop := (48 <= nat_of_ascii c <= 57)%nat.
(** The name does not end in a digit. *)
Definition plain (n : string) : Prop := forall p c, n = append p (String c EmptyString) -> ~ digit c.
(** What the user gave apart from the name. *)
Definition same_load (a b : lobj) : Prop :=
  o_lid a = o_lid b /\ o_type a = o_type b /\ o_f a = o_f b /\ o_line a = o_line b /\ o_what a = o_what b.
(** Adding new load objects one after the other. *)
Fixpoint add_all (ls : list lobj) (f : frame) : option frame :=
  match ls with [] => Some f | l :: ls => let '(f', o) := new_load l f in bind (add_load o f') (add_all ls) end.
(** The case list of a load id. *)
Definition in_case (f : frame) (i o : nat) : Prop := exists l, dget Nat.eqb i (cases f) = Some l /\ In o l.
(** Frames whose stored names are the given digit-free names, possibly numbered below the number
    of loads: every frame built by additions of loads with such names. *)
Definition tidy (f : frame) : Prop :=
  NoDup (map fst (loads f)) /\
  Forall (fun n => plain n \/ exists b k, plain b /\ n = append b (str k) /\ (k < List.length (loads f))%nat) (map fst (loads f)) /\
  Forall (fun o => (o < List.length (heap f))%nat) (map snd (loads f)) /\
  (forall i, In i (lids f) -> dget Nat.eqb i (cases f) <> None).
(** The loads of a combination according to frame_loads.py:190-213 written out. *)
Definition comb_loads (c : ctype) (cid : nat) (f : frame) (ld : option nat) (cs : list (list nat)) : list lobj :=
  flat_map (fun kc : nat * list nat => map (fun o => factored_copy c (match ld with Some i => Nat.eqb i (fst kc) | None => false end) cid (obj f o)) (snd kc))
    (combine (seq 0 (List.length cs)) cs).
Open Scope R_scope.
(** Resultant and moment about the start of a load varying linearly from [a] to [b] over the
    length [h], starting at [x]. *)
Definition resultant (h a b : R) : R := h * (a + b) / 2.
Definition moment (x h a b : R) : R := resultant h a b * x + h ^ 2 * (a + 2 * b) / 6.
(** The piecewise constant load at a point left or right of the step. *)
Definition pw_at (f v0 v1 xdiv x : R) : R := if Rltb x xdiv then f * v0 else f * v1.
(** A profile meets every load case. *)
Definition passes {P} (skip : P -> bool) (u : P -> nat -> R) (maxu : R) (lids : list nat) (p : P) : Prop :=
  skip p = false /\ forall l, In l lids -> u p l <= maxu.
(** Histories of member creation and hinges. *)
Inductive hop := Hnew (m : nat) (own : option (bool * bool)) | Hhinge (m : nat) (first : bool).
Definition hstep (s : hinges) (o : hop) : hinges := match o with Hnew m own => new_member m own s | Hhinge m b => add_hinge m b s end.
Definition hrun (os : list hop) : hinges := fold_left hstep os no_hinges.
(** The members created with a list of hinges of their own, and histories in which all are. *)
Definition owners (os : list hop) : list nat := flat_map (fun o => match o with Hnew m (Some _) => [m] | _ => [] end) os.
Definition no_default (os : list hop) : Prop := Forall (fun o => match o with Hnew _ None => False | _ => True end) os.
(** Partial factor and combination value of a load type. *)
Definition gamma_of (t : ltype) (c : ctype) : R :=
  match c, t with ULS, DEAD => 115/100 | ULS, OTHER => 1 | ULS, _ => 15/10 | _, _ => 1 end.
Definition psi0_of (t : ltype) : R := match t with LIVE => 7/10 | SNOW => 7/10 | WIND => 6/10 | _ => 1 end.
(** Nothing but the combination factor and the id changes. *)
Definition combined_load (c : ctype) (lead : bool) (cid : nat) (l x : lobj) : Prop :=
  o_what x = o_what l /\ o_type x = o_type l /\ o_line x = o_line l /\ o_lid x = cid /\
  o_f x = gamma_of (o_type l) c * (if lead then 1 else psi0_of (o_type l)).
(** A history of self-weight calls: true adds, false removes. *)
Definition sw_run (n : nat) (ops : list bool) : selfw :=
  fold_left (fun s (b : bool) => if b then add_self_weight s else remove_self_weight s) ops (mkSelfw false (repeat false n) (repeat 0%nat n)).
