(** Vocabulary of the statements about the frame analysis core. *)
From Verif Require Export Fem_model.

(** The number at position k of node m. *)
Definition dof_at (ns : list node) (m k : nat) : option Z :=
  match nth_error ns m with Some nd => nth_error nd k | None => None end.
(** Some element uses position k of node m. *)
Definition used (els : list elem) (m k : nat) : Prop :=
  exists e, In e els /\ (el_n1 e = m \/ el_n2 e = m) /\ (k < el_d e)%nat.
(** Every node is new: no position carries a number. *)
Definition fresh (ns : list node) : Prop := Forall (Forall (fun d => d = (-1)%Z)) ns.
(** Every element matrix is symmetric. *)
Definition sym (A : mat) : Prop := forall i j, A i j = A j i.
Definition psd (n : nat) (A : mat) : Prop := forall u, 0 <= quad n A u.
(** Elements join two different existing nodes. *)
Definition proper (ns : list node) (e : elem) : Prop :=
  el_n1 e <> el_n2 e /\
  (exists nd, nth_error ns (el_n1 e) = Some nd /\ (el_d e <= length nd)%nat) /\
  (exists nd, nth_error ns (el_n2 e) = Some nd /\ (el_d e <= length nd)%nat).
(** Displacement vector of an element: entry a belongs to the a-th listed number. *)
Definition elem_u (ve : list Z) (u : vec) : vec :=
  fun a => match nth_error ve a with Some d => if (0 <=? d)%Z then u (Z.to_nat d) else 0 | None => 0 end.
(** A correct linear solver. *)
Definition solves (solve : nat -> mat -> vec -> vec) (m : nat) (A : mat) (b : vec) : Prop :=
  forall a, (a < m)%nat -> sumn m (fun c => A a c * solve m A b c) = b a.
(** The non-negative numbers of ve are distinct and below n. *)
Definition distinct_dofs (n : nat) (ve : list Z) : Prop :=
  (forall a b d, nth_error ve a = Some d -> nth_error ve b = Some d -> (0 <= d)%Z -> a = b) /\
  (forall a d, nth_error ve a = Some d -> (0 <= d)%Z -> (d < Z.of_nat n)%Z).
(** Displacements all zero, one per degree of freedom. *)
Definition at_rest (ns : list node) (us : list (list R)) : Prop := us = map (fun nd => repeat 0 (length nd)) ns.
