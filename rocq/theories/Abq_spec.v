(** Specification for the export to Abaqus. *)
Require Import Reals List Bool PeanoNat. Import ListNotations.
From Verif Require Import Base Abq_model.
Local Open Scope R_scope.

(** Degrees of freedom in the plane of the frame (0, 1: translations, 2: rotation) that a boundary condition of
    Abaqus holds; the frame lies in the plane of the axes 1 and 3, its rotation is UR2. *)
Definition code_holds (c : acode) (dof : nat) : Prop :=
  match c with
  | PINNED => dof = 0%nat \/ dof = 1%nat
  | ENCASTRE => dof = 0%nat \/ dof = 1%nat \/ dof = 2%nat
  | CODE3 => dof = 1%nat
  | XSYMM => dof = 0%nat \/ dof = 2%nat
  end.
(** Degrees of freedom held by a support of the frame. *)
Definition kind_holds (k : akind) (dof : nat) : Prop :=
  match k with
  | KHinged => dof = 0%nat \/ dof = 1%nat
  | KY => dof = 1%nat
  | KX => dof = 0%nat
  | KFixed => dof = 0%nat \/ dof = 1%nat \/ dof = 2%nat
  | KGeneral => False
  end.
(** A node number is held in a degree of freedom by the boundary conditions. *)
Definition held (bs : list (list nat * acode)) (n dof : nat) : Prop :=
  exists b, In b bs /\ In n (fst b) /\ code_holds (snd b) dof.
(** The element at position [e] belongs to a member that is written with more than one element. *)
Definition in_long_member (mems : list amember) (incl : list nat) (e : nat) : Prop :=
  exists m, In m mems /\ In (am_name m) incl /\ In e (am_els m) /\ (1 < length (am_els m))%nat.
