(** Specification vocabulary for the creation and substitution of variables. *)
From Verif Require Export Csv_model.
Require Import List PeanoNat String. Import ListNotations.
Local Open Scope R_scope.

(** Something was given. *)
Definition given (a : arg) : Prop :=
  match a with ANone => False | ANum x => x <> 0 | AStr s => s <> EmptyString | AList l => l <> [] end.
(** Properties were named. *)
Definition names_property (tp tps : arg) : Prop := given tp \/ given tps.
(** Objects were named. *)
Definition names_object (o : option nat) (os : option (list nat)) : Prop :=
  (exists x, o = Some x) \/ (exists x l, os = Some (x :: l)).
(** All sections in use are in the heap. *)
Definition sound (h : heap) : Prop := forall m, (h_sec h m < h_next h)%nat.
(** Attribute [p] of the section of a member. *)
Definition of_member (h : heap) (m : nat) (p : string) : R := h_sattr h (h_sec h m) p.
(** No other member uses the section of [m]. *)
Definition own_section (h : heap) (m : nat) : Prop := forall m', h_sec h m' = h_sec h m -> m' = m.
(** [v] is least, or greatest, in a list. *)
Definition least (v : R) (l : list R) : Prop := In v l /\ forall x, In x l -> v <= x.
(** See above. *)
Definition greatest (v : R) (l : list R) : Prop := In v l /\ forall x, In x l -> x <= v.
