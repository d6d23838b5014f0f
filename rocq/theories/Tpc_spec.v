(** Specification vocabulary for compression perpendicular to the grain. *)
From Verif Require Export Tpc_model.
Require Import List PeanoNat. Import ListNotations.
Local Open Scope R_scope.

(** A member at a node is complete: positive dimensions, sections, and an axial force at each. *)
Definition complete (c : contact) : Prop :=
  0 < c_H c /\ 0 < c_B c /\ c_pts c <> [] /\ length (c_ned c) = length (c_pts c).
(** The member and its nodes are complete. *)
Definition well (m : tmem) (ns : list tnode) : Prop :=
  0 < t_B m /\ 0 < t_f m /\ t_pts m <> [] /\ forall n, In n ns -> Forall complete (others n).
(** The contact length plus 30 mm, but not more than itself, on one side or on both. *)
Definition eff_length (one_side : bool) (H : R) : R := if one_side then H + Rmin 30 H else H + 2 * Rmin 30 H.
(** Compressive stress that the axial force [N] of the other member gives. *)
Definition contact_stress (m : tmem) (one_side : bool) (c : contact) (N : R) : R :=
  Rmax 0 (- N) / (eff_length one_side (c_H c) * Rmin (c_B c) (t_B m)).
(** Whether one side counts, for all contacts of the member alike. *)
Definition one_sided (m : tmem) : Prop := length (t_pts m) = 1%nat \/ INR (length (t_pts m) - 1) = t_last m.
(** The nodes with contacts other than the one with the given index. *)
Definition other_contacts (ci : nat) (ns : list tnode) : list tnode :=
  map snd (filter (fun p => andb (negb (Nat.eqb (fst p) ci)) (negb (alone (snd p)))) (combine (seq 0 (length ns)) ns)).
(** Depth of the first other member at a node. *)
Definition depth_at (n : tnode) : R := match others n with c :: _ => c_H c | [] => 0 end.
(** [v] is the largest stress at the node: zero without contacts. *)
Definition governs (m : tmem) (n : tnode) (os : bool) (v : R) : Prop :=
  if alone n then v = 0
  else (exists c, In c (others n) /\ v = contact_stress m os c (last (c_ned c) 0)) /\
       forall c, In c (others n) -> contact_stress m os c (last (c_ned c) 0) <= v.
(** A column of 100 by 100 mm, 3 m long, with the given axial forces at its two ends. *)
Definition col (x N0 N1 : R) : contact := mkCt 100 100 [N0; N1] [(x, 0); (x, 3000)].
(** A beam of 200 by 100 mm in three sections. *)
Definition bm (t : tmat) : tmem := mkTm 200 100 t [(0, 3000); (2000, 3000); (4000, 3000)] 1 2.
