(** Specification vocabulary for tube joints and structural problems. *)
From Verif Require Import F2d_model Tube_model.
Require Import Reals List.
Import ListNotations.
Local Open Scope R_scope.

(** Acute angle between two lines with inclinations [w] and [c]. *)
Definition acute (w c : R) : R := Rmin (Rabs (w - c)) (PI - Rabs (w - c)).
(** [p] lies at [s] along the chord and [n] to its side. *)
Definition at_local (c : mem) (s n : R) (p : pt) : Prop :=
  fst p = fst (m_a c) + s * fst (unitv c) + n * fst (perp c) /\ snd p = snd (m_a c) + s * snd (unitv c) + n * snd (perp c).
(** The quantity of a K joint that was set last. *)
Fixpoint last_set (ops : list kop) (d : option (bool * R)) : option (bool * R) :=
  match ops with
  | [] => d
  | Geo _ :: l => last_set l d
  | SetE _ _ v :: l => last_set l (Some (false, v))
  | SetG v :: l => last_set l (Some (true, v))
  end.
(** The angles are those of a joint: no sine vanishes. *)
Definition good_angles (q : kgeo) : Prop := 0 < g_t1 q < PI /\ 0 < g_t2 q < PI /\ g_t1 q + g_t2 q <> PI.
(** Range of validity of K gap joints, EN 1993-1-8 Table 7.8 and 7.1.2, 5.1.5. *)
Definition k_valid (c w1 w2 : tube) (g e d1 d2 : R) : Prop :=
  let beta := (b_B w1 + b_B w2 + b_H w1 + b_H w2) / (4 * b_B c) in
  beta <= 1 /\
  (b_B w1 / b_B c >= 1/10 + 1/100 * b_B c / b_T c /\ b_B w2 / b_B c >= 1/10 + 1/100 * b_B c / b_T c) /\
  b_T w1 + b_T w2 <= g /\ 1/2 * (1 - beta) <= g / b_B c <= 15/10 * (1 - beta) /\
  (35/100 <= b_B w1 / b_B c <= 85/100 /\ 35/100 <= b_B w2 / b_B c <= 85/100) /\
  (30 <= d1 <= 90 /\ 30 <= d2 <= 90) /\ - (55/100) * b_H c <= e <= 25/100 * b_H c.
(** How often a constraint occurs in a list. *)
Definition joint_count (j : nat) (l : list pcon) : nat :=
  List.length (filter (fun c => match c with JointC j' => Nat.eqb j j' | _ => false end) l).
