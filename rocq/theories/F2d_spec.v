(** Specification vocabulary for the frame program. *)
From Verif Require Import F2d_model.
Require Import Reals List.
Import ListNotations.
Local Open Scope R_scope.

(** [p] is the point with parameter [t] on the line through [a] and [b]. *)
Definition at_param (a b : pt) (t : R) (p : pt) : Prop :=
  fst p = fst a + t * (fst b - fst a) /\ snd p = snd a + t * (snd b - snd a).
Definition on_line (a b p : pt) : Prop := exists t, at_param a b t p.
Definition on_segment (a b p : pt) : Prop := exists t, 0 <= t <= 1 /\ at_param a b t p.
Definition parallel (a b c d : pt) : Prop := (fst b - fst a) * (snd d - snd c) = (snd b - snd a) * (fst d - fst c).
(** Both coordinates differ by at most [e]. *)
Definition close (e : R) (p q : pt) : Prop := Rabs (fst p - fst q) <= e /\ Rabs (snd p - snd q) <= e.
(** The points of a list get further and further away from [a]. *)
Fixpoint outward (a : pt) (l : list pt) : Prop :=
  match l with [] => True | p :: l' => (match l' with [] => True | q :: _ => pdist a p <= pdist a q end) /\ outward a l' end.
(** Length of a polygon. *)
Fixpoint path_length (l : list pt) : R :=
  match l with p :: (q :: _) as l' => pdist p q + path_length l' | _ => 0 end.
(** The columns of a frame with [bays] bays and [storeys] storeys, bay line by bay line. *)
Definition column_grid (storeys bays : nat) (h L : R) : list (pt * pt) :=
  flat_map (fun b => map (fun s => ((INR b * L, INR s * h), (INR b * L, INR (S s) * h))) (seq 0 storeys)) (seq 0 (bays + 1)).
Definition beam_grid (storeys bays : nat) (h L : R) : list (pt * pt) :=
  flat_map (fun b => map (fun s => ((INR b * L, INR (S s) * h), (INR (S b) * L, INR (S s) * h))) (seq 0 storeys)) (seq 0 bays).
(** The end values of all elements. *)
Definition all_ends (es : list ends) : list R := flat_map (fun e => [fst e; snd e]) es.
(** The force does not jump between consecutive elements. *)
Fixpoint no_jump (es : list ends) : Prop :=
  match es with e :: (e' :: _) as l => snd e = fst e' /\ no_jump l | _ => True end.
(** [v] is an entry of greatest magnitude, or zero for a list of zeros. *)
Definition extreme (v : R) (l : list R) : Prop := (forall x, In x l -> Rabs x <= Rabs v) /\ (In v l \/ v = 0).
