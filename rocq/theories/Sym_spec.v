(** Specifications for the symmetry of frames, members of several spans, groups and moving nodes. *)
From Verif Require Import Base EC3_model Sym_model.
Require Import Reals List Bool PeanoNat.
Import ListNotations.
Local Open Scope R_scope.

(** Two points are mirror images with respect to the line x = s up to the tolerance. *)
Definition mirrors (s : R) (a b : spt) : Prop :=
  Rabs (snd b - snd a) < 1 / 1000000 /\ Rabs (Rabs (fst b - s) - Rabs (fst a - s)) < 1 / 1000000.
(** The nodes numbered i and j exist, differ and mirror each other. *)
Definition mirror_nodes (s : R) (ns : list spt) (i j : nat) : Prop :=
  (i < length ns)%nat /\ (j < length ns)%nat /\ i <> j /\ mirrors s (nth i ns (0, 0)) (nth j ns (0, 0)).
(** No node has two mirror images. *)
Definition one_image (s : R) (ns : list spt) : Prop :=
  forall i j k, mirror_nodes s ns i j -> mirror_nodes s ns i k -> j = k.
(** Being mirror images is transitive among the nodes (no chains within the tolerance). *)
Definition no_chains (s : R) (ns : list spt) : Prop :=
  forall i j k, mirror_nodes s ns i j -> mirror_nodes s ns j k -> i <> k -> mirror_nodes s ns i k.
(** A relation of numbers read from a list of optional numbers. *)
Definition rel (l : list (option nat)) (i j : nat) : Prop := nth i l None = Some j.
(** Mirroring nodes without a partner to themselves. *)
Definition reflected (l : list (option nat)) (a b : nat) : Prop :=
  rel l a b \/ (nth a l None = None /\ b = a).
(** Members of two different nodes, no two of them between the same nodes. *)
Definition plain_members (ms : list (list nat)) : Prop :=
  (forall m, In m ms -> exists a b, m = [a; b] /\ a <> b) /\
  (forall p q, (p < length ms)%nat -> (q < length ms)%nat -> incl (nth p ms []) (nth q ms []) -> p = q).
(** A member whose end nodes are the reflections of those of another member. *)
Definition mirror_members (sy : list (option nat)) (ms : list (list nat)) (p q : nat) : Prop :=
  (p < length ms)%nat /\ (q < length ms)%nat /\ p <> q /\
  forall a b, In a (nth p ms []) -> reflected sy a b -> In b (nth q ms []).
(** A list of optional numbers whose relation is symmetric. *)
Definition mutual (l : list (option nat)) : Prop := forall i j, rel l i j -> rel l j i.
(** A list of points symmetric about the line x = s. *)
Definition symmetric_about (s : R) (ns : list spt) : Prop :=
  forall p, In p ns -> In (2 * s - fst p, snd p) ns.
(** The value last assigned to k or to its pair in a list of assignments, v0 before. *)
Definition last_given (pr : nat -> option nat) (k v0 : nat) (l : list (nat * nat)) : nat :=
  last (map snd (filter (fun a : nat * nat => Nat.eqb (fst a) k || match pr k with Some q => Nat.eqb (fst a) q | None => false end)%bool l)) v0.
(** Sum of the lengths of the spans. *)
Fixpoint path_length (ns : list spt) : R :=
  match ns with a :: ((b :: _) as t) => sqrt (Rsqr (fst b - fst a) + Rsqr (snd b - snd a)) + path_length t | _ => 0 end.
(** Points along a ray from [o] in the unit direction [d] at distances that do not decrease. *)
Definition along_ray (o d : spt) (ts : list R) : list spt := map (fun t => (fst o + t * fst d, snd o + t * snd d)) ts.
(** A list of distances that starts at 0 and does not decrease. *)
Fixpoint rising (ts : list R) : Prop :=
  match ts with t :: ((u :: _) as r) => t <= u /\ rising r | _ => True end.
(** A profile a group may take: width and class within the limits and every member carries every
    load case. *)
Definition group_ok (bmin bmax maxu : R) (cls : nat) (lids : list nat) (p : gprof) : Prop :=
  bmin <= gp_b p <= bmax /\ (gp_class p <= cls)%nat /\ forall l u, In l lids -> In u (gp_util p l) -> u <= maxu.
