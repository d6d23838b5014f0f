(** Model of the load vector of a load case by the class of the loaded elements, and of line loads on rods
    (metku/framefem/framefem.py:499-526, 1290-1320, 1359-1395, metku/framefem/elements). *)
From Verif Require Export Base.
Require Import List Bool PeanoNat ZArith. Import ListNotations.
Local Open Scope R_scope.

(** Classes of elements (elements/ebbeam.py:25, 627, eb_semi_rigid_beam.py:28, rod.py:22, springs.py:22). *)
Inductive ekind := Kbeam | Ksemi | Kbeam3 | Krod | Kspring.
(** Number of arguments equivalent_nodal_loads can take beside the element (ebbeam.py:360, 861,
    eb_semi_rigid_beam.py:231, rod.py:123, springs.py:121). *)
Definition max_args (k : ekind) : nat := match k with Kbeam => 3 | Ksemi => 1 | Kbeam3 => 1 | Krod => 1 | Kspring => 1 end.
(** A load in the model (framefem.py:1284-1288, 1344-1357): point loads have a factor, a vector and the numbers of the
    degrees of freedom of their node, line loads the class of their element, the forces the element computes
    (simplified: given, see the model of the loads of beams) and its degrees of freedom; -1 is a fixed one. *)
Inductive fload :=
| PointL (sid : nat) (f : R) (v : list R) (dofs : list Z)
| LineL (sid : nat) (k : ekind) (F : list R) (dofs : list Z).
(** framefem.py:1233: the load id. *)
Definition load_sid (l : fload) : nat := match l with PointL s _ _ _ => s | LineL s _ _ _ => s end.
(** framefem.py:1309-1320, 1386-1395: the free degrees of freedom with their forces; [None]: IndexError. *)
Definition mask (F : list R) (dofs : list Z) : option (list (nat * R)) :=
  if Nat.eqb (length F) (length dofs)
  then Some (map (fun p => (Z.to_nat (fst p), snd p)) (filter (fun p => Z.leb 0 (fst p)) (combine dofs F))) else None.
(** framefem.py:1290-1320 and 1359-1395 load_and_dofs; the element is called with two arguments (line 1381); [None]:
    TypeError or IndexError. *)
Definition load_and_dofs (l : fload) : option (list (nat * R)) :=
  match l with
  | PointL _ f v dofs => mask (map (fun x => f * x) v) dofs
  | LineL _ k F dofs => if Nat.leb 2 (max_args k) then mask F dofs else None
  end.
(** Write one place of a vector (framefem.py:523); [None]: IndexError. *)
Fixpoint set_at (i : nat) (x : R) (g : list R) : option (list R) :=
  match i, g with
  | _, [] => None
  | 0%nat, _ :: g => Some (x :: g)
  | S i, y :: g => option_map (cons y) (set_at i x g)
  end.
(** framefem.py:523 global_load[vdofs] += v: the old values [g0] are read before any is written. *)
Fixpoint add_at (g0 : list R) (dv : list (nat * R)) (g : list R) : option (list R) :=
  match dv with
  | [] => Some g
  | (d, v) :: dv => match set_at d (nth d g0 0 + v) g with Some g' => add_at g0 dv g' | None => None end
  end.
(** framefem.py:515-526: the loop over the loads. *)
Fixpoint load_loop (sid : nat) (ls : list fload) (g : list R) : option (list R) :=
  match ls with
  | [] => Some g
  | l :: ls => if Nat.eqb (load_sid l) sid
               then match load_and_dofs l with
                    | Some dv => match add_at g dv g with Some g' => load_loop sid ls g' | None => None end
                    | None => None end
               else load_loop sid ls g
  end.
(** framefem.py:499-526 global_load_vector with [n] degrees of freedom. *)
Definition global_load_vector (n sid : nat) (ls : list fload) : option (list R) := load_loop sid ls (repeat 0 n).
(** framefem.py:1638-1651 length of an element in the plane. *)
Definition rlen (a b : R * R) : R := sqrt ((fst b - fst a) ^ 2 + (snd b - snd a) ^ 2).
(** elements/rod.py:123-141 equivalent_nodal_loads of a rod from [a] to [b] (framefem.py:1612-1627 gives the direction
    cosines). Simplified: the ends are apart, numpy gives nan otherwise. *)
Definition rod_loads (a b q : R * R) : list R :=
  let L := rlen a b in
  let fx := 5/10 * ((snd b - snd a) / L) * fst q * L in
  let fy := 5/10 * ((fst b - fst a) / L) * snd q * L in
  [fx; fy; fx; fy].
