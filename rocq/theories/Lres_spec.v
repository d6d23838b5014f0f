(** Specification of the results of the load combiners. *)
Require Import Reals List.
From Verif Require Import Base EC3_model Loads_model Lres_model.
Import ListNotations.
Local Open Scope R_scope.

(** Equality of directions. *)
Definition ldir_eq (a b : ldir) : bool := match a, b with dx, dx | dy, dy | dz, dz => true | _, _ => false end.
(** Sum of the design values of the loads acting on member [id] in direction [d], counted once per mention. *)
Fixpoint value_on (rnd : R -> R) (d : ldir) (id : nat) (ls : list (load * R)) : R :=
  match ls with
  | [] => 0
  | (l, f) :: r => (if ldir_eq (l_dir l) d then INR (count_occ Nat.eq_dec (l_ids l) id) * rnd (l_val l * f) else 0) + value_on rnd d id r
  end.
(** Loads that mention a member. *)
Definition acts (id : nat) (ls : list (load * R)) : Prop := exists lf, In lf ls /\ In id (l_ids (fst lf)).
(** A number of a padded list, zero where there is none. *)
Definition num (l : list (option R)) (i : nat) : R := match nth i l None with Some x => x | None => 0 end.
(** Loads added one after another to a combiner. *)
Fixpoint adds (ls : list load) (c : combiner) : option combiner :=
  match ls with [] => Some c | l :: r => bind (add_load l c) (adds r) end.
(** Numbers of the key of a split result, for the x or the y direction; zero without the key. *)
Definition key_num (y : bool) (p : option (list (option R) * list (option R))) (i : nat) : R :=
  match p with None => 0 | Some (X, Y) => num (if y then Y else X) i end.
