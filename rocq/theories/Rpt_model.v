(** Model of the report of the largest constraints of an optimisation problem (metku/optimization/structopt.py:561-620). *)
From Verif Require Export EC3_model Base.
Require Import List Bool PeanoNat. Import ListNotations.
Local Open Scope R_scope.

(** Types of constraints (structopt.py:628, 638-641). *)
Inductive ctype := Clt | Cgt | Ceq.
(** A constraint at the point of the report: type and value (structopt.py:611-620 eval_cons). *)
Definition rcon := (ctype * R)%type.
(** Values of all constraints (structopt.py:611-620 eval_cons). *)
Definition values (cs : list rcon) : list R := map snd cs.
(** numpy.argmax: the first index with the largest value (structopt.py:577). *)
Fixpoint argmax_from (i : nat) (best : nat) (bv : R) (l : list R) : nat :=
  match l with [] => best | x :: l => if Rltb bv x then argmax_from (S i) i x l else argmax_from (S i) best bv l end.
(** structopt.py:576-577: the constraint named as the maximum one; nothing without constraints. *)
Definition max_con (cs : list rcon) : option nat :=
  match values cs with [] => None | x :: l => Some (argmax_from 1 0 x l) end.
(** Python's l[-k:] (structopt.py:596). *)
Definition last_k {A} (k : nat) (l : list A) : list A := match k with O => l | _ => skipn (length l - k) l end.
(** Order of pairs of a value and an index (structopt.py:598). *)
Definition pair_le (a b : R * nat) : bool := if Rltb (fst a) (fst b) then true else if Rltb (fst b) (fst a) then false else Nat.leb (snd a) (snd b).
(** Insertion, for sorting (structopt.py:598). *)
Fixpoint pins (a : R * nat) (l : list (R * nat)) : list (R * nat) :=
  match l with [] => [a] | b :: l => if pair_le a b then a :: b :: l else b :: pins a l end.
(** sorted (structopt.py:598). *)
Fixpoint psort (l : list (R * nat)) : list (R * nat) := match l with [] => [] | a :: l => pins a (psort l) end.
(** structopt.py:591-603: the indices listed, in order; [part] is what numpy.argpartition returns. *)
Definition listed (cs : list rcon) (ncons : nat) (part : list nat) : list nat :=
  let g := values cs in
  let k := Nat.min (length cs) ncons in
  let idx := last_k k part in
  rev (map snd (psort (combine (map (fun i => nth i g 0) idx) idx))).
