(** Vocabulary for the statements about Vierendeel and portal trusses. *)
From Verif Require Import Raami_model Raami_spec.
From Verif Require Import Base EC3_model Rhs_model Truss_model Portal_model.
Require Import Reals String List Bool Arith Permutation.
Import ListNotations.
Local Open Scope R_scope.

(** Position of a node. *)
Definition v_place (t : vtruss) (v : node) : pt :=
  match v with Top i => nth i (vtop t) (0, 0) | Bot i => nth i (vbot t) (0, 0) end.
(** The node exists. *)
Definition v_is_node (t : vtruss) (v : node) : Prop :=
  match v with Top i => (i < length (vtop t))%nat | Bot i => (i < length (vbot t))%nat end.
(** A member from [a] to [b] with the hinges [h] at its ends. *)
Definition v_member (t : vtruss) (a b : node) (h : bool * bool) : Prop :=
  (exists i j, a = Top i /\ b = Top j /\ In (i, j) (vtc t) /\ h = (false, false)) \/
  (exists i j, a = Bot i /\ b = Bot j /\ In (i, j) (vbc t) /\ h = (false, false)) \/
  (exists i j, a = Top i /\ b = Bot j /\ In ((i, j), h) (combine (vbr t) (vhinge t))).
(** A beam from [p] to [q] moves as a rigid body, to first order, when its ends are displaced by [u], [w] and rotated
    by [r], [s]; the rotation of an end with a hinge is free. *)
Definition undeformed (p q u w : pt) (r s : R) (h : bool * bool) : Prop :=
  exists phi, fst w - fst u = - phi * (snd q - snd p) /\ snd w - snd u = phi * (fst q - fst p) /\
  (fst h = false -> r = phi) /\ (snd h = false -> s = phi).
(** The frame is stable when [p] is held in both directions and [q] vertically: no displacement without deformation. *)
Definition v_stable (t : vtruss) (p q : node) : Prop :=
  forall (u : node -> pt) (rot : node -> R),
  (forall a b h, v_member t a b h -> undeformed (v_place t a) (v_place t b) (u a) (u b) (rot a) (rot b) h) ->
  u p = (0, 0) -> snd (u q) = 0 -> forall v, v_is_node t v -> u v = (0, 0) /\ rot v = 0.

(** What a load does: load id, place and value. *)
Definition what (l : ld) : nat * target * mload := (lid l, on l, lv l).
(** What a call on a Vierendeel truss with [n] panels asks for. *)
Definition v_given (n : nat) (o : vop) : list (nat * target * mload) :=
  match o with
  | VUni true q i _ => map (fun k => (i, OnTop k, Uni q)) (seq 0 n)
  | VUni false q i _ => map (fun k => (i, OnBot k, Uni q)) (seq 0 n)
  | VPoint true p0 p1 i _ => (i, AtTop 0, Uni p0) :: (i, AtTop n, Uni p0) :: map (fun k => (i, AtTop k, Uni p1)) (seq 1 (n - 1))
  | VPoint false p0 p1 i _ => map (fun k => (i, AtBot k, Uni p1)) (seq 1 (n - 1))
  end.
(** Vertical force of a load on a Vierendeel truss. *)
Definition v_force (t : vtruss) (l : ld) : R :=
  match lv l with
  | Step _ _ _ => 0
  | Uni q =>
    match on l with
    | OnTop k => q * (fst (nth (k + 1) (vtop t) (0, 0)) - fst (nth k (vtop t) (0, 0)))
    | OnBot k => q * (fst (nth (k + 1) (vbot t) (0, 0)) - fst (nth k (vbot t) (0, 0)))
    | AtTop _ | AtBot _ => q
    | OnCol _ => 0
    end
  end.
(** Vertical force a call asks for: span [L], [n] panels. *)
Definition v_total (L : R) (n : nat) (o : vop) : R :=
  match o with
  | VUni _ q _ _ => q * L
  | VPoint true p0 p1 _ _ => 2 * p0 + (INR n - 1) * p1
  | VPoint false _ p1 _ _ => (INR n - 1) * p1
  end.

(** The load id of a call on a portal truss, and whether it loads the truss. *)
Definition pop_id (o : pop) : nat := match o with PUni _ _ i _ | PPiece _ _ i _ | PCol _ _ i _ => i end.
Definition on_truss (o : pop) : bool := match o with PCol _ _ _ _ => false | _ => true end.
(** The loads of the top chord members by zones, with the position of the member. *)
Fixpoint zone_given (q zones : list R) (i k : nat) (tops : list (R * R)) : list (nat * target * mload) :=
  match tops with
  | [] => []
  | (xa, xb) :: r =>
    match member_zone_loads q zones xa xb with Some ms => map (fun m => (i, OnTop k, m)) ms | None => [] end ++ zone_given q zones i (S k) r
  end.
(** What a call on a portal truss asks for. *)
Definition given (tops : list (R * R)) (nb : nat) (o : pop) : list (nat * target * mload) :=
  match o with
  | PUni true q i _ => map (fun k => (i, OnTop k, Uni q)) (seq 0 (length tops))
  | PUni false q i _ => map (fun k => (i, OnBot k, Uni q)) (seq 0 nb)
  | PPiece q zones i _ => zone_given q zones i 0 tops
  | PCol b q i _ => [(i, OnCol b, Uni q)]
  end.
(** What the structural analysis gets for a history of calls, after calls with the ids [seen]: the loads of the first
    truss call of every load id twice, all other loads once. *)
Fixpoint p_applied (tops : list (R * R)) (nb : nat) (seen : list nat) (os : list pop) : list (nat * target * mload) :=
  match os with
  | [] => []
  | o :: r =>
    (if on_truss o && negb (existsb (Nat.eqb (pop_id o)) seen) then given tops nb o ++ given tops nb o else given tops nb o) ++
    p_applied tops nb (pop_id o :: seen) r
  end.
(** A column load has been preceded by a truss load with its id, and every truss call loads some member. *)
Fixpoint orderly (tops : list (R * R)) (nb : nat) (seen : list nat) (os : list pop) : Prop :=
  match os with
  | [] => True
  | o :: r =>
    match o with
    | PCol _ _ i _ => In i seen
    | PUni true _ _ _ => tops <> []
    | PUni false _ _ _ => (1 <= nb)%nat
    | PPiece q zones i _ => given tops nb o <> [] /\ Forall (fun m => member_zone_loads q zones (fst m) (snd m) <> None) tops
    end /\ orderly tops nb (pop_id o :: seen) r
  end.

(** [p] is on the line through [a] and [b]. *)
Definition on_line (a b p : pt) : Prop := (fst p - fst a) * (snd b - snd a) = (snd p - snd a) * (fst b - fst a).
