(** Vocabulary for the statements about sloped trusses: members, spacing, roof surface, pin-jointed stability
    and load intensity. *)
From Verif Require Import Base EC3_model Rhs_model Truss_model.
Require Import Reals List Arith.
Import ListNotations.
Local Open Scope R_scope.

(** Numbers of nodes and of members (both chords and braces). *)
Definition node_count (t : truss) : nat := length (top_nodes t) + length (bottom_nodes t).
Definition member_count (t : truss) : nat :=
  (length (top_nodes t) - 1) + (length (bottom_nodes t) - 1) + length (braces t).

(** Node [v] exists. *)
Definition is_node (t : truss) (v : node) : Prop :=
  match v with Top i => (i < length (top_nodes t))%nat | Bot i => (i < length (bottom_nodes t))%nat end.

(** Position of a node. *)
Definition place (t : truss) (v : node) : pt :=
  match v with Top i => nth i (top_nodes t) (0, 0) | Bot i => nth i (bottom_nodes t) (0, 0) end.

(** A member of the truss joins the two nodes. *)
Definition joined (t : truss) (a b : node) : Prop :=
  match a, b with
  | Top i, Top j => (j = S i \/ i = S j) /\ (i < length (top_nodes t))%nat /\ (j < length (top_nodes t))%nat
  | Bot i, Bot j => (j = S i \/ i = S j) /\ (i < length (bottom_nodes t))%nat /\ (j < length (bottom_nodes t))%nat
  | Top i, Bot j => In (i, j) (braces t)
  | Bot j, Top i => In (i, j) (braces t)
  end.

(** [u] moves the nodes without stretching, to first order, any member that is pinned at its ends. *)
Definition strainless (t : truss) (u : node -> R * R) : Prop :=
  forall a b, joined t a b ->
  (fst (u a) - fst (u b)) * (fst (place t a) - fst (place t b)) +
  (snd (u a) - snd (u b)) * (snd (place t a) - snd (place t b)) = 0.

(** The truss with pinned members is stable on the supports: [p] held in both directions, [r] vertically. *)
Definition stable (t : truss) (p r : node) : Prop :=
  forall u, strainless t u -> u p = (0, 0) -> snd (u r) = 0 -> forall v, is_node t v -> u v = (0, 0).

(** Height of a symmetric roof of half span [L] rising by [h]. *)
Definition roof (L h x : R) : R := h / L * Rmin x (2 * L - x).

(** The x coordinates grow from one node to the next. *)
Definition x_increasing (l : list pt) : Prop :=
  forall i, (S i < length l)%nat -> fst (nth i l (0, 0)) < fst (nth (S i) l (0, 0)).

(** The nodes are mirror images about x = L. *)
Definition mirrored (L : R) (l : list pt) : Prop :=
  forall i, (i < length l)%nat ->
  fst (nth (length l - 1 - i) l (0, 0)) = 2 * L - fst (nth i l (0, 0)) /\
  snd (nth (length l - 1 - i) l (0, 0)) = snd (nth i l (0, 0)).

(** Intensity at [x] of one load of a member from [xa] to [xb]. *)
Definition intensity (xa xb x : R) (m : mload) : R :=
  match m with
  | Uni q => q
  | Step q1 q2 d => if Rlt_dec x (xa + d * (xb - xa)) then q1 else q2
  end.
(** Intensity at [x] of all loads of a member. *)
Definition total_intensity (xa xb x : R) (ms : list mload) : R := Rsum (map (intensity xa xb x) ms).

(** Value of the zone that contains [x], for the boundaries [zones] and values [q]. *)
Fixpoint zone_value (q zones : list R) (x : R) : R :=
  match q, zones with
  | q0 :: qr, z :: zr => if Rlt_dec x z then q0 else zone_value qr zr x
  | q0 :: _, [] => q0
  | [], _ => 0
  end.

(** Exactly [k] braces meet at the node [v]. *)
Definition meeting (t : truss) (v : node) (k : nat) : Prop :=
  exists l, NoDup l /\ length l = k /\
  forall i j, In (i, j) l <-> In (i, j) (braces t) /\ (v = Top i \/ v = Bot j).

(** Joint class by the number of braces that meet at the node. *)
Definition class_of (k : nat) : option jtype :=
  match k with 1 => Some JY | 2 => Some JK | 3 => Some JKT | _ => None end%nat.

(** The conditions on the number of panels under which a symmetric truss has distinct nodes. *)
Definition usable (tp : topology) (up : bool) (dx : R) (n : nat) : Prop :=
  (1 <= n)%nat /\ (tp = TN -> 0 < dx -> (2 <= n)%nat) /\ (tp = TK -> dx = 0 -> up = false -> (2 <= n)%nat).

(** Consecutive nodes from number [a] to number [b] are the distance [d] apart. *)
Definition even_gaps (a b : nat) (d : R) (l : list pt) : Prop :=
  (b < length l)%nat /\ forall i, (a <= i < b)%nat -> fst (nth (S i) l (0, 0)) - fst (nth i l (0, 0)) = d.
