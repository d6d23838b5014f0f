(** Vocabulary of the statements about stiffness factors of bolt rows. *)
Require Import Reals List.
Import ListNotations.
From Verif Require Export Brk_model.
Local Open Scope R_scope.

(** The smallest of some numbers. *)
Definition smallest (x : R) (l : list R) : Prop := In x l /\ forall y, In y l -> x <= y.
(** Row distance of the row with index [i] among rows at distances [ps]: to the only neighbour at an end, mean inside. *)
Inductive spacing (ps : list R) : nat -> bool -> R -> Prop :=
| sp_first d : nth_error ps 0 = Some d -> spacing ps 0 true d
| sp_last i d : nth_error ps i = Some d -> spacing ps (S i) true d
| sp_inner i a b : nth_error ps i = Some a -> nth_error ps (S i) = Some b -> spacing ps (S i) false ((a + b) / 2).
(** Length contributed by a row in a group, column flange without stiffener (EN 1993-1-8, Table 6.4): the smaller of the
    circular and the other pattern. *)
Definition flange_length (m e d : R) (e1 : option R) (end_ : bool) (x : R) : Prop :=
  if end_ then smallest x (match e1 with
                           | None => [PI * m + d; 2 * m + 625/1000 * e + d / 2]
                           | Some e1 => [PI * m + d; 2 * e1 + d; 2 * m + 625/1000 * e + d / 2; e1 + d / 2]
                           end)
  else smallest x [2 * d; d].
(** Length of the row in a group: its position is an end or an inner row of the group. *)
Definition in_group (j : joint) (r : row) (g : memb) (x : R) : Prop :=
  exists (d : R) (b : bool), (g_fl g = if b then End_ else Inner) /\ spacing (g_ps g) (g_i g) b d /\
    flange_length (col_flange_m j) (col_flange_e j) d (r_e1 r) b x.
(** Length of the row in a group for the end plate (EN 1993-1-8, Table 6.6); [a]: alpha of Figure 6.11.  A row in the
    extension of the plate does not form a group with others. *)
Definition in_group_plate (j : joint) (r : row) (g : memb) (x : R) : Prop :=
  let m := end_plate_m j r in let e := j_ebolts j in
  (g_pl g = Outside /\ x <= 0) \/
  (exists d a, g_pl g = FirstBelow /\ nth_error (g_ps g) (g_i g) = Some d /\ new_alpha e m (end_plate_m2 j r) = Some a /\
     smallest x [PI * m + d; d / 2 + a * m - (2 * m + 625/1000 * e)]) \/
  (exists d, g_pl g = OtherEnd /\ spacing (g_ps g) (g_i g) true d /\ smallest x [PI * m + d; 2 * m + 625/1000 * e + d / 2]) \/
  (exists d, g_pl g = OtherInner /\ spacing (g_ps g) (g_i g) false d /\ smallest x [2 * d; d]).
(** Flange positions whose row distance is looked up, and positions of end plates. *)
Definition plain (g : memb) : Prop := (g_fl g = End_ \/ g_fl g = Inner) /\
  (g_pl g = Outside \/ g_pl g = FirstBelow \/ g_pl g = OtherEnd \/ g_pl g = OtherInner).
(** Inner rows are not the first of their group. *)
Definition indexed (g : memb) : Prop := g_fl g = Inner \/ g_pl g = OtherInner -> (0 < g_i g)%nat.
(** A row whose own lengths are positive, in a joint with positive dimensions. *)
Definition row_ok (fa : R -> R -> option R) (j : joint) (r : row) : Prop :=
  0 < s_tw (j_col j) /\ 0 < s_hw (j_col j) /\ 0 < s_tf (j_col j) /\ 0 < j_tp j /\ 0 < col_flange_m j /\ 0 < end_plate_m j r /\
  0 < t_As (b_data (r_bolt r)) /\ 0 < Lb j (r_bolt r) /\
  (forall x, flange_cp (col_flange_m j) (r_e1 r) (r_fl r) = Some x -> 0 < x) /\
  (forall x, flange_nc fa (col_flange_e j) (col_flange_m j) (r_e1 r) (stiff_m2 j r) (r_fl r) = Some x -> 0 < x) /\
  (forall x, plate_cp (end_plate_m j r) (j_ebolts j) (j_p j) (r_pl r) = Some x -> 0 < x) /\
  (forall x, plate_nc (end_plate_m j r) (end_plate_m2 j r) (j_ebolts j) (emin_plate j r) (j_p j) (j_bp j) (r_pl r) = Some x -> 0 < x).
