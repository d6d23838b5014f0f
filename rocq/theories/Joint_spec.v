(** Definitions used in the statements about bolts, T-stubs and joint components. *)
From Coq Require Import Rpower.
From Verif Require Import Joint_model.

(** Length [k] is sold for the size. *)
Definition stocked (size k : nat) : Prop := exists sizes, In (k, sizes) part_thread /\ In size sizes.
(** The shortest sold length that is at least [len]. *)
Definition shortest_stock (size : nat) (len : R) (k : nat) : Prop :=
  stocked size k /\ len <= INR k /\ forall k', stocked size k' -> len <= INR k' -> (k <= k')%nat.

(** The minimum distances of EN 1993-1-8, Table 3.3. *)
Definition min_distances (d0 e1 e2 p1 p2 : R) : Prop :=
  12/10 * d0 <= e1 /\ 12/10 * d0 <= e2 /\ 22/10 * d0 <= p1 /\ 24/10 * d0 <= p2.

(** The directional criterion of EN 1993-1-8, 4.5.3.2 for [n] equal fillet welds of throat [a] that
    carry the force [F] per unit length perpendicular to the plate they join. *)
Definition welds_ok (beta fu F a n : R) : Prop :=
  let s := F / (n * a * sqrt 2) in sqrt (s ^ 2 + 3 * s ^ 2) <= fu / (beta * (125/100)).

(** A T-stub with positive dimensions. *)
Definition stub_ok (t : tstub) : Prop :=
  0 < ts_tf t /\ 0 < ts_fy t /\ 0 < ts_emin t /\ 0 < ts_m t /\ 0 < ts_cp t /\ 0 < ts_nc t /\ 0 < ts_F3 t.

(** The T-stub of an inner row of an unstiffened flange: bolts at distance [m] from the web. *)
Definition inner_stub (tf fy emin e F m : R) : tstub := mkT tf fy emin m (2 * PI * m) (4 * m + 125/100 * e) F.

(** The resistance of a T-stub. *)
Definition resistance (t : tstub) : option R := option_map fst (FT_Rd t).

(** Row positions used for column flanges without stiffeners, and for end plates. *)
Definition flange_loc (l : loc) : Prop := l = Inner \/ l = End_ \/ l = OtherInner \/ l = OtherEnd.
Definition plate_loc (l : loc) : Prop := l = FirstBelow \/ l = OtherInner \/ l = OtherEnd.

(** Positions of a group of k + 2 rows of a column flange. *)
Definition chain (k : nat) : list loc := End_ :: repeat Inner k ++ [End_].

(** A column with positive dimensions. *)
Definition prof_ok (c : prof) : Prop :=
  0 < s_fy c /\ 0 < s_Av c /\ 0 <= s_r c /\ 0 < s_tf c /\ 0 < s_tw c /\ 0 < s_hw c /\ 0 < s_E c.
