(** Vocabulary of the statements about the plastic moduli of WQ beams. *)
Require Import Reals List.
Import ListNotations.
From Verif Require Export Sections_spec Wqp_model.
Local Open Scope R_scope.

(** Heights of the plates of a WQ beam as slabs across the width, measured from the plane of symmetry. *)
Definition wq_across (d : wq) : list slab :=
  [mkSlab (q_tb d) (- (q_bb d / 2)) (q_bb d / 2); mkSlab (q_tt d) (- (q_bt d / 2)) (q_bt d / 2);
   mkSlab (q_h d) (- (q_bt d / 2 + q_tw d)) (- (q_bt d / 2)); mkSlab (q_h d) (q_bt d / 2) (q_bt d / 2 + q_tw d)].
(** Plastic axis above the bottom of the section. *)
Definition wq_axis (d : wq) : R := q_tb d + q_h d - q_tt d - wq_zpl d.
(** Outline of the section: pairs of corners, with the edges along the outside. *)
Definition edge (p q : R * R) : R := Rabs (fst p - fst q) + Rabs (snd p - snd q).
Fixpoint along (l : list (R * R)) : R := match l with p :: ((q :: _) as r) => edge p q + along r | _ => 0 end.
Definition wq_outline (d : wq) : list (R * R) :=
  let b := q_bb d / 2 in let a := q_bt d / 2 + q_tw d in let t := q_tb d in let h := q_tb d + q_h d in
  [(- b, 0); (b, 0); (b, t); (a, t); (a, h); (- a, h); (- a, t); (- b, t); (- b, 0)].
