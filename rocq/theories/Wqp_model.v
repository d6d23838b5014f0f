(** Model of the plastic section moduli of WQ beams (metku/sections/steel/wq.py:235-298). *)
Require Import Reals List Bool.
Import ListNotations.
From Verif Require Export Sections_model.
Local Open Scope R_scope.

(** wq.py:244-248 second moment about the vertical axis. *)
Definition wq_Iz (d : wq) : R :=
  let yw := 5 / 10 * (q_bt d + q_tw d) in
  1/12 * q_tb d * q_bb d ^ 3 + 1/12 * q_tt d * q_bt d ^ 3 + 1/6 * q_h d * q_tw d ^ 3 + yw ^ 2 * 2 * q_Aw d.
(** wq.py:263 elastic modulus about the vertical axis. *)
Definition wq_Welz (d : wq) : R := wq_Iz d / (5 / 10 * q_bb d).
(** wq.py:267-293 plastic modulus about the horizontal axis. *)
Definition wq_Wply (d : wq) : R :=
  let p := wq_zpl d in
  if Rltb p 0 then 0
  else if Rltb (q_hw d) p then 0
  else
    let rt := p + 5 / 10 * q_tt d in
    let rw1 := 5 / 10 * (p + q_tt d) in
    let rw2 := 5 / 10 * (q_hw d - p) in
    let rb := q_hw d - p + 5 / 10 * q_tb d in
    q_At d * rt + 2 * (p + q_tt d) * q_tw d * rw1 + 2 * (q_hw d - p) * q_tw d * rw2 + q_Ab d * rb.
(** wq.py:295-297 plastic modulus about the vertical axis. *)
Definition wq_Wplz (d : wq) : R := 1/4 * q_Ab d * q_bb d + 1/4 * q_At d * q_bt d + q_Aw d * (q_bt d + q_tw d).
(** wq.py:215-217 circumference to be painted; 114-117 lip. *)
Definition wq_lip (d : wq) : R := 5 / 10 * (q_bb d - q_bt d) - q_tw d.
(** wq.py:215-217. *)
Definition wq_paint (d : wq) : R := q_bb d + 2 * q_tb d + 2 * wq_lip d + 2 * (q_h d + q_tw d) + q_bt d.
