(** Model of the wind pressures on flat roofs (metku/eurocodes/en1991/en1991_1_4.py:57-60, 389-432).
    [None] stands for a raised exception.  Printing is not modelled. *)
From Verif Require Export EC3_model.
Require Import List. Import ListNotations.
Local Open Scope R_scope.

(** The four zones of the roof (en1991_1_4.py:409-413). *)
Inductive zname := ZF | ZG | ZH | ZI.
(** One zone (en1991_1_4.py:409-413); a single number for cpe or we is a list of one number. *)
Record zone := mkZ { z_len : R; z_wid : R; z_cpe : list R; z_we : list R }.
(** en1991_1_4.py:57-60 the coefficients cpe10 for sharp eaves. *)
Definition cpe10 (k : zname) : list R :=
  match k with ZF => [-18/10] | ZG => [-12/10] | ZH => [-7/10] | ZI => [2/10; -2/10] end.
(** en1991_1_4.py:404-413 the zones before their pressures are set. *)
Definition bare_zone (d b e : R) (k : zname) : zone :=
  match k with
  | ZF => mkZ (25/100 * e) (1/10 * e) [0] [0]
  | ZG => mkZ (b - 5/10 * e) (1/10 * e) [0] [0]
  | ZH => mkZ b (4/10 * e) [0] [0]
  | ZI => mkZ b (d - 5/10 * e) [0] [0]
  end.
(** en1991_1_4.py:425-430 the pressures of one zone. *)
Definition set_pressure (qp : R) (k : zname) (z : zone) : zone :=
  mkZ (z_len z) (z_wid z) (cpe10 k) (map (fun c => qp * c) (cpe10 k)).
(** en1991_1_4.py:389-432 flat_roof_pressure. *)
Definition flat_roof_pressure (d b h qp hp : R) : option (zname -> zone) :=
  let e := Rmin b (2 * h) in
  bind (pdiv h d) (fun _ =>
  Some (fun k => if Reqb hp 0 then set_pressure qp k (bare_zone d b e k) else bare_zone d b e k)).
