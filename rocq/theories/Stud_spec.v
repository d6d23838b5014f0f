(** EN 1994-1-1, 6.6.3.1: design resistance of a headed stud. *)
Require Import Reals.
Local Open Scope R_scope.

(** (6.18): shank of the stud, gammaV = 1.25. *)
Definition std_shank (fu d : R) : R := 8/10 * fu * (PI * d ^ 2 / 4) / (125/100).
(** (6.20), (6.21): factor for short studs. *)
Definition std_alpha (len d : R) : R := Rmin (2/10 * (len / d + 1)) 1.
(** (6.19): concrete. *)
Definition std_concrete (len d fck Ecm : R) : R := 29/100 * std_alpha len d * d ^ 2 * sqrt (fck * Ecm) / (125/100).
(** The smaller one. *)
Definition std_stud (len d fu fck Ecm : R) : R := Rmin (std_shank fu d) (std_concrete len d fck Ecm).
