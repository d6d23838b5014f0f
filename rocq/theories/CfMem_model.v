(** Model of cold-formed members (metku/structures/steel/cf_steel_member.py:16-80, steel_member.py:194-234). *)
Require Import Reals List Bool.
Import ListNotations.
From Verif Require Export EC3_model.
Local Open Scope R_scope.

(** Profile and member: the attributes read by the methods (cf_steel_member.py:25, 46, 58, 74-80; steel_member.py:55, 222-224).
    The second moments, buckling length factors and imperfection factors are given for the axes y and z. *)
Record cfm := mkCf { f_Aeff : R; f_fy : R; f_E : R; f_G : R; f_Iy : R; f_Iz : R; f_It : R; f_Iw : R; f_h : R;
  f_ay : R; f_az : R; f_L : R; f_ky : R; f_kz : R }.
(** steel_member.py:220-234 ncrit, one axis; lengths are non-zero. *)
Definition cf_ncr (m : cfm) (I k : R) : R := PI ^ 2 * f_E m * I / (f_L m * k) ^ 2.
(** cf_steel_member.py:23-38 slenderness, one axis. *)
Definition cf_slend (m : cfm) (I k : R) : R := sqrt (f_Aeff m * f_fy m / cf_ncr m I k).
(** cf_steel_member.py:57-60: reduction factor; math.sqrt raises for a negative number. *)
Definition cf_chi (a s : R) : option R :=
  let p := 5 / 10 * (1 + a * (s - 2 / 10) + s ^ 2) in
  bind (psqrt (p ^ 2 - s ^ 2)) (fun q => bind (pdiv 1 (p + q)) (fun r => Some (Rmin r 1))).
(** cf_steel_member.py:40-67 buckling_strength: [NbRd,y; NbRd,z]. *)
Definition cf_strength (m : cfm) : option (list R) :=
  let N := f_Aeff m * f_fy m in
  bind (cf_chi (f_ay m) (cf_slend m (f_Iy m) (f_ky m))) (fun ry =>
  bind (cf_chi (f_az m) (cf_slend m (f_Iz m) (f_kz m))) (fun rz => Some [N * ry; N * rz])).
(** cf_steel_member.py:69-80 Sreq. *)
Definition cf_Sreq (m : cfm) : R :=
  let Sw := f_E m * f_Iw m * PI ^ 2 / f_L m ^ 2 in
  let St := f_G m * f_It m in
  let Sz := f_E m * f_Iz m * PI ^ 2 / f_L m ^ 2 * (25 / 100) * f_h m ^ 2 in
  (Sw + St + Sz) * 70 / f_h m ^ 2.
