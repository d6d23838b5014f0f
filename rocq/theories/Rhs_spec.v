(** Definitions used in the statements about lines and hollow section joints. *)
From Coq Require Import Rpower.
From Verif Require Import Rhs_model.

(** Point [x] lies on the line through [p] with direction [v]. *)
Definition on_line (l : line) (x : pt) : Prop := exists t, x = (fst (l_p l) + t * fst (l_v l), snd (l_p l) + t * snd (l_v l)).
(** Euclidean distance of two points. *)
Definition dist2 (a b : pt) : R := sqrt ((fst a - fst b) ^ 2 + (snd a - snd b) ^ 2).

(** Chords and braces with positive data. *)
Definition chord_ok (c : chord) : Prop :=
  0 < c_h c /\ 0 < c_b c /\ 0 < c_t c /\ 0 < c_fy c /\ 0 < c_A c /\ 0 < c_W c /\ 0 < c_V c.
Definition brace_ok (b : brace) : Prop :=
  0 < br_t b /\ 2 * br_t b <= br_h b /\ 0 < br_b b /\ 0 < br_fy b.
(** Angles of braces in degrees. *)
Definition angle_ok (a : R) : Prop := 0 < a <= 90.

(** The axis of a brace of a K gap joint in the coordinates with the chord axis as x axis and the
    middle of the gap on the y axis; [left] chooses the side. *)
Definition brace_axis (left : bool) (h0 h a g : R) : line :=
  let k := if left then -1 else 1 in
  mkLine (k * (g / 2 + h / (2 * sin (rad a))), h0 / 2) (k * cos (rad a), sin (rad a)).

(** A K joint with sane data. *)
Definition k_ok (j : kjoint) : Prop :=
  chord_ok (k_c j) /\ brace_ok (k_b1 j) /\ brace_ok (k_b2 j) /\ angle_ok (k_a1 j) /\ angle_ok (k_a2 j) /\
  0 <= k_gap j /\ 0 <= k_r j /\ 0 <= k_tp j.
(** A Y joint with sane data. *)
Definition y_ok (j : yjoint) : Prop :=
  chord_ok (y_c j) /\ brace_ok (y_b j) /\ angle_ok (y_a j) /\ 0 <= y_r j /\ 0 <= y_imp j <= 1.
(** The stress at the chord face does not exceed the yield strength. *)
Definition elastic (c : chord) (N0 M0 : R) : Prop := - N0 / c_A c + M0 / c_W c <= c_fy c.

(** K joints that differ only in the chord forces. *)
Definition k_forces (j : kjoint) (N0 M0 : R) : kjoint :=
  mkK (k_c j) (k_b1 j) (k_b2 j) (k_a1 j) (k_a2 j) (k_gap j) N0 M0 (k_r j) (k_tp j).
Definition y_forces (j : yjoint) (N0 M0 : R) : yjoint :=
  mkY (y_c j) (y_b j) (y_a j) N0 M0 (y_N1 j) (y_r j) (y_imp j).
(** A brace with the same axial force in all its sections. *)
Definition uniform (b : brace) (N : R) : Prop := br_ned b <> [] /\ forall x, In x (br_ned b) -> x = N.
(** Y joints that differ only in the width of the brace, or in the angle. *)
Definition y_width (j : yjoint) (w : R) : yjoint :=
  let b := y_b j in mkY (y_c j) (mkBrace (br_h b) w (br_t b) (br_fy b) (br_ned b)) (y_a j) (y_N0 j) (y_M0 j) (y_N1 j) (y_r j) (y_imp j).
Definition y_angle (j : yjoint) (a : R) : yjoint :=
  mkY (y_c j) (y_b j) a (y_N0 j) (y_M0 j) (y_N1 j) (y_r j) (y_imp j).
(** Linear interpolation between the value [f] at 0.85 and the value [w] at 1. *)
Definition interp (b f w : R) : R := f * (1 - b) / (15/100) + w * (b - 85/100) / (15/100).
(** EN 1993-1-8, Table 7.12: resistances of K gap joints of square or rectangular hollow sections, in
    terms of dimensions (chord h0 b0 t0 fy0; brace h b t fy; [s] sine of the angle; [g] gap). *)
Definition std_face (kn fy0 t0 b0 beta s : R) : R := 89/10 * kn * fy0 * t0 ^ 2 * sqrt (b0 / (2 * t0)) * beta / s.
Definition std_shear (fy0 h0 b0 t0 g s : R) : R := fy0 * ((2 * h0 + b0 * / sqrt (1 + 4 * g ^ 2 / (3 * t0 ^ 2))) * t0) / (sqrt 3 * s).
Definition std_brace (fy0 b0 t0 fy h b t : R) : R := fy * t * (2 * h - 4 * t + b + Rmin b (10 * t0 / b0 * (fy0 * t0) / (fy * t) * b)).
Definition std_punch (fy0 b0 t0 h b s : R) : R := fy0 * t0 / (sqrt 3 * s) * (2 * h / s + b + Rmin b (10 * t0 / b0 * b)).
(** Table 7.11: brace failure and punching shear of T, Y and X joints. *)
Definition std_y_brace (fy0 b0 t0 fy h b t : R) : R := fy * t * (2 * h - 4 * t + 2 * Rmin b (10 * t0 / b0 * (fy0 * t0) / (fy * t) * b)).
Definition std_y_punch (fy0 b0 t0 h b s : R) : R := fy0 * t0 / (sqrt 3 * s) * (2 * h / s + 2 * Rmin b (10 * t0 / b0 * b)).
