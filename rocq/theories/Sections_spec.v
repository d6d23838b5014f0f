(** Specification vocabulary for the cross-section properties. *)
From Verif Require Export Sections_model.

(** Last value assigned to dimension [d] in a history, starting from [x0]. *)
Definition dim_eqb (a b : dim) : bool :=
  match a, b with dH, dH => true | dB, dB => true | dT, dT => true | _, _ => false end.
Fixpoint last_value (d : dim) (x0 : R) (es : list (dim * R)) : R :=
  match es with [] => x0 | (k, v) :: es => last_value d (if dim_eqb k d then v else x0) es end.

(** A rectangle H x B with corners rounded to radius r: the rectangle less four corner squares
    plus four quarter discs.  Area, static moment of both halves about the mid axis (the
    integral of |z|) and second moment (the integral of z^2).  A quarter disc of radius r
    whose centre lies at height a has area pi r^2/4, static moment a pi r^2/4 + r^3/3 and
    second moment a^2 pi r^2/4 + 2 a r^3/3 + pi r^4/16 about the axis. *)
Definition rr_area (H B r : R) : R := H * B - 4 * (r * r - PI * r ^ 2 / 4).
Definition rr_static (H B r : R) : R :=
  let a := H / 2 - r in
  B * H ^ 2 / 4 - 4 * (r * ((H / 2) ^ 2 - a ^ 2) / 2 - (a * (PI * r ^ 2 / 4) + r ^ 3 / 3)).
Definition rr_inertia (H B r : R) : R :=
  let a := H / 2 - r in
  B * H ^ 3 / 12 - 4 * (r * ((H / 2) ^ 3 - a ^ 3) / 3 - (a ^ 2 * (PI * r ^ 2 / 4) + 2 * a * r ^ 3 / 3 + PI * r ^ 4 / 16)).
(** Its boundary: four straight sides and a circle. *)
Definition rr_perimeter (H B r : R) : R := 2 * (H - 2 * r) + 2 * (B - 2 * r) + 2 * PI * r.
(** Wall thickness positive and both sides long enough for the corners. *)
Definition rhs_valid (H B T : R) : Prop := 0 < T /\ 2 * RHS_outer_radius T <= H /\ 2 * RHS_outer_radius T <= B.

(** Stacked rectangles: a rectangle of width [w] between heights [lo] and [hi]. *)
Record slab := mkSlab { s_w : R; s_lo : R; s_hi : R }.
(** Area of the part below height [z]. *)
Definition slab_below (z : R) (s : slab) : R := s_w s * (Rmax (s_lo s) (Rmin (s_hi s) z) - s_lo s).
(** Integral of (y - z) over the slab. *)
Definition slab_first (z : R) (s : slab) : R := s_w s * ((s_hi s - z) ^ 2 - (s_lo s - z) ^ 2) / 2.
(** Integral of |y - z|: the parts above and below taken with their own sign. *)
Definition slab_abs (z : R) (s : slab) : R :=
  let m := Rmax (s_lo s) (Rmin (s_hi s) z) in
  s_w s * ((s_hi s - z) ^ 2 - (m - z) ^ 2) / 2 + s_w s * ((s_lo s - z) ^ 2 - (m - z) ^ 2) / 2.
(** Integral of (y - z)^2. *)
Definition slab_second (z : R) (s : slab) : R := s_w s * ((s_hi s - z) ^ 3 - (s_lo s - z) ^ 3) / 3.
(** Sum over the plates of a section. *)
Definition over (f : slab -> R) (l : list slab) : R := fold_right Rplus 0 (map f l).
(** The plates of a welded I-section, measured from the bottom. *)
Definition wi_plates (d : wi) : list slab :=
  [mkSlab (w_bb d) 0 (w_tb d); mkSlab (w_tw d) (w_tb d) (w_h d - w_tt d); mkSlab (w_bt d) (w_h d - w_tt d) (w_h d)].
Definition wi_valid (d : wi) : Prop :=
  0 < w_tw d /\ 0 < w_bt d /\ 0 < w_bb d /\ 0 < w_tt d /\ 0 < w_tb d /\ 0 < w_h d - w_tt d - w_tb d.
Definition doubly_symmetric (d : wi) : Prop := w_bt d = w_bb d /\ w_tt d = w_tb d.
(** Upside down. *)
Definition flip (d : wi) : wi := mkWi (w_h d) (w_tw d) (w_bb d) (w_bt d) (w_tb d) (w_tt d) (w_a d).
(** Outline of an I made of three plates: all edges that face outwards. *)
Definition i_outline (h bt bb tt tb tw : R) : R :=
  bt + bb + 2 * tt + 2 * tb + 2 * (h - tt - tb) + (bt - tw) + (bb - tw).
(** EN 1993-1-1 6.2.9.1(5): a = (A - 2 b tf)/A but at most 0.5; here for unequal flanges. *)
Definition code_aw (A Aflanges : R) : R := Rmin ((A - Aflanges) / A) (1/2).

(** The plates of a WQ beam: bottom plate, two webs standing on it, and the top plate between
    the webs, flush with their tops. *)
Definition wq_plates (d : wq) : list slab :=
  [mkSlab (q_bb d) 0 (q_tb d); mkSlab (2 * q_tw d) (q_tb d) (q_tb d + q_h d);
   mkSlab (q_bt d) (q_tb d + q_h d - q_tt d) (q_tb d + q_h d)].
Definition wq_valid (d : wq) : Prop :=
  0 < q_tw d /\ 0 < q_bt d /\ 0 < q_bb d /\ 0 < q_tt d /\ 0 < q_tb d /\ q_tt d < q_h d.
