(** Specification vocabulary for cold-formed sections. *)
From Verif Require Export CfProf_model.

(** Every flange has no lip or a real one. *)
Definition lips (s : cf) : Prop := 0 <= c_ca s /\ 0 <= c_cb s.
(** Number of corners. *)
Definition corners (s : cf) : R := 2 + (if Rltb 0 (c_ca s) then 1 else 0) + (if Rltb 0 (c_cb s) then 1 else 0).
(** No straight part has a negative length. *)
Definition fits (s : cf) : Prop :=
  lips s /\ 0 < cf_rm s /\ 0 <= cf_hw s /\ 0 <= c_top s /\ 0 <= c_bottom s /\ 0 <= straight_lip s (c_ca s) /\ 0 <= straight_lip s (c_cb s).
(** The inner nodes of the top flange and of its lip lie between their end nodes. *)
Definition ordered (s : cf) : Prop :=
  if Rltb 0 (c_ca s) then cf_rm s <= bt_center s / 4 /\ cf_rm s <= lip_center s (c_ca s) / 2 else cf_rm s <= bt_center s / 2.
(** Length of four equal chords of a quarter circle with radius one. *)
Definition chords : R := 8 * sin (PI / 16).
(** The length of the top flange, of the top lip, as the nodes run. *)
Definition run_top (s : cf) : R :=
  if Rltb 0 (c_ca s) then Rmax (c_top s) (2 * cf_rm s) + Rmax (straight_lip s (c_ca s)) (cf_rm s) else Rmax (c_top s) (cf_rm s).
(** From the end of a straight part to the middle of the corner. *)
Definition half_corner (s : cf) : R := cf_rm s * sin (PI / 4).
(** The factors are between zero and one and the effective parts reach past the corners. *)
Definition factors (e : cfeff) : Prop :=
  0 <= e_rt e <= 1 /\ 0 <= e_rtl e <= 1 /\ 0 <= e_rw e <= 1 /\ 0 <= e_rb e <= 1 /\ 0 <= e_rbl e <= 1.
(** The average yield strength of EN 1993-1-3, 3.2.2, with [n] corners of 90 degrees. *)
Definition average_yield (fyb fu t Ag n : R) : R := Rmin (fyb + (fu - fyb) * 7 * n * t ^ 2 / Ag) ((fu + fyb) / 2).
(** Length of an edge stiffener: half of the effective flange with the notional width [bp], its corner and the lip [c]. *)
Definition stiffener (s : cf) (rho bp c : R) : R := 1/2 * rho * bp + cf_gr s - cf_rm s + chords * cf_rm s + straight_lip s c.
(** What a slender flange loses: the part with the factor zero, from the stiffener to the quarter point of the
    top flange, to the third point of the bottom flange. *)
Definition lost_top (s : cf) (rho bp : R) : R := if Rltb rho 1 then bt_center s - cf_gr s - 1/2 * rho * bp - bt_center s / 4 else 0.
Definition lost_bottom (s : cf) (rho bp : R) : R := if Rltb rho 1 then bb_center s - cf_gr s - 1/2 * rho * bp - (cf_rm s + c_bottom s / 3) else 0.
(** The nodes of a C section with two lips once both edge stiffeners have been made. *)
Definition after (s : cf) (e : cfeff) (bt bb blt blb : R) : list pt2 :=
  stiff_bot s (e_rb e) (e_rbl e) bb blb (stiff_top s (e_rt e) (e_rtl e) bt blt (cf_points s)).
(** The web, width [bw], is slender in uniform compression: EN 1993-1-5, 4.4, with the stress ratio one. *)
Definition slender_web (m : cfmat) (s : cf) (bw : R) : Prop := 284/10 * m_eps m * cf_t s * (1 + 2 * sqrt (3/100)) < bw.
(** Stiffness of an edge stiffener at [b1] from the web, EN 1993-1-3 (5.10b), with the other one at [b2]. *)
Definition spring_of (m : cfmat) (s : cf) (b1 b2 kf : R) : R :=
  m_E m * cf_t s ^ 3 / (4 * (1 - m_nu m ^ 2)) / (b1 ^ 2 * hw_center s + b1 ^ 3 + 1/2 * b1 * b2 * hw_center s * kf).
(** The three slenderness ratios of EN 1993-1-3, 6.1.3. *)
Definition ratio (s : cf) (e : cfeff) : R :=
  Rmax (Rmax (e_lw e / (673/1000)) (e_lt e / (if Rltb 0 (c_ca s) then 65/100 else 673/1000)))
       (e_lb e / (if Rltb 0 (c_cb s) then 65/100 else 673/1000)).
(** Mean flange reduction factor of EN 1993-1-5 for an outstand flange of width [bp] in uniform compression. *)
Definition outstand_factor (m : cfmat) (s : cf) (bp : R) : R :=
  let l := bp / (284/10 * m_eps m * cf_t s * sqrt (43/100)) in if Rle_dec l (748/1000) then 1 else Rmin ((l - 188/1000) / l ^ 2) 1.
(** Sum of the notional plane widths: web, flanges and lips, each between the middles of its corners. *)
Definition notional_sum (s : cf) : R :=
  (hw_center s - 2 * cf_gr s) +
  (b_center s (c_a s) (c_ca s) - (if Rltb 0 (c_ca s) then 2 else 1) * cf_gr s) + (b_center s (c_b s) (c_cb s) - (if Rltb 0 (c_cb s) then 2 else 1) * cf_gr s) +
  (if Rltb 0 (c_ca s) then lip_center s (c_ca s) - cf_gr s else 0) + (if Rltb 0 (c_cb s) then lip_center s (c_cb s) - cf_gr s else 0).
