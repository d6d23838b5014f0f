(** Specification of composite beams and concrete filled tubes by areas and stress blocks. *)
From Verif Require Import Base EC3_model Comp_model Sections_spec.
Require Import Reals List.
Import ListNotations.
Local Open Scope R_scope.

(** A beam with positive dimensions and stiffnesses. *)
Definition beam_ok (c : cbeam) : Prop :=
  0 < beff c /\ 0 < l_hc (m_slab c) /\ 0 <= l_ha (m_slab c) /\
  0 < i_h (m_s c) /\ 0 < i_A (m_s c) /\ 0 < i_I (m_s c) /\ 0 < i_E (m_s c) /\ 0 < i_fy (m_s c) /\
  0 < i_tf (m_s c) /\ 0 < i_tw (m_s c) /\ i_tw (m_s c) <= i_b (m_s c) /\ 0 < i_hw (m_s c).

(** The steel part from its top edge downwards: area above depth z and its static moment about the
    top edge (flange of width b and depth tf, then the web). *)
Definition steel_above (s : steel_i) (z : R) : R := i_b s * Rmin z (i_tf s) + i_tw s * (z - Rmin z (i_tf s)).
Definition static_above (s : steel_i) (z : R) : R :=
  let y := Rmin z (i_tf s) in i_b s * y ^ 2 / 2 + i_tw s * (z ^ 2 - y ^ 2) / 2.
(** Stress blocks with the neutral axis at depth z below the top of the steel: the slab compressed with Rc in its
    centre, the steel above the axis compressed and the rest in tension.  Resulting force and moment about the
    top of the slab. *)
Definition block_force (c : cbeam) (Rc z : R) : R := m_Ra c - 2 * i_fy (m_s c) * steel_above (m_s c) z - Rc.
Definition block_moment (c : cbeam) (Rc z : R) : R :=
  m_Ra c * (l_h (m_slab c) + i_h (m_s c) / 2) -
  2 * i_fy (m_s c) * (steel_above (m_s c) z * l_h (m_slab c) + static_above (m_s c) z) - Rc * (l_hc (m_slab c) / 2).

(** The concrete core of a tube and the bars: rectangle with rounded corners less the bars. *)
Definition tube_ok (c : col) : Prop :=
  let t := k_t c in 0 < t_T t /\ t_T t <= t_R t /\ 2 * t_R t <= t_H t /\ 2 * t_R t <= t_B t /\ 0 < t_A t /\ 0 < t_I t /\ 0 < t_W t /\
  0 < t_E t /\ 0 < t_fy t /\ 0 < k_d c /\ 0 < k_fs c /\ k_n c = 4 /\ 0 < k_Ac c.
Definition core_h (c : col) : R := t_H (k_t c) - 2 * t_T (k_t c).
Definition core_b (c : col) : R := t_B (k_t c) - 2 * t_T (k_t c).
Definition core_r (c : col) : R := t_R (k_t c) - t_T (k_t c).
Definition with_length (L : R) (c : col) : col :=
  mkCol L (k_t c) (k_g c) (k_RH c) (k_d c) (k_fs c) (k_y c) (k_z c) (k_n c) (k_ned c) (k_nged c) (k_m0 c) (k_m1 c) (k_ly c) (k_lz c).
Definition with_forces (n ng m0 m1 : R) (c : col) : col :=
  mkCol (k_L c) (k_t c) (k_g c) (k_RH c) (k_d c) (k_fs c) (k_y c) (k_z c) (k_n c) n ng m0 m1 (k_ly c) (k_lz c).
(** Full plastic stress distribution of a filled tube with the neutral axis [z] above the centroid, in the straight part of
    the webs; compression above the axis.  [inside]: the bars lie between -z and z and are all in tension; otherwise two
    bars are above and two below.  Concrete carries compression only and is missing where the bars are. *)
Definition tube_force (fy fs fc : R) (c : col) (inside : bool) (z : R) : R :=
  let As := 4 * (PI * k_d c ^ 2 / 4) in
  - fy * (4 * t_T (k_t c) * z) + fc * (rr_area (core_h c) (core_b c) (core_r c) / 2 - core_b c * z - (if inside then 0 else As / 2)) -
  (if inside then fs * As else 0).
(** Its moment about the centroid. *)
Definition tube_moment (fy fs fc : R) (c : col) (inside : bool) (z : R) : R :=
  let Ss := 4 * (PI * k_d c ^ 2 / 4) * k_z c in
  fy * (t_W (k_t c) - 2 * t_T (k_t c) * z ^ 2) + fc * (rr_static (core_h c) (core_b c) (core_r c) / 2 - core_b c * z ^ 2 / 2 - (if inside then 0 else Ss / 2)) +
  (if inside then 0 else fs * Ss).
