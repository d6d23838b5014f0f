(** Specifications for the classification of cross-sections, from EN 1993-1-1 5.5.2 and
    statics. *)
From Verif Require Export EC3_spec Sections_spec.
From Verif Require Import Sections_model Secls_model.
Require Import Reals Lra.
Local Open Scope R_scope.

(** An I-section that could be rolled: positive thicknesses, a straight part in the web and
    none of negative width in the flange. *)
Definition i_valid (s : isec) : Prop :=
  0 < i_tw s /\ 0 < i_tf s /\ 0 <= i_r s /\ 0 < i_h s - 2 * i_tf s - 2 * i_r s
  /\ 0 <= i_b s - i_tw s - 2 * i_r s /\ 0 < i_A s /\ 0 < i_W s.
(** Slenderness of the flange outstand and of the straight part of the web. *)
Definition i_cf_tf (s : isec) : R := ((i_b s - i_tw s) / 2 - i_r s) / i_tf s.
Definition i_cw_tw (s : isec) : R := (i_h s - 2 * i_tf s - 2 * i_r s) / i_tw s.
(** Compression carried by a web of height c and thickness t, fully yielded, when the share a
    of its height is compressed. *)
Definition web_force (fy c t a : R) : R := fy * t * (a * c) - fy * t * ((1 - a) * c).
(** a is the compressed share of the web: the web alone carries the axial force N (tension
    positive), and is compressed or stretched throughout when it cannot. *)
Definition plastic_share (fy c t N a : R) : Prop :=
  (Rabs N <= fy * t * c -> web_force fy c t a = - N) /\ (N < - (fy * t * c) -> a = 1) /\ (fy * t * c < N -> a = 0).
(** Elastic stresses of the two outermost fibres, compression positive. *)
Definition top_stress (A W N M : R) : R := - N / A + M / W.
Definition bottom_stress (A W N M : R) : R := - N / A - M / W.
(** Stress ratio of Table 5.2: the smaller over the larger compression. *)
Definition stress_ratio (x y : R) : R := Rmin x y / Rmax x y.
(** Classes of the parts by Table 5.2 for epsilon e. *)
Definition outstand_class (e r : R) (c : nat) : Prop := table_class (9 * e) (10 * e) (14 * e) r c.
Definition compressed_class (e r : R) (c : nat) : Prop := table_class (33 * e) (38 * e) (42 * e) r c.
Definition bent_class (e r : R) (c : nat) : Prop := table_class (72 * e) (83 * e) (124 * e) r c.
Definition combined_class (e a p r : R) (c : nat) : Prop := table_class (lim1 e a) (lim2 e a) (lim3 e p) r c.
Definition tube_class (e r : R) (c : nat) : Prop := table_class (50 * e ^ 2) (70 * e ^ 2) (90 * e ^ 2) r c.

(** EN 1993-1-1 Table 6.2, rolled I-sections: curves about y and z by the ratio h/b, the
    flange thickness and the steel (S460 or one of the lower grades). *)
Inductive table_6_2 (h b tf : R) : bool -> curve -> curve -> Prop :=
| deep_thin : forall hi, 12/10 * b < h -> tf <= 40 -> table_6_2 h b tf hi (if hi then a0 else ca) (if hi then a0 else cb)
| deep_thick : forall hi, 12/10 * b < h -> 40 < tf -> tf <= 100 -> table_6_2 h b tf hi (if hi then ca else cb) (if hi then ca else cc)
| wide_thin : forall hi, h <= 12/10 * b -> tf <= 100 -> table_6_2 h b tf hi (if hi then ca else cb) (if hi then ca else cc)
| wide_thick : forall hi, h <= 12/10 * b -> 100 < tf -> table_6_2 h b tf hi (if hi then cc else cd) (if hi then cc else cd).

(** Compressed share of the straight part of the web of a welded I-section bent about its
    major axis, for the plastic neutral axis at height z. *)
Definition welded_share (d : wi) (z : R) : R :=
  Rmax 0 (Rmin 1 ((w_h d - w_tt d - sqrt 2 * w_a d - z)
                  / ((w_h d - w_tt d - sqrt 2 * w_a d) - (w_tb d + sqrt 2 * w_a d)))).
(** Stress at height z of a bent section with neutral axis z0, compression at the top. *)
Definition bent_stress (k z0 z : R) : R := k * (z - z0).

(** Sections used as examples. *)
Definition ex_rolled (tw : R) : isec := mkI 220 100 10 tw 0 1000 20000.
Definition ex_welded (tw a : R) : wi := mkWi 220 tw 100 100 10 10 a.

(** Straight part of the web of a welded section, its flange outstands. *)
Definition welded_cw (d : wi) : R := w_h d - w_tt d - w_tb d - 2 * (sqrt 2 * w_a d).
Definition welded_web (d : wi) : R := welded_cw d / w_tw d.
Definition welded_top (d : wi) : R := ((w_bt d - w_tw d) / 2 - sqrt 2 * w_a d) / w_tt d.
Definition welded_bottom (d : wi) : R := ((w_bb d - w_tw d) / 2 - sqrt 2 * w_a d) / w_tb d.
(** A welded section with a straight part of positive height in the web. *)
Definition welded_ok (d : wi) : Prop := wi_valid d /\ 0 <= w_a d /\ 0 < welded_cw d.
(** The cap of EN 1993-1-5 5.2(1) on the shear buckling resistance. *)
Definition shear_cap (eta fy h t : R) : R := eta * fy * h * t / sqrt 3.
Definition ex_wq : wq := mkWq 210 (21/10) 100 100 10 10.
(** EN 1993-1-5 5.4: contribution of the flanges for the share m of their moment in use. *)
Definition flange_share (b t fy a h tw m : R) : R :=
  b * t ^ 2 * fy / (a * (1/4 + 8/5 * (b * t ^ 2 * fy) / (tw * h ^ 2 * fy))) * (1 - m ^ 2).
(** Moment the weaker flange carries with the lever arm of the flanges, and the part of the
    flanges' squash load an axial force takes. *)
Definition flange_moment (fy : R) (d : wi) : R :=
  (w_h d - (w_tb d + w_tt d) / 2) * Rmin (w_bt d * w_tt d) (w_bb d * w_tb d) * fy.
Definition squash_share (fy : R) (d : wi) (N : R) : R :=
  if Rlt_dec (1/1000000) (Rabs N) then Rabs N / ((w_bt d * w_tt d + w_bb d * w_tb d) * fy) else 0.
(** Width and thickness of the flange with the smaller area. *)
Definition weaker (d : wi) (b t : R) : Prop :=
  (w_bt d * w_tt d <= w_bb d * w_tb d /\ b = w_bt d /\ t = w_tt d) \/ (w_bb d * w_tb d < w_bt d * w_tt d /\ b = w_bb d /\ t = w_tb d).
(** A section whose web is at the limit of 5.1(2). *)
Definition ex_cap : wi := mkWi 220 (10/3) 100 100 10 10 5.
