(** Model of metku/eurocodes/en1992/constants.py (Concrete), en1992_1_1.py (Rebar) and of
    metku/sections/composite (composite_beam.py, composite_column.py).  [None] stands for a raised
    exception.  math.pi is the real number pi, decimal exponents and 1/3 are exact. *)
From Coq Require Import Rpower.
From Verif Require Export EC3_model.

(* ---------------------------------------------------------------- concrete and reinforcement *)

(** en1992/constants.py:30-39 the concrete grades; another name raises KeyError. *)
Inductive cgrade := C12 | C16 | C20 | C25 | C30 | C35 | C40 | C45 | C50.
(** en1992/constants.py:30-39 cylinder strength. *)
Definition fck (g : cgrade) : R :=
  match g with C12 => 12 | C16 => 16 | C20 => 20 | C25 => 25 | C30 => 30 | C35 => 35 | C40 => 40 | C45 => 45 | C50 => 50 end.
(** en1992/constants.py:50 mean strength. *)
Definition fcm (g : cgrade) : R := fck g + 8.
(** en1992/constants.py:51 Young's modulus. *)
Definition Ecm (g : cgrade) : R := 22000 * Rpower (fcm g / 10) (3/10).
(** en1992/constants.py:60-62 fcd with the default gammaC = 1.5; the default of [acc] is 0.85. *)
Definition cfcd (g : cgrade) (acc : R) : R := acc * fck g / (15/10).
(** en1992/constants.py:64-66 nu_cracked. *)
Definition nu_cracked (g : cgrade) : R := 6/10 * (1 - fck g / 250).
(** x ** y of Python for y > 0: a complex number for x < 0, on which the callers fail or which
    they hand on (constants.py:85-98); taken as raised. *)
Definition ppow (x y : R) : option R := if Rltb x 0 then None else if Reqb x 0 then Some 0 else Some (Rpower x y).

(** en1992/constants.py:75-77 alpha, for one of the exponents. *)
Definition c_alpha (g : cgrade) (y : R) : R := Rpower (35 / fcm g) y.
(** en1992/constants.py:80-85 phiRH; h0 ** (1/3) divides. *)
Definition phi_RH (g : cgrade) (RH h0 : R) : option R :=
  bind (ppow h0 (1/3)) (fun c => bind (pdiv ((1 - RH / 100) / (1/10)) c) (fun q =>
  Some (if Rleb (fcm g) 35 then 1 + q else (1 + q * c_alpha g (7/10)) * c_alpha g (2/10)))).
(** en1992/constants.py:82, 85 betaH. *)
Definition beta_H (g : cgrade) (RH h0 : R) : R :=
  let x := 15/10 * (1 + (12/1000 * RH) ^ 18) * h0 in
  if Rleb (fcm g) 35 then Rmin (x + 250) 1500 else Rmin (x + 250 * c_alpha g (1/2)) (1500 * c_alpha g (1/2)).
(** en1992/constants.py:68-103 creep_coefficient; t0 = None raises TypeError and is not modelled. *)
Definition creep (g : cgrade) (RH h0 t t0 : R) : option R :=
  bind (phi_RH g RH h0) (fun pRH =>
  let bH := beta_H g RH h0 in
  let beta_cm := 168/10 / sqrt (fcm g) in
  bind (ppow t0 (2/10)) (fun q => bind (pdiv 1 (1/10 + q)) (fun beta_t0 =>
  let phi0 := pRH * beta_cm * beta_t0 in
  bind (pdiv (t - t0) (bH + t - t0)) (fun x => bind (ppow x (3/10)) (fun beta_c =>
  Some (phi0 * beta_c)))))).

(** en1992_1_1.py:55-57 radius. *)
Definition bar_r (d : R) : R := 1/2 * d.
(** en1992_1_1.py:85-87 area. *)
Definition bar_A (d : R) : R := PI * d ^ 2 / 4.
(** en1992_1_1.py:90-91 second moment. *)
Definition bar_I (d : R) : R := 1/4 * PI * bar_r d ^ 4.
(** en1992_1_1.py:75-78 design strength, gammaS = 1.15; steel_data.py:21 yield strength of B500B. *)
Definition bar_fyd (fy : R) : R := fy / (115/100).
(** en1992_1_1.py:65-68 weight (kg/m), steel_data.py:15-31 density. *)
Definition bar_weight (d : R) : R := 7850 / 10 ^ 9 * bar_A d * 1000.

(* ---------------------------------------------------------------- slabs *)

(** ConcreteSlab (composite_beam.py:22-36) and CompositeSlab (68-84): depth of the concrete above the
    sheet, depth of the sheet (0 for ConcreteSlab) and the grade. *)
Record slab_ := mkSlab_ { l_hc : R; l_ha : R; l_g : cgrade }.
(** composite_beam.py:29-36 ConcreteSlab. *)
Definition concrete_slab (h : R) (g : cgrade) : slab_ := mkSlab_ h 0 g.
(** composite_beam.py:75-84 CompositeSlab. *)
Definition composite_slab (h_total : R) (g : cgrade) (h_steel : R) : slab_ := mkSlab_ (h_total - h_steel) h_steel g.
(** composite_beam.py:40-42, 87-89 h. *)
Definition l_h (s : slab_) : R := l_hc s + l_ha s.
(** composite_beam.py:45-47, 92-94 h0. *)
Definition l_h0 (s : slab_) : R := 2 * l_hc s.
(** composite_beam.py:49-51, 96-98 weight (kN/m2), density 24 kN/m3 (constants.py:54). *)
Definition l_weight (s : slab_) : R := (24 + 1) * l_h s * (1/1000).

(* ---------------------------------------------------------------- composite beams *)

(** The steel part of a composite beam (ISection attributes h, b, tf, tw, r, A, I[0], E, fy). *)
Record steel_i := mkSteel { i_h : R; i_b : R; i_tf : R; i_tw : R; i_r : R; i_A : R; i_I : R; i_E : R; i_fy : R }.
(** CompositeIBeam (composite_beam.py:123-150): length, b0, steel part, slab, humidity, age at loading. *)
Record cbeam := mkBeam { m_L : R; m_b0 : R; m_s : steel_i; m_slab : slab_; m_RH : R; m_t0 : R }.
(** composite_beam.py:123-150: a new beam; b0 = 0, t0 = 28. *)
Definition new_beam (L : R) (s : steel_i) (sl : slab_) (RH : R) : cbeam := mkBeam L 0 s sl RH 28.
(** composite_beam.py:175-177 beff. *)
Definition beff (c : cbeam) : R := m_b0 c + 2 * m_L c / 8.
(** composite_beam.py:180-184 yc. *)
Definition m_yc (c : cbeam) : R := 1/2 * l_hc (m_slab c).
(** composite_beam.py:187-191 ya. *)
Definition m_ya (c : cbeam) : R := l_h (m_slab c) + 1/2 * i_h (m_s c).
(** composite_beam.py:211-213 EAa. *)
Definition m_EAa (c : cbeam) : R := i_E (m_s c) * i_A (m_s c).
(** composite_beam.py:216-220 EIa. *)
Definition m_EIa (c : cbeam) : R := i_E (m_s c) * i_I (m_s c).
(** composite_beam.py:247-249 Ac. *)
Definition m_Ac (c : cbeam) : R := l_hc (m_slab c) * beff c.
(** composite_beam.py:252-256 Ic. *)
Definition m_Ic (c : cbeam) : R := 1/12 * beff c * l_hc (m_slab c) ^ 3.
(** composite_beam.py:152-157 creep_coefficient at age [t0]. *)
Definition m_creep (c : cbeam) (t0 : R) : option R := creep (l_g (m_slab c)) (m_RH c) (l_h0 (m_slab c)) (10 ^ 8) t0.
(** The argument long_term (composite_beam.py:275-317); another value raises UnboundLocalError. *)
Inductive term := Short | Creep.
(** composite_beam.py:223-231 the Young's modulus of concrete used for the term: Ecm or Ecc. *)
Definition Ec (c : cbeam) (lt : term) : option R :=
  match lt with
  | Short => Some (Ecm (l_g (m_slab c)))
  | Creep => bind (m_creep c (m_t0 c)) (fun phi => pdiv (Ecm (l_g (m_slab c))) (1 + 11/10 * phi))
  end.
(** composite_beam.py:234-237 Ecs. *)
Definition Ecs (c : cbeam) : option R := bind (m_creep c 1) (fun phi => pdiv (Ecm (l_g (m_slab c))) (1 + 55/100 * phi)).
(** composite_beam.py:160-172 n0, nC, nS for a modulus of concrete. *)
Definition n_ratio (c : cbeam) (e : R) : option R := pdiv (i_E (m_s c)) e.
(** composite_beam.py:287-294 EAcom. *)
Definition EAcom (c : cbeam) (lt : term) : option R := bind (Ec c lt) (fun e => Some (m_EAa c + e * m_Ac c)).
(** composite_beam.py:275-285 centroid. *)
Definition centroid (c : cbeam) (lt : term) : option R :=
  bind (Ec c lt) (fun e => bind (EAcom c lt) (fun d => pdiv (m_EAa c * m_ya c + e * m_Ac c * m_yc c) d)).
(** composite_beam.py:297-302 ya_com. *)
Definition ya_com (c : cbeam) (lt : term) : option R := bind (centroid c lt) (fun y => Some (Rabs (m_ya c - y))).
(** composite_beam.py:304-309 yc_com. *)
Definition yc_com (c : cbeam) (lt : term) : option R := bind (centroid c lt) (fun y => Some (Rabs (m_yc c - y))).
(** composite_beam.py:311-318 EIcom. *)
Definition EIcom (c : cbeam) (lt : term) : option R :=
  bind (Ec c lt) (fun e => bind (ya_com c lt) (fun a => bind (yc_com c lt) (fun b =>
  Some (i_E (m_s c) * (i_I (m_s c) + a ^ 2 * i_A (m_s c)) + e * (m_Ic c + b ^ 2 * m_Ac c))))).
(** composite_beam.py:320-322 distance_centroids. *)
Definition distance_centroids (c : cbeam) : R := m_ya c - m_yc c.
(** composite_beam.py:324-329 composite_coefficient (short term). *)
Definition composite_coefficient (c : cbeam) : option R :=
  let a := distance_centroids c in
  let EAc := Ecm (l_g (m_slab c)) * m_Ac c in
  let EIc := Ecm (l_g (m_slab c)) * m_Ic c in
  bind (pdiv (a ^ 2 * m_EAa c * EAc) (m_EAa c + EAc)) (fun q => pdiv q (m_EIa c + EIc)).
(** composite_beam.py:331-334 Ra. *)
Definition m_Ra (c : cbeam) : R := i_fy (m_s c) * i_A (m_s c).
(** composite_beam.py:336-339 Rc; fcd with its default factor 0.85. *)
Definition m_Rc (c : cbeam) : R := 85/100 * cfcd (l_g (m_slab c)) (85/100) * m_Ac c.
(** composite_beam.py:341-346 Rf. *)
Definition m_Rf (c : cbeam) : R := i_fy (m_s c) * (i_tf (m_s c) * i_b (m_s c)).
(** ISection.py:136-138 hw. *)
Definition i_hw (s : steel_i) : R := i_h s - 2 * i_tf s - 2 * i_r s.
(** composite_beam.py:348-353 Rw. *)
Definition m_Rw (c : cbeam) : R := i_fy (m_s c) * (i_hw (m_s c) * i_tw (m_s c)).
(** composite_beam.py:355-378 plastic_neutral_axis. *)
Definition plastic_axis (c : cbeam) : option R :=
  let Ra := m_Ra c in let Rc := m_Rc c in let hc := l_hc (m_slab c) in
  if Rltb Ra Rc then bind (pdiv Ra Rc) (fun q => Some (q * hc))
  else if Rltb Rc (Ra - 2 * m_Rf c) then
    bind (pdiv (1/2 * (Ra - Rc)) (i_b (m_s c))) (fun q => bind (pdiv q (i_fy (m_s c))) (fun q => Some (q + l_h (m_slab c))))
  else bind (pdiv (1/2 * (Ra - Rc - 2 * m_Rf c)) (m_Rw c)) (fun q => Some (q * i_hw (m_s c) + l_h (m_slab c) + i_tf (m_s c))).
(** composite_beam.py:381-418 MplRd; the second branch also evaluates the position of the axis. *)
Definition MplRd (c : cbeam) : option R :=
  let Ra := m_Ra c in let Rc := m_Rc c in let hc := l_hc (m_slab c) in let ei := distance_centroids c in
  let hl := l_h (m_slab c) in let Rf := m_Rf c in let tf := i_tf (m_s c) in
  if Rltb Ra Rc then bind (pdiv Ra Rc) (fun q => Some (Ra * (ei + 1/2 * hc - 1/2 * (q * hc))))
  else if Rltb Rc (Ra - 2 * Rf) then
    bind (plastic_axis c) (fun _ => bind (pdiv (1/4 * (Ra - Rc) ^ 2) Rf) (fun q =>
    Some (Ra * (ei - hl + 1/2 * hc) + Rc * (hl - 1/2 * hc) - q * tf)))
  else bind (pdiv (1/4 * (Ra - Rc - 2 * Rf) ^ 2) (m_Rw c)) (fun q =>
    Some (Ra * (ei - hl - tf + 1/2 * hc) + Rc * (hl + tf - 1/2 * hc) + Rf * tf - q * i_hw (m_s c))).

(* ---------------------------------------------------------------- concrete filled tubes *)

(** The steel tube of a column (RHS attributes H, B, T, R, A, I[0], Wpl[0], E, fy). *)
Record tube := mkTube { t_H : R; t_B : R; t_T : R; t_R : R; t_A : R; t_I : R; t_W : R; t_E : R; t_fy : R }.
(** ConcreteFilledTube (composite_column.py:29-69): length, tube, grade, humidity, bar diameter and yield strength,
    bar position (y, z), number of bars, forces ned and nged, end moments, buckling length factors. *)
Record col := mkCol { k_L : R; k_t : tube; k_g : cgrade; k_RH : R; k_d : R; k_fs : R; k_y : R; k_z : R; k_n : R;
  k_ned : R; k_nged : R; k_m0 : R; k_m1 : R; k_ly : R; k_lz : R }.
(** composite_column.py:138-139 the setter of u. *)
Definition set_u (u : R) (c : col) : col :=
  mkCol (k_L c) (k_t c) (k_g c) (k_RH c) (k_d c) (k_fs c) (k_y c) (1/2 * t_H (k_t c) - t_T (k_t c) - u - bar_r (k_d c)) (k_n c)
    (k_ned c) (k_nged c) (k_m0 c) (k_m1 c) (k_ly c) (k_lz c).
(** composite_column.py:149-150 the setter of v. *)
Definition set_v (v : R) (c : col) : col :=
  mkCol (k_L c) (k_t c) (k_g c) (k_RH c) (k_d c) (k_fs c) (1/2 * t_B (k_t c) - t_T (k_t c) - v - bar_r (k_d c)) (k_z c) (k_n c)
    (k_ned c) (k_nged c) (k_m0 c) (k_m1 c) (k_ly c) (k_lz c).
(** composite_column.py:29-69 the constructor with bars ([pos]: rebar_pos); without bars (rebar=None) and without a position it raises. *)
Definition new_col (L : R) (t : tube) (g : cgrade) (d fs : R) (p : option (R * R)) : col :=
  let c := mkCol L t g 50 d fs 0 0 4 0 0 0 0 1 1 in
  match p with
  | None => set_v 30 (set_u 30 c)
  | Some (y, z) => mkCol L t g 50 d fs y z 4 0 0 0 0 1 1
  end.
(** composite_column.py:131-135 the getter of u. *)
Definition get_u (c : col) : R := 1/2 * t_H (k_t c) - t_T (k_t c) - (k_z c + bar_r (k_d c)).
(** composite_column.py:142-146 the getter of v. *)
Definition get_v (c : col) : R := 1/2 * t_B (k_t c) - t_T (k_t c) - k_y c + bar_r (k_d c).
(** composite_column.py:84-86 NEd. *)
Definition NEd (c : col) : R := Rabs (k_ned c).
(** composite_column.py:89-94 M1. *)
Definition M1 (c : col) : R := if Rleb (Rabs (k_m0 c)) (Rabs (k_m1 c)) then k_m0 c else k_m1 c.
(** composite_column.py:98-103 M2. *)
Definition M2 (c : col) : R := if Rleb (Rabs (k_m0 c)) (Rabs (k_m1 c)) then k_m1 c else k_m0 c.
(** composite_column.py:111-113 fcd with factor 1. *)
Definition k_fcd (c : col) : R := cfcd (k_g c) 1.
(** composite_column.py:163-166 As. *)
Definition k_As (c : col) : R := 4 * bar_A (k_d c).
(** composite_column.py:203-208 Is. *)
Definition k_Is (c : col) : R := k_n c * (bar_I (k_d c) + bar_A (k_d c) * k_z c ^ 2).
(** composite_column.py:211-213 Wps. *)
Definition k_Wps (c : col) : R := k_n c * bar_A (k_d c) * k_z c.
(** composite_column.py:244-250 Ac. *)
Definition k_Ac (c : col) : R :=
  let t := k_t c in
  (t_H t - 2 * t_R t) * (t_B t - 2 * t_T t) + 2 * (t_B t - 2 * t_R t) * (t_R t - t_T t) + PI * (t_R t - t_T t) ^ 2 - k_As c.
(** composite_column.py:255-269 Ic. *)
Definition k_Ic (c : col) : R :=
  let b := t_B (k_t c) in let h := t_H (k_t c) in let t := t_T (k_t c) in let r := t_R (k_t c) - t in
  (b - 2 * t) * (h - 2 * t) ^ 3 / 12 - r ^ 4 / 3 - r ^ 2 * (h - 2 * t - r) ^ 2 + r ^ 4 * (9 * PI ^ 2 - 64) / 36 / PI +
  PI * r ^ 2 * (1/2 * h - t + 4 * r / 3 / PI) ^ 2 - k_Is c.
(** composite_column.py:273-281 Wpc. *)
Definition k_Wpc (c : col) : R :=
  let b := t_B (k_t c) in let h := t_H (k_t c) in let t := t_T (k_t c) in let r := t_R (k_t c) - t in
  1/4 * (b - 2 * t) * (h - 2 * t) ^ 2 - 2 * r ^ 3 / 3 - r ^ 2 * (4 - PI) * (1/2 * h - t - r) - k_Wps c.
(** composite_column.py:221-228 Eceff; Ecm*1/(1+...). *)
Definition Eceff (c : col) : option R :=
  bind (creep (k_g c) (k_RH c) (10 ^ 11) (10 ^ 11) 28) (fun phi =>
  bind (pdiv (k_nged c) (k_ned c)) (fun q => pdiv (Ecm (k_g c) * 1) (1 + q * phi))).
(** composite_column.py:299-308 EIeff; axis "z" leaves Ic unbound (the bars have the modulus of B500B, steel_data.py:21). *)
Definition EIeff (c : col) (y : bool) : option R :=
  bind (Eceff c) (fun e => if y then Some (t_E (k_t c) * t_I (k_t c) + 210000 * k_Is c + 6/10 * e * k_Ic c) else None).
(** composite_column.py:311-321 EIeffII. *)
Definition EIeffII (c : col) (y : bool) : option R :=
  bind (Eceff c) (fun e => if y then Some (9/10 * (t_E (k_t c) * t_I (k_t c) + 210000 * k_Is c + 5/10 * e * k_Ic c)) else None).
(** composite_column.py:369-376 reinforcement_ratio. *)
Definition rho_s (c : col) : option R := pdiv (k_As c) (k_Ac c).
(** composite_column.py:323-333 e0. *)
Definition e0 (c : col) : option R :=
  bind (rho_s c) (fun r => Some (k_L c / (if Rleb r (3/100) then 300 else 200))).
(** composite_column.py:378-384 NaRd. *)
Definition NaRd (c : col) : R := t_fy (k_t c) * t_A (k_t c).
(** composite_column.py:386-392 NplRd. *)
Definition NplRd (c : col) : R := t_fy (k_t c) * t_A (k_t c) + bar_fyd (k_fs c) * k_As c + k_fcd c * k_Ac c.
(** composite_column.py:394-401 NplRk. *)
Definition NplRk (c : col) : R := t_fy (k_t c) * t_A (k_t c) + k_fs c * k_As c + fck (k_g c) * k_Ac c.
(** composite_column.py:359-366 steel_contribution_ratio. *)
Definition delta_a (c : col) : option R := pdiv (NaRd c) (NplRd c).
(** composite_column.py:121-128, 403-411 Ncr. *)
Definition Ncr (c : col) (y : bool) : option R :=
  bind (EIeff c y) (fun ei => pdiv (PI ^ 2 * ei) ((if y then k_L c * k_ly c else k_L c * k_lz c) ^ 2)).
(** composite_column.py:413-421 Ncreff. *)
Definition Ncreff (c : col) (y : bool) : option R :=
  bind (EIeffII c y) (fun ei => pdiv (PI ^ 2 * ei) ((if y then k_L c * k_ly c else k_L c * k_lz c) ^ 2)).
(** composite_column.py:424-428 slenderness. *)
Definition slenderness (c : col) (y : bool) : option R := bind (Ncr c y) (fun n => bind (pdiv (NplRk c) n) psqrt).
(** composite_column.py:430-450 NbRd. *)
Definition NbRd (c : col) (y : bool) : option R :=
  bind (slenderness c y) (fun l => bind (rho_s c) (fun r =>
  bind (buckling_reduction_factor l (buckling_curve (if Rleb r (3/100) then ca else cb))) (fun chi => Some (chi * NplRd c)))).
(** composite_column.py:453-455 NpmRd. *)
Definition NpmRd (c : col) : R := k_fcd c * k_Ac c.
(** composite_column.py:457-460 Mpl_max_Rd. *)
Definition Mmax (c : col) : R := t_fy (k_t c) * t_W (k_t c) + bar_fyd (k_fs c) * k_Wps c + 1/2 * k_fcd c * k_Wpc c.
(** composite_column.py:474, 484 the distance of the neutral axis for the bar area [Asn] between the axes. *)
Definition h_n (c : col) (Asn : R) : option R :=
  pdiv (NpmRd c - Asn * (2 * bar_fyd (k_fs c) - k_fcd c)) (2 * t_B (k_t c) * k_fcd c + 4 * t_T (k_t c) * (2 * t_fy (k_t c) - k_fcd c)).
(** composite_column.py:462-501 MplRd. *)
Definition MplRd_col (c : col) : option R :=
  let b := t_B (k_t c) in let t := t_T (k_t c) in
  bind (h_n c 0) (fun hn0 =>
  bind (if Rltb hn0 (k_z c - bar_r (k_d c)) then Some (hn0, 0) else bind (h_n c (k_As c)) (fun hn => Some (hn, k_Wps c))) (fun '(hn, wps) =>
  let wpc := (b - 2 * t) * hn ^ 2 - wps in
  let wpa := b * hn ^ 2 - wpc - wps in
  Some (Mmax c - (t_fy (k_t c) * wpa + bar_fyd (k_fs c) * wps + 1/2 * k_fcd c * wpc)))).
(** composite_column.py:503-510 alpha_m. *)
Definition alpha_m (c : col) : R := if Rleb (t_fy (k_t c)) 355 then 9/10 else 8/10.
(** composite_column.py:552-592 the design moment of design(), which prints it. *)
Definition design_moment (c : col) : option R :=
  bind (e0 c) (fun e => bind (Ncreff c true) (fun n =>
  let Med0 := NEd c * e in
  if Rltb n (10 * NEd c) then
    bind (if Rltb 0 (M2 c) then bind (pdiv (44/100 * M1 c) (M2 c)) (fun q => Some (Rmax (66/100 + q) (44/100))) else Some 0) (fun bm =>
    bind (pdiv (NEd c) n) (fun q => bind (pdiv 1 (1 - q)) (fun k => Some (Rmax (Rmax k 1 * (bm * M2 c + Med0)) (M2 c)))))
  else Some (Med0 + M2 c))).
(** composite_column.py:595-604 the utilisation ratio of design(), which prints it. *)
Definition utilisation (c : col) : option R :=
  bind (design_moment c) (fun MEd => bind (MplRd_col c) (fun Mp =>
  bind (pdiv (NpmRd c) (NplRd c)) (fun chiC => bind (pdiv (NEd c) (NplRd c)) (fun chiD =>
  bind (pdiv (chiD - 1) (chiC - 1)) (fun q =>
  bind (pdiv MEd (Rmin q 1 * Mp)) (fun u => pdiv u (alpha_m c))))))).
(** composite_column.py:74-81 weight_per_length (kN/m), constants.py:54 concrete density 24, steel density (en1993/constants.py:26). *)
Definition weight_per_length (c : col) : R :=
  t_A (k_t c) * (7850 / 10 ^ 9) * 1000 * (981/100000) + k_Ac c / 10 ^ 6 * 24 + bar_weight (k_d c) * k_n c * (981/100000).
