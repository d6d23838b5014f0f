(** Model of the classification of cross-sections in metku/sections/steel: the parts of
    rolled I, rectangular and circular hollow, welded I and WQ sections, the choice of the
    parts by the acting forces, the buckling curves of rolled I-sections, and the effective
    section and shear buckling resistance of welded I-sections.  [None] stands for a raised
    exception.  Printing behind [verb] is left out. *)
From Verif Require Export EC3_model Plate_model Sections_model.
Require Import Reals Bool.
Local Open Scope R_scope.

(* ---------------------------------------------------------------- forces *)

(** steel_section.py:482-483, 491-492, 499-502 the worse class of flange and web. *)
Definition worse (fl web : option nat) : option nat :=
  bind fl (fun f => bind web (fun w => Some (Nat.max w f))).
(** steel_section.py:461-505 section_class: the parts are classified only on the branch that
    needs them, so an exception of a part that is not needed is never raised. *)
Definition class_of (Ned Med : R) (fl comp bend comp_bend : option nat) : option nat :=
  if andb (Rleb 0 Ned) (Rltb (Rabs Med) (1/10000)) then Some 1%nat
  else if andb (Rltb (Rabs Ned) (1/10000)) (Rltb (1/10000) (Rabs Med)) then worse fl bend
  else if orb (Rltb Ned 0) (Reqb Med 0) then
    if Rltb (Rabs Med) (1/10000) then worse fl comp else worse fl comp_bend
  else Some 1%nat.

(* ---------------------------------------------------------------- rolled I *)

(** ISection.py:34-46 the dimensions and the stored area and elastic modulus of the major
    axis (their formulas are those of cross_section_properties, modelled elsewhere). *)
Record isec := mkI { i_h : R; i_b : R; i_tf : R; i_tw : R; i_r : R; i_A : R; i_W : R }.
(** ISection.py:135-138. *)
Definition i_hw (s : isec) : R := i_h s - 2 * i_tf s - 2 * i_r s.
(** ISection.py:140-143. *)
Definition i_cf (s : isec) : R := 1/2 * (i_b s - i_tw s) - i_r s.
(** ISection.py:158-171. *)
Definition i_flange (e : R) (s : isec) : option nat :=
  bind (pdiv (i_cf s) (i_tf s)) (fun r => Some (outstand_part_in_compression r e)).
(** ISection.py:194-205. *)
Definition i_comp (e : R) (s : isec) : option nat :=
  bind (pdiv (i_hw s) (i_tw s)) (fun r => Some (internal_part_in_compression r e)).
(** ISection.py:207-218. *)
Definition i_bend (e : R) (s : isec) : option nat :=
  bind (pdiv (i_hw s) (i_tw s)) (fun r => Some (internal_part_in_bending r e)).
(** ISection.py:293-300 share of the web in plastic compression, approach 1 (the only one
    section_class uses; approach 2 takes the absolute value of a list). *)
Definition i_alpha (fy : R) (s : isec) (Ned : R) : R :=
  let NR := i_hw s * i_tw s * fy in
  if Rleb NR (- Ned) then 1
  else if Rleb (- Ned) (- NR) then 0
  else 1/2 * (1 - Ned / NR).
(** ISection.py:239-240, 308-320 and steel_section.py:456-459: stress ratio for the class 3
    limit.  The modulus is a numpy number, so a zero divisor gives an infinite ratio ([None])
    and no exception; with Ned < 0, the only case in which section_class asks for it, that
    ratio is minus infinity. *)
Definition i_psi (s : isec) (Ned Med : R) : option R :=
  let sN := Ned / i_A s in
  let sM := Med / i_W s in
  if Rltb (i_hw s / i_h s * Rabs sM) sN then Some 1
  else pdiv (sN + sM) (sN - sM).
(** ISection.py:220-335 with en1993_1_1.py:89-128; for the ratio minus infinity the class 3
    limit is infinite. *)
Definition i_comp_bend (e fy : R) (s : isec) (Ned Med : R) : option nat :=
  bind (pdiv (i_hw s) (i_tw s)) (fun r =>
  let a := i_alpha fy s Ned in
  Some (match i_psi s Ned Med with
        | Some p => internal_part_comp_bend r e a p
        | None => let C := comp_bend_12 r (conv e) a in if Nat.ltb 2 C then 3%nat else C
        end)).
(** steel_section.py:461-505 for an I-section; the property eps is steel_section.py:266-268. *)
Definition i_class (fy : R) (s : isec) (Ned Med : R) : option nat :=
  bind (epsilon fy) (fun e => class_of Ned Med (i_flange e s) (i_comp e s) (i_bend e s) (i_comp_bend e fy s Ned Med)).
(** ISection.py:48-77 buckling curves about both axes, from the yield strength given as a
    number. *)
Definition i_curves (h b tf fy : R) : option (curve * curve) :=
  bind (pdiv h b) (fun q => Some (
    if Rltb (12/10) q then
      if Rleb tf 40 then (if Rleb fy 420 then (ca, cb) else (a0, a0))
      else (if Rleb fy 420 then (cb, cc) else (ca, ca))
    else
      if Rleb tf 100 then (if Rleb fy 420 then (cb, cc) else (ca, ca))
      else (if Rleb fy 420 then (cd, cd) else (cc, cc)))).
(** ISection.py:83-88 curves for lateral-torsional buckling: general case, rolled sections. *)
Definition i_curves_LT (h b : R) : option (curve * curve) :=
  bind (pdiv h b) (fun q => Some (if Rleb q 2 then (ca, cb) else (cb, cc))).
(** ISection.py:173-190 area and second moment of the compression flange; Iz is the second
    moment about the minor axis. *)
Definition i_comp_flange (s : isec) (Iz : R) : R * R :=
  let h0 := i_h s - 2 * i_tf s in
  (1/2 * i_A s - 1/3 * h0 * i_tw s,
   1/2 * Iz - 1/2/12 * i_hw s * i_tw s ^ 3 + 1/12 * (1/6 * h0 - i_r s) * i_tw s ^ 3).

(* ---------------------------------------------------------------- hollow sections *)

(** RHS.py:188-200. *)
Definition r_flange (e B T Rr : R) : option nat :=
  bind (pdiv (B - 2 * Rr) T) (fun r => Some (internal_part_in_compression r e)).
(** RHS.py:202-214. *)
Definition r_comp (e H T Rr : R) : option nat :=
  bind (pdiv (H - 2 * Rr) T) (fun r => Some (internal_part_in_compression r e)).
(** RHS.py:216-228. *)
Definition r_bend (e H T Rr : R) : option nat :=
  bind (pdiv (H - 2 * Rr) T) (fun r => Some (internal_part_in_bending r e)).
(** steel_section.py:461-505 for a rectangular hollow section; the web in bending and
    compression is class 2 (RHS.py:230-232). *)
Definition r_class (fy H B T Rr Ned Med : R) : option nat :=
  bind (epsilon fy) (fun e => class_of Ned Med (r_flange e B T Rr) (r_comp e H T Rr) (r_bend e H T Rr) (Some 2%nat)).
(** CHS.py:81-89. *)
Definition c_wall (e D T : R) : option nat := bind (pdiv D T) (fun r => Some (CHS_class r e)).
(** steel_section.py:461-505 for a circular hollow section; the flange is class 1
    (CHS.py:97-98), and web_class_comp_bend has one parameter where the caller passes two
    (CHS.py:91, steel_section.py:500). *)
Definition c_class (fy D T Ned Med : R) : option nat :=
  bind (epsilon fy) (fun e => class_of Ned Med (Some 1%nat) (c_wall e D T) (c_wall e D T) None).

(* ---------------------------------------------------------------- welded I *)

(** wi.py:492-506: always the top flange. *)
Definition w_flange (e : R) (d : wi) : option nat :=
  bind (pdiv (cf_top d) (w_tt d)) (fun r => Some (outstand_part_in_compression r e)).
(** wi.py:508-521. *)
Definition w_comp (e : R) (d : wi) : option nat :=
  bind (pdiv (cw d) (w_tw d)) (fun r => Some (internal_part_in_compression r e)).
(** wi.py:531-537 share of the web in plastic compression under bending. *)
Definition w_alpha (d : wi) : option R :=
  if Rleb (zpl d) (w_tb d + sqrt 2 * w_a d) then Some 1
  else if Rleb (w_h d - w_tt d - sqrt 2 * w_a d) (zpl d) then Some 0
  else pdiv (w_h d - w_tt d - sqrt 2 * w_a d - zpl d) (w_h d - w_tt d - w_tb d - 2 * sqrt 2).
(** wi.py:529 stress ratio under bending. *)
Definition w_psi (d : wi) : option R := pdiv (- zel d + w_tb d) (w_h d - zel d - w_tt d).
(** wi.py:523-551. *)
Definition w_bend (e : R) (d : wi) : option nat :=
  bind (pdiv (cw d) (w_tw d)) (fun r =>
  bind (w_psi d) (fun p => bind (w_alpha d) (fun a => Some (internal_part_comp_bend r e a p)))).
(** wi.py:559-560, wq.py:176-177 share of the web in plastic compression under compression
    and bending. *)
Definition cb_alpha (fy A Ned : R) : R := 1/2 * (A + Ned / (fy / gammaM0)) / A.
(** wi.py:553-565. *)
Definition w_comp_bend (e fy : R) (d : wi) (Ned : R) : option nat :=
  bind (pdiv (hw d) (w_tw d)) (fun r => Some (internal_part_comp_bend r e (cb_alpha fy (wi_area d) Ned) (-1))).
(** steel_section.py:461-505 for a welded I-section. *)
Definition w_class (fy : R) (d : wi) (Ned Med : R) : option nat :=
  bind (epsilon fy) (fun e => class_of Ned Med (w_flange e d) (w_comp e d) (w_bend e d) (w_comp_bend e fy d Ned)).

(** wi.py:375-419 one pass of the loop: effective web for the stress ratio of the last pass,
    second moment of the effective parts about their axis, next stress ratio. *)
Definition Ieff_pass (e : R) (d : wi) (ps : R) (f : eff) : option (R * eff * R) :=
  bind (eff_web e d ps f) (fun f =>
  let wh := w_a d * sqrt 2 in
  let h1 := e_be f + wh in
  let h2 := cw d + wh - e_web f - e_be f in
  let z1 := w_h d - w_tt d - h1 / 2 in
  let z2 := w_tb d + h2 / 2 in
  let At' := w_bt d * w_tt d in
  let Ab' := w_bb d * w_tb d in
  let A1 := h1 * w_tw d in
  let A2 := h2 * w_tw d in
  let z0 := eff_axis d f in
  let Itot := w_bt d * w_tt d ^ 3 / 12 + w_bb d * w_tb d ^ 3 / 12 + w_tw d * h1 ^ 3 / 12 + w_tw d * h2 ^ 3 / 12 in
  let Az2 := At' * (w_h d - w_tt d / 2) ^ 2 + Ab' * (w_tb d / 2) ^ 2 + A1 * z1 ^ 2 + A2 * z2 ^ 2 in
  bind (pdiv (- z0 + w_tb d) (w_h d - z0 - w_tt d)) (fun ps' =>
  Some (Itot + Az2 - z0 ^ 2 * (At' + Ab' + A1 + A2), f, ps'))).
(** wi.py:383-419 the passes; the last one gives the result. *)
Fixpoint Ieff_loop (n : nat) (e : R) (d : wi) (ps : R) (f : eff) : option (R * eff) :=
  match n with
  | O => None
  | S O => bind (Ieff_pass e d ps f) (fun q => Some (fst q))
  | S n' => bind (Ieff_pass e d ps f) (fun q => Ieff_loop n' e d (snd q) (snd (fst q)))
  end.
(** wi.py:335-337, 375-419 effective second moment for bending about the major axis with the
    top flange compressed; [f] is the effective section the object holds. *)
Definition wi_Ieff (e : R) (d : wi) (f : eff) : option (R * eff) :=
  bind (eff_flange e (cf_top d) (w_tt d)) (fun bt => Ieff_loop 5 e d (-1) (mkEff bt (e_bot f) (e_web f) (e_be f))).
(** wi.py:339-345. *)
Definition wi_Weff (e : R) (d : wi) (f : eff) : option R :=
  bind (wi_Ieff e d f) (fun q =>
  let et := eff_axis d (snd q) in Some (fst q / Rmax et (w_h d - et))).
(** wi.py:351-373 bending resistance about the major axis for class C. *)
Definition wi_MRd (C : nat) (fy e : R) (d : wi) (f : eff) : option R :=
  bind (if Nat.ltb C 3 then Some (wi_Wply d) else if Nat.eqb C 3 then Some (wi_Wely d) else wi_Weff e d f)
       (fun W => Some (bending_resistance W fy)).

(** wi.py:276-285 plastic moment of the flanges alone. *)
Definition wi_MfRd (fy : R) (d : wi) : R :=
  let hf := w_h d - 1/2 * (w_tb d + w_tt d) in Rmin (hf * At d * fy) (hf * Ab d * fy).
(** wi.py:829-898 shear buckling resistance with stiffeners at distance a; [post] as in
    en1993_1_5.  The section is one that could be built and fy is positive, so that only
    the flange ratio can divide by zero. *)
Definition wi_VbRd (fy e a : R) (post : option bool) (d : wi) (Ned Med : R) : option R :=
  if Rltb (hw d / w_tw d) (72 * e / shear_eta fy) then Some (shear_resistance (wi_shear fy d) fy)
  else
    bind (web_shear fy (hw d) a (w_tw d) post) (fun Vw =>
    let N := Rabs Ned in
    let rN := if Rltb (1/1000000) N then N / ((At d + Ab d) * fy) else 0 in
    bind (pdiv (Rabs Med) ((1 - rN) * wi_MfRd fy d)) (fun rM =>
    if Rltb rM 1 then
      let (bf, tf) := if Rleb (At d * fy) (Ab d * fy) then (w_bt d, w_tt d) else (w_bb d, w_tb d) in
      let bf := Rmin bf (30 * e * tf + w_tw d) in
      Some (Vw + shear_buckling_flanges bf tf fy a (hw d) (w_tw d) fy rM)
    else None)).

(* ---------------------------------------------------------------- WQ *)

(** wq.py:124-136: the top flange between the webs. *)
Definition q_flange (e : R) (d : wq) : option nat :=
  bind (pdiv (q_bt d) (q_tt d)) (fun r => Some (internal_part_in_compression r e)).
(** wq.py:138-149. *)
Definition q_comp (e : R) (d : wq) : option nat :=
  bind (pdiv (q_hw d) (q_tw d)) (fun r => Some (internal_part_in_compression r e)).
(** wq.py:156 stress ratio under bending; wq.py:59-61 the total height. *)
Definition q_psi (d : wq) : option R := pdiv (wq_zel d) (q_h d + q_tb d - wq_zel d).
(** wq.py:157 share of the web in plastic compression under bending. *)
Definition q_alpha (d : wq) : option R := pdiv (wq_zpl d) (q_hw d).
(** wq.py:151-168. *)
Definition q_bend (e : R) (d : wq) : option nat :=
  bind (pdiv (q_hw d) (q_tw d)) (fun r =>
  bind (q_psi d) (fun p => bind (q_alpha d) (fun a => Some (internal_part_comp_bend r e a p)))).
(** wq.py:170-188. *)
Definition q_comp_bend (e fy : R) (d : wq) (Ned : R) : option nat :=
  bind (pdiv (q_hw d) (q_tw d)) (fun r => Some (internal_part_comp_bend r e (cb_alpha fy (wq_area d) Ned) (-1))).
(** steel_section.py:461-505 for a WQ beam. *)
Definition q_class (fy : R) (d : wq) (Ned Med : R) : option nat :=
  bind (epsilon fy) (fun e => class_of Ned Med (q_flange e d) (q_comp e d) (q_bend e d) (q_comp_bend e fy d Ned)).
