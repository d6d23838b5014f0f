(** Model of metku/sections/steel: RHS.py, CHS.py, ISection.py, wi.py, wq.py and the
    cross-section checks of steel_section.py.  [None] stands for a raised exception.
    math.pi is the real number pi. *)
From Verif Require Export Plate_model.

(* ---------------------------------------------------------------- RHS *)

(** RHS.py:470-477. *)
Definition RHS_outer_radius (T : R) : R :=
  if Rleb T 6 then 2 * T else if Rleb T 10 then 25/10 * T else 3 * T.
(** RHS.py:422-426. *)
Definition RHS_area (H B T R0 : R) : R :=
  2 * (H - 2 * R0) * T + 2 * (B - 2 * R0) * T + PI * (R0 ^ 2 - (R0 - T) ^ 2).
(** RHS.py:429-432. *)
Definition RHS_paint_area (H B R0 : R) : R := 2 * (H + B) - 8 * R0 + 2 * PI * R0.
(** RHS.py:435-437. *)
Definition RHS_shear_area (A H B : R) : option R := pdiv (A * H) (H + B).
(** RHS.py:440-451. *)
Definition RHS_second_moment (H B T R0 : R) : R :=
  let I1 := 2 * (1/12 * T * (H - 2 * R0) ^ 3 + 1/12 * (B - 2 * R0) * T ^ 3 + (1/2 * (H - T)) ^ 2 * (B - 2 * R0) * T) in
  let IR := 4 * ((PI / 16 - 4 / 9 / PI) * R0 ^ 4 + (1/2 * H - R0 + 4 * R0 / 3 / PI) ^ 2 * PI * R0 ^ 2 / 4) in
  let IRneg := 4 * ((PI / 16 - 4 / 9 / PI) * (R0 - T) ^ 4 +
     (1/2 * H - R0 + 4 * (R0 - T) / 3 / PI) ^ 2 * PI * (R0 - T) ^ 2 / 4) in
  I1 + IR - IRneg.
(** RHS.py:454-457. *)
Definition RHS_elastic_modulus (H I1 : R) : option R := pdiv I1 (1/2 * H).
(** RHS.py:460-467. *)
Definition RHS_plastic_modulus (H B R0 T : R) : R :=
  let Wp := 2 * ((1/2 * H - R0) * T * (1/2 * H - R0)) + (B - 2 * R0) * T * (H - T) in
  let WR := 2 * PI / 4 * R0 ^ 2 * 2 * (1/2 * H - R0 + 4 * R0 / 3 / PI) in
  let Wneg := 2 * PI / 4 * (R0 - T) ^ 2 * 2 * (1/2 * H - R0 + 4 * (R0 - T) / 3 / PI) in
  Wp + WR - Wneg.
(** RHS.py:172-186 torsional_constant; division by h. *)
Definition RHS_torsional_constant (H B T R0 : R) : option R :=
  let Rc := R0 - 1/2 * T in
  let h := 2 * ((B - T) + (H - T)) - 2 * Rc * (4 - PI) in
  let Ah := (B - T) * (H - T) - Rc ^ 2 * (4 - PI) in
  bind (pdiv (2 * Ah * T) h) (fun K => Some (T ^ 3 * h / 3 + 2 * K * Ah)).
(** RHS.py:234-248. *)
Definition interact (aw UN MRd : R) : R :=
  if Rltb 1 UN then 0 else MRd * Rmin ((1 - UN) / (1 - 1/2 * aw)) 1.
(** RHS.py:234-248; A is positive for a section that could be built. *)
Definition RHS_interact (A B T UN MRd : R) : R := interact (Rmin ((A - 2 * B * T) / A) (1/2)) UN MRd.

(** The attributes of an RHS object that the dimensions determine (RHS.py:37-62, 124-154);
    [None]: not set yet. *)
Record rhs := mkRhs {
  r_H : option R; r_B : option R; r_T : option R;
  r_R : option R; r_A : option R; r_I : option (R * R); r_Ash : option (R * R); r_Au : option R;
  r_Wel : option (R * R); r_Wpl : option (R * R); r_It : option R }.

(** RHS.py:156-162: one attribute is stored. *)
Definition put_H (v : R) (s : rhs) : rhs :=
  mkRhs (Some v) (r_B s) (r_T s) (r_R s) (r_A s) (r_I s) (r_Ash s) (r_Au s) (r_Wel s) (r_Wpl s) (r_It s).
(** RHS.py:156-162: one attribute is stored. *)
Definition put_B (v : R) (s : rhs) : rhs :=
  mkRhs (r_H s) (Some v) (r_T s) (r_R s) (r_A s) (r_I s) (r_Ash s) (r_Au s) (r_Wel s) (r_Wpl s) (r_It s).
(** RHS.py:156-162: one attribute is stored. *)
Definition put_T (v : R) (s : rhs) : rhs :=
  mkRhs (r_H s) (r_B s) (Some v) (r_R s) (r_A s) (r_I s) (r_Ash s) (r_Au s) (r_Wel s) (r_Wpl s) (r_It s).
(** RHS.py:156-162: one attribute is stored. *)
Definition put_R (v : R) (s : rhs) : rhs :=
  mkRhs (r_H s) (r_B s) (r_T s) (Some v) (r_A s) (r_I s) (r_Ash s) (r_Au s) (r_Wel s) (r_Wpl s) (r_It s).
(** RHS.py:156-162: one attribute is stored. *)
Definition put_A (v : R) (s : rhs) : rhs :=
  mkRhs (r_H s) (r_B s) (r_T s) (r_R s) (Some v) (r_I s) (r_Ash s) (r_Au s) (r_Wel s) (r_Wpl s) (r_It s).
(** RHS.py:156-162: one attribute is stored. *)
Definition put_I (v : R * R) (s : rhs) : rhs :=
  mkRhs (r_H s) (r_B s) (r_T s) (r_R s) (r_A s) (Some v) (r_Ash s) (r_Au s) (r_Wel s) (r_Wpl s) (r_It s).
(** RHS.py:156-162: one attribute is stored. *)
Definition put_Ash (v : R * R) (s : rhs) : rhs :=
  mkRhs (r_H s) (r_B s) (r_T s) (r_R s) (r_A s) (r_I s) (Some v) (r_Au s) (r_Wel s) (r_Wpl s) (r_It s).
(** RHS.py:156-162: one attribute is stored. *)
Definition put_Au (v : R) (s : rhs) : rhs :=
  mkRhs (r_H s) (r_B s) (r_T s) (r_R s) (r_A s) (r_I s) (r_Ash s) (Some v) (r_Wel s) (r_Wpl s) (r_It s).
(** RHS.py:156-162: one attribute is stored. *)
Definition put_Wel (v : R * R) (s : rhs) : rhs :=
  mkRhs (r_H s) (r_B s) (r_T s) (r_R s) (r_A s) (r_I s) (r_Ash s) (r_Au s) (Some v) (r_Wpl s) (r_It s).
(** RHS.py:156-162: one attribute is stored. *)
Definition put_Wpl (v : R * R) (s : rhs) : rhs :=
  mkRhs (r_H s) (r_B s) (r_T s) (r_R s) (r_A s) (r_I s) (r_Ash s) (r_Au s) (r_Wel s) (Some v) (r_It s).
(** RHS.py:156-162: one attribute is stored. *)
Definition put_It (v : R) (s : rhs) : rhs :=
  mkRhs (r_H s) (r_B s) (r_T s) (r_R s) (r_A s) (r_I s) (r_Ash s) (r_Au s) (r_Wel s) (r_Wpl s) (Some v).
(** One assignment of update_properties (RHS.py:124-154): either it stores a value and goes
    on, or it raises and the rest is skipped. *)
Definition assign {A} (v : option A) (store : A -> rhs -> rhs) (k : rhs -> rhs * bool) (s : rhs) : rhs * bool :=
  match v with Some x => k (store x s) | None => (s, false) end.

(** RHS.py:124-154 update_properties.  An AttributeError (a dimension is not set yet) is
    swallowed; a ZeroDivisionError leaves the assignments made so far: result flag false. *)
Definition update_properties (s : rhs) : rhs * bool :=
  match r_T s with
  | None => (s, true)
  | Some T =>
    let R0 := RHS_outer_radius T in
    match r_H s, r_B s with
    | Some H, Some B =>
      let A := RHS_area H B T R0 in
      let Iy := RHS_second_moment H B T R0 in
      let Iz := RHS_second_moment B H T R0 in
      assign (Some R0) put_R
      (assign (Some A) put_A
      (assign (Some (Iy, Iz)) put_I
      (assign (bind (RHS_shear_area A B B) (fun a => bind (RHS_shear_area A H B) (fun b => Some (a, b)))) put_Ash
      (assign (Some (RHS_paint_area H B R0)) put_Au
      (assign (bind (RHS_elastic_modulus H Iy) (fun a => bind (RHS_elastic_modulus B Iz) (fun b => Some (a, b)))) put_Wel
      (assign (Some (RHS_plastic_modulus H B R0 T, RHS_plastic_modulus B H R0 T)) put_Wpl
      (assign (RHS_torsional_constant H B T R0) put_It
      (fun s => (s, true))))))))) s
    | _, _ => (put_R R0 s, true)
    end
  end.

(** RHS.py:159 the dimensions whose assignment triggers an update. *)
Inductive dim := dH | dB | dT.
(** RHS.py:156-162 __setattr__ for a dimension. *)
Definition rhs_set (d : dim) (v : R) (s : rhs) : rhs * bool :=
  update_properties (match d with dH => put_H v s | dB => put_B v s | dT => put_T v s end).

(** RHS.py:28-62: the constructor; the values passed to the base class, then the three
    dimension assignments. [None]: it raised. *)
Definition rhs_new (H B T : R) : option rhs :=
  let R0 := RHS_outer_radius T in
  let A := RHS_area H B T R0 in
  let Iy := RHS_second_moment H B T R0 in
  let Iz := RHS_second_moment B H T R0 in
  bind (RHS_shear_area A B H) (fun a1 => bind (RHS_shear_area A H B) (fun a2 =>
  bind (RHS_elastic_modulus H Iy) (fun w1 => bind (RHS_elastic_modulus B Iz) (fun w2 =>
  let s := mkRhs None None None None (Some A) (Some (Iy, Iz)) (Some (a1, a2)) (Some (RHS_paint_area H B R0))
     (Some (w1, w2)) (Some (RHS_plastic_modulus H B R0 T, RHS_plastic_modulus B H R0 T)) None in
  let (s, ok1) := rhs_set dH H s in
  let (s, ok2) := rhs_set dB B s in
  let (s, ok3) := rhs_set dT T s in
  if andb ok1 (andb ok2 ok3) then Some s else None)))).
(** RHS.py:407-413: the square section; the base constructor with H twice. *)
Definition shs_new (H T : R) : option rhs := rhs_new H H T.

(** A history of assignments on an existing section (RHS.py:156-162); an exception leaves
    the object as it is and the caller may carry on. *)
Definition rhs_edits (es : list (dim * R)) (s : rhs) : rhs :=
  fold_left (fun s e => fst (rhs_set (fst e) (snd e) s)) es s.

(* ---------------------------------------------------------------- CHS *)

(** CHS.py:50-52. *)
Definition CHS_area (D T : R) : R := let r := 1/2 * D in PI * r ^ 2 - PI * (r - T) ^ 2.
(** CHS.py:55-56. *)
Definition CHS_paint_area (D : R) : R := PI * D.
(** CHS.py:58-59. *)
Definition CHS_shear_area (D T : R) : R := 2 * CHS_area D T / PI.
(** CHS.py:62-65. *)
Definition CHS_second_moment (D T : R) : R := let r2 := 1/2 * D in let r1 := r2 - T in 1/4 * PI * (r2 ^ 4 - r1 ^ 4).
(** CHS.py:67-68; D is positive. *)
Definition CHS_elastic_modulus (D T : R) : R := CHS_second_moment D T / (1/2 * D).
(** CHS.py:70-73. *)
Definition CHS_plastic_modulus (D T : R) : R := let D1 := D - 2 * T in (D ^ 3 - D1 ^ 3) / 6.
(** CHS.py:76-80. *)
Definition CHS_torsion_modulus (D T : R) : R := PI * D ^ 4 / 32 - PI * (D - 2 * T) ^ 4 / 32.

(* ---------------------------------------------------------------- rolled I *)

(** ISection.py:709-776 cross_section_properties: area. *)
Definition I_area (b h tf tw r : R) : R := 2 * tf * b + (h - 2 * tf) * tw + (4 - PI) * r ^ 2.
(** ISection.py:719 perimeter. *)
Definition I_paint (b h tf tw r : R) : R := 4 * (b - 2 * r) + 2 * (h - 2 * tw) + 2 * PI * r.
(** ISection.py:722 shear area. *)
Definition I_shear (b h tf tw r : R) : R := I_area b h tf tw r - 2 * b * tf + (tw + 2 * r) * tf.
(** ISection.py:726-727 major axis. *)
Definition I_Iy (b h tf tw r : R) : R :=
  1/12 * (b * h ^ 3 - (b - tw) * (h - 2 * tf) ^ 3) + 3/100 * r ^ 4 + 2146/10000 * r ^ 2 * (h - 2 * tf - 4468/10000 * r) ^ 2.
(** ISection.py:728-729 minor axis. *)
Definition I_Iz (b h tf tw r : R) : R :=
  1/12 * (2 * tf * b ^ 3 + (h - 2 * tf) * tw ^ 3) + 3/100 * r ^ 4 + 2146/10000 * r ^ 2 * (tw + 4468/10000 * r) ^ 2.
(** ISection.py:748 warping constant. *)
Definition I_Iw (b h tf : R) : R := tf * b ^ 3 / 24 * (h - tf) ^ 2.
(** ISection.py:752-753. *)
Definition I_Wply (b h tf tw r : R) : R :=
  tw * h ^ 2 / 4 + (b - tw) * (h - tf) * tf + (4 - PI) / 2 * r ^ 2 * (h - 2 * tf) + (3 * PI - 10) / 3 * r ^ 3.
(** ISection.py:754-755. *)
Definition I_Wplz (b h tf tw r : R) : R :=
  b ^ 2 * tf / 2 + (h - 2 * tf) / 4 * tw ^ 2 + r ^ 3 * (10 / 3 - PI) + (2 - PI / 2) * tw * r ^ 2.
(** ISection.py:758-760; h and b are positive. *)
Definition I_Wely (b h tf tw r : R) : R := I_Iy b h tf tw r / (1/2 * h).
(** ISection.py:761. *)
Definition I_Welz (b h tf tw r : R) : R := I_Iz b h tf tw r / (1/2 * b).
(** ISection.py:337-351. *)
Definition I_interact (b h tf tw r UN MRd : R) : R :=
  let A := I_area b h tf tw r in interact (Rmin ((A - 2 * b * tf) / A) (1/2)) UN MRd.

(* ---------------------------------------------------------------- welded I *)

(** The dimensions of a welded I-section (wi.py:42-53). *)
Record wi := mkWi { w_h : R; w_tw : R; w_bt : R; w_bb : R; w_tt : R; w_tb : R; w_a : R }.
(** wi.py:142-143 web height. *)
Definition hw (d : wi) : R := w_h d - w_tt d - w_tb d.
(** wi.py:173-176. *)
Definition Aw (d : wi) : R := hw d * w_tw d.
(** wi.py:178-181. *)
Definition Izw (d : wi) : R := hw d * w_tw d ^ 3 / 12.
(** wi.py:183-186. *)
Definition Iyw (d : wi) : R := w_tw d * hw d ^ 3 / 12.
(** wi.py:188-191. *)
Definition zw (d : wi) : R := w_tb d + 1/2 * hw d.
(** wi.py:203-206. *)
Definition Ab (d : wi) : R := w_bb d * w_tb d.
(** wi.py:208-213. *)
Definition Izb (d : wi) : R := w_tb d * w_bb d ^ 3 / 12.
(** wi.py:215-220. *)
Definition Iyb (d : wi) : R := w_bb d * w_tb d ^ 3 / 12.
(** wi.py:222-225. *)
Definition zb (d : wi) : R := 1/2 * w_tb d.
(** wi.py:237-240. *)
Definition At (d : wi) : R := w_bt d * w_tt d.
(** wi.py:242-247. *)
Definition Izt (d : wi) : R := w_tt d * w_bt d ^ 3 / 12.
(** wi.py:249-254. *)
Definition Iyt (d : wi) : R := w_bt d * w_tt d ^ 3 / 12.
(** wi.py:256-259. *)
Definition zt (d : wi) : R := w_h d - 1/2 * w_tt d.
(** wi.py:261-264 straight part of the top flange. *)
Definition cf_top (d : wi) : R := 1/2 * (w_bt d - w_tw d) - sqrt 2 * w_a d.
(** wi.py:266-269. *)
Definition cf_bottom (d : wi) : R := 1/2 * (w_bb d - w_tw d) - sqrt 2 * w_a d.
(** wi.py:271-274 straight part of the web. *)
Definition cw (d : wi) : R := hw d - 2 * sqrt 2 * w_a d.
(** wi.py:587-589. *)
Definition wi_area (d : wi) : R := Aw d + At d + Ab d.
(** wi.py:591-599. *)
Definition wi_shear (fy : R) (d : wi) : R := shear_eta fy * hw d * w_tw d.
(** wi.py:601-604. *)
Definition wi_paint (d : wi) : R := 2 * w_tt d + w_bt d + 2 * hw d + 2 * w_tb d + 2 * w_bb d - 2 * w_tw d.
(** wi.py:605-608; the area of a section that could be built is positive. *)
Definition zel (d : wi) : R := (zb d * Ab d + zw d * Aw d + zt d * At d) / wi_area d.
(** wi.py:639-655. *)
Definition zpl (d : wi) : R :=
  if Rleb (wi_area d / 2) (At d) then w_h d - wi_area d / (2 * w_bt d)
  else if Rleb (wi_area d / 2) (Ab d) then wi_area d / (2 * w_bb d)
  else (wi_area d / 2 - Ab d) / w_tw d + w_tb d.
(** wi.py:657-670. *)
Definition wi_Iy (d : wi) : R :=
  1/12 * w_bb d * w_tb d ^ 3 + (zel d - zb d) ^ 2 * Ab d +
  1/12 * w_tw d * hw d ^ 3 + (zel d - zw d) ^ 2 * Aw d +
  1/12 * w_bt d * w_tt d ^ 3 + (zel d - zt d) ^ 2 * At d.
(** wi.py:666-668. *)
Definition wi_Iz (d : wi) : R :=
  1/12 * w_tb d * w_bb d ^ 3 + 1/12 * w_tt d * w_bt d ^ 3 + 1/12 * hw d * w_tw d ^ 3.
(** wi.py:672-687. *)
Definition wi_Wely (d : wi) : R := wi_Iy d / Rmax (zel d) (w_h d - zel d).
(** wi.py:685. *)
Definition wi_Welz (d : wi) : R := wi_Iz d / (1/2 * Rmax (w_bt d) (w_bb d)).
(** wi.py:689-722. *)
Definition wi_Wply (d : wi) : R :=
  let p := zpl d in
  if Rleb (wi_area d / 2) (At d) then
    w_bt d * (w_h d - p) ^ 2 / 2 + w_bt d * (p - hw d - w_tb d) ^ 2 / 2 + Aw d * (p - hw d / 2 - w_tb d) + Ab d * (p - w_tb d / 2)
  else if Rleb (wi_area d / 2) (Ab d) then
    At d * (w_h d - p - w_tt d / 2) + Aw d * (w_h d - p - w_tt d - hw d / 2) + w_bb d * (w_h d - p - w_tt d - hw d) ^ 2 / 2 + w_bb d * p ^ 2 / 2
  else
    At d * (w_h d - p - w_tt d / 2) + w_tw d * (w_h d - p - w_tt d) ^ 2 / 2 + w_tw d * (p - w_tb d) ^ 2 / 2 + Ab d * (p - w_tb d / 2).
(** wi.py:723-725. *)
Definition wi_Wplz (d : wi) : R := 1/4 * Ab d * w_bb d + 1/4 * At d * w_bt d + 1/4 * Aw d * w_tw d.
(** wi.py:729-733. *)
Definition wi_It (d : wi) : R := 1/3 * (w_bt d * w_tt d ^ 3 + w_bb d * w_tb d ^ 3 + hw d * w_tw d ^ 3).
(** wi.py:743-750. *)
Definition wi_Iw (d : wi) : R :=
  let Izf1 := w_tt d * w_bt d ^ 3 / 12 in
  Izf1 * (1 - Izf1 / wi_Iz d) * (w_h d - w_tt d / 2 - w_tb d / 2) ^ 2.
(** wi.py:447-462 shear centre from the centroid. *)
Definition wi_zs (d : wi) : R :=
  (Izt d * (zt d - zel d) + Izb d * (zb d - zel d) + Izw d * (zw d - zel d)) / wi_Iz d.
(** wi.py:464-490 Wagner's factor. *)
Definition wi_zj (d : wi) : R :=
  wi_zs d - 1 / (2 * wi_Iy d) *
    (zt d * (Izt d + At d * zt d ^ 2 + 3 * Iyt d) + zb d * (Izb d + Ab d * zb d ^ 2 + 3 * Iyb d) + zw d * (Izw d + Aw d * zw d ^ 2 + 3 * Iyw d)).
(** wi.py:567-585. *)
Definition wi_interact (d : wi) (UN MRd : R) : R :=
  interact (Rmin ((wi_area d - (w_bt d * w_tt d - w_bb d * w_tb d)) / wi_area d) (1/2)) UN MRd.

(** wi.py:80-94 imperfection factors for flexural and lateral-torsional buckling, chosen by
    the constructor. *)
Definition wi_imp (d : wi) : R * R * R :=
  let f := if Rleb (Rmax (w_tt d) (w_tb d)) 40 then (buckling_curve cb, buckling_curve cc) else (buckling_curve cc, buckling_curve cd) in
  (f, if Rleb (w_h d / Rmin (w_bt d) (w_bb d)) 2 then buckling_curve cc else buckling_curve cd).

(** The object: dimensions, imperfection factors and the values the base class stored
    (wi.py:25-95; steel_section.py:96-128). *)
Record wi_obj := mkWiObj { o_dims : wi; o_imp : R * R * R; o_stored : R }.
(** wi.py:25-95 the constructor. *)
Definition wi_new (d : wi) : wi_obj := mkWiObj d (wi_imp d) (wi_area d).
(** Attributes that can be assigned (wi.py:150-164). *)
Inductive wattr := ah | atw | abt | abb | att | atb | aweld | ab | atf | ahw.
(** wi.py:150-164 __setattr__. *)
Definition wi_set (k : wattr) (v : R) (o : wi_obj) : wi_obj :=
  let d := o_dims o in
  let d' := match k with
    | ah => mkWi v (w_tw d) (w_bt d) (w_bb d) (w_tt d) (w_tb d) (w_a d)
    | atw => mkWi (w_h d) v (w_bt d) (w_bb d) (w_tt d) (w_tb d) (w_a d)
    | abt => mkWi (w_h d) (w_tw d) v (w_bb d) (w_tt d) (w_tb d) (w_a d)
    | abb => mkWi (w_h d) (w_tw d) (w_bt d) v (w_tt d) (w_tb d) (w_a d)
    | att => mkWi (w_h d) (w_tw d) (w_bt d) (w_bb d) v (w_tb d) (w_a d)
    | atb => mkWi (w_h d) (w_tw d) (w_bt d) (w_bb d) (w_tt d) v (w_a d)
    | aweld => mkWi (w_h d) (w_tw d) (w_bt d) (w_bb d) (w_tt d) (w_tb d) v
    | ab => mkWi (w_h d) (w_tw d) v v (w_tt d) (w_tb d) (w_a d)
    | atf => mkWi (w_h d) (w_tw d) (w_bt d) (w_bb d) v v (w_a d)
    | ahw => mkWi (v + w_tt d + w_tb d) (w_tw d) (w_bt d) (w_bb d) (w_tt d) (w_tb d) (w_a d)
    end in
  mkWiObj d' (o_imp o) (o_stored o).
(** Properties computed when read (wi.py:110-148). *)
Inductive wprop := pA | pIy | pIz | pWely | pWelz | pWply | pWplz | pAshear | pAu | pIt | pIw | pzs | pzj | phw.
(** wi.py:110-148 __getattribute__. *)
Definition wi_get (fy : R) (p : wprop) (o : wi_obj) : R :=
  let d := o_dims o in
  match p with
  | pA => wi_area d | pIy => wi_Iy d | pIz => wi_Iz d | pWely => wi_Wely d | pWelz => wi_Welz d
  | pWply => wi_Wply d | pWplz => wi_Wplz d | pAshear => wi_shear fy d | pAu => wi_paint d
  | pIt => wi_It d | pIw => wi_Iw d | pzs => wi_zs d | pzj => wi_zj d | phw => hw d
  end.
(** A history of assignments (wi.py:150-164). *)
Definition wi_edits (es : list (wattr * R)) (o : wi_obj) : wi_obj :=
  fold_left (fun o e => wi_set (fst e) (snd e) o) es o.

(** Effective parts of a class 4 section: ineffective widths of the flanges and of the web and
    the upper effective part of the web (wi.py:63-66). *)
Record eff := mkEff { e_top : R; e_bot : R; e_web : R; e_be : R }.
(** wi.py:63-66. *)
Definition eff0 : eff := mkEff 0 0 0 1.
(** wi.py:752-788 ineffective width of one flange. *)
Definition eff_flange (eps c t : R) : option R :=
  bind (lambda_p c t eps (buckling_factor_outstand 1 true)) (fun lp => Some ((1 - reduction_factor_outstand lp) * c)).
(** wi.py:613-634 effective neutral axis. *)
Definition eff_axis (d : wi) (e : eff) : R :=
  let Anb := 2 * e_bot e * w_tb d in
  let Ant := 2 * e_top e * w_tt d in
  let zneg := w_h d - w_tt d - w_a d * sqrt 2 - e_be e - 1/2 * e_web e in
  let Anw := e_web e * w_tw d in
  (zb d * (Ab d - Anb) + zt d * (At d - Ant) + zw d * Aw d - zneg * Anw) / (wi_area d - Anb - Ant - Anw).
(** wi.py:793-834 effective web for a given stress ratio. *)
Definition eff_web (eps : R) (d : wi) (ps : R) (e : eff) : option eff :=
  bind (buckling_factor_internal ps) (fun ks =>
  bind (lambda_p (cw d) (w_tw d) eps ks) (fun lp =>
  bind (reduction_factor_internal lp ps) (fun rho =>
  let (beff, be) := effective_width_internal (cw d) ps rho in
  let e := mkEff (e_top e) (e_bot e) (e_web e) (fst be) in
  let ec := w_h d - eff_axis d e in
  Some (mkEff (e_top e) (e_bot e) (ec - w_tb d - sqrt 2 * w_a d - beff) (e_be e))))).
(** wi.py:317-333 effective area in pure compression, with the effective parts it leaves. *)
Definition wi_Aeff (eps : R) (d : wi) (e : eff) : option (R * eff) :=
  bind (eff_flange eps (cf_top d) (w_tt d)) (fun bt =>
  bind (eff_flange eps (cf_bottom d) (w_tb d)) (fun bb =>
  bind (eff_web eps d 1 (mkEff bt bb (e_web e) (e_be e))) (fun e' =>
  Some (wi_area d - 2 * e_top e' * w_tt d - 2 * e_bot e' * w_tb d - e_web e' * w_tw d, e')))).

(* ---------------------------------------------------------------- WQ beam *)

(** The dimensions of a WQ beam (wq.py:22-37). *)
Record wq := mkWq { q_h : R; q_tw : R; q_bt : R; q_bb : R; q_tt : R; q_tb : R }.
(** wq.py:60-62. *)
Definition q_hw (d : wq) : R := q_h d - q_tt d.
(** wq.py:64-67 one web. *)
Definition q_Aw (d : wq) : R := q_h d * q_tw d.
(** wq.py:69-72. *)
Definition q_zw (d : wq) : R := q_tb d + 1/2 * q_h d.
(** wq.py:84-87. *)
Definition q_Ab (d : wq) : R := q_bb d * q_tb d.
(** wq.py:89-92. *)
Definition q_zb (d : wq) : R := 1/2 * q_tb d.
(** wq.py:104-107. *)
Definition q_At (d : wq) : R := q_bt d * q_tt d.
(** wq.py:109-112. *)
Definition q_zt (d : wq) : R := q_tb d + q_h d - 1/2 * q_tt d.
(** wq.py:207-209. *)
Definition wq_area (d : wq) : R := 2 * q_Aw d + q_At d + q_Ab d.
(** wq.py:220-225; the area is positive. *)
Definition wq_zel (d : wq) : R := (q_zb d * q_Ab d + q_zw d * q_Aw d + q_zt d * q_At d) / wq_area d.
(** wq.py:227-233 plastic neutral axis, downwards from the bottom of the top flange. *)
Definition wq_zpl (d : wq) : R := 1/2 * (q_hw d - q_tt d) - 1/4 * (q_At d - q_Ab d) / q_tw d.
(** wq.py:235-242. *)
Definition wq_Iy (d : wq) : R :=
  1/12 * q_bb d * q_tb d ^ 3 + (wq_zel d - q_zb d) ^ 2 * q_Ab d +
  1/6 * q_tw d * q_h d ^ 3 + (wq_zel d - q_zw d) ^ 2 * 2 * q_Aw d +
  1/12 * q_bt d * q_tt d ^ 3 + (wq_zel d - q_zt d) ^ 2 * q_At d.
(** wq.py:252-265. *)
Definition wq_Wely (d : wq) : R :=
  let ztop := q_h d + q_bb d - wq_zel d in wq_Iy d / Rmax (wq_zel d) ztop.

(* ---------------------------------------------------------------- checks *)

(** Classes of the parts, as computed by the section (steel_section.py:465-511). *)
Record classes := mkCls { c_flange : nat; c_comp : nat; c_bend : nat; c_comp_bend : nat }.
(** steel_section.py:465-511 section_class. *)
Definition section_class (Ned Med : R) (c : classes) : nat :=
  if andb (Rleb 0 Ned) (Rltb (Rabs Med) (1/10000)) then 1%nat
  else if andb (Rltb (Rabs Ned) (1/10000)) (Rltb (1/10000) (Rabs Med)) then Nat.max (c_bend c) (c_flange c)
  else if orb (Rltb Ned 0) (Reqb Med 0) then
    if Rltb (Rabs Med) (1/10000) then Nat.max (c_comp c) (c_flange c) else Nat.max (c_comp_bend c) (c_flange c)
  else 1%nat.
(** steel_section.py:524-549 bending_resistance of a section of class C. *)
Definition section_MRd (C : nat) (Wpl Wel fy : R) : R :=
  bending_resistance (if Nat.ltb C 3 then Wpl else Wel) fy.
(** steel_section.py:623-673 section_resistance about one axis: the list [UN, UV, UM, UMN];
    [inter] is the section's moment_axial_force_interact.  The resistances are positive. *)
Definition section_resistance (C : nat) (inter : R -> R -> R) (Ned Ved Med NRd VRd MRd : R) : list R :=
  let UN := Rabs Ned / NRd in
  let UV := Rabs Ved / VRd in
  let UM := Rabs Med / MRd in
  let UMN := if Nat.ltb C 3 then
      let MNRd := inter UN MRd in if Rltb 0 MNRd then Rabs Med / MNRd else UN + UM
    else UN + UM in
  [UN; UV; UM; UMN].

(** The second moment handed to the base class (steel_section.py:107): an array of two
    entries, or one number for circular sections (CHS.py:34, 62-65). *)
Inductive moments := pair_of (y z : R) | single (i : R).
(** steel_section.py:175-178 Iy for a section that is not rotated; indexing a zero
    dimensional array raises. *)
Definition read_Iy (m : moments) : option R := match m with pair_of y _ => Some y | single _ => None end.
