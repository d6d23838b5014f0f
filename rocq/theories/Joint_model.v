(** Model of metku/eurocodes/en1993/en1993_1_8/en1993_1_8.py (bolts, bolt rows, T-stubs, welds) and of
    component_method.py.  [None] stands for a raised exception. *)
From Coq Require Import Rpower.
From Verif Require Export EC3_model.

(* ---------------------------------------------------------------- bolts *)

(** en1993_1_8.py:22-28 the bolt classes; another class raises KeyError and is not modelled. *)
Inductive bclass := B46 | B48 | B56 | B58 | B68 | B88 | B109.
(** en1993_1_8.py:22-28 yield strength. *)
Definition class_fyb (c : bclass) : R :=
  match c with B46 => 240 | B48 => 320 | B56 => 300 | B58 => 400 | B68 => 480 | B88 => 640 | B109 => 900 end.
(** en1993_1_8.py:22-28 ultimate strength. *)
Definition class_fub (c : bclass) : R :=
  match c with B46 => 400 | B48 => 400 | B56 => 500 | B58 => 500 | B68 => 600 | B88 => 800 | B109 => 1000 end.

(** The data of a bolt size (en1993_1_8.py:44-76): stress area, head thickness and width across flats,
    nut thickness and outer size, washer thickness and diameter. *)
Record bdata := mkBdata { t_As : R; t_k : R; t_s : R; t_m : R; t_e : R; t_h : R; t_d2 : R }.
(** en1993_1_8.py:44-76 bolt_size, nut_size, washer_size; [None]: KeyError. *)
Definition size_data (n : nat) : option bdata :=
  match n with
  | 12 => Some (mkBdata (843/10) (75/10) 18 (108/10) (2003/100) (25/10) 24)
  | 16 => Some (mkBdata 157 10 24 (148/10) (2675/100) 3 30)
  | 20 => Some (mkBdata 245 (125/10) 30 18 (3295/100) 3 37)
  | 24 => Some (mkBdata 353 15 36 (215/10) (3955/100) 4 44)
  | 30 => Some (mkBdata 561 (187/10) 46 (256/10) (5085/100) 4 56)
  | 36 => Some (mkBdata 817 (225/10) 55 31 (6079/100) 5 66)
  | _ => None
  end.

(** cost_data.py:126-154 bolt_unit_cost_part_thread: for each length the sizes with a price (the
    others are "N/A"); the entry 'max' that ends the dict is not a length. *)
Definition part_thread : list (nat * list nat) :=
  [(20,[]); (25,[]); (30,[]); (35,[]); (40,[]); (45,[]); (50,[12]); (55,[12;16]); (60,[12;16]);
   (65,[12;16;20]); (70,[12;16;20]); (75,[16;20;24]); (80,[12;16;20;24]); (90,[12;16;20;24;30]);
   (100,[12;16;20;24;30]); (110,[12;16;20;24;30]); (120,[12;16;20;24;30;36]); (130,[12;16;20;24;30;36]);
   (140,[12;16;20;24;30;36]); (150,[12;16;20;24;30]); (160,[12;16;20;24;30;36]); (180,[12;16;20;24;30;36]);
   (200,[12;16;20;24;30;36]); (220,[12;16;20;24;30]); (240,[12;16;20;24;36]); (260,[12;16;20;24;30]);
   (280,[16;24;36]); (300,[16;20;24;30])]%nat.

(** en1993_1_8.py:123-129, 208-214: the first length of the table that is at least the requested one
    and has the size.  [None]: no such length; the loop then reaches the key 'max' and the
    comparison with it raises TypeError, so the search in the other table (134-140) never runs. *)
Fixpoint find_length (tab : list (nat * list nat)) (size : nat) (len : R) : option nat :=
  match tab with
  | [] => None
  | (k, sizes) :: tab =>
      if Rleb len (INR k) then if existsb (Nat.eqb size) sizes then Some k else find_length tab size len
      else find_length tab size len
  end.

(** en1993_1_8.py:148-153, 184-189 hole diameter. *)
Definition hole (size : nat) : nat :=
  if Nat.ltb size 16 then size + 1 else if Nat.ltb size 27 then size + 2 else size + 3.

(** Bolt (en1993_1_8.py:107-174): size, requested and actual length, class, hole diameter, shank
    area and the data of the size. *)
Record bolt := mkBolt { b_size : nat; b_min : R; b_len : R; b_class : bclass; b_d0 : R; b_A : R;
  b_data : bdata; b_fyb : R; b_fub : R }.

(** en1993_1_8.py:110-170 Bolt.__init__ (the thread type is always 'Partial thread' when it returns). *)
Definition new_bolt (size : nat) (c : bclass) (len : R) : option bolt :=
  match find_length part_thread size len with
  | None => None
  | Some k =>
      match size_data size with
      | None => None
      | Some dt => Some (mkBolt size len (INR k) c (INR (hole size)) (PI * INR size ^ 2 / 4) dt (class_fyb c) (class_fub c))
      end
  end.

(** en1993_1_8.py:173-176 dw. *)
Definition dw (b : bolt) : R := Rmax (Rmax (t_d2 (b_data b)) (t_s (b_data b))) (t_e (b_data b)).

(** en1993_1_8.py:182-230 size setter (an unknown size or length raises part-way through). *)
Definition set_size (b : bolt) (size : nat) : option bolt :=
  match size_data size with
  | None => None
  | Some dt =>
      match find_length part_thread size (b_min b) with
      | None => None
      | Some k => Some (mkBolt size (b_min b) (INR k) (b_class b) (INR (hole size)) (PI * INR size ^ 2 / 4) dt (b_fyb b) (b_fub b))
      end
  end.

(** en1993_1_8.py:248-251 the shear factor for the shear plane in the threads. *)
Definition alpha_v (c : bclass) : R :=
  match c with B109 | B68 | B58 | B48 => 5/10 | B46 | B56 | B88 => 6/10 end.
(** en1993_1_8.py:234-271 shear_resistance. *)
Definition shear_resistance (b : bolt) (threads : bool) : R :=
  (if threads then alpha_v (b_class b) * b_fub b * t_As (b_data b) else 6/10 * b_fub b * b_A b) / gammaM2.
(** en1993_1_8.py:2109-2133 bolt_shear_resistance. *)
Definition bolt_shear_resistance (fub A : R) (c : bclass) (threads : bool) : R :=
  (if threads then 6/10 else alpha_v c) * fub * A / gammaM2.
(** en1993_1_8.py:275-284 tension_resistance. *)
Definition tension_resistance (b : bolt) (k2 : R) : R := k2 * b_fub b * t_As (b_data b) / gammaM2.
(** en1993_1_8.py:2171-2182 bolt_tension_resistance. *)
Definition bolt_tension_resistance (fub As k2 : R) : R := k2 * fub * As / gammaM2.

(** en1993_1_8.py:307-310 alpha_d; [edge]: pos_load = "edge". *)
Definition alpha_d (e1 p1 d0 : R) (edge : bool) : R := if edge then e1 / 3 / d0 else p1 / 3 / d0 - 1/4.
(** en1993_1_8.py:312-315 k1. *)
Definition k1 (e2 p2 d0 : R) (edge : bool) : R :=
  if edge then Rmin (Rmin (28/10 * e2 / d0 - 17/10) (14/10 * p2 / d0 - 17/10)) (25/10)
  else Rmin (14/10 * p2 / d0 - 17/10) (25/10).
(** en1993_1_8.py:287-334 bearing_resistance; [None]: fu = 0. *)
Definition bearing_resistance (b : bolt) (fu t e1 e2 p1 p2 : R) (perp_edge load_edge : bool) : option R :=
  bind (pdiv (b_fub b) fu) (fun q =>
  let ab := Rmin (Rmin (alpha_d e1 p1 (b_d0 b) load_edge) q) 1 in
  Some (k1 e2 p2 (b_d0 b) perp_edge * ab * fu * INR (b_size b) * t / gammaM2)).
(** en1993_1_8.py:2135-2169 bolt_bearing_resistance. *)
Definition bolt_bearing_resistance (fub fu d t e1 e2 p1 p2 d0 : R) (perp_edge load_edge : bool) : option R :=
  bind (pdiv fub fu) (fun q =>
  let kk := if perp_edge then Rmin (28/10 * e2 / d0 - 17/10) (25/10) else Rmin (14/10 * p2 / d0 - 17/10) (25/10) in
  let ab := Rmin (Rmin (alpha_d e1 p1 d0 load_edge) q) 1 in
  Some (kk * ab * fu * d * t)).
(** en1993_1_8.py:2184-2194 bolt_punching_shear_resistance. *)
Definition punching_resistance (dm tp fu : R) : R := 6/10 * PI * dm * tp * fu / gammaM2.
(** en1993_1_8.py:2196-2207 shear_and_tension_resistance. *)
Definition shear_and_tension (FvEd FvRd FtEd FtRd : R) : option R :=
  bind (pdiv FvEd FvRd) (fun a => bind (pdiv FtEd FtRd) (fun b => Some (a + b / (14/10)))).
(** en1993_1_8.py:2209-2228 block_tearing. *)
Definition block_tearing (fy fu Ant Anv : R) (concentric : bool) : R :=
  (if concentric then fu * Ant / gammaM2 else 5/10 * fu * Ant / gammaM2) + fy / sqrt 3 * Anv / gammaM0.
(** en1993_1_8.py:2230-2238 stiffness_ratio; the exponent psi is a parameter. *)
Definition stiffness_ratio (r psi : R) : R := if Rleb r (2/3) then 1 else Rpower (15/10 * r) psi.

(** en1993_1_8.py:78-82 the grades with a correlation coefficient; another name raises KeyError. *)
Inductive grade := S235 | S275 | S355 | S420 | S460.
(** en1993_1_8.py:78-82. *)
Definition correlation (g : grade) : R :=
  match g with S235 => 8/10 | S275 => 85/100 | S355 => 9/10 | S420 => 1 | S460 => 1 end.
(** en1993_1_8.py:2240-2249 full_strength_weld_throat, per unit plate thickness. *)
Definition weld_throat (g : grade) (fy fu : R) : option R := pdiv (correlation g / sqrt 2 * gammaM2 / gammaM0 * fy) fu.
(** en1993_1_8.py:2251-2259 full_strength_weld_tube. *)
Definition weld_tube (g : grade) (fy fu : R) : option R := pdiv (2 * correlation g / sqrt 2 * gammaM2 / gammaM0 * fy) fu.

(* ---------------------------------------------------------------- the component method *)

(** component_method.py:24-25 the factor with coefficient [q] (1.3 or 5.2). *)
Definition omega_q (q beff tw Avc : R) : option R :=
  bind (pdiv (beff * tw) Avc) (fun x => Some (1 / sqrt (1 + q * x ^ 2))).
(** component_method.py:20-40 min_coeff_w (the last branch prints and returns 0). *)
Definition min_coeff_w (beta beff tw Avc : R) : option R :=
  bind (omega_q (13/10) beff tw Avc) (fun w1 =>
  bind (omega_q (52/10) beff tw Avc) (fun w2 =>
  Some (if andb (Rleb 0 beta) (Rleb beta (1/2)) then 1
        else if andb (Rltb (1/2) beta) (Rltb beta 1) then w1 + 2 * (1 - beta) * (1 - w1)
        else if Reqb beta 1 then w1
        else if andb (Rltb 1 beta) (Rltb beta 2) then w1 + 2 * (beta - 1) * (1 - w1)
        else if Reqb beta 2 then w2
        else 0))).

(** component_method.py:43-49 lambda11; [round12] is Python's round to 12 digits; [None]: division by zero. *)
Definition lambda11 (round12 : R -> R) (lambda2 alfa : R) : option R :=
  bind (pdiv (125/100) (alfa - 275/100)) (fun q1 =>
  let l1 := round12 q1 in let l2 := round12 (alfa * l1 / 2) in
  if Rleb l2 lambda2 then Some l1
  else bind (pdiv (l2 - lambda2) l2) (fun q => Some (l1 + (1 - l1) * Rpower q (alfa / sqrt 2)))).

(** component_method.py:59-70 the loop of par_alfa; [fuel] iterations remain, [diff] is the last one. *)
Fixpoint par_loop (lam : R -> option R) (lambda1 : R) (fuel : nat) (alfa diff : R) : option R :=
  if Rltb (1/1000) (Rabs diff) then
    match fuel with
    | O => Some alfa
    | S fuel => bind (lam alfa) (fun l => par_loop lam lambda1 fuel (alfa + (l - lambda1)) (l - lambda1))
    end
  else Some alfa.
(** component_method.py:53-72 par_alfa, [lam] is lambda11 with the given lambda2; 1000 iterations. *)
Definition par_alfa (lam : R -> option R) (lambda1 : R) : option R :=
  bind (lam (65/10)) (fun l => par_loop lam lambda1 1000 (65/10) (l - lambda1)).

(** component_method.py:94-97 new_alpha; [None]: division by zero, or a power of a negative number
    (complex, not comparable). *)
Definition new_alpha (e m m2 : R) : option R :=
  bind (pdiv e m) (fun q => bind (pdiv m m2) (fun r =>
  if Rltb r 0 then None
  else Some (Rmin (Rmax (4 + 167/100 * q * Rpower r (67/100)) (4 + 125/100 * q)) 8))).

(** The column and beam data used (SteelSection attributes fy, Ashear[1], r, tf, tw, hw, E, eps, b, h). *)
Record prof := mkProf { s_fy : R; s_Av : R; s_r : R; s_tf : R; s_tw : R; s_hw : R; s_E : R; s_b : R; s_h : R }.

(** component_method.py:103-111 col_web_shear. *)
Definition col_web_shear (c : prof) : R := 9/10 * s_fy c * s_Av c / sqrt 3 / gammaM0.
(** component_method.py:113-119 col_web_shear_k. *)
Definition col_web_shear_k (c : prof) (beta z : R) : option R := bind (pdiv (38/100 * s_Av c) beta) (fun q => pdiv q z).
(** component_method.py:121-129 beam_web_compression, [MRd] the bending resistance of the beam. *)
Definition beam_web_compression (MRd h tf : R) : option R := pdiv MRd (h - tf).
(** component_method.py:132-141 beam_web_tension. *)
Definition beam_web_tension (b : prof) (beff : R) : R := beff * s_tw b * s_fy b / gammaM0.
(** component_method.py:143-151 Tstub_compression_flange. *)
Definition Tstub_compression (fjd beff leff : R) : R := fjd * beff * leff.

(** component_method.py:183-187 effective length of the compressed web. *)
Definition beff_c (c b : prof) (tp lo a : R) : R :=
  s_tf b + 2 * sqrt 2 * a + 5 * (s_tf c + s_r c) + Rmin (2 * tp) (tp + lo - sqrt 2 * a).
(** component_method.py:196 slenderness of the web. *)
Definition lam_p (c : prof) (beff : R) : option R :=
  bind (pdiv (beff * s_hw c * s_fy c) (s_E c * s_tw c ^ 2)) (fun q => bind (psqrt q) (fun r => Some (932/1000 * r))).
(** component_method.py:199-202 reduction for plate buckling. *)
Definition rho_c (l : R) : R := if Rleb l (72/100) then 1 else (l - 2/10) / l ^ 2.
(** component_method.py:210-213 reduction for the longitudinal stress. *)
Definition k_wc (sigma fy : R) : R := if Rleb sigma (7/10 * fy) then 1 else 17/10 - sigma / fy.
(** component_method.py:154-225 col_web_trv_comp, first component of the result (the second is beff_c). *)
Definition col_web_trv_comp (c b : prof) (tp lo a beta sigma : R) : option R :=
  let beff := beff_c c b tp lo a in
  bind (lam_p c beff) (fun l =>
  bind (min_coeff_w beta beff (s_tw c) (s_Av c)) (fun w =>
  let k := k_wc sigma (s_fy c) in
  Some (Rmin (w * k * beff * s_tw c * s_fy c / gammaM0) (w * k * rho_c l * beff * s_tw c * s_fy c / gammaM1)))).
(** component_method.py:227-230 col_web_trv_comp_k and 288-298 column_web_tension_k. *)
Definition col_web_k (c : prof) (beff : R) : option R := pdiv (7/10 * beff * s_tw c) (s_hw c).
(** component_method.py:232-255 col_web_trv_comp_stiffened; [bs], [ts], [lcr], [fyp] of the plate. *)
Definition col_web_stiffened (eps tw bs ts lcr fyp : R) : option R :=
  let A := (30 * eps * tw + ts) * tw + 2 * bs * ts in
  let Is := (2 * bs + tw) ^ 3 * ts / 12 in
  bind (pdiv Is A) (fun q => bind (psqrt q) (fun i =>
  bind (pdiv lcr i) (fun l => bind (pdiv l (939/10 * eps)) (fun ls =>
  if Rltb (2/10) ls then bind (buckling_reduction_factor ls (49/100)) (fun chi => Some (chi * A * fyp / gammaM1))
  else Some (1 * A * fyp / gammaM0))))).
(** component_method.py:258-286 column_web_tension. *)
Definition column_web_tension (c : prof) (leff beta : R) : option R :=
  bind (min_coeff_w beta leff (s_tw c) (s_Av c)) (fun w => Some (w * leff * s_tw c * s_fy c / gammaM0)).
(** component_method.py:309-319 column_flange_bending_k, 330-339 end_plate_bending_k. *)
Definition flange_bending_k (t leff m : R) : option R := pdiv (9/10 * leff * t ^ 3) (m ^ 3).
(** component_method.py:341-345 bolt_row_tension_k, en1993_1_8.py:744-749 BoltRow.k10. *)
Definition bolt_row_k (As Lb : R) : option R := pdiv (16/10 * As) Lb.

(* ---------------------------------------------------------------- T-stubs *)

(** A T-stub as its resistance formulas see it (en1993_1_8.py:1173-1369, 1677-1831): flange thickness,
    yield strength, edge distance, distance to the web, the two effective lengths and the resistance
    of its bolts (F_T_3_Rd). *)
Record tstub := mkT { ts_tf : R; ts_fy : R; ts_emin : R; ts_m : R; ts_cp : R; ts_nc : R; ts_F3 : R }.
(** en1993_1_8.py:1253-1255 n. *)
Definition ts_n (t : tstub) : R := Rmin (ts_emin t) (125/100 * ts_m t).
(** en1993_1_8.py:1283-1289 leff_1. *)
Definition leff_1 (t : tstub) : R := Rmin (ts_cp t) (ts_nc t).
(** en1993_1_8.py:1291-1297 leff_2. *)
Definition leff_2 (t : tstub) : R := ts_nc t.
(** en1993_1_8.py:1315-1325 MplRd_1, MplRd_2. *)
Definition Mpl (leff : R) (t : tstub) : R := 25/100 * leff * ts_tf t ^ 2 * ts_fy t / gammaM0.
(** en1993_1_8.py:1327-1329 F_T_1_Rd. *)
Definition F_T_1 (t : tstub) : option R := pdiv (4 * Mpl (leff_1 t) t) (ts_m t).
(** en1993_1_8.py:1331-1333 F_T_2_Rd. *)
Definition F_T_2 (t : tstub) : option R := pdiv (2 * Mpl (leff_2 t) t + ts_n t * ts_F3 t) (ts_m t + ts_n t).
(** numpy.argmin of three values (en1993_1_8.py:1366): the first index of the smallest. *)
Definition argmin3 (a b c : R) : nat := if andb (Rleb a b) (Rleb a c) then 0 else if Rleb b c then 1 else 2.
(** en1993_1_8.py:1353-1369 FT_Rd: the resistance and the governing mode. *)
Definition FT_Rd (t : tstub) : option (R * nat) :=
  bind (F_T_1 t) (fun a => bind (F_T_2 t) (fun b =>
  let c := ts_F3 t in
  let i := argmin3 a b c in
  Some (match i with 0 => a | 1 => b | _ => c end, i))).
(** What a T-stub remembers (en1993_1_8.py:1205-1208): _leff and failure_mode ([None] = -1). *)
Record tmem := mkMem { mem1 : R; mem2 : R; mem_mode : option nat }.
(** The memory of a new T-stub (en1993_1_8.py:1205-1208). *)
Definition new_mem : tmem := mkMem (-1) (-1) None.
(** en1993_1_8.py:1353-1369: computing the resistance stores the lengths and the mode. *)
Definition run_FT (t : tstub) (s : tmem) : option (R * tmem) :=
  match FT_Rd t with None => None | Some (r, i) => Some (r, mkMem (leff_1 t) (leff_2 t) (Some i)) end.
(** en1993_1_8.py:1257-1281 TStub.leff: the stored length of the governing mode. *)
Definition get_leff (t : tstub) (s : tmem) : option (R * tmem) :=
  match mem_mode s with
  | Some i => Some (match i with 0 => mem1 s | _ => mem2 s end, s)
  | None => match run_FT t s with
            | None => None
            | Some (_, s) => Some (match mem_mode s with Some 0%nat => mem1 s | _ => mem2 s end, s)
            end
  end.
(** en1993_1_8.py:1717-1740 TStubGroup.leff: FT_Rd of a group needs an argument (1815), so the call
    without one raises when no resistance has been computed. *)
Definition get_leff_group (s : tmem) : option R :=
  match mem_mode s with Some i => Some (match i with 0 => mem1 s | _ => mem2 s end) | None => None end.

(* ---------------------------------------------------------------- bolt rows *)

(** Row positions (en1993_1_8.py:90-104). *)
Inductive loc := Inner | End_ | Adjacent | OtherInner | OtherEnd | EndAdjacent | Outside | FirstBelow.
(** Equality of positions (string comparison, e.g. en1993_1_8.py:490). *)
Definition loc_eqb (a b : loc) : bool :=
  match a, b with
  | Inner, Inner | End_, End_ | Adjacent, Adjacent | OtherInner, OtherInner | OtherEnd, OtherEnd
  | EndAdjacent, EndAdjacent | Outside, Outside | FirstBelow, FirstBelow => true
  | _, _ => false
  end.
(** The attributes of the end-plate joint used by bolt rows (end_plate_joint.py): column, beam, end
    plate thickness, width and yield strength, upper overhang, edge distance and horizontal distance
    of the bolts, weld sizes, level of the centre of compression, beta, stiffener (thickness, weld). *)
Record joint := mkJoint { j_col : prof; j_beam : prof; j_tp : R; j_bp : R; j_fyp : R; j_etop : R; j_ebolts : R;
  j_p : R; j_wf : R; j_ww : R; j_zc : R; j_beta : R; j_stiff : option (R * R) }.
(** BoltRow (en1993_1_8.py:351-426): bolt, number of bolts, level, position with respect to the flange
    and the plate, e1 of the flange T-stub ([None]: math.inf). *)
Record row := mkRow { r_bolt : bolt; r_n : nat; r_z : R; r_fl : loc; r_pl : loc; r_e1 : option R }.

(** en1993_1_8.py:379, 448-451 z_top as set by the constructor. *)
Definition z_top (j : joint) (r : row) : R := 1/2 * s_h (j_beam j) + j_etop j - r_z r.
(** en1993_1_8.py:453-457 z_top setter. *)
Definition set_z_top (j : joint) (v : R) (r : row) : row :=
  mkRow (r_bolt r) (r_n r) (1/2 * s_h (j_beam j) + j_etop j - v) (r_fl r) (r_pl r) (r_e1 r).
(** en1993_1_8.py:459-462 Lb. *)
Definition Lb (j : joint) (b : bolt) : R :=
  j_tp j + s_tf (j_col j) + 2 * t_h (b_data b) + 1/2 * (t_k (b_data b) + t_m (b_data b)).
(** en1993_1_8.py:464-467 h. *)
Definition lever (j : joint) (r : row) : R := r_z r - j_zc j.
(** en1993_1_8.py:469-484 emin_flange. *)
Definition emin_flange (j : joint) : R :=
  if Rltb (j_bp j) (s_b (j_col j)) then j_ebolts j else j_ebolts j - 1/2 * (j_bp j - s_b (j_col j)).
(** en1993_1_8.py:536-544 col_flange_e. *)
Definition col_flange_e (j : joint) : R :=
  if Rltb (j_bp j) (s_b (j_col j)) then j_ebolts j + 1/2 * (s_b (j_col j) - j_bp j) else j_ebolts j - 1/2 * (j_bp j - s_b (j_col j)).
(** en1993_1_8.py:530-534 col_flange_m. *)
Definition col_flange_m (j : joint) : R := 1/2 * (j_p j - s_tw (j_col j)) - 8/10 * s_r (j_col j).
(** en1993_1_8.py:509-514 ex. *)
Definition ex (j : joint) (r : row) : R := 1/2 * s_h (j_beam j) + j_etop j - r_z r.
(** en1993_1_8.py:516-523 mx. *)
Definition mx (j : joint) (r : row) : R := r_z r - 1/2 * s_h (j_beam j) - 8/10 * sqrt 2 * j_wf j.
(** en1993_1_8.py:546-553 end_plate_m. *)
Definition end_plate_m (j : joint) (r : row) : R :=
  if loc_eqb (r_pl r) Outside then mx j r else 1/2 * (j_p j - s_tw (j_beam j)) - 8/10 * sqrt 2 * j_ww j.
(** en1993_1_8.py:555-559 end_plate_m2. *)
Definition end_plate_m2 (j : joint) (r : row) : R :=
  1/2 * s_h (j_beam j) - s_tf (j_beam j) - 8/10 * sqrt 2 * j_wf j - r_z r.
(** en1993_1_8.py:567-583 top_flange_stiffener_m2; [None]: no stiffener (attribute of None). *)
Definition stiff_m2 (j : joint) (r : row) : option R :=
  match j_stiff j with
  | None => None
  | Some (t, a) =>
      let zb := 1/2 * s_h (j_beam j) in let zc := zb - 1/2 * s_tf (j_beam j) in
      Some (if Rltb zb (r_z r) then r_z r - (zc + 1/2 * t + 8/10 * sqrt 2 * a)
            else zc - 1/2 * t - 8/10 * sqrt 2 * a - r_z r)
  end.
(** min(x, inf) with e1 possibly infinite (en1993_1_8.py:1427). *)
Definition min_inf (x : R) (y : option R) : R := match y with None => x | Some y => Rmin x y end.

(** en1993_1_8.py:1419-1433 TStubColumnFlange.leff_cp; [None]: unbound variable. *)
Definition flange_cp (m : R) (e1 : option R) (l : loc) : option R :=
  match l with
  | Inner | OtherInner | Adjacent => Some (2 * PI * m)
  | End_ | OtherEnd | EndAdjacent => Some (min_inf (2 * PI * m) (option_map (fun e1 => PI * m + 2 * e1) e1))
  | _ => None
  end.
(** en1993_1_8.py:1443-1450, 1499-1506: alpha by root finding ([fa]; [None] when it raises), otherwise
    by the newer formula. *)
Definition stiff_alpha (fa : R -> R -> option R) (e m : R) (m2 : option R) : option R :=
  match bind m2 (fun m2 => bind (pdiv m (m + e)) (fun l1 => bind (pdiv m2 (m + e)) (fun l2 => fa l1 l2))) with
  | Some a => Some a
  | None => bind m2 (fun m2 => new_alpha e m m2)
  end.
(** en1993_1_8.py:1435-1467 TStubColumnFlange.leff_nc; [None]: unbound variable, no stiffener, or an
    infinite length (end row adjacent to a stiffener with e1 infinite). *)
Definition flange_nc (fa : R -> R -> option R) (e m : R) (e1 m2 : option R) (l : loc) : option R :=
  match l with
  | Inner | OtherInner => Some (4 * m + 125/100 * e)
  | End_ | OtherEnd => Some (min_inf (4 * m + 125/100 * e) (option_map (fun e1 => 2 * m + 625/1000 * e + e1) e1))
  | Adjacent => bind (stiff_alpha fa e m m2) (fun a => Some (a * m))
  | EndAdjacent => bind (stiff_alpha fa e m m2) (fun a => bind e1 (fun e1 => Some (e1 + a * m - (2 * m + 625/1000 * e))))
  | _ => None
  end.
(** en1993_1_8.py:1469-1485 TStubColumnFlange.leff_cp_as_group with row distance [p]. *)
Definition flange_cp_group (m p : R) (e1 : option R) (l : loc) : option R :=
  match l with
  | Inner | OtherInner => Some (2 * p)
  | End_ | OtherEnd => Some (min_inf (PI * m + p) (option_map (fun e1 => 2 * e1 + p) e1))
  | Adjacent => Some (PI * m + p)
  | _ => None
  end.
(** en1993_1_8.py:1487-1513 TStubColumnFlange.leff_nc_as_group. *)
Definition flange_nc_group (fa : R -> R -> option R) (e m p : R) (e1 m2 : option R) (l : loc) : option R :=
  match l with
  | Inner | OtherInner => Some p
  | End_ | OtherEnd => Some (min_inf (2 * m + 625/1000 * e + 5/10 * p) (option_map (fun e1 => e1 + 5/10 * p) e1))
  | Adjacent => bind (stiff_alpha fa e m m2) (fun a => Some (5/10 * p + a * m - (2 * m + 625/1000 * e)))
  | _ => None
  end.
(** en1993_1_8.py:1591-1609 TStubEndPlate.leff_cp; [e] the edge distance, [w] the bolt distance. *)
Definition plate_cp (m e w : R) (l : loc) : option R :=
  match l with
  | Outside => Some (Rmin (Rmin (2 * PI * m) (PI * m + w)) (PI * m + 2 * e))
  | FirstBelow | OtherInner | OtherEnd => Some (2 * PI * m)
  | _ => None
  end.
(** en1993_1_8.py:1611-1636 TStubEndPlate.leff_nc. *)
Definition plate_nc (m m2 e emin w bp : R) (l : loc) : option R :=
  match l with
  | Outside => Some (Rmin (Rmin (Rmin (4 * m + 125/100 * emin) (e + 2 * m + 625/1000 * emin)) (5/10 * bp)) (5/10 * w + 2 * m + 625/1000 * emin))
  | FirstBelow => if Reqb (m + e) 0 then None else bind (new_alpha e m m2) (fun a => Some (a * m))
  | OtherInner | OtherEnd => Some (4 * m + 125/100 * e)
  | _ => None
  end.
(** en1993_1_8.py:1638-1652 TStubEndPlate.leff_cp_as_group. *)
Definition plate_cp_group (m p : R) (l : loc) : option R :=
  match l with
  | Outside => Some 0
  | FirstBelow | OtherEnd => Some (PI * m + p)
  | OtherInner => Some (2 * p)
  | _ => None
  end.
(** en1993_1_8.py:1654-1675 TStubEndPlate.leff_nc_as_group. *)
Definition plate_nc_group (m m2 e p : R) (l : loc) : option R :=
  match l with
  | Outside => Some p
  | FirstBelow => if Reqb (m + e) 0 then None else bind (new_alpha e m m2) (fun a => Some (5/10 * p + a * m - (2 * m + 625/1000 * e)))
  | OtherInner => Some p
  | OtherEnd => Some (2 * m + 625/1000 * e + 5/10 * p)
  | _ => None
  end.

(** en1993_1_8.py:1339-1345 F_T_3_Rd of one row. *)
Definition row_F3 (r : row) : R := INR (r_n r) * tension_resistance (r_bolt r) (9/10).
(** The flange T-stub of a row (en1993_1_8.py:1371-1467). *)
Definition flange_stub (fa : R -> R -> option R) (j : joint) (r : row) : option tstub :=
  let m := col_flange_m j in let e := col_flange_e j in
  bind (flange_cp m (r_e1 r) (r_fl r)) (fun cp =>
  bind (flange_nc fa e m (r_e1 r) (stiff_m2 j r) (r_fl r)) (fun nc =>
  Some (mkT (s_tf (j_col j)) (s_fy (j_col j)) (emin_flange j) m cp nc (row_F3 r)))).
(** en1993_1_8.py:1558-1566 emin of the plate T-stub. *)
Definition emin_plate (j : joint) (r : row) : R := if loc_eqb (r_pl r) Outside then ex j r else j_ebolts j.
(** The end-plate T-stub of a row (en1993_1_8.py:1515-1636). *)
Definition plate_stub (j : joint) (r : row) : option tstub :=
  let m := end_plate_m j r in let e := j_ebolts j in
  bind (plate_cp m e (j_p j) (r_pl r)) (fun cp =>
  bind (plate_nc m (end_plate_m2 j r) e (emin_plate j r) (j_p j) (j_bp j) (r_pl r)) (fun nc =>
  Some (mkT (j_tp j) (j_fyp j) (emin_plate j r) m cp nc (row_F3 r)))).
(** The four components of a row (en1993_1_8.py:752-914), evaluated in the order of tension_resistance.
    With a stiffener at the top flange 796 assigns to the property m2, which has no setter, and
    raises AttributeError. *)
Definition row_components (fa : R -> R -> option R) (j : joint) (r : row) : option (list R) :=
  match j_stiff j with Some _ => None | None =>
  bind (flange_stub fa j r) (fun f => bind (run_FT f new_mem) (fun '(cf, sf) =>
  bind (plate_stub j r) (fun pl => bind (run_FT pl new_mem) (fun '(ep, sp) =>
  bind (get_leff f sf) (fun '(lf, _) => bind (column_web_tension (j_col j) lf (j_beta j)) (fun wt =>
  bind (if loc_eqb (r_pl r) Outside then Some (100000000)
        else bind (get_leff pl sp) (fun '(lp, _) => Some (beam_web_tension (j_beam j) lp))) (fun bw =>
  Some [cf; ep; wt; bw]))))))) end.
(** en1993_1_8.py:892-923 BoltRow.tension_resistance. *)
Definition row_resistance (fa : R -> R -> option R) (j : joint) (r : row) : option R :=
  bind (row_components fa j r) list_min.

(** en1993_1_8.py:925-946 keff of the four stiffness factors. *)
Definition keff (ks : list R) : option R :=
  bind (fold_left (fun a k => bind a (fun s => bind (pdiv 1 k) (fun q => Some (s + q)))) ks (Some 0)) (fun s => pdiv 1 s).
(** en1993_1_8.py:593-650 leff_flange_group, leff_plate_group: the smallest positive of the given
    lengths of the row in its groups, at most 1e5. *)
Definition leff_groups (ls : list R) : R := fold_left (fun a l => if Rltb 0 l then Rmin a l else a) ls 100000.

(* ---------------------------------------------------------------- groups of rows *)

(** en1993_1_8.py:1015-1020 BoltRowGroup.p: distances of consecutive rows. *)
Fixpoint distances (zs : list R) : list R :=
  match zs with z :: ((z' :: _) as t) => z - z' :: distances t | _ => [] end.
(** Element of a list of distances with Python's wrap-around of index -1 (en1993_1_8.py:1872-1878);
    [None]: IndexError. *)
Definition at_ (l : list R) (i : Z) : option R :=
  if Z.ltb i 0 then nth_error l (Z.to_nat (i + Z.of_nat (length l))) else nth_error l (Z.to_nat i).
(** The row distance a row uses in a group (column flange, en1993_1_8.py:1872-1878); [old] is the
    value left from before, kept for other positions. *)
Definition flange_p (ps : list R) (i : nat) (l : loc) (old : R) : option R :=
  match l with
  | End_ | Adjacent => if Nat.eqb i 0 then at_ ps (Z.of_nat i) else at_ ps (Z.of_nat i - 1)
  | Inner => bind (at_ ps (Z.of_nat i - 1)) (fun a => bind (at_ ps (Z.of_nat i)) (fun b => Some (5/10 * (a + b))))
  | _ => Some old
  end.
(** The row distance in leff_nc of the end-plate group (en1993_1_8.py:1989-2008). *)
Definition plate_p (ps : list R) (i : nat) (l : loc) (old : R) : option R :=
  match l with
  | FirstBelow => at_ ps (Z.of_nat i)
  | OtherEnd => if Nat.eqb i 0 then at_ ps (Z.of_nat i) else at_ ps (Z.of_nat i - 1)
  | OtherInner => bind (at_ ps (Z.of_nat i - 1)) (fun a => bind (at_ ps (Z.of_nat i)) (fun b => Some (5/10 * (a + b))))
  | _ => Some old
  end.
(** The row distance in leff_cp of the end-plate group (en1993_1_8.py:2024-2030): only the positions
    END_ROW and INNER_ROW, which end plates do not have, update it. *)
Definition plate_p_cp (ps : list R) (i : nat) (l : loc) (old : R) : option R :=
  match l with
  | End_ => if Nat.eqb i 0 then at_ ps (Z.of_nat i) else at_ ps (Z.of_nat i - 1)
  | Inner => bind (at_ ps (Z.of_nat i - 1)) (fun a => bind (at_ ps (Z.of_nat i)) (fun b => Some (5/10 * (a + b))))
  | _ => Some old
  end.
(** The loops of leff_nc and leff_cp (en1993_1_8.py:1863-1908, 1985-2037): [upd] chooses the row
    distance, [len] gives the effective length of row [i] for it; result: new distances and the sum. *)
Fixpoint group_leff (upd : nat -> loc -> R -> option R) (len : nat -> loc -> R -> option R)
    (i : nat) (rows : list (loc * R)) : option (list R * R) :=
  match rows with
  | [] => Some ([], 0)
  | (l, old) :: rest =>
      bind (upd i l old) (fun p => bind (len i l p) (fun x =>
      bind (group_leff upd len (S i) rest) (fun '(ps, s) => Some (p :: ps, x + s))))
  end.
(** The positions of the rows with their current row distances (en1993_1_8.py:980-1013). *)
Definition with_p (ls : list loc) (ps : list R) : list (loc * R) := combine ls ps.

(** en1993_1_8.py:1121-1170 BoltRowGroup.tension_resistance; components [cf], [ep], [wt], [bw] are
    computed only when needed; [None] as a component: infinite. *)
Definition group_components (fl pl : loc) (cf wt ep bw : option R) : option (list (option R)) :=
  let skip_f := orb (loc_eqb fl EndAdjacent) (andb (loc_eqb fl Adjacent) (loc_eqb pl Outside)) in
  let skip_p := loc_eqb pl Outside in
  bind (if skip_f then Some (None, None) else bind cf (fun a => bind wt (fun b => Some (Some a, Some b)))) (fun '(c0, c2) =>
  bind (if skip_p then Some (None, None) else bind ep (fun a => bind bw (fun b => Some (Some a, Some b)))) (fun '(c1, c3) =>
  Some [c0; c1; c2; c3])).
(** The smallest of possibly infinite values (en1993_1_8.py:1161-1165); [None]: infinite. *)
Definition min_ext (l : list (option R)) : option R :=
  fold_left (fun a x => match a, x with None, y => y | Some u, None => Some u | Some u, Some v => Some (if Rltb v u then v else u) end) l None.
(** en1993_1_8.py:1804-1813 F_T_3_Rd of a group. *)
Definition group_F3 (rs : list row) : R := fold_left (fun s r => s + row_F3 r) rs 0.
