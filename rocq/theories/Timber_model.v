(** Model of metku/sections/timber/timber_section.py, metku/materials/timber_data.py and
    metku/structures/timber/timber_member.py.  [None] stands for a raised exception.  Real numbers are
    exact; the sections and the strengths enter the member checks as numbers and functions of the
    location.  Printing, plotting, the numerical integration of the face area of curved beams and the
    effective length factors of the frame supports (timber_member.py:755-863) are not modelled. *)
From Verif Require Export EC3_model Loads_model.

(* ------------------------------------------------------------ grades *)

(** timber_data.py:18-47 the timber types. *)
Inductive grade := C14 | C16 | C18 | C20 | C22 | C24 | C27 | C30 | C35 | C40 | D30 | D35 | D40 | D50 | D60 | D70
  | GL24c | GL24h | GL28c | GL28h | GL30c | GL30h | GL32c | GL32h | KertoS | KertoT | KertoQ21 | KertoQ27.
(** Characteristic values (timber_data.py:121-182); for LVL ft90 and fc90 are the edgewise values and
    G, G005 the edgewise shear moduli. *)
Record tdata := mkTD { td_fm : R; td_ft0 : R; td_ft90 : R; td_fc0 : R; td_fc90 : R; td_fv : R; td_E0 : R; td_E005 : R;
  td_G : R; td_G005 : R; td_rhok : R; td_rhomean : R }.
(** timber_data.py:125, 141, 157 the type of a grade. *)
Definition gtype (g : grade) : timber :=
  match g with
  | C14 | C16 | C18 | C20 | C22 | C24 | C27 | C30 | C35 | C40 | D30 | D35 | D40 | D50 | D60 | D70 => solid
  | GL24c | GL24h | GL28c | GL28h | GL30c | GL30h | GL32c | GL32h => glt
  | _ => lvl end.
(** timber_data.py:54-118 the tables; E90mean is not modelled. *)
Definition gdata (g : grade) : tdata :=
  match g with
  | C14 => mkTD 14 8 (4/10) 16 2 (17/10) 7000 4700 440 300 290 350
  | C16 => mkTD 16 10 (4/10) 17 (22/10) 2 8000 5400 500 340 310 370
  | C18 => mkTD 18 11 (5/10) 18 (22/10) 2 9000 6000 560 380 320 380
  | C20 => mkTD 20 12 (5/10) 19 (23/10) (23/10) 9500 6400 590 405 330 390
  | C22 => mkTD 22 13 (5/10) 20 (24/10) (24/10) 10000 6700 630 430 340 410
  | C24 => mkTD 24 14 (5/10) 21 (25/10) (25/10) 11000 7400 690 460 350 420
  | C27 => mkTD 27 16 (5/10) 22 (26/10) (27/10) 11500 7700 720 480 370 450
  | C30 => mkTD 30 18 (6/10) 23 (27/10) 3 12000 8000 750 500 380 460
  | C35 => mkTD 35 21 (6/10) 25 (28/10) (34/10) 13000 8700 810 540 400 480
  | C40 => mkTD 40 24 (6/10) 25 (28/10) (38/10) 14000 9400 880 590 420 500
  | D30 => mkTD 30 18 (6/10) 23 8 4 11000 9200 690 500 530 640
  | D35 => mkTD 35 21 (6/10) 25 (81/10) 4 12000 10100 750 550 540 650
  | D40 => mkTD 40 24 (6/10) 26 (83/10) 4 13000 10900 810 600 550 660
  | D50 => mkTD 50 30 (6/10) 29 (93/10) 4 14000 11800 880 650 620 750
  | D60 => mkTD 60 36 (6/10) 32 (105/10) (45/10) 17000 14300 1060 700 700 840
  | D70 => mkTD 70 42 (6/10) 34 (135/10) 5 20000 16800 1250 750 900 1080
  | GL24c => mkTD 24 14 (35/100) 21 (24/10) (22/10) 11600 9400 590 480 350 390
  | GL24h => mkTD 24 (165/10) (4/10) 24 (27/10) (27/10) 11600 9400 720 530 380 390
  | GL28c => mkTD 28 (165/10) (4/10) 24 (27/10) (27/10) 12600 10200 720 580 380 430
  | GL28h => mkTD 28 (195/10) (45/100) (265/10) 3 (32/10) 12600 10200 780 630 410 460
  | GL30c => mkTD 30 20 (5/10) 25 3 (35/10) 13000 10800 650 540 390 430
  | GL30h => mkTD 30 (195/10) (5/10) (245/10) (25/10) (35/10) 13000 10800 650 540 390 430
  | GL32c => mkTD 32 (195/10) (45/100) (265/10) 3 (32/10) 13700 11100 780 630 410 470
  | GL32h => mkTD 32 (225/10) (5/10) 29 (33/10) (38/10) 13700 11100 850 690 430 500
  | KertoS => mkTD 44 35 (8/10) 35 6 (41/10) 13800 11600 600 400 480 510
  | KertoT => mkTD 27 24 (5/10) 26 4 (24/10) 10000 8800 400 300 410 440
  | KertoQ21 => mkTD 28 19 6 19 9 (45/10) 10000 8300 600 400 480 510
  | KertoQ27 => mkTD 32 26 6 26 9 (45/10) 10500 8800 600 400 480 510
  end.
(** timber_data.py:106-118 the flatwise values fm0flatk, fc90flatk and the size exponent s of LVL. *)
Definition lvl_flat (g : grade) : option (R * R * R) :=
  match g with KertoS => Some (50, 18/10, 12/100) | KertoT => Some (32, 1, 15/100)
  | KertoQ21 => Some (32, 22/10, 12/100) | KertoQ27 => Some (36, 22/10, 12/100) | _ => None end.

(* ------------------------------------------------------------ sections in fire *)

(** A protection before its times are set: start of charring, thickness, failure time, and whether it
    is a board of the F family (fire_protection.py:17-33, 51-107). *)
Record board := mkBoard { bd_tch : R; bd_hp : R; bd_tf : option R; bd_F : bool }.
(** fire_protection.py:51-107 the gypsum boards. *)
Inductive gypsum := gA | gF | gH | gAA | gFF | gHH | gAF.
(** fire_protection.py:51-107 the constructors: gap of the joint below 2 mm or not. *)
Definition gypsum_board (k : gypsum) (gap : R) : board :=
  let n := Rltb gap 2 in
  match k with
  | gA => if n then mkBoard 22 13 (Some 22) false else mkBoard 13 13 (Some 13) false
  | gF => if n then mkBoard 28 15 None true else mkBoard 19 15 None true
  | gH => if n then mkBoard 11 9 (Some 11) false else mkBoard 2 9 (Some 2) false
  | gAA => if n then mkBoard 40 26 (Some 40) false else mkBoard 31 26 (Some 31) false
  | gFF => if n then mkBoard 61 30 None true else mkBoard 52 30 None true
  | gHH => if n then mkBoard 23 18 (Some 23) false else mkBoard 14 18 (Some 14) false
  | gAF => if n then mkBoard 46 28 None true else mkBoard 37 28 None true
  end.
(** timber_section.py:94-122 the material setter prepares a protection: charring rate of the protected
    material, failure time of the F boards, then the time of consolidated charring. *)
Definition prepare (rhok : R) (m : timber) (soft : bool) (b : board) : option protection :=
  bind (charring_speed rhok m soft (bd_hp b)) (fun bt =>
  bind (if bd_F b then set_tf (snd bt) (bd_tch b) else bd_tf b) (fun tf =>
  bind (set_ta (snd bt) tf) (fun ta => Some (mkProt (bd_tch b) (Some tf) (Some ta))))).
(** fire_protection.py:17-33 a protection that no section has prepared: no time of consolidation. *)
Definition unprepared (b : board) : protection := mkProt (bd_tch b) (bd_tf b) None.
(** timber_section.py:65-73 a given protection overrides the generic one. *)
Definition pick {A} (a g : option A) : option A := match a with Some p => Some p | None => g end.
(** timber_section.py:64-74: right, left, bottom, top. *)
Definition assign_protection {A} (right left top bottom generic : option A) (sides : nat)
  : option A * option A * option A * option A :=
  if Nat.eqb sides 3 then (pick right generic, pick left generic, pick bottom generic, top)
  else (pick right generic, pick left generic, pick bottom generic, pick top generic).
(** timber_section.py:222-233 the setter of the generic protection: right, left, bottom, top. *)
Definition set_generic {A} (old : option A * option A * option A * option A) (v : option A) (sides : nat)
  : option A * option A * option A * option A :=
  if Nat.eqb sides 3 then (v, v, v, snd old) else (v, v, v, v).

(** A timber section (timber_section.py:54-77): nominal height and width, charring rate, fire duration,
    protections right, left, bottom, top, fire on four sides. *)
Record tsec := mkTS { ts_H : R; ts_B : R; ts_beta : R; ts_R : R; ts_right : option protection; ts_left : option protection;
  ts_bottom : option protection; ts_top : option protection; ts_four : bool }.
(** timber_section.py:131-132: a vanished dimension is replaced by 1e-5. *)
Definition floor_dim (x : R) : R := if Rleb x 0 then 1/100000 else x.
(** timber_section.py:276-291 height left of the height [h] (also 125-133). *)
Definition char_H (s : tsec) (h : R) : option R :=
  bind (d_char_n (ts_bottom s) (ts_R s) (ts_beta s)) (fun d =>
  if ts_four s then bind (d_char_n (ts_top s) (ts_R s) (ts_beta s)) (fun d' => Some (floor_dim (h - d - d')))
  else Some (floor_dim (h - d))).
(** timber_section.py:125-133 H. *)
Definition sec_H (s : tsec) : option R := char_H s (ts_H s).
(** timber_section.py:145-152 B. *)
Definition sec_B (s : tsec) : option R :=
  bind (d_char_n (ts_right s) (ts_R s) (ts_beta s)) (fun d =>
  bind (d_char_n (ts_left s) (ts_R s) (ts_beta s)) (fun d' => Some (floor_dim (ts_B s - d - d')))).
(** timber_section.py:203-216 A. *)
Definition sec_A (s : tsec) : option R := bind (sec_B s) (fun b => bind (sec_H s) (fun h => Some (b * h))).
(** timber_section.py:157-162 I. *)
Definition sec_I (s : tsec) : option (R * R) :=
  bind (sec_B s) (fun b => bind (sec_H s) (fun h => Some (b * h ^ 3 / 12, h * b ^ 3 / 12))).
(** timber_section.py:164-169 Wel. *)
Definition sec_W (s : tsec) : option (R * R) :=
  bind (sec_B s) (fun b => bind (sec_H s) (fun h => Some (b * h ^ 2 / 6, h * b ^ 2 / 6))).
(** timber_section.py:85-99 the charring rate of a section of the grade (Timber(val): softwood). *)
Definition sec_beta (g : grade) (B H : R) : option R :=
  bind (charring_speed (td_rhok (gdata g)) (gtype g) true (Rmin B H)) (fun b => Some (snd b)).

(** timber_section.py:177-194 the two size factors of solid timber and glued laminated timber. *)
Definition size_two (cap ref e N M B H : R) : R :=
  let kB := Rmin cap (Rpower (ref / B) e) in let kH := Rmin cap (Rpower (ref / H) e) in
  if andb (andb (Rltb 0 N) (Rltb B ref)) (andb (negb (Reqb M 0)) (Rltb H ref)) then Rmin kB kH
  else if andb (Rltb 0 N) (Rltb B ref) then kB
  else if andb (negb (Reqb M 0)) (Rltb H ref) then kH
  else 1.
(** timber_section.py:171-201 k_h; N, M: largest axial force and moment of the member (absolute). *)
Definition k_h (m : timber) (rhok s N M B H : R) : R :=
  match m with
  | solid => if Rleb rhok 700 then size_two (13/10) 150 (2/10) N M B H else 1
  | glt => size_two (11/10) 600 (1/10) N M B H
  | lvl => if andb (negb (Reqb M 0)) (negb (Reqb H 300)) then Rmin (12/10) (Rpower (300 / H) s) else 1
  end.
(** timber_member.py:115-122 k_L. *)
Definition k_L (m : timber) (s N L : R) : R :=
  match m with
  | lvl => if andb (Rltb 0 N) (negb (Reqb L 3000)) then Rmin (11/10) (Rpower (3000 / L) (s / 2)) else 1
  | _ => 1 end.

(* ------------------------------------------------------------ tapered beams *)

(** timber_section.py:372-375 PulpettiPalkki.get_unmodified_h. *)
Definition pulpetti_h (h0 hap x : R) : R := h0 + (hap - h0) * x.
(** timber_section.py:417-431 HarjaPalkki.get_unmodified_h. *)
Definition harja_h (h0 hap xap x : R) : R :=
  let up := (hap - h0) / xap * x + h0 in
  let down := (h0 - hap) / (1 - xap) * x + hap + (hap - h0) / (1 - xap) * xap in
  up - Rmax (up - down) 0.
(** timber_section.py:502-510 MahaPalkki.get_unmodified_h; [L]: length of the member. *)
Definition maha_h (h0 alpha xap L x0 : R) : R :=
  let x := x0 * L in
  let ya := L * tan alpha in
  let beta := atan (ya / (L - xap * L)) in
  (tan alpha * x + h0) / cos alpha - Rmax 0 (x * tan beta - xap * L * tan beta) / cos alpha.
(** timber_section.py:586-604 upper and lower end of the arc and its centre, for the slope [a] and the
    vertical offset [c] (h0 above, 0 below). *)
Definition arc_x1 (L r a : R) : R := L / 2 - r * sin a.
(** timber_section.py:601-604, 748-751. *)
Definition arc_x2 (L r a : R) : R := L / 2 - r * sin a + 2 * (r * sin a).
(** timber_section.py:591-594. *)
Definition arc_y (L r a c : R) : R := - r * cos a + (1/2 * L - r * sin a) * tan a + c.
(** timber_section.py:606-622 f1 .. f6. *)
Definition f1 (alpha h0 x : R) : R := tan alpha * x + h0.
(** timber_section.py:609-610. *)
Definition f2 (beta x : R) : R := tan beta * x.
(** timber_section.py:612-613. *)
Definition f3 (L alpha h0 x : R) : R := (L - x) * tan alpha + h0.
(** timber_section.py:587, 615-616. *)
Definition f4 (L beta x : R) : R := 2 * (1/2 * L * tan beta) - tan beta * x.
(** timber_section.py:618-622. *)
Definition f56 (L r a c x : R) : R := sqrt (r ^ 2 - (L / 2 - x) ^ 2) + arc_y L r a c.
(** timber_section.py:668-680 KaarevaPalkki.get_unmodified_h. *)
Definition kaareva_h (L h0 alpha beta r x0 : R) : R :=
  let x := x0 * L in
  if andb (Rleb 0 x) (Rltb x (arc_x1 L r alpha)) then f1 alpha h0 x - f2 beta x
  else if andb (Rleb (arc_x1 L r alpha) x) (Rltb x (arc_x1 L r beta)) then f56 L r alpha h0 x - f2 beta x
  else if andb (Rleb (arc_x1 L r beta) x) (Rltb x (arc_x2 L r beta)) then f56 L r alpha h0 x - f56 L r beta 0 x
  else if andb (Rleb (arc_x2 L r beta) x) (Rltb x (arc_x2 L r alpha)) then f56 L r alpha h0 x - f4 L beta x
  else f3 L alpha h0 x - f4 L beta x.
(** timber_section.py:823-833 KaarevaHarjaPalkki.get_unmodified_h. *)
Definition kaarevaharja_h (L h0 alpha beta r x0 : R) : R :=
  let x := x0 * L in
  if andb (Rleb 0 x) (Rltb x (arc_x1 L r beta)) then f1 alpha h0 x - f2 beta x
  else if andb (Rleb (arc_x1 L r beta) x) (Rltb x (L / 2)) then f1 alpha h0 x - f56 L r beta 0 x
  else if andb (Rleb (L / 2) x) (Rltb x (L / 2 + r * sin beta)) then f3 L alpha h0 x - f56 L r beta 0 x
  else f3 L alpha h0 x - f4 L beta x.
(** timber_section.py:256-266 create_elements: heights at the middles of the elements. *)
Definition element_heights (h : R -> R) (n : nat) : list R :=
  map (fun i => h (INR i * (1 / INR n) + 1/2 * (1 / INR n))) (seq 0 n).

(* ------------------------------------------------------------ the member *)

(** timber_member.py:1440-1441 list.sort (stable insertion). *)
Fixpoint rinsert (x : R) (l : list R) : list R :=
  match l with [] => [x] | y :: l' => if Rleb x y then x :: l else y :: rinsert x l' end.
(** timber_member.py:1440-1441. *)
Fixpoint rsort (l : list R) : list R := match l with [] => [] | x :: l' => rinsert x (rsort l') end.
(** timber_member.py:1445-1453 lengths between the supports from the i-th on; [p]: previous support. *)
Fixpoint l_c_from (L p : R) (s : list R) : list R :=
  match s with [] => [L * (1 - p)] | x :: s' => L * (x - p) :: l_c_from L x s' end.
(** timber_member.py:1439-1464 calc_l_c in one direction. *)
Definition l_c (L : R) (sup : list R) : list R :=
  match rsort sup with [] => [L] | x :: s' => L * x :: l_c_from L x s' end.

(** timber_member.py:701-708 beta_c. *)
Definition beta_c (m : timber) : R := match m with solid => 2/10 | _ => 1/10 end.
(** timber_member.py:875-882 lamda_rel of one segment: effective length, radius of gyration. *)
Definition lamda_rel (ln i fc0k E005 : R) : R := ln / i / PI * sqrt (fc0k / E005).
(** timber_member.py:893-900 k. *)
Definition k_buck (bc l : R) : R := 1/2 * (1 + bc * (l - 3/10) + l ^ 2).
(** timber_member.py:902-912 k_c (np.power with exponent 0.5 and -1). *)
Definition k_c (bc l : R) : R := / (k_buck bc l + sqrt (k_buck bc l ^ 2 - l ^ 2)).

(** timber_member.py:914-926 the edge to which the load is applied. *)
Inductive edge := Compression | Tension | OtherEdge.
(** timber_member.py:914-926 l_ef. *)
Definition l_ef (e : edge) (Lc h : R) : R :=
  match e with Compression => Lc * (9/10) + 2 * h | Tension => Lc * (9/10) - 1/2 * h | OtherEdge => Lc * (9/10) end.
(** timber_member.py:634-636, 666-668 the ratio of the sides, at least one. *)
Definition side_ratio (h b : R) : R := if Rltb (h / b) 1 then 1 / (h / b) else h / b.
(** Strictly between two bounds (timber_member.py:637-656). *)
Definition btw (a x b : R) : bool := andb (Rltb a x) (Rltb x b).
(** timber_member.py:637-658 the coefficient of the torsional modulus. *)
Definition tor_beta (q : R) : R :=
  if btw (95/100) q (105/100) then 208/1000
  else if btw (145/100) q (155/100) then 231/1000
  else if btw (195/100) q (205/100) then 246/1000
  else if btw (245/100) q (255/100) then 258/1000
  else if btw (295/100) q (305/100) then 267/1000
  else if btw (395/100) q (405/100) then 282/1000
  else if btw (495/100) q (505/100) then 299/1000
  else if btw (595/100) q (605/100) then 307/1000
  else if btw (795/100) q (805/100) then 313/1000
  else if Rltb 9 q then 333/1000
  else - (7/10000) * q ^ 2 + 193/10000 * q + 1923/10000.
(** timber_member.py:669-690 the coefficient of the torsional constant. *)
Definition tor_alpha (q : R) : R :=
  if btw 1 q (105/100) then 141/1000
  else if btw (145/100) q (155/100) then 196/1000
  else if btw (195/100) q (205/100) then 229/1000
  else if btw (245/100) q (255/100) then 249/1000
  else if btw (295/100) q (305/100) then 263/1000
  else if btw (395/100) q (405/100) then 281/1000
  else if btw (495/100) q (505/100) then 299/1000
  else if btw (595/100) q (605/100) then 307/1000
  else if btw (795/100) q (805/100) then 313/1000
  else if Rltb 9 q then 333/1000
  else - (22/10000) * q ^ 2 + 425/1000 * q + 1116/10000.
(** timber_member.py:659-660 torsional stress. *)
Definition tau_tor (T h b : R) : R := T / (tor_beta (side_ratio h b) * h * b ^ 2).
(** timber_member.py:662-692 I_tor. *)
Definition I_tor (h b : R) : R := tor_alpha (side_ratio h b) * h * b ^ 3.
(** timber_member.py:694-699 k_shape. *)
Definition k_shape (h b : R) : R := Rmin (13/10) (1 + 5/100 * h / b).
(** timber_member.py:928-938 sigma_mcrit; the exception branch is only reached when a quantity is
    missing and is not modelled. *)
Definition sigma_mcrit (E005 G005 h b lef : R) : R :=
  PI * sqrt (E005 * (h * b ^ 3 / 12) * G005 * I_tor h b) / (lef * (b * h ^ 2 / 6)).
(** timber_member.py:940-945 lamda_relm. *)
Definition lamda_relm (fmk scrit : R) : R := sqrt (fmk / scrit).
(** timber_member.py:947-954 k_crit. *)
Definition k_crit (l : R) : R :=
  if Rleb l (75/100) then 1 else if Rleb l (14/10) then 156/100 - 75/100 * l else 1 / l ^ 2.

(** One section of the member: forces and location (timber_member.py:1335-1346). *)
Record tf := mkTF { f_N : R; f_My : R; f_Mz : R; f_Vy : R; f_Vz : R; f_T : R; f_loc : R }.
(** What the checks use: height along the member and width (after charring), design strengths in
    bending, tension, compression, shear, the crack factor's inputs (timber_member.py:76-113). *)
Record tmem := mkTM { t_H : R -> R; t_B : R; t_fm : R; t_ft : R; t_fc : R; t_fv : R; t_type : timber; t_sc : nat; t_varnished : bool }.
(** timber_section.py:293-305, 203-216 area at a location. *)
Definition A_at (m : tmem) (x : R) : R := t_B m * t_H m x.
(** timber_section.py:307-308. *)
Definition Wy_at (m : tmem) (x : R) : R := t_B m * t_H m x ^ 2 / 6.
(** timber_section.py:307-308. *)
Definition Wz_at (m : tmem) (x : R) : R := t_H m x * t_B m ^ 2 / 6.
(** timber_member.py:267-281 sigma_t0d, sigma_c0d. *)
Definition sigma_0d (m : tmem) (f : tf) : R := f_N f / A_at m (f_loc f).
(** timber_member.py:568-577 sigma_md about y. *)
Definition sigma_my (m : tmem) (f : tf) : R := f_My f / Wy_at m (f_loc f).
(** timber_member.py:568-577 sigma_md about z. *)
Definition sigma_mz (m : tmem) (f : tf) : R := f_Mz f / Wz_at m (f_loc f).
(** timber_member.py:621-624 the crack factor. *)
Definition k_cr (m : tmem) : R :=
  let cond := orb (match t_type m with lvl => false | _ => true end) (Nat.eqb (t_sc m) 1) in
  if andb cond (negb (t_varnished m)) then 67/100 else 1.
(** timber_member.py:616-627 tau_d. *)
Definition tau_d (m : tmem) (f : tf) : R * R :=
  (3 / 2 * f_Vy f / (t_H m (f_loc f) * t_B m * k_cr m), 3 / 2 * f_Vz f / (t_H m (f_loc f) * t_B m * k_cr m)).
(** timber_member.py:999-1006 check_normal_force. *)
Definition check_normal (m : tmem) (f : tf) : R :=
  if Rltb 0 (f_N f) then Rabs (sigma_0d m f) / t_ft m else Rabs (sigma_0d m f) / t_fc m.
(** timber_member.py:1104-1107 check_shear_force of the chosen section. *)
Definition check_shear_at (m : tmem) (f : tf) : R := Rmax (Rabs (fst (tau_d m f)) / t_fv m) (Rabs (snd (tau_d m f)) / t_fv m).
(** timber_member.py:1109-1114 check_bending_moment; k_m = 0.7 (constants.py:19). *)
Definition check_bending (m : tmem) (f : tf) : R :=
  Rmax (Rabs (sigma_my m f / t_fm m + 7/10 * sigma_mz m f / t_fm m)) (Rabs (sigma_mz m f / t_fm m + 7/10 * sigma_my m f / t_fm m)).
(** timber_member.py:1116-1120 check_torsion. *)
Definition check_torsion (m : tmem) (f : tf) : R :=
  tau_tor (f_T f) (t_H m (f_loc f)) (t_B m) / (k_shape (t_H m (f_loc f)) (t_B m) * t_fv m).
(** timber_member.py:1122-1128 check_bending_tension. *)
Definition check_bt (m : tmem) (f : tf) : R :=
  Rmax (sigma_0d m f / t_ft m + Rabs (sigma_my m f) / t_fm m + 7/10 * sigma_mz m f / t_fm m)
       (sigma_0d m f / t_ft m + 7/10 * Rabs (sigma_my m f) / t_fm m + sigma_mz m f / t_fm m).
(** timber_member.py:1130-1136 check_bending_compression. *)
Definition check_bc (m : tmem) (f : tf) : R :=
  Rmax ((sigma_0d m f / t_fc m) ^ 2 + Rabs (sigma_my m f) / t_fm m + 7/10 * sigma_mz m f / t_fm m)
       ((sigma_0d m f / t_fc m) ^ 2 + 7/10 * Rabs (sigma_my m f) / t_fm m + sigma_mz m f / t_fm m).

(** Python's index of a list with negative wrap-around (timber_member.py:1079-1102). *)
Definition pyget {A} (l : list A) (i : Z) : option A :=
  let n := Z.of_nat (length l) in
  if Z.ltb i (- n) then None else if Z.ltb i 0 then nth_error l (Z.to_nat (i + n)) else nth_error l (Z.to_nat i).
(** timber_member.py:1079-1086 the loop over [i]; the exception of a missing index is swallowed. *)
Fixpoint shift_start (loc : list R) (n : Z) (edge_ : R) (fuel : nat) (i : Z) : Z :=
  match fuel with
  | O => n
  | S k => match pyget loc (n + i + 1) with
           | Some x => if Rltb edge_ x then (n + i)%Z else shift_start loc n edge_ k (i + 1)%Z
           | None => shift_start loc n edge_ k (i + 1)%Z end
  end.
(** timber_member.py:1095-1102. *)
Fixpoint shift_end (loc : list R) (n : Z) (edge_ : R) (fuel : nat) (i : Z) : Z :=
  match fuel with
  | O => n
  | S k => match pyget loc (n - i - 1) with
           | Some x => if Rltb x edge_ then (n - i)%Z else shift_end loc n edge_ k (i + 1)%Z
           | None => shift_end loc n edge_ k (i + 1)%Z end
  end.
(** timber_member.py:1071-1102 the section used for the shear check at section [n] of a beam;
    [s], [e]: lengths of the reduction zones relative to the member length. *)
Definition shear_section (loc : list R) (n : nat) (s e : R) : option Z :=
  bind (nth_error loc n) (fun x =>
  let n1 := if Rltb x s then shift_start loc (Z.of_nat n) s (length loc) 0 else Z.of_nat n in
  Some (if Rltb (1 - e) x then shift_end loc n1 (1 - e) (length loc) 0 else n1)).
(** timber_member.py:1056-1107 check_shear_force with reduction for a beam. *)
Definition check_shear (m : tmem) (secs : list tf) (n : nat) (s e : R) : option R :=
  bind (shear_section (map f_loc secs) n s e) (fun k => bind (pyget secs k) (fun f => Some (check_shear_at m f))).

(** timber_member.py:1367-1389 section_resistance without shear reduction (columns). *)
Definition section_resistance (m : tmem) (f : tf) : list R :=
  [check_normal m f; check_shear_at m f; check_bending m f; check_torsion m f; check_bt m f; check_bc m f].
(** timber_member.py:1412-1418 check_sections: largest value of each check, at least 0. *)
Definition check_sections (m : tmem) (secs : list tf) : option (list R) :=
  match secs with [] => None
  | _ => Some (map (fun j => fold_left Rmax (map (fun f => nth j (section_resistance m f) 0) secs) 0) (seq 0 6)) end.
(** Python's max with key abs: the first element of largest absolute value (timber_member.py:1160-1161). *)
Fixpoint max_abs (l : list R) : option R :=
  match l with [] => None
  | x :: l' => match max_abs l' with None => Some x | Some y => if Rltb (Rabs x) (Rabs y) then Some y else Some x end end.
(** timber_member.py:1144-1161 the segments between the supports (with 0 and 1). *)
Fixpoint pairs (l : list R) : list (R * R) :=
  match l with x :: ((y :: _) as l') => (x, y) :: pairs l' | _ => [] end.
(** timber_member.py:1145-1148 supports with the member ends, sorted. *)
Definition with_ends (sup : list R) : list R := rsort (sup ++ [0; 1]).
(** timber_member.py:1153-1157 the sections of a segment; [self.loc.index]: distinct locations. *)
Definition in_seg (secs : list tf) (ab : R * R) : list tf :=
  filter (fun f => andb (Rleb (fst ab) (f_loc f)) (Rleb (f_loc f) (snd ab))) secs.
(** timber_member.py:1158-1179 the utilisation of one segment; [z]: buckling about z. *)
Definition seg_buckling (m : tmem) (z : bool) (secs : list tf) (kc : R) : option R :=
  bind (list_min (map (sigma_0d m) secs)) (fun sc =>
  bind (max_abs (map (sigma_my m) secs)) (fun my =>
  bind (max_abs (map (sigma_mz m) secs)) (fun mz =>
  let u := if z then Rabs sc / (kc * t_fc m) + 7/10 * Rabs my / t_fm m + mz / t_fm m
           else Rabs sc / (kc * t_fc m) + Rabs my / t_fm m + 7/10 * mz / t_fm m in
  Some (if Rltb sc 0 then u else u * 0)))).
(** Evaluation of a list of expressions that may raise (no counterpart in /repo). *)
Fixpoint all_some {A} (l : list (option A)) : option (list A) :=
  match l with [] => Some [] | o :: l' => bind o (fun x => bind (all_some l') (fun r => Some (x :: r))) end.
(** timber_member.py:1138-1181 check_buckling in one direction; [kc]: k_c of the segments; different
    numbers of segments raise in numpy. *)
Definition check_buckling (m : tmem) (z : bool) (secs : list tf) (sup : list R) (kc : list R) : option R :=
  let segs := pairs (with_ends sup) in
  if Nat.eqb (length segs) (length kc) then
    bind (all_some (map (fun p => seg_buckling m z (in_seg secs (fst p)) (snd p)) (combine segs kc))) list_max
  else None.
(** timber_member.py:1183-1203 check_LT_buckling of one section: [pure]: bending without axial force;
    [kcrit], [kcz]: factors of its segment. *)
Definition lt_ratio (m : tmem) (pure : bool) (kcrit kcz : R) (f : tf) : R :=
  if pure then sigma_my m f / (kcrit * t_fm m)
  else (sigma_my m f / (kcrit * t_fm m)) ^ 2 + Rabs (sigma_0d m f) / (kcz * t_fc m).
(** timber_member.py:1466-1473 design: ratios of the sections, of buckling, of lateral torsional
    buckling and of compression perpendicular to the grain; the last two only for beams. *)
Definition design (beam : bool) (sections buckling : list R) (lt90 perp : R) : option R :=
  bind (list_max sections) (fun r => bind (list_max buckling) (fun b =>
  let r := Rmax r b in Some (if beam then Rmax (Rmax r lt90) perp else r))).
(** timber_member.py:1391-1410 check_cross_section: is_strong_enough. *)
Definition strong_enough (sections buckling : list R) (lt90 : R) : option bool :=
  bind (list_max (sections ++ buckling ++ [lt90])) (fun r => Some (negb (Rltb 1 r))).

(* ------------------------------------------------------------ apex and bracing *)

(** The kinds of sections (timber_member.py:341-352, 410-445). *)
Inductive skind := SPrismatic | SPulpetti | SHarja | SMaha | SKaareva | SKaarevaHarja.
(** timber_member.py:341-352 k_r; [r], [t]: inner radius and lamella thickness. *)
Definition k_r (k : skind) (r t : R) : option R :=
  match k with
  | SHarja | SPulpetti | SMaha => Some 1
  | SKaarevaHarja | SKaareva => bind (pdiv (r * 1000) t) (fun q => Some (if Rleb 240 q then 1 else 76/100 + 1/1000 * q))
  | SPrismatic => None end.
(** timber_member.py:410-415 k_dis. *)
Definition k_dis (k : skind) : option R :=
  match k with SHarja | SPulpetti | SMaha => Some (14/10) | SKaarevaHarja | SKaareva => Some (17/10) | SPrismatic => None end.
(** timber_member.py:417-429 k_p; [hap]: height at the apex. *)
Definition k_p (k : skind) (alfa r hap : R) : option R :=
  match k with
  | SHarja | SMaha => Some (2/10 * tan alfa)
  | SKaareva => bind (pdiv hap (r + 1/2 * hap)) (fun q => Some (25/100 * q))
  | SKaarevaHarja =>
    let t := tan alfa in
    let k5 := 2/10 * t in let k6 := 25/100 - 15/10 * t + 26/10 * t ^ 2 in let k7 := 21/10 * t - 4 * t ^ 2 in
    bind (pdiv hap (r + 1/2 * hap)) (fun q => Some (k5 + k6 * q + k7 * q ^ 2))
  | _ => None end.
(** timber_member.py:431-445 k_l; k2 = 0.35 * - 8 * tan (alfa) as written. *)
Definition k_l (k : skind) (alfa r hap : R) : option R :=
  let t := tan alfa in
  let k1 := 1 + 14/10 * t + 54/10 * t ^ 2 in
  match k with
  | SHarja | SMaha => Some k1
  | SKaareva => bind (pdiv hap (r + 1/2 * hap)) (fun q => Some (1 + 35/100 * q + 6/10 * q ^ 2))
  | SKaarevaHarja =>
    let k2 := 35/100 * - (8) * t in let k3 := 6/10 + 83/10 * t - 78/10 * t ^ 2 in let k4 := 6 * t ^ 2 in
    bind (pdiv hap (r + 1/2 * hap)) (fun q => Some (k1 + k2 * q + k3 * q ^ 2 + k4 * q ^ 3))
  | _ => None end.
(** timber_member.py:354-358 V of the beams with a ridge; the curved beams are not modelled. *)
Definition V_apex (B hap : R) : R := B * hap ^ 2.
(** timber_member.py:388-390, 466-474 V_tot of the beams with a ridge: alfa = atan ((hap - h0) / (L/2)). *)
Definition V_tot (B L h0 hap : R) : R := B * L * (hap - L * tan (atan ((hap - h0) / (L / 2))) / 4).
(** timber_member.py:398-408 k_vol; [forced]: value given by the user.  The comparison of the material
    type with 'solid timber' is never true (the type is 'solid_timber'), so the material has no effect. *)
Definition k_vol (m : timber) (forced : option R) (V Vtot : R) : R :=
  match forced with Some k => k
  | None => let v := if Rltb (2/3 * Vtot) V then 2/3 * Vtot else V in Rpower (10000000 / v) (2/10) end.
(** timber_member.py:447-464 k_m_alpha; [s]: stress, [tn]: tangent of the slope. *)
Definition k_m_alpha (flipped : bool) (s tn fmd fvd fc90 : R) : R :=
  let kma c := / sqrt (1 + (tn * c * fmd / fvd) ^ 2 + (tn ^ 2 * fmd / fc90) ^ 2) in
  if negb flipped then (if Rleb 0 s then kma (4/3) else kma (2/3))
  else (if Rleb s 0 then kma (4/3) else kma (2/3)).
(** timber_member.py:314-322 the location nearest below (above) the apex. *)
Definition nearest_below (xap : R) (loc : list R) : option R :=
  match loc with [] => None
  | l0 :: ls => Some (fold_left (fun m l => if andb (Rltb (xap - l) (xap - m)) (Rleb 0 (xap - l)) then l else m) ls l0) end.
(** timber_member.py:323-331. *)
Definition nearest_above (xap : R) (loc : list R) : option R :=
  match rev loc with [] => None
  | l0 :: ls => Some (fold_left (fun m l => if andb (Rltb (l - xap) (m - xap)) (Rleb 0 (l - xap)) then l else m) ls l0) end.
(** Moment of the first section at a location: self.myed[self.loc.index(l)] (timber_member.py:312). *)
Definition moment_at (secs : list tf) (l : R) : option R :=
  bind (find (fun f => Reqb (f_loc f) l) secs) (fun f => Some (f_My f)).
(** timber_member.py:305-332 M_apd. *)
Definition M_apd (secs : list tf) (xap : R) : option R :=
  match moment_at secs xap with
  | Some m => Some m
  | None =>
    bind (nearest_below xap (map f_loc secs)) (fun a => bind (nearest_above xap (map f_loc secs)) (fun b =>
    bind (moment_at secs a) (fun ma => bind (moment_at secs b) (fun mb => Some ((ma + mb) / 2)))))
  end.
(** timber_member.py:1205-1243 bracing: spring stiffness, force and line load (with [n] frames);
    [m]: number of bays, [Nd]: list of the compression forces; [ks] does not enter the result. *)
Definition bracing (mat : timber) (L : R) (m : nat) (ks : R) (Nds : list R) (n : R) : option (R * R * R) :=
  bind (list_max Nds) (fun Nd =>
  let a := L / INR m in
  Some (Nd / a, match mat with solid => Nd / 50 | _ => Nd / 80 end,
        Rmin 1 (sqrt (15 / L)) * (n * Nd / (50 * L)))).

(* ------------------------------------------------------------ bearing at nodes *)

(** math.isclose with rel_tol = 10 (timber_member.py:504-508). *)
Definition isclose10 (a b : R) : bool := Rleb (Rabs (a - b)) (Rmax (10 * Rmax (Rabs a) (Rabs b)) 0).
(** timber_member.py:501-509 the loop keeps the last section found at the node. *)
Fixpoint last_match (x y : R) (pts : list (R * R)) (i : nat) (acc : option nat) : option nat :=
  match pts with [] => acc
  | p :: ps => last_match x y ps (S i) (if andb (isclose10 x (fst p)) (isclose10 y (snd p)) then Some i else acc) end.
(** timber_member.py:524-530 contact length for the height [H] of the other member. *)
Definition lc90ef (at_end : bool) (H : R) : R :=
  if at_end then H + Rmin 30 (Rmin 0 H) + Rmin 30 H else H + Rmin 30 H + Rmin 30 H.
(** timber_member.py:500-535 the bearing stress under another member: its section points and axial
    forces, its height and width, own width; [None]: no section found (TypeError). *)
Definition bearing (x y : R) (pts : list (R * R)) (ned : list R) (at_end : bool) (H B Bown : R) : option R :=
  bind (last_match x y pts 0 None) (fun i => bind (nth_error ned i) (fun N =>
  Some (if Rleb 0 N then 0 else N / (lc90ef at_end H * Rmin B Bown)))).
(** timber_member.py:551-566 update_kc90. *)
Definition k_c90 (m : timber) (H l1 l : R) : R :=
  if Rleb (H * 2) l1 then match m with solid => 25/10 | glt => if Rleb l 400 then 175/100 else 1 | lvl => 1 end else 1.
