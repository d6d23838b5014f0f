(** Model of metku/eurocodes/en1993/en1993_1_3/en1993_1_3.py (cold-formed members, EN 1993-1-3) and of the
    geometry in trapezoidal.py. Printing is not modelled; the class GrooveStiffener has no bodies. *)
From Coq Require Import Rpower Rtrigo.
From Verif Require Export Fire_model.

(** math.radians, np.radians (en1993_1_3.py:55, 71; trapezoidal.py:63). *)
Definition radians (d : R) : R := d * PI / 180.
(** x ** (1/3) (en1993_1_3.py:116, 507); [None]: a negative base, where Python gives a complex number. *)
Definition pcbrt (x : R) : option R := if Rltb x 0 then None else if Reqb x 0 then Some 0 else Some (Rpower x (1/3)).
(** en1993_1_3.py:19-35 linear_interpolation. *)
Definition interpolate (x1 y1 x2 y2 x : R) : option R :=
  bind (pdiv (y2 - y1) (x2 - x1)) (fun k => let b := y1 - k * x1 in Some (k * x + b)).
(** en1993_1_3.py:38-48 fya. *)
Definition fya (fyb fu t Ag n k : R) : option R :=
  bind (pdiv ((fu - fyb) * k * n * t ^ 2) Ag) (fun q => Some (Rmin (fyb + q) (1/2 * (fu + fyb)))).
(** en1993_1_3.py:52-56 gr; math.tan of an odd multiple of a right angle is a huge number in floats, here
    sin/0 = 0 by the convention of the reals: theorems stay away from it. *)
Definition gr (r t phi : R) : R := let rm := r + 1/2 * t in let v := radians phi in rm * (tan v - sin v).
(** An argument turned into an array by np.array (en1993_1_3.py:68-69): a number or a list. *)
Inductive arr := Num (x : R) | Lst (l : list R).
(** The product of two such arrays (en1993_1_3.py:71, 84) followed by Python's sum; [None]: shapes do not
    match, or a zero-dimensional array cannot be iterated over. *)
Definition sum_prod (a b : arr) : option R :=
  match a, b with
  | Num _, Num _ => None
  | Num x, Lst l => Some (Rsum (map (fun y => x * y) l))
  | Lst l, Num y => Some (Rsum (map (fun x => x * y) l))
  | Lst l, Lst m =>
    if Nat.eqb (length l) (length m) then Some (Rsum (map (fun p => fst p * snd p) (combine l m)))
    else match l, m with [x], _ => Some (Rsum (map (fun y => x * y) m)) | _, [y] => Some (Rsum (map (fun x => x * y) l)) | _, _ => None end
  end.
(** An element-wise function of an array (en1993_1_3.py:71, 84). *)
Definition amap (f : R -> R) (a : arr) : arr := match a with Num x => Num (f x) | Lst l => Lst (map f l) end.
(** en1993_1_3.py:58-71 notional_width; the default angles are [Lst [90; 90]]. *)
Definition notional_width (b : R) (rm phi : arr) : option R :=
  option_map (fun s => b + s) (sum_prod rm (amap (fun p => sin (radians (1/2 * p))) phi)).
(** en1993_1_3.py:73-84 rounding_factor; a zero sum gives nan or inf in numpy, here [None]. *)
Definition rounding_factor (r phi : arr) (bp : list R) : option R :=
  bind (sum_prod r phi) (fun s => pdiv (43/100 * (s / 90)) (Rsum bp)).
(** en1993_1_3.py:86-101 distortional_buckling_reduction_factor. *)
Definition chi_dist (l : R) : option R :=
  if Rleb l (65/100) then Some 1 else if Rleb l (138/100) then Some (147/100 - 723/1000 * l) else pdiv (66/100) l.
(** en1993_1_3.py:103-120 buckling_factor_edge_stiffener; above 0.6 the result is unbound. *)
Definition ksigma_edge (b : R) : option R :=
  if Rleb b (35/100) then Some (5/10)
  else if Rleb b (6/10) then bind (pcbrt ((b - 35/100) ^ 2)) (fun c => Some (5/10 + 83/100 * c))
  else None.
(** en1993_1_3.py:122-126 distortional_buckling_stress. *)
Definition sigma_dist (Is As E K : R) : option R := bind (psqrt (K * E * Is)) (fun s => pdiv (2 * s) As).
(** The keyword arguments of axial_force_resistance (en1993_1_3.py:129): [None] when not given. *)
Record axkw := mkAx { k_fya : option R; k_fyb : option R; k_Aeff : option R; k_lam : option R }.
(** en1993_1_3.py:129-149 axial_force_resistance: any exception gives 0.0. *)
Definition axial_force_resistance (Ned A : R) (k : axkw) : R :=
  match (if Rleb 0 Ned then bind (k_fya k) (fun f => Some (f * A / gammaM0))
         else bind (k_Aeff k) (fun Ae =>
           if Rltb Ae A then bind (k_fyb k) (fun f => Some (f * Ae / gammaM0))
           else bind (k_lam k) (fun lr => bind (k_fyb k) (fun fb => bind (k_fya k) (fun fa =>
             Some (Rmin (A * (fb + 4 * (fa - fb) * (1 - lr))) (fa * A) / gammaM0)))))) with
  | Some N => N | None => 0 end.

(** en1993_1_3.py:169-170 k1. *)
Definition kk1 (k : R) : R := 133/100 - 33/100 * k.
(** en1993_1_3.py:172-173 k2, of r/t. *)
Definition kk2 (x : R) : R := Rmin (Rmax (115/100 - 15/100 * x) (5/10)) 1.
(** en1993_1_3.py:175-176 k3. *)
Definition kk3 (phi : R) : R := 7/10 + 3/10 * (phi / 8100).
(** en1993_1_3.py:178-179 k4. *)
Definition kk4 (k : R) : R := 122/100 - 22/100 * k.
(** en1993_1_3.py:181-182 k5, of r/t. *)
Definition kk5 (x : R) : R := Rmin (106/100 - 6/100 * x) 1.
(** en1993_1_3.py:151-269 RwRd; with web stiffeners the coefficient C is unbound (C0 is assigned
    instead); a zero thickness divides by zero. The factors k5_star, k6 to k11 only enter the
    coefficient C0 that is then not used. *)
Definition RwRd (fyb t hw ss c r phi e : R) (flange_st web_st : bool) : option R :=
  if Reqb t 0 then None else if web_st then None else
  let Rw0 := t ^ 2 * fyb / gammaM1 in
  let k := fyb / 228 in
  let C :=
    if Rltb (Rabs e) (1/1000000) then
      if Rleb c (15/10 * hw) then
        let C0 := kk1 k * kk2 (r / t) * kk3 phi in
        let x := ss / t in
        if flange_st then C0 * (904/100 - hw / t / 60) * (1 + 1/100 * x)
        else if Rleb x 60 then C0 * (592/100 - hw / t / 132) * (1 + 1/100 * x)
        else C0 * (592/100 - hw / t / 132) * (71/100 + 15/1000 * x)
      else
        let C0 := kk3 phi * kk4 k * kk5 (r / t) in
        let x := ss / t in
        if Rleb x 60 then C0 * (147/10 - hw / t / (495/10)) * (1 + 7/1000 * x)
        else C0 * (147/10 - hw / t / (495/10)) * (75/100 + 11/1000 * x)
    else
      if Rleb c (15/10 * hw) then
        let C0 := kk1 k * kk2 (r / t) * kk3 phi in C0 * (666/100 - hw / t / 64) * (1 + 1/100 * ss / t)
      else
        let C0 := kk3 phi * kk4 k * kk5 (r / t) in C0 * (21 - hw / t / (163/10)) * (1 + 13/10000 * ss / t) in
  Some (C * Rw0).

(** The keyword arguments of RwRd_two_webs (en1993_1_3.py:306-317); an unknown keyword raises. *)
Inductive wkw := We (e : R) | Wc (c : R) | WV (v : R * R) | Wother.
(** en1993_1_3.py:303-317: e, c (-1 when not given) and the shear forces. *)
Fixpoint read_kw (l : list wkw) (e c : R) (v : option (R * R)) : option (R * R * option (R * R)) :=
  match l with
  | [] => Some (e, c, v)
  | We x :: r => read_kw r x c v
  | Wc x :: r => read_kw r e x v
  | WV x :: r => read_kw r e c (Some x)
  | Wother :: _ => None
  end.
(** en1993_1_3.py:319-325: the loading category is 2. *)
Definition category2 (e c hw : R) : bool :=
  orb (orb (Rltb (15/10 * hw) e) (Rltb (15/10 * hw) c)) (andb (Rltb e 0) (Rltb c 0)).
(** en1993_1_3.py:347-360: the effective bearing length in category 2 before its upper limit; the shear
    forces not given: unbound. *)
Definition bearing_length (old : bool) (ss : R) (v : option (R * R)) : option R :=
  if old then bind v (fun V => let a := Rabs (fst V) in let b := Rabs (snd V) in
    bind (pdiv (a - b) (a + b)) (fun beta =>
    if Rleb beta (2/10) then Some ss else if Rleb (3/10) beta then Some 10
    else Some (ss - (beta - 2/10) / (1/10) * (ss - 10))))
  else Some ss.
(** en1993_1_3.py:271-382 RwRd_two_webs; np.sqrt of a negative number is nan: [None]. *)
Definition RwRd_two_webs (fyb r t phi hw ss : R) (old : bool) (kw : list wkw) : option R :=
  bind (read_kw kw (-1) (-1) None) (fun q => let '(e, c, v) := q in
  bind (if category2 e c hw then bind (bearing_length old ss v) (fun la => Some (15/100, Rmin la 200))
        else bind (if old then Some (75/1000) else if Rltb 0 e then Some (75/1000)
                   else bind (pdiv ((c + ss) / (15/10)) hw) (fun x => bind (psqrt x) (fun s => Some (Rmin (18/100 * s) (15/100)))))
             (fun a => Some (a, 10)))
  (fun al => let '(a, la) := al in
  bind (psqrt (fyb * 210000)) (fun s1 => bind (pdiv r t) (fun rt => bind (psqrt rt) (fun s2 =>
  bind (pdiv (2/100 * la) t) (fun lt => bind (psqrt lt) (fun s3 =>
  Some (a * t ^ 2 * s1 * (1 - 1/10 * s2) * (5/10 + s3) * (24/10 + (phi / 90) ^ 2) / gammaM1)))))))).

(** en1993_1_3.py:387-392 screw_validity. *)
Definition screw_validity (e1 e2 p1 p2 d : R) : bool :=
  andb (andb (andb (Rleb (3 * d) e1) (Rleb (15/10) e2)) (andb (Rleb (3 * d) p1) (Rleb (3 * d) p2))) (andb (Rleb d 8) (Rleb 3 d)).
(** min(3.2*math.sqrt(t/d),2.1) (en1993_1_3.py:406, 408, 415, 417). *)
Definition alfa_low (t d : R) : option R := bind (pdiv t d) (fun q => bind (psqrt q) (fun s => Some (Rmin (32/10 * s) (21/10)))).
(** en1993_1_3.py:405-424: the coefficient alfa. *)
Definition screw_alfa (d t t1 : R) : option R :=
  if Reqb t t1 then alfa_low t d
  else if andb (Rleb (25/10 * t) t1) (Rltb t 1) then alfa_low t d
  else if Rleb (25/10 * t) t1 then Some (21/10)
  else bind (alfa_low t d) (fun a0 =>
       bind (if Rltb t 1 then alfa_low t d else Some (21/10)) (fun a1 => interpolate t a0 (25/10 * t) a1 t1)).
(** en1993_1_3.py:394-436 screw_bearing_resistance: the resistance and alfa. *)
Definition screw_bearing (fu d t t1 : R) : option (R * R) :=
  bind (screw_alfa d t t1) (fun a => Some (a * fu * d * t / gammaM2, a)).
(** constants.py gammaMfi = 1.0 (used in en1993_1_3.py:450). *)
Definition gammaMfi : R := 1.
(** en1993_1_3.py:438-463 screw_bearing_resistance_elevated_temp. *)
Definition screw_bearing_fire (fu d t fub e1 e2 T : R) : option R :=
  bind (fyT T fu carbon) (fun fuT => bind (kbT T) (fun kb => let fubT := kb * fub in
  bind (pdiv (e1 / 3) d) (fun ad => bind (pdiv fubT fuT) (fun rf =>
  let abT := Rmin (Rmin ad rf) 1 in
  bind (pdiv (2 * e2) d) (fun q => let k1 := Rmin (q - 1) (25/10) in
  Some (k1 * abT * fubT * d * t / gammaMfi)))))).
(** en1993_1_3.py:465-473 screw_net_secton_resistance. *)
Definition screw_net_section (Anet fu : R) : R := Anet * fu / gammaM2.
(** The materials of a screw (en1993_1_3.py:491-494); for another one the result is unbound. *)
Inductive screwmat := hardened | stainless_screw | other_screw.
(** en1993_1_3.py:488-489: the tables. *)
Definition screw_table (m : screwmat) : list (R * R) :=
  match m with
  | hardened => [(48/10, 5200); (55/10, 7200); (63/10, 9800); (8, 16300)]
  | stainless_screw => [(48/10, 4600); (55/10, 6500); (63/10, 8500); (8, 14300)]
  | other_screw => [] end.
(** en1993_1_3.py:475-496 screw_shear_resistance_fin; [None]: KeyError or unbound. *)
Definition screw_shear (d : R) (m : screwmat) : option R :=
  option_map snd (find (fun p => Reqb (fst p) d) (screw_table m)).
(** en1993_1_3.py:498-507 sheeting_shear_stiffness. *)
Definition sheeting_stiffness (t s hw broof : R) : option R :=
  bind (psqrt (t ^ 3)) (fun q => bind (pcbrt broof) (fun c => pdiv (1000 * q * (50 + 10 * c) * s) hw)).
(** en1993_1_3.py:511-517: kba. *)
Definition cd_kba (ba : R) : R := if Rleb ba 125 then (ba / 100) ^ 2 else 125/100 * (ba / 100).
(** en1993_1_3.py:519-527: kt; a power of zero is zero and of a negative number complex ([None]). *)
Definition cd_kt (tnom : R) (pos : bool) : option R :=
  let p := if Rltb (75/100) tnom then (if pos then 11/10 else 15/10) else 15/10 in
  if Rltb tnom 0 then None else if Reqb tnom 0 then Some 0 else Some (Rpower (tnom / (75/100)) p).
(** en1993_1_3.py:529-532: kbR. *)
Definition cd_kbR (bR : R) : R := if Rleb bR 185 then 1 else 185 / bR.
(** en1993_1_3.py:534-546: kA; other thicknesses under gravity loads leave it unbound. *)
Definition cd_kA (gravity pos : bool) (tnom A : R) : option R :=
  if gravity then
    if Reqb tnom (75/100) then Some (1 + (A - 1) * (if pos then 8/100 else 16/100))
    else if Rleb 1 tnom then Some (1 + (A - 1) * (95/1000)) else None
  else Some 1.
(** en1993_1_3.py:552-561: C100 and the largest width; under gravity loads in the negative position C10
    is assigned instead of C100. *)
Definition cd_C100 (gravity pos : bool) : option R * R :=
  if gravity then if pos then (Some (52/10), 40) else (None, 120) else (Some (26/10), 40).
(** en1993_1_3.py:509-570 CD_A. *)
Definition CD_A (ba tnom : R) (pos : bool) (A bT bR : R) (gravity : bool) : option R :=
  bind (cd_kt tnom pos) (fun kt =>
  let '(C, bmax) := cd_C100 gravity pos in
  let kb := if Rltb bmax bT then sqrt (bmax / bT) else 1 in
  bind C (fun C100 => bind (cd_kA gravity pos tnom A) (fun kA => Some (C100 * cd_kba ba * kt * cd_kbR bR * kA * kb)))).

(** TrapezoidalSheet (trapezoidal.py:27-65): nominal thickness, height, flange widths, angle in degrees,
    number of troughs. *)
Record sheet := mkSheet { s_tnom : R; s_h : R; s_bt : R; s_bb : R; s_angle : R; s_n : R }.
(** trapezoidal.py:57-58: the core thickness. *)
Definition sheet_t (s : sheet) : R := s_tnom s - 4/100.
(** trapezoidal.py:84-87 hw. *)
Definition sheet_hw (s : sheet) : R := s_h s - s_tnom s.
(** trapezoidal.py:89-92 sw. *)
Definition sheet_sw (s : sheet) : R := sheet_hw s * sin (radians (s_angle s)).
(** trapezoidal.py:94-97 pitch. *)
Definition sheet_pitch (s : sheet) : R := s_bb s + s_bt s + 2 * s_h s * cos (radians (s_angle s)).
(** trapezoidal.py:99-102 width. *)
Definition sheet_width (s : sheet) : R := sheet_pitch s * s_n s.
(** trapezoidal.py:104-107 A. *)
Definition sheet_A (s : sheet) : R := s_n s * sheet_t s * (s_bt s + s_bb s + 2 * sheet_sw s).
