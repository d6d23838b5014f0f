(** Model of metku/structures/steel/stressed_skin.py (sheeting diaphragms), metku/sandwich/sandwich.py
    (sandwich panels) and metku/structures/timber/clt_slab.py (CLT layers). [None] stands for a raised exception.
    Decimal constants and exponents are exact; printing is not modelled. *)
From Verif Require Export EC3_model Cold_model.

(** Python indexing: a negative index counts from the end, outside the list IndexError. *)
Definition py_nth {A} (l : list A) (i : Z) : option A :=
  if Z.ltb i 0 then (if Z.ltb (Z.of_nat (length l) + i) 0 then None else nth_error l (Z.to_nat (Z.of_nat (length l) + i)))
  else nth_error l (Z.to_nat i).

(* ---------------------------------------------------------------- stressed skin *)

(** stressed_skin.py:21-91 the table K1, in thousandths. *)
Definition K1 : list (Z * list (list Z)) :=
  ([(0%Z, [[13; 30; 41; 41; 46; 50; 66; 103; 193]; [42; 96; 131; 142; 142; 153; 199; 311; 602]; [86; 194; 264; 285; 283; 302; 388; 601; 1188]; [144; 323; 438; 473; 468; 494; 629; 972; 1935]; [216; 438; 654; 703; 695; 729; 922; 1420; 2837]; [302; 674; 911; 980; 965; 1008; 1266; 1938; 3892]; [402; 895; 1208; 1300; 1277; 1329; 1661; 2536; 5098]; [516; 1146; 1546; 1662; 1631; 1692; 2107; 3208; 6453]]);
   (5%Z, [[14; 31; 41; 44; 44; 49; 66; 107; 205]; [50; 99; 128; 134; 132; 146; 198; 336; 652]; [107; 202; 253; 260; 254; 280; 386; 681; 1548]; [188; 338; 413; 417; 404; 448; 629; 1158; 2639]; [295; 507; 604; 601; 578; 648; 934; 1783]; [429; 706; 823; 806; 772; 877; 1306; 2586]; [591; 935; 1066; 1028; 983; 1135; 1756; 3605]; [780; 1191; 1328; 1264; 1208; 1423; 2299; 4838]]);
   (10%Z, [[16; 31; 40; 42; 42; 48; 65; 111; 221]; [56; 101; 123; 125; 123; 139; 200; 366; 873]; [125; 204; 238; 233; 226; 264; 402; 786]; [222; 338; 375; 356; 345; 418; 689; 1445]; [349; 494; 526; 486; 473; 605; 1082; 2428]; [502; 668; 682; 615; 608; 837; 1607]; [677; 851; 834; 736; 752; 1128; 2308]; [869; 1035; 975; 844; 907; 1494; 3200]]);
   (15%Z, [[17; 31; 40; 41; 41; 47; 66; 115]; [62; 102; 118; 115; 113; 134; 209; 403]; [139; 202; 218; 204; 200; 254; 440; 945]; [244; 321; 325; 293; 294; 414; 796]; [370; 448; 426; 371; 396; 636; 1329]; [506; 568; 508; 434; 513; 941]; [646; 668; 561; 483; 664; 1349]; [766; 735; 578; 527; 861]]);
   (20%Z, [[18; 32; 39; 39; 39; 46; 66; 111]; [68; 101; 111; 106; 104; 131; 221; 452]; [148; 193; 194; 174; 177; 255; 492]; [249; 289; 267; 230; 259; 444; 931]; [356; 372; 315; 270; 364; 725]; [448; 420; 326; 303; 512]; [509; 423; 301; 346]; [521; 372; 259; 413]]);
   (25%Z, [[19; 32; 38; 38; 38; 45; 68; 126]; [72; 99; 103; 95; 95; 129; 236; 513]; [151; 178; 166; 144; 160; 268; 557]; [238; 244; 204; 176; 247; 494]; [306; 272; 203; 204; 376]; [333; 248; 172; 241]; [300; 174; 142]; [204; 81]]);
   (30%Z, [[20; 32; 37; 36; 36; 44; 70; 133]; [75; 95; 94; 84; 87; 132; 256]; [148; 157; 135; 116; 152; 291]; [208; 186; 139; 139; 253]; [226; 161; 112; 176]; [180; 89; 93]; [77]]);
   (35%Z, [[21; 32; 36; 34; 34; 43; 72; 142]; [76; 89; 83; 72; 82; 137; 281]; [137; 130; 102; 93; 151]; [162; 119; 82; 120]; [123; 59]; [32]]);
   (40%Z, [[23; 32; 34; 32; 32; 43; 75; 155]; [75; 81; 70; 60; 77; 146]; [116; 96; 68; 78]; [100; 53; 48]; [24]]);
   (45%Z, [[24; 31; 32; 29; 30; 43; 79]; [71; 69; 56; 50; 73]; [86; 57; 41]; [32]])])%Z.
(** stressed_skin.py:21-91 K1[key]; another key raises KeyError. *)
Definition K1_rows (a : Z) : option (list (list Z)) :=
  match find (fun e => Z.eqb (fst e) a) K1 with Some e => Some (snd e) | None => None end.

(** StressedSkin / StressedSkinRafters (stressed_skin.py:97-137, 243-273): sheet with its material (core thickness t, E, nu,
    fy, fu), lengths a and b, number of panels, seam fastener (diameter, spacing, in the trough or not), edge fastener
    (diameter, spacing), wall thicknesses of rafter and edge member, E and A of the edge member, fastener_calc = 'en1993',
    number of troughs as an integer. The sheet is the one of Cold_model; [sk_nf] is its number of troughs. *)
Record skin := mkSkin { sk_s : sheet; sk_nf : nat; sk_E : R; sk_nu : R; sk_fy : R; sk_fu : R; sk_a : R; sk_b : R; sk_n : R;
  sk_d : R; sk_sp : R; sk_trough : bool; sk_ed : R; sk_esp : R; sk_rt : R; sk_et : R; sk_eE : R; sk_eA : R; sk_en : bool }.
(** trapezoidal.py:57-58 the thickness used. *)
Definition sk_t (k : skin) : R := sheet_t (sk_s k).
(** stressed_skin.py:126 p, trapezoidal.py:94-97. *)
Definition sk_p (k : skin) : R := sheet_pitch (sk_s k).
(** stressed_skin.py:139-156 Fs. *)
Definition Fs (k : skin) : option R :=
  if sk_en k then bind (screw_bearing (sk_fu k) (sk_d k) (sk_t k) (sk_t k)) (fun r => Some (fst r))
  else bind (pdiv (sk_t k) (sk_d k)) (fun q => bind (psqrt q) (fun s => Some (Rmin (29/10 * s * sk_fu k * sk_d k * sk_t k) 3800))).
(** stressed_skin.py:158-168 beta3: outside the trough the method nf itself is used as a number, TypeError. *)
Definition beta3 (k : skin) : option R := if sk_trough k then Some 1 else None.
(** sum([((c*(i+1)-e)/d)**3 for i in range(0,m)]) of stressed_skin.py:179-194 with c = 2. *)
Definition cube_sum (e d : R) (m : nat) : R := fold_right Rplus 0 (map (fun i => ((2 * (INR i + 1) - e) / d) ^ 3) (seq 0 m)).
(** stressed_skin.py:170-205 beta1 with nf; in the range the divisor is never 0. *)
Definition beta1 (nf : nat) (trough : bool) : R :=
  if Nat.even nf then
    (if trough then cube_sum 1 (INR nf - 1) (nf / 2) else cube_sum 1 (INR nf) (nf / 2))
  else
    (if trough then cube_sum 0 (INR nf - 1) ((nf - 1) / 2) else cube_sum 0 (INR nf) ((nf - 1) / 2)).
(** stressed_skin.py:207-236 K. *)
Definition skin_K (k : skin) : option R :=
  bind (pdiv (s_bt (sk_s k)) (sk_p k)) (fun l2d => bind (pdiv (s_h (sk_s k)) (sk_p k)) (fun h2d =>
  let lnd := (truncZ (l2d / (1/10)) - 1)%Z in
  let hnd := (truncZ (h2d / (1/10)) - 1)%Z in
  let ia := (5 * floorZ ((90 - s_angle (sk_s k)) / 5))%Z in
  match K1_rows ia with
  | None => None
  | Some rows => match py_nth rows hnd with
                 | None => None
                 | Some r => match py_nth r lnd with None => None | Some v => Some (IZR v / 1000) end
                 end
  end)).
(** stressed_skin.py:275-280 ns. *)
Definition ns (k : skin) : option Z := bind (pdiv (sk_b k) (sk_sp k)) (fun q => Some (truncZ q - 1)%Z).
(** stressed_skin.py:282-287 nsc. *)
Definition nsc (k : skin) : option Z := bind (pdiv (sk_b k) (sk_esp k)) (fun q => Some (truncZ q)).
(** stressed_skin.py:289-292 nsh. *)
Definition nsh (k : skin) : option Z := bind (pdiv (sk_a k) (sk_p k * INR (sk_nf k))) (fun q => Some (roundZ q)).
(** stressed_skin.py:334-341, 360-367 the limit of the ECCS guide for a diameter; other diameters raise. *)
Definition eccs_max (d : R) : option R := if Reqb d (55/10) then Some 6500 else if Reqb d (63/10) then Some 8000 else None.
(** stressed_skin.py:294-305, 320-344 Fp. *)
Definition Fp (k : skin) : option R :=
  if sk_en k then bind (screw_bearing (sk_fu k) (sk_d k) (sk_t k) (sk_rt k)) (fun r => Some (fst r))
  else bind (eccs_max (sk_d k)) (fun m => Some (Rmin (19/10 * sk_fu k * sk_d k * sk_t k) m)).
(** stressed_skin.py:307-318, 346-370 Fsc. *)
Definition Fsc (k : skin) : option R :=
  if sk_en k then bind (screw_bearing (sk_fu k) (sk_ed k) (sk_t k) (sk_et k)) (fun r => Some (fst r))
  else bind (eccs_max (sk_ed k)) (fun m => Some (Rmin (19/10 * sk_fu k * sk_ed k * sk_t k) m)).
(** stressed_skin.py:372-395 seam_strength. *)
Definition seam_strength (k : skin) : option R :=
  bind (Fs k) (fun fs => bind (Fp k) (fun fp => bind (ns k) (fun n => bind (beta3 k) (fun b3 =>
  bind (pdiv (sk_a k) (sk_b k)) (fun q => bind (pdiv (beta1 (sk_nf k) (sk_trough k)) b3) (fun r =>
  Some (q * (IZR n * fs + r * fp)))))))).
(** stressed_skin.py:411-422 sheet_rafter_fastener_strength. *)
Definition sheet_rafter_strength (k : skin) : option R := bind (Fp k) (fun f => pdiv (6/10 * sk_a k * f) (sk_p k)).
(** x ** 2.5 of a thickness or pitch (stressed_skin.py:465); complex for negative x. *)
Definition pow25 (x : R) : option R := bind (psqrt x) (fun s => Some (x ^ 2 * s)).
(** stressed_skin.py:449-477 profile_distortion (mm/kN). *)
Definition profile_distortion (k : skin) : option R :=
  bind (skin_K k) (fun K => bind (pow25 (sk_p k)) (fun d25 => bind (pow25 (sk_t k)) (fun t25 =>
  bind (pdiv (sk_a k * d25 * 1 * K) (sk_E k * (1/1000))) (fun x => bind (pdiv x t25) (fun x => pdiv x (sk_b k ^ 2)))))).
(** stressed_skin.py:479-498 shear_strain. *)
Definition shear_strain (k : skin) : option R :=
  bind (pdiv (2 * s_h (sk_s k)) (sk_p k)) (fun q =>
  bind (pdiv (2 * sk_a k * (1 + sk_nu k) * (1 + q)) (sk_E k * (1/1000))) (fun x => bind (pdiv x (sk_t k)) (fun x => pdiv x (sk_b k)))).
(** stressed_skin.py:500-528 fastener_deformation; slips 0.35, 0.25, 0.35 (lines 130-137). *)
Definition fastener_deformation (k : skin) : option (R * R * R) :=
  let sp := 35/100 in let ss := 25/100 in let ssc := 35/100 in
  bind (nsh k) (fun h => bind (ns k) (fun n => bind (nsc k) (fun c =>
  bind (pdiv (2 * sk_a k * sp * sk_p k) (sk_b k ^ 2)) (fun c1 =>
  bind (pdiv (ss * sp * (IZR h - 1)) (IZR n * sp + beta1 (sk_nf k) (sk_trough k) * ss)) (fun c2 =>
  bind (pdiv (2 * ssc) (IZR c)) (fun c3 => Some (c1, c2, c3))))))).
(** stressed_skin.py:530-544 edge_member_strain. *)
Definition edge_member_strain (k : skin) : option R :=
  bind (pdiv (sk_n k ^ 2 * sk_b k ^ 3) (sk_eE k * (1/1000))) (fun x => bind (pdiv x (sk_eA k)) (fun x => pdiv x (sk_a k ^ 2))).
(** stressed_skin.py:546-564 shear_flexibility. *)
Definition shear_flexibility (k : skin) : option R :=
  bind (profile_distortion k) (fun c11 => bind (shear_strain k) (fun c12 => bind (fastener_deformation k) (fun '(x, y, z) =>
  bind (edge_member_strain k) (fun c3 => bind (pdiv (sk_b k ^ 2) (sk_a k ^ 2)) (fun q =>
  Some (q * (c11 + c12 + (x + y + z)) + c3)))))).

(* ---------------------------------------------------------------- sandwich panels *)

(** Face (sandwich.py:59-94): thickness, coating, E and fu of the material. *)
Record face := mkFace { f_t : R; f_coat : R; f_E : R; f_fu : R }.
(** sandwich.py:96-99 tcor. *)
Definition f_cor (f : face) : R := f_t f - f_coat f.
(** sandwich.py:101-106 A. *)
Definition f_A (b : R) (f : face) : R := f_t f * b.
(** sandwich.py:108-113 I. *)
Definition f_I (b : R) (f : face) : R := 1/12 * b * f_t f ^ 3.
(** sandwich.py:115-118 EI. *)
Definition f_EI (b : R) (f : face) : R := f_E f * f_I b f.
(** sandwich.py:120-122 EA. *)
Definition f_EA (b : R) (f : face) : R := f_E f * f_A b f.
(** SandwichPanel (sandwich.py:135-163) with its core (124-131) and screw (32-56): the two faces, core thickness and shear
    modulus, width, distances of the screw pairs, screw diameters dS and d1. *)
Record panel := mkPanel { w_top : face; w_bot : face; w_tc : R; w_G : R; w_b : R; w_c : list R; w_dS : R; w_d1 : R }.
(** sandwich.py:19-30 ruukki_panel('SPA E', thickness); Steel("S280GD") has E = 210000, fu = 360 (steel_data.py:15-31). *)
Definition spa_panel (thickness : R) : panel :=
  mkPanel (mkFace (6/10) (4/100) 210000 360) (mkFace (5/10) (4/100) 210000 360) (thickness - 6/10 - 5/10) (37/10) 1200 [1000] (51/10) (459/100).
(** sandwich.py:165-168 thickness. *)
Definition w_D (w : panel) : R := f_t (w_top w) + f_t (w_bot w) + w_tc w.
(** sandwich.py:170-173 d. *)
Definition w_d (w : panel) : R := 1/2 * f_t (w_top w) + 1/2 * f_t (w_bot w) + w_tc w.
(** sandwich.py:183-186 S. *)
Definition w_S (w : panel) : option R := pdiv (w_G w * w_b w * w_d w ^ 2) (w_tc w).
(** sandwich.py:188-192 EIo. *)
Definition EIo (w : panel) : R := f_EI (w_b w) (w_top w) + f_EI (w_b w) (w_bot w).
(** sandwich.py:194-199 EIs. *)
Definition EIs (w : panel) : option R :=
  bind (pdiv (f_EA (w_b w) (w_top w) * f_EA (w_b w) (w_bot w)) (f_EA (w_b w) (w_top w) + f_EA (w_b w) (w_bot w))) (fun q => Some (q * w_d w ^ 2)).
(** sandwich.py:222 bending stiffness of the screw. *)
Definition screw_EI (w : panel) : R := 200000 * PI * w_dS w ^ 4 / 64.
(** sandwich.py:225 Csup. *)
Definition screw_C (w : panel) (tsup : R) : option R := bind (psqrt (tsup * w_d1 w ^ 5)) (fun s => Some (2400 * s)).
(** sandwich.py:228-231 kF2. *)
Definition screw_kF2 (w : panel) : option R :=
  let f := w_bot w in
  bind (psqrt (f_cor f ^ 3 * w_d1 w)) (fun s =>
  if Rltb (f_cor f) (7/10) then pdiv (693/100 * f_fu f * s) (26/100 + 8/10 * f_t f) else Some (42/10 * f_fu f * s / (373/1000))).
(** sandwich.py:235 xF. *)
Definition screw_xF (D t k C EI : R) : option R :=
  bind (pdiv 1 k) (fun f => bind (pdiv (1/2 * D * t) C) (fun u => bind (pdiv (D * t ^ 2 / 8) EI) (fun v =>
  bind (pdiv (D ^ 2) C) (fun p => bind (pdiv (D ^ 2 * (2 * D + 3 * t) / 6) EI) (fun q =>
  bind (pdiv (f - u - v) (f + p + q)) (fun r => Some (1 - r))))))).
(** sandwich.py:237 kv. *)
Definition screw_kv (D t k C EI : R) : option R :=
  bind (screw_xF D t k C EI) (fun x =>
  bind (pdiv x k) (fun a => bind (pdiv ((t ^ 2 + 2 * (1 - x) * D * t) / 4) C) (fun b =>
  bind (pdiv ((3 * (1 - x) * D * t ^ 2 + t ^ 3) / 24) EI) (fun c => pdiv 1 (a + b + c))))).
(** sandwich.py:212-249 fastener_transverse_stiffness. *)
Definition transverse_stiffness (w : panel) (tsup : R) : option R :=
  bind (screw_C w tsup) (fun C => bind (screw_kF2 w) (fun k => screw_kv (w_D w) tsup k C (screw_EI w))).
(** sandwich.py:251-264 shear_stiffness_for_support. *)
Definition support_stiffness (w : panel) (tsup L n : R) : option R :=
  bind (transverse_stiffness w tsup) (fun kv => bind (pdiv (1/2 * kv * n) L) (fun q =>
  Some (q * fold_right Rplus 0 (map (fun c => c ^ 2) (w_c w))))).
(** sandwich.py:266-277 fastener_shear_resistance. *)
Definition screw_shear (w : panel) : option R :=
  bind (psqrt (f_cor (w_bot w) ^ 3 * w_d1 w)) (fun s => Some (42/10 * s * f_fu (w_bot w) / gammaM2)).

(* ---------------------------------------------------------------- CLT slabs *)

(** CLTLayer (clt_slab.py:18-46): thickness, moduli along and across the grain, orientation 0 or not, widths bx and by. *)
Record clayer := mkLayer { y_t : R; y_E0 : R; y_E90 : R; y_par : bool; y_bx : R; y_by : R }.
(** clt_slab.py:21-46 a new layer. *)
Definition new_layer (t E0 E90 : R) (par : bool) : clayer := mkLayer t E0 E90 par 1000 1000.
(** clt_slab.py:62-68 Iy. *)
Definition y_Iy (l : clayer) : R := y_bx l * y_t l ^ 3 / 12.
(** clt_slab.py:70-76 Iz. *)
Definition y_Iz (l : clayer) : R := y_by l * y_t l ^ 3 / 12.
(** clt_slab.py:78-88 EIy. *)
Definition y_EIy (l : clayer) : R := (if y_par l then y_E0 l else y_E90 l) * y_Iy l.
(** clt_slab.py:90-100 EIz. *)
Definition y_EIz (l : clayer) : R := (if y_par l then y_E90 l else y_E0 l) * y_Iz l.
(** The layer objects by identity; slabs refer to them. *)
Definition cheap := list clayer.
(** clt_slab.py:141-144: the constructor of a slab sets the widths of its layers in place. *)
Definition set_widths (b L : R) (ids : list nat) (h : cheap) : cheap :=
  map (fun '(i, y) => if existsb (Nat.eqb i) ids then mkLayer (y_t y) (y_E0 y) (y_E90 y) (y_par y) b L else y) (combine (seq 0 (length h)) h).
(** CLTSlab (clt_slab.py:103-128): layers by identity, width, length. *)
Record cslab := mkCslab { z_ids : list nat; z_b : R; z_L : R }.
(** clt_slab.py:125-144 a slab of a list of existing layers. *)
Definition make_slab (ids : list nat) (b L : R) (h : cheap) : cslab * cheap := (mkCslab ids b L, set_widths b L ids h).
(** clt_slab.py:131-139 layers from a dict: zip of the three lists, so the shortest decides. *)
Definition zip_layers (ts : list R) (ms : list (R * R)) (os : list bool) : list clayer :=
  map (fun '(t, (m, o)) => new_layer t (fst m) (snd m) o) (combine ts (combine ms os)).
(** clt_slab.py:158-162 hclt. *)
Definition hclt (s : cslab) (h : cheap) : R :=
  fold_right Rplus 0 (map (fun i => match nth_error h i with Some y => y_t y | None => 0 end) (z_ids s)).
(** clt_slab.py:164-167 zgc. *)
Definition zgc (s : cslab) (h : cheap) : R := 1/2 * hclt s h.
