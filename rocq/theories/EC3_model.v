(** Model of metku/eurocodes/en1993/en1993_1_1.py (EN 1993-1-1 rules) and of the
    constants of metku/eurocodes/en1993/constants.py.  [None] stands for a raised
    exception (ZeroDivisionError, ValueError of math.sqrt). *)
From Verif Require Export Base Tac.

(** constants.py:31-34 gammaM0, gammaM1 = 1.0, gammaM2 = 1.25. *)
Definition gammaM0 : R := 1.
(** constants.py:32. *)
Definition gammaM1 : R := 1.
(** constants.py:33. *)
Definition gammaM2 : R := 125/100.

(** Python's x / y: ZeroDivisionError when y = 0 (used throughout en1993_1_1.py). *)
Definition pdiv (x y : R) : option R := if Reqb y 0 then None else Some (x / y).
(** Python's math.sqrt: ValueError below zero (used throughout en1993_1_1.py). *)
Definition psqrt (x : R) : option R := if Rltb x 0 then None else Some (sqrt x).
(** Sequencing of expressions that may raise (no counterpart in /repo). *)
Definition bind {A B} (o : option A) (f : A -> option B) : option B :=
  match o with Some a => f a | None => None end.

(** en1993_1_1.py:18 the buckling curves and their imperfection factors. *)
Inductive curve := a0 | ca | cb | cc | cd.
(** en1993_1_1.py:18. *)
Definition buckling_curve (c : curve) : R :=
  match c with a0 => 13/100 | ca => 21/100 | cb => 34/100 | cc => 49/100 | cd => 76/100 end.

(** en1993_1_1.py:21-30. *)
Definition sway_imperfection (h m : R) : option R :=
  bind (psqrt h) (fun sh =>
  bind (pdiv 2 sh) (fun q =>
  let alpha_h := Rmin (Rmax (2/3) q) 1 in
  bind (pdiv 1 m) (fun im =>
  bind (psqrt (1/2 * (1 + im))) (fun alpha_m =>
  Some (1/200 * alpha_h * alpha_m))))).

(** en1993_1_1.py:33-40. *)
Definition epsilon (fy : R) : option R := bind (pdiv 235 fy) psqrt.

(** en1993_1_1.py:43-61. *)
Definition internal_part_in_bending (r e : R) : nat :=
  if Rleb r (72 * e) then 1 else if Rleb r (83 * e) then 2 else if Rleb r (124 * e) then 3 else 4.

(** en1993_1_1.py:72-74, 101-103, 142-144: an epsilon above 1 is taken as a yield
    strength (epsilon cannot raise then). *)
Definition conv (e : R) : R :=
  if Rltb 1 e then match epsilon e with Some x => x | None => e end else e.

(** en1993_1_1.py:64-86. *)
Definition internal_part_in_compression (r e : R) : nat :=
  let e := conv e in
  if Rleb r (33 * e) then 1 else if Rleb r (38 * e) then 2 else if Rleb r (42 * e) then 3 else 4.

(** en1993_1_1.py:105-118 class 1 and 2 limits; the divisors vanish nowhere on the
    branches they are used on. *)
Definition comp_bend_12 (r e a : R) : nat :=
  if Reqb a 0 then 1
  else if Rltb (1/2) a then
    (if Rleb r (396 * e / (13 * a - 1)) then 1 else if Rleb r (456 * e / (13 * a - 1)) then 2 else 4)
  else
    (if Rleb r (36 * e / a) then 1 else if Rleb r (83/2 * e / a) then 2 else 4).
(** en1993_1_1.py:89-128. *)
Definition internal_part_comp_bend (r e a p : R) : nat :=
  let e := conv e in
  let C := comp_bend_12 r e a in
  if Nat.ltb 2 C then
    if Rltb (-1) p then (if Rleb r (42 * e / (67/100 + 33/100 * p)) then 3 else C)
    else (if Rleb r (62 * e * (1 - p) * sqrt (- p)) then 3 else C)
  else C.

(** en1993_1_1.py:131-153. *)
Definition outstand_part_in_compression (r e : R) : nat :=
  let e := conv e in
  if Rleb r (9 * e) then 1 else if Rleb r (10 * e) then 2 else if Rleb r (14 * e) then 3 else 4.

(** en1993_1_1.py:156-174. *)
Definition CHS_class (r e : R) : nat :=
  if Rleb r (50 * e ^ 2) then 1 else if Rleb r (70 * e ^ 2) then 2 else if Rleb r (90 * e ^ 2) then 3 else 4.

(** en1993_1_1.py:177-181. *)
Definition tension_resistance (A fy : R) : R := fy * A / gammaM0.
(** en1993_1_1.py:184-188. *)
Definition net_section_resistance (Anet fu : R) : R := 9/10 * Anet * fu / gammaM2.
(** en1993_1_1.py:191-198. *)
Definition compression_resistance (A fy : R) : R := A * fy / gammaM0.
(** en1993_1_1.py:201-210. *)
Definition bending_resistance (W fy : R) : R := W * fy / gammaM0.
(** en1993_1_1.py:213-219. *)
Definition shear_resistance (Av fy : R) : R := Av * fy / sqrt 3 / gammaM0.
(** en1993_1_1.py:222-227. *)
Definition slenderness (A fy Ncr : R) : option R := bind (pdiv (A * fy) Ncr) psqrt.

(** en1993_1_1.py:230-237. *)
Definition buckling_reduction_factor (slend imp : R) : option R :=
  let p := 1/2 * (1 + imp * (slend - 2/10) + slend ^ 2) in
  bind (psqrt (p ^ 2 - slend ^ 2)) (fun s =>
  bind (pdiv 1 (p + s)) (fun q => Some (Rmin q 1))).

(** en1993_1_1.py:240-244. *)
Definition buckling_strength (A fy chi : R) : R := chi * A * fy / gammaM1.

(** en1993_1_1.py:248-257. *)
Definition beam_column_utility (UN UMy ky chiLT UMz : R) : option R :=
  bind (pdiv (ky * UMy) chiLT) (fun q => Some (UN / gammaM1 + q / gammaM1 + UMz / gammaM1)).

(** en1993_1_1.py:260-268. *)
Definition kyy (UN slend Cmy : R) (cls : nat) : R :=
  if Nat.ltb cls 3 then Cmy * (1 + Rmin (slend - 2/10) (8/10) * UN / gammaM1)
  else Cmy * (1 + Rmin slend (6/10) * UN / gammaM1).

(** en1993_1_1.py:271-288. *)
Definition kzy (ky UN slend CmLT : R) (cls : nat) (torsion : bool) : option R :=
  if Nat.ltb cls 3 then
    if torsion then
      if Rltb slend (4/10) then
        bind (pdiv (1/10 * slend) (CmLT - 1/4)) (fun q => Some (Rmin (6/10 + slend) (1 - q * UN / gammaM1)))
      else bind (pdiv (1/10 * Rmin slend 1) (CmLT - 1/4)) (fun q => Some (1 - q * UN / gammaM1))
    else Some (6/10 * ky)
  else
    if torsion then
      bind (pdiv (5/100 * Rmin slend 1) (CmLT - 1/4)) (fun q => Some (1 - q * UN / gammaM1))
    else Some (8/10 * ky).

(** en1993_1_1.py:291-302; [hollow] is profile == "hollow". *)
Definition kzz (UN slend Cmz : R) (cls : nat) (hollow : bool) : R :=
  if Nat.ltb cls 3 then
    if hollow then Cmz * (1 + Rmin (slend - 2/10) (8/10) * UN / gammaM1)
    else Cmz * (1 + Rmin (2 * slend - 6/10) (14/10) * UN / gammaM1)
  else Cmz * (1 + Rmin slend (6/10) * UN / gammaM1).

(** en1993_1_1.py:305-312. *)
Definition kyz (kz : R) (cls : nat) : R := if Nat.ltb cls 3 then 6/10 * kz else kz.

(** en1993_1_1.py:325-337 ratio of the end moments (1e-6 threshold on M[1] only). *)
Definition psi (M0 M1 : R) : R :=
  let r := if Rltb (1/1000000) (Rabs M1) then M0 / M1 else 0 in
  if Rltb 1 (Rabs r) then 1 / r else r.

(** en1993_1_1.py:360-366 ratio of span moment and larger end moment. *)
Definition alpha_m (M0 M1 Ms : R) : R :=
  let Mh := if Rltb (Rabs M1) (Rabs M0) then M0 else M1 in
  if Rltb (Rabs Mh) (1/1000000) then 0 else Ms / Mh.

(** en1993_1_1.py:370-404 the table once alpha and psi are known; [uni] is
    load == "uniform". *)
Definition cm_nonlinear (al p : R) (uni : bool) : R :=
  if orb (Rltb 1 (Rabs al)) (Reqb al 0) then
    let al := if Rltb 1 (Rabs al) then 1 / al else al in
    if Rleb 0 al then (if uni then 95/100 + 5/100 * al else 9/10 + 1/10 * al)
    else if Rleb 0 p then (if uni then 95/100 + 5/100 * al else 9/10 + 1/10 * al)
    else (if uni then 95/100 + 5/100 * al * (1 + 2 * p) else 9/10 + 1/10 * al * (1 + 2 * p))
  else
    if Rleb 0 al then Rmax (2/10 + 8/10 * al) (4/10)
    else if Rleb 0 p then (if uni then Rmax (1/10 - 8/10 * al) (4/10) else Rmax (- (8/10) * al) (4/10))
    else (if uni then Rmax (1/10 * (1 - p) - 8/10 * al) (4/10) else Rmax (2/10 * (- p) - 8/10 * al) (4/10)).

(** en1993_1_1.py:315-406; [Ms] = None when no span moment is given. *)
Definition equivalent_moment_factor (M0 M1 : R) (Ms : option R) (uni : bool) : R :=
  let p := psi M0 M1 in
  let lin := Rmax (6/10 + 4/10 * p) (4/10) in
  match Ms with
  | None => lin
  | Some m =>
      if Rltb (Rabs (m - 1/2 * (M0 + M1))) (1/1000000) then lin
      else cm_nonlinear (alpha_m M0 M1 m) p uni
  end.
