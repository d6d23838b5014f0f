(** Model of metku/structures/steel/fin_plate_joint.py and of the hole pattern in
    metku/structures/steel/plates.py. The bolt is that of Joint_model. Drawing and costs are left out
    (plate costs: Cost_model). *)
From Verif Require Import Base EC3_model Joint_model.
Require Import Reals List.
Import ListNotations.
Local Open Scope R_scope.

(** plates.py:158-200 RectPlateWithHoles: width, height, thickness, strengths and modulus of the
    material, position of the first hole, distances and numbers of holes. *)
Record hplate := mkHP { p_b : R; p_h : R; p_t : R; p_fy : R; p_fu : R; p_E : R;
  p_x : R; p_y : R; p_px : R; p_py : R; p_n1 : nat; p_n2 : nat }.
(** plates.py:202-205 n. *)
Definition p_n (p : hplate) : R := INR (p_n1 p * p_n2 p).
(** plates.py:208-210 eLeft. *)
Definition eLeft (p : hplate) : R := p_x p.
(** plates.py:212-214 eRight. *)
Definition eRight (p : hplate) : R := p_b p - p_x p - (INR (p_n2 p) - 1) * p_px p.
(** plates.py:215-217 eTop. *)
Definition eTop (p : hplate) : R := p_h p - p_y p - (INR (p_n1 p) - 1) * p_py p.
(** fin_plate_joint.py:31-66 FinPlateJoint: height, web thickness, strengths, shear area and shear
    resistance of the beam; plate, position of the plate, bolt, gap, vertical symmetry. *)
Record fin := mkFin { j_h : R; j_tw : R; j_fy : R; j_fu : R; j_Av : R; j_VRd : R;
  j_p : hplate; j_pos : R; j_bolt : bolt; j_gh : R; j_sym : bool }.

(** fin_plate_joint.py:69-76 the plate after e1 was read: the first hole is centred. *)
Definition centred (j : fin) : hplate :=
  let p := j_p j in
  if j_sym j then mkHP (p_b p) (p_h p) (p_t p) (p_fy p) (p_fu p) (p_E p) (p_x p) (1/2 * p_h p - 1/2 * (INR (p_n1 p) - 1) * p_py p) (p_px p) (p_py p) (p_n1 p) (p_n2 p)
  else p.
(** fin_plate_joint.py:69-76 e1. *)
Definition fe1 (j : fin) : R := eTop (centred j).
(** fin_plate_joint.py:78-81 e2. *)
Definition fe2 (j : fin) : R := eRight (j_p j).
(** fin_plate_joint.py:83-86 e1b. *)
Definition fe1b (j : fin) : R := 1/2 * j_h j - (j_pos j + 1/2 * p_h (j_p j) - fe1 j).
(** fin_plate_joint.py:88-91 e2b. *)
Definition fe2b (j : fin) : R := eLeft (j_p j) - j_gh j.
(** fin_plate_joint.py:93-96 z. *)
Definition fz (j : fin) : R := eLeft (j_p j) + 1/2 * (INR (p_n2 (j_p j)) - 1) * p_px (j_p j).
(** fin_plate_joint.py:157-160 I. *)
Definition fI (j : fin) : R :=
  let n := INR (p_n1 (j_p j)) in 1/2 * n * p_px (j_p j) ^ 2 + 1/6 * n * (n ^ 2 - 1) * p_py (j_p j) ^ 2.

(** fin_plate_joint.py:162-183 bolt_shear; [None]: division by zero. *)
Definition bolt_shear (j : fin) : option R :=
  let n := p_n (j_p j) in let p1 := p_py (j_p j) in let z := fz j in
  bind (if Nat.eqb (p_n2 (j_p j)) 1
        then bind (pdiv (6 * z / (n + 1)) p1) (fun q => Some (n / sqrt (1 + q ^ 2)))
        else bind (pdiv (1/2 * z * p_px (j_p j)) (fI j)) (fun a => bind (pdiv 1 n) (fun i =>
             bind (pdiv (1/2 * z * p1) (fI j)) (fun b => pdiv 1 (sqrt ((a + i) ^ 2 + (b * (INR (p_n1 (j_p j)) - 1)) ^ 2))))))
  (fun C => Some (C * shear_resistance (j_bolt j) true)).
(** fin_plate_joint.py:187-195, 307-315 the distance p2 and the factors a and b of the bearing checks. *)
Definition bearing_ab (j : fin) : option (R * R * R) :=
  let n1 := INR (p_n1 (j_p j)) in
  if Nat.eqb (p_n2 (j_p j)) 1
  then bind (pdiv (6 * fz j) n1) (fun q => bind (pdiv (q / (n1 + 1)) (p_py (j_p j))) (fun b => Some (100000, 0, b)))
  else bind (pdiv (1/2 * fz j * p_px (j_p j)) (fI j)) (fun a => bind (pdiv (1/2 * fz j * p_py (j_p j)) (fI j)) (fun b =>
       Some (p_px (j_p j), a, b * (n1 - 1)))).
(** fin_plate_joint.py:209-210, 330-331 resistance from the vertical and horizontal bearing
    resistances. *)
Definition bearing_V (n a b Fv Fh : R) : option R :=
  bind (pdiv (1 + n * a) Fv) (fun u => bind (pdiv (n * b) Fh) (fun w => pdiv n (sqrt (u ^ 2 + w ^ 2)))).
(** fin_plate_joint.py:185-220 fin_plate_bearing. *)
Definition fin_plate_bearing (j : fin) : option R :=
  bind (bearing_ab j) (fun v => let '(p2, a, b) := v in
  bind (bearing_resistance (j_bolt j) (p_fu (j_p j)) (p_t (j_p j)) (fe1 j) (fe2 j) (p_py (j_p j)) p2 true true) (fun Fv =>
  bind (bearing_resistance (j_bolt j) (p_fu (j_p j)) (p_t (j_p j)) (fe2 j) (fe1 j) p2 (p_py (j_p j)) true true) (fun Fh =>
  bearing_V (p_n (j_p j)) a b Fv Fh))).
(** fin_plate_joint.py:306-343 beam_web_bearing: the vertical edge distance is that of the plate. *)
Definition beam_web_bearing (j : fin) : option R :=
  bind (bearing_ab j) (fun v => let '(p2, a, b) := v in
  bind (bearing_resistance (j_bolt j) (j_fu j) (j_tw j) (fe1 j) (fe2b j) (p_py (j_p j)) p2 true true) (fun Fv =>
  bind (bearing_resistance (j_bolt j) (j_fu j) (j_tw j) (fe2b j) (fe1 j) p2 (p_py (j_p j)) true true) (fun Fh =>
  bearing_V (p_n (j_p j)) a b Fv Fh))).
(** fin_plate_joint.py:223-231 fin_plate_shear_gross. *)
Definition shear_gross (j : fin) : R := p_h (j_p j) * p_t (j_p j) * p_fy (j_p j) / (127/100) / sqrt 3 / gammaM0.
(** fin_plate_joint.py:233-242 fin_plate_shear_net. *)
Definition shear_net (j : fin) : R := p_t (j_p j) * (p_h (j_p j) - INR (p_n1 (j_p j)) * b_d0 (j_bolt j)) * p_fu (j_p j) / sqrt 3 / gammaM2.
(** fin_plate_joint.py:244-254 fin_plate_block_tearing. *)
Definition plate_block (j : fin) : R :=
  let d0 := b_d0 (j_bolt j) in
  let Ant := p_t (j_p j) * (fe2 j + p_px (j_p j) - (2 * INR (p_n2 (j_p j)) - 1) * (1/2) * d0) in
  let Anv := p_t (j_p j) * (p_h (j_p j) - fe1 j - (INR (p_n1 (j_p j)) - 1/2) * d0) in
  1/2 * p_fu (j_p j) * Ant / gammaM2 + p_fy (j_p j) * Anv / sqrt 3 / gammaM0.
(** fin_plate_joint.py:256-270 fin_plate_bending. *)
Definition plate_bending (j : fin) : option R :=
  bind (pdiv (p_fy (j_p j) * (p_t (j_p j) * p_h (j_p j) ^ 2 / 6)) (fz j)) (fun q => Some (q / gammaM0)).
(** fin_plate_joint.py:272-304 fin_plate_ltb; curve d has the imperfection factor 0.76. *)
Definition plate_ltb (j : fin) : option R :=
  let p := j_p j in
  bind (pdiv (p_fy p * p_t p * p_h p ^ 2 / 6) (fz j)) (fun Vp =>
  bind (if Rltb (fz j) (p_t p / (15/100)) then Some 1
        else bind (pdiv (p_E p) (p_fy p)) (fun q => bind (psqrt q) (fun s =>
             bind (pdiv (28/10) (PI * s)) (fun r => bind (pdiv (fz j * p_h p / (3/2)) (p_t p ^ 2)) (fun w => bind (psqrt w) (fun v =>
             bind (buckling_reduction_factor (r * v) (76/100)) (fun chi => Some (Rmin (chi / (6/10) / gammaM1) (1 / gammaM0))))))))
  ) (fun C => Some (C * Vp))).
(** fin_plate_joint.py:355-364 beam_web_shear_net. *)
Definition web_net (j : fin) : R := (j_Av j - INR (p_n1 (j_p j)) * b_d0 (j_bolt j) * j_tw j) * j_fu j / sqrt 3 / gammaM2.
(** fin_plate_joint.py:366-376 beam_web_block_tearing. *)
Definition web_block (j : fin) : R :=
  let d0 := b_d0 (j_bolt j) in let n1 := INR (p_n1 (j_p j)) in
  let Ant := j_tw j * (fe2b j + p_px (j_p j) - (2 * INR (p_n2 (j_p j)) - 1) * (1/2) * d0) in
  let Anv := j_tw j * (fe1b j + (n1 - 1) * p_py (j_p j) - (n1 - 1/2) * d0) in
  1/2 * j_fu j * Ant / gammaM2 + j_fy j * Anv / sqrt 3 / gammaM0.
(** fin_plate_joint.py:410-430 check_bolt_position. *)
Definition check_bolts (j : fin) : bool :=
  let d0 := b_d0 (j_bolt j) in
  if Rltb (fe1 j) (12/10 * d0) then false
  else if Rltb (fe2 j) (12/10 * d0) then false
  else if Rltb (fe2b j) (12/10 * d0) then false
  else if Rltb (p_py (j_p j)) (22/10 * d0) then false
  else if (Rltb 0 (p_px (j_p j)) && Rltb (p_px (j_p j)) (24/10 * d0))%bool then false
  else true.
