(** Model of metku/eurocodes/en1993/en1993_1_8/rhs_joints.py: lines in the plane and joints of
    hollow sections.  [None] stands for a raised exception.  Division by a sine or a dimension is the
    division of R: the theorems assume positive dimensions and angles between 0 and 180 degrees.
    Printing and drawing are not modelled.
    RHSKGapJoint.design (rhs_joints.py:708-735) and add_chord_face_plate (486-514) raise for every joint
    (np.array is given a number as data type; SteelMember has no attribute h): only the resistances they
    use are modelled. *)
From Coq Require Import Rpower.
From Verif Require Export EC3_model.

(** math.radians, np.radians (rhs_joints.py:27-28, 41). *)
Definition rad (d : R) : R := d * PI / 180.

(* ---------------------------------------------------------------- lines *)

(** A point or vector of the plane (numpy array of length two, rhs_joints.py:71-75). *)
Definition pt : Type := (R * R)%type.
(** Sum of arrays (rhs_joints.py:78, 85). *)
Definition vadd (a b : pt) : pt := (fst a + fst b, snd a + snd b).
(** Multiple of an array (rhs_joints.py:85). *)
Definition vscale (t : R) (a : pt) : pt := (t * fst a, t * snd a).
(** Difference of arrays (rhs_joints.py:80, 100). *)
Definition vminus (a b : pt) : pt := (fst a - fst b, snd a - snd b).
(** Scalar product (rhs_joints.py:113). *)
Definition vdot (a b : pt) : R := fst a * fst b + snd a * snd b.
(** np.linalg.norm (rhs_joints.py:80, 118). *)
Definition vlen (a : pt) : R := sqrt (vdot a a).

(** rhs_joints.py:34-50 rotate, for vectors of length two. *)
Definition rotate (v : pt) (theta : R) : pt :=
  let st := sin (rad theta) in let ct := cos (rad theta) in
  (ct * fst v - st * snd v, st * fst v + ct * snd v).

(** Line (rhs_joints.py:52-80): point and direction; the second point is not used afterwards. *)
Record line := mkLine { l_p : pt; l_v : pt }.
(** rhs_joints.py:69-80 with p1 and v: v is used as given. *)
Definition line_pv (p v : pt) : line := mkLine p v.
(** rhs_joints.py:69-80 with p1 and p2; equal points give nan, here [None]. *)
Definition line_pp (p q : pt) : option line :=
  let d := vminus q p in
  bind (pdiv (fst d) (vlen d)) (fun a => bind (pdiv (snd d) (vlen d)) (fun b => Some (mkLine p (a, b)))).
(** rhs_joints.py:82-85 __call__. *)
Definition line_at (l : line) (t : R) : pt := vadd (l_p l) (vscale t (l_v l)).
(** rhs_joints.py:91-106 intersect; np.linalg.solve of the 2 by 2 system raises LinAlgError when the
    determinant is zero. *)
Definition intersect (l k : line) : option ((R * R) * pt) :=
  let v := l_v l in let u := l_v k in let b := vminus (l_p k) (l_p l) in
  let det := fst v * (- snd u) - (- fst u) * snd v in
  bind (pdiv (fst b * (- snd u) - (- fst u) * snd b) det) (fun t0 =>
  bind (pdiv (fst v * snd b - fst b * snd v) det) (fun t1 =>
  Some ((t0, t1), vadd (l_p l) (vscale t0 v)))).
(** rhs_joints.py:108-120 distance: distance and nearest point. *)
Definition distance (l : line) (x : pt) : R * pt :=
  let dx := vminus (l_p l) x in
  let t := - vdot (l_v l) dx in
  let c := line_at l t in
  (vlen (vminus c x), c).

(** rhs_joints.py:25-32 eccentricity. *)
Definition eccentricity (h0 h1 h2 t1 t2 g : R) : option R :=
  let s1 := sin (rad t1) in let s2 := sin (rad t2) in
  bind (pdiv (1/2 * h1) s1) (fun a => bind (pdiv (1/2 * h2) s2) (fun b =>
  bind (pdiv ((a + b + g) * s1 * s2) (sin (rad t1 + rad t2))) (fun e => Some (e - 1/2 * h0)))).

(* ---------------------------------------------------------------- members *)

(** The chord (rhs_joints.py:153-171, 225-226, 437-442): height, width, wall thickness, yield
    strength, area, elastic modulus Wel[0], shear resistance (VRd = shear_force_resistance()). *)
Record chord := mkChord { c_h : R; c_b : R; c_t : R; c_fy : R; c_A : R; c_W : R; c_V : R }.
(** A brace (rhs_joints.py:376-393): height, width, wall thickness, yield strength, axial forces of
    its sections (tension positive). *)
Record brace := mkBrace { br_h : R; br_b : R; br_t : R; br_fy : R; br_ned : list R }.
(** steel_member.py:179-182 NEd. *)
Definition NEd (b : brace) : option R := list_max (map Rabs (br_ned b)).
(** steel_member.py:184-187 NcEd. *)
Definition NcEd (b : brace) : option R := list_min (map (fun x => Rmin x 0) (br_ned b)).

(** rhs_joints.py:195-212 strength_reduction; [r]: the attribute, 0 when not set. *)
Definition strength_reduction (r fy0 : R) : R :=
  if Reqb r 0 then (if Rleb fy0 355 then 1 else if Rleb fy0 460 then 9/10 else 8/10) else r.
(** rhs_joints.py:222-231 chord_stress. *)
Definition chord_stress (c : chord) (N0 M0 : R) : R := - N0 / c_A c + M0 / c_W c.
(** rhs_joints.py:214-219 eval_N (gammaM5 = 1, constants.py:32). *)
Definition eval_N (c : chord) (N0 M0 : R) : R := chord_stress c N0 M0 / c_fy c / 1.
(** rhs_joints.py:184-193 eval_KN. *)
Definition eval_KN (n beta : R) : R := if Rltb 0 n then Rmin (13/10 - 4/10 * n / beta) 1 else 1.
(** rhs_joints.py:173-174 gamma. *)
Definition gamma (c : chord) : R := 1/2 * c_b c / c_t c.

(* ---------------------------------------------------------------- K gap joints *)

(** RHSKGapJoint (rhs_joints.py:286-307, 143-150): chord, braces, angles in degrees, gap, chord
    forces, strength reduction attribute, thickness of the chord face plate (0: none). *)
Record kjoint := mkK { k_c : chord; k_b1 : brace; k_b2 : brace; k_a1 : R; k_a2 : R; k_gap : R;
  k_N0 : R; k_M0 : R; k_r : R; k_tp : R }.
(** rhs_joints.py:314-320 N1. *)
Definition k_N1 (j : kjoint) : option R :=
  bind (NcEd (k_b1 j)) (fun n => if Rltb n 0 then Some (Rabs n) else NEd (k_b2 j)).
(** rhs_joints.py:322-328 angle1. *)
Definition k_angle1 (j : kjoint) : option R :=
  bind (NcEd (k_b1 j)) (fun n => Some (if Rltb n 0 then k_a1 j else k_a2 j)).
(** rhs_joints.py:330-336 N2. *)
Definition k_N2 (j : kjoint) : option R :=
  bind (NcEd (k_b1 j)) (fun n => if Rleb n 0 then bind (NcEd (k_b2 j)) (fun m => Some (Rabs m)) else NEd (k_b1 j)).
(** rhs_joints.py:338-344 angle2: SteelMember has no attribute Ned. *)
Definition k_angle2 (j : kjoint) : option R := None.
(** rhs_joints.py:346-364 N0gap. *)
Definition k_N0gap (j : kjoint) : option R :=
  if Rltb (k_N0 j) 0 then bind (k_N2 j) (fun n => bind (k_angle2 j) (fun a => Some (k_N0 j + n * cos (rad a))))
  else bind (k_N1 j) (fun n => bind (k_angle1 j) (fun a => Some (k_N0 j + n * cos (rad a)))).
(** rhs_joints.py:366-374 V0gap. *)
Definition k_V0gap (j : kjoint) : option R :=
  bind (k_N1 j) (fun n => bind (k_angle1 j) (fun a => Some (Rabs (n * sin (rad a))))).
(** rhs_joints.py:396-397 beta. *)
Definition k_beta (j : kjoint) : R :=
  (br_b (k_b1 j) + br_b (k_b2 j) + (br_h (k_b1 j) + br_h (k_b2 j))) / (4 * c_b (k_c j)).
(** rhs_joints.py:400-405 eccentricity method. *)
Definition k_eccentricity (j : kjoint) : option R :=
  let s1 := sin (rad (k_a1 j)) in let s2 := sin (rad (k_a2 j)) in
  bind (pdiv (1/2 * br_h (k_b1 j)) s1) (fun a => bind (pdiv (1/2 * br_h (k_b2 j)) s2) (fun b =>
  bind (pdiv ((a + b + k_gap j) * s1 * s2) (sin (rad (k_a1 j + k_a2 j)))) (fun e => Some (e - 1/2 * c_h (k_c j))))).
(** rhs_joints.py:415-418, 461-464, 474-477 thickness of the loaded face. *)
Definition face_t (j : kjoint) : R := if Reqb (k_tp j) 0 then c_t (k_c j) else k_tp j.
(** eval_KN of the joint (rhs_joints.py:412). *)
Definition k_kn (j : kjoint) : R := eval_KN (eval_N (k_c j) (k_N0 j) (k_M0 j)) (k_beta j).
(** strength_reduction of the joint (rhs_joints.py:413). *)
Definition k_red (j : kjoint) : R := strength_reduction (k_r j) (c_fy (k_c j)).
(** rhs_joints.py:408-426 chord_face_failure for the brace with angle [a]. *)
Definition k_face (j : kjoint) (a : R) : R :=
  k_red j * (89/10) * k_kn j * c_fy (k_c j) * face_t j ^ 2 * sqrt (gamma (k_c j)) * k_beta j / 1 / sin (rad a).
(** rhs_joints.py:450-452 a_eta. *)
Definition a_eta (c : chord) (gap : R) : R :=
  let a := sqrt (1 / (1 + 4 * gap ^ 2 / 3 / c_t c ^ 2)) in (2 * c_h c + a * c_b c) * c_t c.
(** rhs_joints.py:428-448 chord_shear, brace with angle [a]. *)
Definition k_shear (j : kjoint) (a : R) : R :=
  k_red j * (c_fy (k_c j) * a_eta (k_c j) (k_gap j) / sqrt 3 / sin (rad a) / 1).
(** rhs_joints.py:435-447 chord_shear, axial resistance of the chord in the gap; [v] is V0gap. *)
Definition k_N0Rd (j : kjoint) (v : R) : R :=
  let c := k_c j in let Ae := a_eta c (k_gap j) in
  k_red j * (if Rltb 1 (v / c_V c) then 0 else c_fy c * ((c_A c - Ae) + Ae * sqrt (1 - (v / c_V c) ^ 2)) / 1).
(** rhs_joints.py:454-469 brace_failure. *)
Definition k_brace (j : kjoint) (b : brace) : R :=
  let c := k_c j in
  let beff := Rmin (10 / (c_b c / face_t j) * c_fy c * face_t j / (br_fy b * br_t b)) 1 * br_b b in
  k_red j * br_fy b * br_t b * (2 * br_h b - 4 * br_t b + br_b b + beff) / 1.
(** rhs_joints.py:471-484 punching_shear. *)
Definition k_punch (j : kjoint) (b : brace) (a : R) : R :=
  let c := k_c j in
  let bep := Rmin (10 / (c_b c / face_t j)) 1 * br_b b in
  let s := sin (rad a) in
  k_red j * c_fy c * face_t j / sqrt 3 / s * (2 * br_h b / s + br_b b + bep) / 1.
(** rhs_joints.py:721-731: the resistance of the joint for a brace, as used by design. *)
Definition k_NjRd (j : kjoint) (b : brace) (a : R) : R :=
  let n := Rmin (Rmin (k_face j a) (k_shear j a)) (k_brace j b) in
  if Rleb (k_beta j) (1 - 1 / gamma (k_c j)) then Rmin n (k_punch j b a) else n.
(* ---------------------------------------------------------------- Y and X joints *)

(** RHSYJoint (rhs_joints.py:754-779): chord, brace, angle, chord forces, brace force, strength
    reduction attribute, imperfection factor of the chord. *)
Record yjoint := mkY { y_c : chord; y_b : brace; y_a : R; y_N0 : R; y_M0 : R; y_N1 : R; y_r : R; y_imp : R }.
(** rhs_joints.py:756-768: the brace force of a new joint. *)
Definition new_y (c : chord) (b : brace) (a N0 M0 imp : R) : option yjoint :=
  bind (NEd b) (fun n => Some (mkY c b a N0 M0 n 0 imp)).
(** rhs_joints.py:775-779 N1 setter. *)
Definition set_N1 (j : yjoint) (v : R) : yjoint := mkY (y_c j) (y_b j) (y_a j) (y_N0 j) (y_M0 j) v (y_r j) (y_imp j).
(** rhs_joints.py:801-802 beta. *)
Definition y_beta (j : yjoint) : R := br_b (y_b j) / c_b (y_c j).
(** rhs_joints.py:804-806 eta. *)
Definition y_eta (j : yjoint) : R := br_h (y_b j) / c_b (y_c j).
(** eval_KN of the joint (rhs_joints.py:830). *)
Definition y_kn (j : yjoint) : R := eval_KN (eval_N (y_c j) (y_N0 j) (y_M0 j)) (y_beta j).
(** strength_reduction of the joint (rhs_joints.py:832). *)
Definition y_red (j : yjoint) : R := strength_reduction (y_r j) (c_fy (y_c j)).
(** rhs_joints.py:842-846 slend (E = 210000, constants.py:17). *)
Definition y_slend (j : yjoint) : R :=
  346/100 * (c_h (y_c j) / c_t (y_c j) - 2) * sqrt (1 / sin (rad (y_a j))) / (PI * sqrt (210000 / c_fy (y_c j))).
(** rhs_joints.py:811-816 the reduction factor (no upper limit); np.sqrt of a negative number is nan,
    here [None]. *)
Definition y_chi (j : yjoint) : option R :=
  let sl := y_slend j in
  let phi := 1/2 * (1 + y_imp j * (sl - 2/10) + sl ^ 2) in
  bind (psqrt (phi ^ 2 - sl ^ 2)) (fun s => pdiv 1 (phi + s)).
(** rhs_joints.py:808-822 fb. *)
Definition y_fb (j : yjoint) : option R :=
  if Rltb (y_N1 j) 0 then bind (y_chi j) (fun chi => Some (chi * c_fy (y_c j))) else Some (c_fy (y_c j)).
(** rhs_joints.py:826-829 beta used for chord face failure. *)
Definition capped (b : R) : R := if Rleb 1 b then 99/100 else b.
(** rhs_joints.py:824-839 chord_face_failure: r to the power kn. *)
Definition y_face (j : yjoint) : R :=
  let b := capped (y_beta j) in let s := sin (rad (y_a j)) in
  Rpower (y_red j) (y_kn j) * c_fy (y_c j) * c_t (y_c j) ^ 2 / ((1 - b) * s) * (2 * y_eta j / s + 4 * sqrt (1 - b)) / 1.
(** rhs_joints.py:848-860 chord_web_buckling. *)
Definition y_web (j : yjoint) : option R :=
  bind (y_fb j) (fun fb =>
  let s := sin (rad (y_a j)) in
  Some (Rpower (y_red j) (y_kn j) * fb * c_t (y_c j) / s * (2 * br_h (y_b j) / s + 10 * c_t (y_c j)) / 1)).
(** rhs_joints.py:862-873 brace_failure. *)
Definition y_brace (j : yjoint) : R :=
  let c := y_c j in let b := y_b j in
  let beff := Rmin (10 / (c_b c / c_t c) * c_fy c * c_t c / (br_fy b * br_t b)) 1 * br_b b in
  y_red j * br_fy b * br_t b * (2 * br_h b - 4 * br_t b + 2 * beff) / 1.
(** rhs_joints.py:875-885 punching_shear. *)
Definition y_punch (j : yjoint) : R :=
  let c := y_c j in let b := y_b j in
  let bep := Rmin (10 / (c_b c / c_t c)) 1 * br_b b in
  let s := sin (rad (y_a j)) in
  y_red j * c_fy c * c_t c / sqrt 3 / s * (2 * br_h b / s + 2 * bep) / 1.
(** rhs_joints.py:982-999 the resistance used by design; [web] is the chord side wall resistance. *)
Definition y_NjRd_with (j : yjoint) (web : option R) : option R :=
  let b := y_beta j in
  if Rltb b (85/100) then Some (y_face j)
  else bind web (fun w =>
    let ni := y_face j + (b - 85/100) / (15/100) * (w - y_face j) in
    let n := Rmin ni (y_brace j) in
    Some (if Rleb b (1 - 1 / gamma (y_c j)) then Rmin n (y_punch j) else n)).
(** rhs_joints.py:965-1003 design of a Y joint. *)
Definition y_design (j : yjoint) : option R :=
  bind (y_NjRd_with j (y_web j)) (fun n => pdiv (Rabs (y_N1 j)) n).
(** rhs_joints.py:1012-1026 fb of X joints: SteelMember has no attribute imp_factor. *)
Definition x_fb (j : yjoint) : option R := if Rltb (y_N1 j) 0 then None else Some (c_fy (y_c j)).
(** rhs_joints.py:1028-1047 chord_web_buckling of X joints: SteelMember has no attribute Ashear. *)
Definition x_web (j : yjoint) : option R :=
  bind (x_fb j) (fun fb =>
  let s := sin (rad (y_a j)) in
  let n := Rpower (y_red j) (y_kn j) * fb * c_t (y_c j) / s * (2 * br_h (y_b j) / s + 10 * c_t (y_c j)) / 1 in
  if Rltb (br_h (y_b j) / c_h (y_c j)) (cos (rad (y_a j))) then None else Some (n / 1)).
(** rhs_joints.py:965-1003 design of an X joint (inherited). *)
Definition x_design (j : yjoint) : option R :=
  bind (y_NjRd_with j (x_web j)) (fun n => pdiv (Rabs (y_N1 j)) n).
