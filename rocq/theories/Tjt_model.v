(** Model of the joints of tubular trusses (metku/raami/raami_plane_truss.py:2422-3530): geometry, gap,
    symmetry, forces used in the design.  The resistances of the K gap joint (3341-3419) and of the Y
    joint (2852-2904) are the formulas of rhs_joints.py, taken from Rhs_model.  TubularKGapJoint.design ends with
    np.array given a number as data type and raises for every joint (3488): only the quantities it uses are
    modelled.  Printing and finite element nodes are not modelled. *)
Require Import List Bool.
Import ListNotations.
From Verif Require Export Rhs_model.
Local Open Scope R_scope.

(** np.degrees (raami_plane_truss.py:2697, 2708). *)
Definition degrees (x : R) : R := x * 180 / PI.
(** frame_member.py:255-263 dir_vector; [None]: no direction for a member without length. *)
Definition dir_vector (a b : pt) : option pt :=
  bind (pdiv (fst b - fst a) (vlen (vminus b a))) (fun x =>
  bind (pdiv (snd b - snd a) (vlen (vminus b a))) (fun y => Some (x, y))).
(** raami_plane_truss.py:2689-2714 brace_angle from the unit vectors of chord and brace, in degrees. *)
Definition brace_angle (vc vb : pt) : R :=
  let a := degrees (acos (vdot vc vb)) in if Rltb 90 a then 180 - a else a.
(** raami_plane_truss.py:1760-1769 (top chord) and 1946-1955 (bottom chord) perpendicular. *)
Definition perp (top : bool) (v : pt) : pt := if top then (- snd v, fst v) else (snd v, - fst v).
(** frame_member.py:300-314 angle of a member against the x axis. *)
Definition chord_angle (a b : pt) : R :=
  if Rltb (Rabs (fst b - fst a)) (1 / 1000000) then 1/2 * PI
  else let g := atan ((snd b - snd a) / (fst b - fst a)) in if Rltb g 0 then PI + g else g.

(* ---------------------------------------------------------------- intersection point *)

(** TubularKGapJoint (raami_plane_truss.py:2509-3112): node, direction of chords[0], top chord or bottom
    chord, ridge flag, local coordinates and coordinates of the intersection point of the braces. *)
Record kj := mkKj { j_node : pt; j_v : pt; j_top : bool; j_ridge : bool; j_x : R; j_y : R; j_xp : pt }.
(** raami_plane_truss.py:2998-2999: chords not in one line. *)
Definition is_ridge (v : pt) (w : option pt) : bool :=
  match w with None => false | Some w => Rltb (1 / 100000000) (Rabs (Rabs (vdot v w) - 1)) end.
(** raami_plane_truss.py:3164, 3185: the point of local coordinates x and y. *)
Definition local_point (j : kj) (x y : R) : pt :=
  vadd (vadd (j_node j) (vscale x (j_v j))) (vscale y (perp (j_top j) (j_v j))).
(** raami_plane_truss.py:3186-3189 and 3165-3168: coordinates stored with the point on the chord's axes. *)
Definition put_point (j : kj) (x y : R) : kj :=
  mkKj (j_node j) (j_v j) (j_top j) (j_ridge j) x y (local_point j x y).
(** raami_plane_truss.py:3149-3168 the setter of yloc for one joint. *)
Definition own_y (j : kj) (v : R) : kj :=
  if j_ridge j then mkKj (j_node j) (j_v j) (j_top j) true (j_x j) v (vadd (j_node j) (0, v))
  else put_point j (j_x j) v.
(** raami_plane_truss.py:2972-3112 the joint as created: yloc is a quarter of the chord's height. *)
Definition new_kj (node v : pt) (top : bool) (w : option pt) (h0 : R) : kj :=
  own_y (mkKj node v top (is_ridge v w) 0 0 node) (1/4 * h0).
(** Assignments to the local coordinates of a joint (raami_plane_truss.py:3149, 3178). *)
Inductive jset := SetX (i : nat) (v : R) | SetY (i : nat) (v : R).
(** raami_plane_truss.py:3149-3168 and 3178-3189: the joints after one assignment; [sym]: attribute
    sym_joint. *)
Definition assign (sym : nat -> option nat) (js : nat -> kj) (a : jset) : nat -> kj :=
  match a with
  | SetY i v =>
    let own := own_y (js i) v in
    fun k => if Nat.eqb k i then own
      else if negb (j_ridge (js i)) && match sym i with Some q => Nat.eqb k q | None => false end
        then put_point (js k) (j_x (js k)) v else js k
  | SetX i v =>
    let own := put_point (js i) v (j_y (js i)) in
    fun k => if Nat.eqb k i then own
      else if match sym i with Some q => Nat.eqb k q | None => false end
        then put_point (js k) (- v) (j_y (js k)) else js k
  end.
(** A sequence of assignments (raami_plane_truss.py:3149-3189). *)
Definition assigns (sym : nat -> option nat) (js : nat -> kj) (l : list jset) : nat -> kj :=
  fold_left (assign sym) l js.

(** raami_plane_truss.py:3193-3202 xc_face: the point of the chord face at the node; [ang]: angle of chords[0]. *)
Definition xc_face (j : kj) (h0 ang : R) : pt :=
  if j_ridge j then vminus (j_node j) (0, 1/2 * h0 / cos ang)
  else vminus (j_node j) (vscale (1/2 * h0) (perp (j_top j) (j_v j))).
(** raami_plane_truss.py:3246-3275: the point of the chord face on the centre line of a brace of direction
    [b], and the nearest point of the centre line of the chord; not at a ridge. *)
Definition face_point (j : kj) (h0 ang : R) (b : pt) : option (pt * pt) :=
  bind (intersect (line_pv (j_xp j) b) (line_pv (xc_face j h0 ang) (j_v j))) (fun r =>
    Some (snd r, snd (distance (line_pv (j_node j) (j_v j)) (snd r)))).
(** raami_plane_truss.py:3293-3303 xchord. *)
Definition xchord (j : kj) : pt := snd (distance (line_pv (j_node j) (j_v j)) (j_xp j)).
(** raami_plane_truss.py:3318-3336 calc_gap from the angles [t1], [t2] in degrees; eccentricity is yloc
    (3305-3316). *)
Definition calc_gap (e h0 h1 h2 t1 t2 : R) : R :=
  let s1 := sin (rad t1) in let s2 := sin (rad t2) in
  (e + 1/2 * h0) * sin (rad (t1 + t2)) / (s1 * s2) - 1/2 * (h1 / s1 + h2 / s2).

(* ---------------------------------------------------------------- symmetry *)

(** raami_plane_truss.py:2738-2745: the first joint but [k] at node [n]. *)
Fixpoint joint_at (k n : nat) (i : nat) (jn : list nat) : option nat :=
  match jn with
  | [] => None
  | m :: jn => if negb (Nat.eqb i k) && Nat.eqb m n then Some i else joint_at k n (S i) jn
  end.
(** raami_plane_truss.py:2731-2747 symmetry_joint of joint [k] not paired before; [jn]: the nodes of the
    joints, [sy]: the symmetry nodes. *)
Definition symmetry_joint (sy : nat -> option nat) (jn : list nat) (k : nat) : option nat :=
  match nth_error jn k with
  | None => None
  | Some m => match sy m with None => None | Some n => joint_at k n 0 jn end
  end.

(* ---------------------------------------------------------------- forces and resistances *)

(** raami_plane_truss.py:3435-3438: the chord force used by the K gap joint. *)
Definition k_chord_force (n0 n1 : R) : R := if Rltb (Rabs n0) (Rabs n1) then n0 else n1.
(** The K gap joint as seen by its resistances (raami_plane_truss.py:3421-3460): angles and gap from the
    geometry, moment zero. *)
Definition truss_k (c : chord) (b1 b2 : brace) (t1 t2 e n0 n1 r tp : R) : kjoint :=
  mkK c b1 b2 t1 t2 (calc_gap e (c_h c) (br_h b1) (br_h b2) t1 t2) (k_chord_force n0 n1) 0 r tp.
(** raami_plane_truss.py:3131-3133 V0gap. *)
Definition V0gap (fz : list R) : option R := list_max fz.
(** raami_plane_truss.py:3361-3382 chord_shear: resistance of the chord at the gap; the square root of a
    negative number is nan, here [None]. *)
Definition gap_N0Rd (j : kjoint) (v : R) : option R :=
  let c := k_c j in let Ae := a_eta c (k_gap j) in
  if Rltb 1 (v / c_V c) then Some (k_red j * 0)
  else option_map (fun s => k_red j * (c_fy c * ((c_A c - Ae) + Ae * s) / 1)) (psqrt (1 - (v / c_V c) ^ 2)).
(** The Y joint as seen by its resistances (raami_plane_truss.py:2906-2926): the chord force of chords[0], moment
    zero. *)
Definition truss_y (c : chord) (b : brace) (a n0 n1 r imp : R) : yjoint := mkY c b a n0 0 n1 r imp.
(** raami_plane_truss.py:2906-2963 design of the Y joint; from beta = 0.85 on chord_web_buckling calls fb
    without its argument (2871): TypeError. *)
Definition y_design (j : yjoint) : option R :=
  if Rltb (y_beta j) (85/100) then pdiv (Rabs (y_N1 j)) (y_face j) else None.

(* ---------------------------------------------------------------- welding *)

(** raami_plane_truss.py:2716-2724 weld length of a brace of height H, width B, corner radius r at the angle [t]. *)
Definition weld_length (H B r t : R) : R := 2 * (H / sin (rad t) + B) - 8 * r + 2 * PI * r.
