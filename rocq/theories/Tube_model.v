(** Model of the welded tube joints of a truss (metku/truss2d/truss2d.py, class TrussJoint) and of the
    structural optimisation problem built on it (metku/optimization/problems/structural_problem.py).
    Numbers are exact reals. *)
From Verif Require Import Base EC3_model F2d_model.
Require Import Reals List Bool PeanoNat.
Import ListNotations.
Local Open Scope R_scope.

(* ---------------------------------------------------------------- joint location *)

(** A joint's stored location on its chord and its flag reverse (truss2d.py:992, 1012). *)
Record jloc := mkLoc { l_val : R; l_rev : bool }.
(** truss2d.py:1025-1027 the getter loc (PREC = 3, truss2d.py:17). *)
Definition get_loc (j : jloc) : R := roundn 3 (l_val j).
(** truss2d.py:1029-1065 the setter loc; the recalculation of the node coordinates is left out. *)
Definition set_loc (j : jloc) (v : R) : jloc :=
  let v := roundn 3 (Rmin (Rmax 0 v) 1) in
  let v := if l_rev j then 1 - v else v in
  if Reqb v (get_loc j) then j else mkLoc v (l_rev j).
(** truss2d.py:1399-1403 a Y joint at the end of a top chord of length [L] moves by its gap [g]. *)
Definition y_adjust (j : jloc) (g L : R) : jloc :=
  let j := if Reqb (get_loc j) 0 then set_loc j (g / L) else j in
  if Reqb (get_loc j) 1 then set_loc j (1 - g / L) else j.

(* ---------------------------------------------------------------- angle, eccentricity, gap *)

(** truss2d.py:1095-1096, 1128-1131 the angle between a web and the chord from their inclinations. *)
Definition theta (w c : R) : R := Rmin (Rabs (w - c)) (Rabs (PI - w - c)).
(** Heights of chord and webs and angles of the webs of a K joint (truss2d.py:1124-1131). *)
Record kgeo := mkGeo { g_h0 : R; g_h1 : R; g_h2 : R; g_t1 : R; g_t2 : R }.
(** The stored fields g_set, __g1 and __e (truss2d.py:998, 1010-1011). *)
Record kst := mkK { k_gset : bool; k_g : R; k_e : R }.
(** truss2d.py:992-1012 a new joint with gap [g]. *)
Definition new_k (g : R) : kst := mkK false g 0.
(** truss2d.py:1113-1143 the getter e of a K joint (numpy: the sines are not zero). *)
Definition get_e (q : kgeo) (s : kst) : R :=
  if k_gset s then
    (g_h1 q / (2 * sin (g_t1 q)) + g_h2 q / (2 * sin (g_t2 q)) + k_g s) *
    ((sin (g_t1 q) * sin (g_t2 q)) / sin (g_t1 q + g_t2 q)) - g_h0 q / 2
  else k_e s.
(** truss2d.py:1182-1204 the getter g1 of a K joint. *)
Definition get_g (q : kgeo) (s : kst) : R :=
  (get_e q s + g_h0 q / 2) * (sin (g_t1 q + g_t2 q) / (sin (g_t1 q) * sin (g_t2 q)))
  - g_h1 q / (2 * sin (g_t1 q)) - g_h2 q / (2 * sin (g_t2 q)).
(** truss2d.py:1145-1180 the setter e; [x1], [x2]: the horizontal projections of the webs; the field
    __g1 gets a value that no getter of a K joint reads. *)
Definition set_e (q : kgeo) (x1 x2 : R) (s : kst) (v : R) : kst :=
  let d := v - k_e s in
  let t1 := atan (g_t1 q + d / x1) in let t2 := atan (g_t2 q + d / x2) in
  mkK false ((v + g_h0 q / 2) * (sin (t1 + t2) / (sin t1 * sin t2)) - g_h1 q / (2 * sin t1) - g_h2 q / (2 * sin t2)) v.
(** truss2d.py:1206-1222 the setter g1. *)
Definition set_g (s : kst) (v : R) : kst := mkK true v (k_e s).
(** A use of the joint: its geometry changes, or e or g1 is set (truss2d.py:1145, 1206). *)
Inductive kop := Geo (q : kgeo) | SetE (x1 x2 v : R) | SetG (v : R).
(** One use after another; the current geometry and the fields (truss2d.py:1145-1222). *)
Definition kstep (s : kgeo * kst) (o : kop) : kgeo * kst :=
  match o with
  | Geo q => (q, snd s)
  | SetE x1 x2 v => (fst s, set_e (fst s) x1 x2 (snd s) v)
  | SetG v => (fst s, set_g (snd s) v)
  end.

(* ---------------------------------------------------------------- nodes of a K joint *)

(** Sum of a point and a multiple of a vector (truss2d.py:1430). *)
Definition addv (p : pt) (a : R) (v : pt) : pt := (fst p + a * fst v, snd p + a * snd v).
(** The nodes of a K joint (truss2d.py:1485-1489). *)
Record knodes := mkN { n_0 : pt; n_01 : pt; n_02 : pt; n_1 : pt; n_2 : pt }.
(** truss2d.py:1454-1467 the joint moves along the chord when a projection lies outside. *)
Definition shift_ends (c : mem) (n : pt * pt * pt) : pt * pt * pt :=
  let '(c0, c01, c02) := n in
  if Rltb (mlen c) (pdist (to_global c 1) c01) then
    let d := pdist (to_global c 0) c01 in (addv c0 d (unitv c), addv c01 d (unitv c), addv c02 d (unitv c))
  else if Rltb (mlen c) (pdist (to_global c 0) c02) then
    let d := pdist (to_global c 1) c02 in (addv c0 (- d) (unitv c), addv c01 (- d) (unitv c), addv c02 (- d) (unitv c))
  else (c0, c01, c02).
(** truss2d.py:1425-1489 the nodes of a K joint at [c0] with eccentricity [e], chord height [h], far
    ends [p1], [p2] of the left and right web and angles [t1], [t2]; the rounding of the intersection
    points to five decimals is left out. *)
Definition k_nodes (c : mem) (h e : R) (c0 p1 p2 : pt) (t1 t2 : R) : knodes :=
  let ec := addv c0 (- e) (perp c) in
  let c01 := addv (raw_intersection c p1 ec) (- Rabs (h / 2 / tan t1)) (unitv c) in
  let c02 := addv (raw_intersection c p2 ec) (Rabs (h / 2 / tan t2)) (unitv c) in
  let '(c0, c01, c02) := shift_ends c (c0, c01, c02) in
  mkN c0 c01 c02 (addv c01 (h / 2) (perp c)) (addv c02 (h / 2) (perp c)).

(* ---------------------------------------------------------------- joint constraints *)

(** Breadth, height and wall thickness of a tube (structural_problem.py:160-166). *)
Record tube := mkTube { b_B : R; b_H : R; b_T : R }.
(** np.degrees (structural_problem.py:141). *)
Definition degrees (x : R) : R := x * 180 / PI.
(** structural_problem.py:123-151 the constraints of a Y joint; each is met when not positive. *)
Definition y_geometry (c w : tube) (th : R) : list (option R) :=
  [ bind (pdiv (b_B w) (b_B c)) (fun q => Some (q - 1));
    bind (pdiv (35/100 * b_B c) (b_B w)) (fun q => Some (q - 1));
    bind (pdiv 30 (degrees th)) (fun q => Some (q - 1)) ].
(** rhs_joints.py beta of a K gap joint, as used by g_min_beta (structural_problem.py:196). *)
Definition tk_beta (c w1 w2 : tube) : option R := pdiv (b_B w1 + b_B w2 + b_H w1 + b_H w2) (4 * b_B c).
(** structural_problem.py:153-282 the constraints of a K joint, in order: beta, b1b0, b2b0, g_min,
    g_min_beta, g_max_beta, b1_min, b1_max, b2_min, b2_max, theta1_min, theta1_max, theta2_min,
    theta2_max, e_pos, e_neg. *)
Definition k_geometry (c w1 w2 : tube) (g e th1 th2 : R) : list (option R) :=
  let slim w := bind (pdiv (1/100 * b_B c) (b_T c)) (fun q => bind (pdiv (b_B w) (b_B c)) (fun r => bind (pdiv (1/10 + q) r) (fun v => Some (v - 1)))) in
  let lo w := bind (pdiv (35/100 * b_B c) (b_B w)) (fun q => Some (q - 1)) in
  let hi w := bind (pdiv (- (85/100) * b_B c) (b_B w)) (fun q => Some (q + 1)) in
  let tmin t := bind (pdiv 30 (degrees t)) (fun q => Some (q - 1)) in
  let tmax t := Some (degrees t / 90 - 1) in
  [ bind (tk_beta c w1 w2) (fun b => Some (b - 1));
    slim w1; slim w2;
    pdiv (b_T w1 + b_T w2 - g) (Rabs g);
    bind (tk_beta c w1 w2) (fun b => bind (pdiv (1/2 * (1 - b) * b_B c) (Rabs g)) (fun v => Some (v - 1)));
    bind (tk_beta c w1 w2) (fun b => bind (pdiv g (15/10 * (1 - b) * b_B c)) (fun v => Some (v - 1)));
    lo w1; hi w1; lo w2; hi w2; tmin th1; tmax th1; tmin th2; tmax th2;
    bind (pdiv e (25/100 * b_H c)) (fun v => Some (v - 1));
    bind (pdiv e (55/100 * b_H c)) (fun v => Some (-1 - v)) ].
(** A constraint of type '<' is met (structural_problem.py:650). *)
Definition met (v : option R) : bool := match v with Some x => Rleb x 0 | None => false end.

(** structural_problem.py:299-318 strength of a Y joint: chord face, chord web, brace. *)
Definition y_strength (N face web brace : R) : list (option R) :=
  [ bind (pdiv N face) (fun q => Some (q - 1)); bind (pdiv (- N) web) (fun q => Some (q - 1));
    bind (pdiv (Rabs N) brace) (fun q => Some (q - 1)) ].
(** A web of a joint: the location of its far end and its axial force (truss2d.py:1434). *)
Record web := mkWeb { w_loc : R; w_N : R }.
(** truss2d.py:1434, 1437 the webs of a K joint sorted by their far ends (stable). *)
Definition sort2 (w1 w2 : web) : web * web := if Rltb (w_loc w2) (w_loc w1) then (w2, w1) else (w1, w2).
(** structural_problem.py:321-343, 364-372 chord face, punching and brace constraints of the webs in
    order of their addition; [res]: resistances the joint's design object gives for a web in a
    position; it is built from the sorted webs (truss2d.py:1492-1497). *)
Definition k_strength (res : web -> R) (w1 w2 : web) : list (option R) :=
  let '(s1, s2) := sort2 w1 w2 in
  [ bind (pdiv (Rabs (w_N w1)) (res s1)) (fun q => Some (q - 1));
    bind (pdiv (Rabs (w_N w2)) (res s2)) (fun q => Some (q - 1)) ].

(* ---------------------------------------------------------------- member constraints *)

(** End values of axial force, shear force and moment of an element (structural_problem.py:402-420). *)
Record eforce := mkEF { f_N : R * R; f_V : R * R; f_M : R * R }.
(** structural_problem.py:392-427 cross_section_constraints: compression, tension, shear, bending. *)
Definition section_cons (NRd VRd MRd : R) (f : eforce) : list (option R) :=
  [ bind (pdiv (- fst (f_N f)) NRd) (fun q => Some (q - 1)); bind (pdiv (fst (f_N f)) NRd) (fun q => Some (q - 1));
    bind (pdiv (Rabs (fst (f_V f))) VRd) (fun q => Some (q - 1)); bind (pdiv (Rabs (fst (f_M f))) MRd) (fun q => Some (q - 1)) ].
(** structural_problem.py:437-441 buckling about one axis; [None]: no section forces. *)
Definition buckling_con (neds : list R) (NbRd : R) : option R :=
  bind (list_min neds) (fun m => bind (pdiv (- m) NbRd) (fun q => Some (q - 1))).
(** structural_problem.py:449-450 lateral torsional buckling. *)
Definition lt_con (meds : list R) (MbRd : R) : option R :=
  bind (Base.list_max meds) (fun m => bind (pdiv (Rabs m) MbRd) (fun q => Some (q - 1))).
(** structural_problem.py:464-490 deflection constraint for the given limit (Python None or 0: no
    constraint). *)
Definition deflection_con (ds : list R) (limit : option R) : option (option R) :=
  match limit with
  | None => None
  | Some l => if Reqb l 0 then None
    else Some (bind (Base.list_max (map Rabs ds)) (fun m => bind (pdiv m l) (fun q => Some (q - 1))))
  end.
(** Kind of section the class constraints tell apart (structural_problem.py:503, 508). *)
Inductive skind := Ikind | Tubekind.
(** structural_problem.py:499-500 the limits K_web and K_flange; [None]: infinity or IndexError. *)
Definition class_limit (web : bool) (cl : nat) : option R :=
  match cl with
  | 0%nat => Some 0
  | 1%nat => Some (if web then 33 else 9)
  | 2%nat => Some (if web then 38 else 10)
  | 3%nat => Some (if web then 42 else 14)
  | _ => None
  end.
(** structural_problem.py:502-526 web_class and flange_class with the default classes 3 and 2, which
    create_constraints always uses (structural_problem.py:614); the value given for the keyword is
    only tested for truth. *)
Definition class_con (k : skind) (web : bool) (c t eps : R) : option R :=
  let lim := match k with Ikind => class_limit web 3 | Tubekind => class_limit true 2 end in
  bind lim (fun K => bind (pdiv c t) (fun q => Some (q - K * eps))).

(* ---------------------------------------------------------------- lists of constraints, variables *)

(** A constraint in the list: of a member or of a joint (structural_problem.py:595, 648). *)
Inductive pcon := MemC (m : nat) (key : nat) | JointC (j : nat).
(** structural_problem.py:573-662 create_constraints: [keys m] are the requested constraints of a
    member; the joints follow. *)
Definition created (keys : nat -> list nat) (joints members : list nat) : list pcon :=
  flat_map (fun m => map (MemC m) (keys m)) members ++ map JointC joints.
(** structural_problem.py:809-813 removal of an object's constraints while the list is iterated over:
    the entry after a removed one is not looked at. *)
Fixpoint remove_iter {A} (f : A -> bool) (l : list A) : list A :=
  match l with
  | [] => []
  | x :: l' => if f x then (match l' with [] => [] | y :: l'' => y :: remove_iter f l'' end) else x :: remove_iter f l'
  end.
(** A constraint belongs to a member (structural_problem.py:810). *)
Definition of_member (m : nat) (c : pcon) : bool := match c with MemC m' _ => Nat.eqb m m' | JointC _ => false end.
(** structural_problem.py:800-817 group_constraints for one group with objects [objs] and keys
    [keys]. *)
Definition group_con (keys : nat -> list nat) (joints objs : list nat) (cons : list pcon) : list pcon :=
  fold_left (fun cs o => remove_iter (of_member o) cs ++ created keys joints objs) objs cons.

(** A group of variables (structural_problem.py:684-747). *)
Inductive vgroup :=
  | Gdisc (values : list R) | Gindex (values : option (list nat)) | Gcont (lb ub : R)
  | Gmulti (bounds : list (R * R)) (props : nat) (values : list R) | Gbinary | Gother.
(** structural_problem.py:684-747 the number of variables of a group; [None]: KeyError or ValueError. *)
Definition group_vars (g : vgroup) : option nat :=
  match g with
  | Gdisc _ => Some 1%nat
  | Gindex (Some _) => Some 1%nat
  | Gindex None => None
  | Gcont _ _ => Some 1%nat
  | Gmulti bs n vs => if Nat.eqb (List.length bs) n then Some (Nat.min (List.length bs) (Nat.min n (List.length vs))) else None
  | Gbinary => Some 0%nat
  | Gother => None
  end.
(** structural_problem.py:664-682 create_variables: without groups one index group per member is made,
    which has no key 'values'. *)
Definition create_variables (groups : option (list vgroup)) (members : nat) : option nat :=
  let gs := match groups with Some gs => gs | None => repeat (Gindex None) members end in
  fold_left (fun acc g => bind acc (fun n => bind (group_vars g) (fun k => Some (n + k)%nat))) gs (Some 0%nat).

(** What an index variable controls (structural_problem.py:761-781). *)
Inductive vtarget := Tsection | Tweb | Tcolumn | Tchord | Telse.
(** structural_problem.py:749-798 index_to_binary: the discrete variables an index variable is replaced
    by, each as its list of values; [prof] gives a parameter of a profile. *)
Definition split_var (t : vtarget) (params : list nat) (prof : nat -> nat -> R) (web col chord own : list nat) : list (list R) :=
  let make ps := map (fun p => map (fun x => prof x p) ps) params in
  match t with
  | Tsection => [map (fun x => prof x 0%nat) own]
  | Tweb => make web
  | Tcolumn => make col
  | Tchord => make chord
  | Telse => []
  end.
