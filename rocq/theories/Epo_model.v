(** Model of the geometry part of the optimisation of end plate joints: variables with their bounds, linear geometry
    constraints and substitution of values (metku/optimization/problems/end_plate.py:101-175, 296-318, 360-470;
    metku/structures/steel/end_plate_joint.py:213-286; metku/optimization/structopt.py:724-741).
    The constraints of resistance and stiffness and the cost are not part of this model. *)
From Verif Require Export EC3_model Base.
Require Import List Bool PeanoNat. Import ListNotations.
Local Open Scope R_scope.

(** Names of the variables: tp, x, eTop, bp and z1, z2, ... (end_plate.py:380-456). *)
Inductive vname := Ntp | Nx | Netop | Nbp | Nz (k : nat).
(** A variable: name and bounds; the target is the property of that name, for rows the row [v_row] (end_plate.py:380-456). *)
Record evar := mkEV { v_name : vname; v_lb : R; v_ub : R; v_row : nat }.
(** A bolt row (en1993_1_8.py:351-367): shear row, outside the tension flange of the beam, height above the beam axis. *)
Record erow := mkER { er_shear : bool; er_outside : bool; er_z : R }.
(** The joint (end_plate_joint.py:40-148): beam height, width, web and flange thickness; column flange width, web
    thickness and root radius; welds of flange and web; hole and washer diameter; plate below the beam; rows; the
    quantities that variables change: top extension, plate width, bolt distance from the axis and from the plate edge,
    thickness and height of the plate. *)
Record epj := mkEP { e_hb : R; e_bb : R; e_tb : R; e_tbf : R; e_bc : R; e_tc : R; e_rc : R; e_af : R; e_aw : R;
  e_d0 : R; e_dw : R; e_ebot : R; e_rows : list erow;
  e_etop : R; e_bp : R; e_x : R; e_eb : R; e_tp : R; e_hp : R }.

(** math.ceil (end_plate.py:418, 445). *)
Definition ceil_R (x : R) : R := - IZR (floorZ (- x)).
(** end_plate.py:399-404 the bounds of x. *)
Definition x_min (j : epj) : R :=
  Rmax (Rmax (5/10 * e_tb j + sqrt 2 * e_aw j + 5/10 * e_dw j) (5/10 * e_tc j + e_rc j + 5/10 * e_dw j)) (12/10 * e_d0 j).
(** end_plate.py:403-404. *)
Definition x_max (j : epj) : R := Rmin (5/10 * e_bc j - 12/10 * e_d0 j) (5/10 * e_bc j - 5/10 * e_dw j).
(** end_plate.py:413-428 the largest top extension. *)
Definition etop_ub (j : epj) (ev : bool) : R := if ev then 5 * e_d0 j else e_etop j.
(** end_plate.py:453 the bound of the rows between the flanges. *)
Definition z_in (j : epj) : R := IZR (floorZ (5/10 * e_hb j - e_tbf j - sqrt 2 * e_af j - 5/10 * e_dw j)).
(** end_plate.py:456-460 the variables of the rows from the i-th on. *)
Fixpoint row_vars (j : epj) (i : nat) (zub : R) (rows : list erow) : list evar :=
  match rows with
  | [] => []
  | r :: rs => if andb (negb (er_shear r)) (negb (er_outside r))
               then mkEV (Nz (S i)) (- z_in j) zub i :: row_vars j (S i) (zub - 22/10 * e_d0 j) rs
               else row_vars j (S i) zub rs
  end.
(** end_plate.py:360-460 create_variables; [ev], [bv]: top extension and plate width are variables; thicknesses from
    plates.py:23. *)
Definition create_variables (j : epj) (ev bv : bool) : list evar :=
  [mkEV Ntp 4 30 0; mkEV Nx (x_min j) (x_max j) 0]
  ++ (if ev then [mkEV Netop (ceil_R (5/10 * e_dw j + sqrt 2 * e_af j + 12/10 * e_d0 j)) (etop_ub j ev) 0] else [])
  ++ (if bv then [mkEV Nbp (e_bb j) (e_bc j + 100) 0] else [])
  ++ mkEV (Nz 1) (ceil_R (5/10 * e_hb j + sqrt 2 * e_af j + 5/10 * e_dw j)) (5/10 * e_hb j + etop_ub j ev) 0
  :: row_vars j 0 (z_in j) (e_rows j).

(** Comparison of names (end_plate.py:117-120). *)
Definition vname_eqb (a b : vname) : bool :=
  match a, b with
  | Ntp, Ntp | Nx, Nx | Netop, Netop | Nbp, Nbp => true
  | Nz i, Nz k => Nat.eqb i k
  | _, _ => false end.
(** end_plate.py:117-121, 143-147, 165-169 coefficient of a variable in a constraint with two names. *)
Definition coef (p : vname) (cp : R) (q : vname) (v : evar) : R :=
  if vname_eqb (v_name v) p then cp else if vname_eqb (v_name v) q then -1 else 0.
(** end_plate.py:101-132 vertical_row_distance_constraints: coefficients and right-hand side of a "greater" constraint. *)
Definition row_con (j : epj) (vs : list evar) (i : nat) : list R * R :=
  (map (coef (Nz i) 1 (Nz (S i))) vs, 22/10 * e_d0 j).
(** end_plate.py:134-152 extension_edge_distance. *)
Definition top_con (j : epj) (vs : list evar) : list R * R :=
  (map (coef Netop 1 (Nz 1)) vs, 12/10 * e_d0 j - 5/10 * e_hb j).
(** end_plate.py:154-175 plate_edge_distance. *)
Definition edge_con (j : epj) (vs : list evar) : list R * R :=
  (map (coef Nbp (5/10) Nx) vs, Rmax (12/10 * e_d0 j) (5/10 * e_dw j)).
(** end_plate.py:296-318 the geometry constraints; no constraint whose lower row is a shear row. *)
Definition geometry (j : epj) (ev bv : bool) : list (list R * R) :=
  let vs := create_variables j ev bv in
  flat_map (fun i => match nth_error (e_rows j) i with Some r => if er_shear r then [] else [row_con j vs i] | None => [] end)
    (seq 1 (length (e_rows j) - 1))
  ++ (if ev then [top_con j vs] else []) ++ (if bv then [edge_con j vs] else []).
(** structopt.py:724-728 and constraints.py:149: a point within the bounds that satisfies the geometry constraints. *)
Definition feasible (j : epj) (ev bv : bool) (xs : list R) : Prop :=
  Forall2 (fun v x => v_lb v <= x <= v_ub v) (create_variables j ev bv) xs /\
  Forall (fun c => snd c <= dot (fst c) xs) (geometry j ev bv).

(** The height of one row changes (variables.py:149-187 with target z). *)
Definition set_row (j : epj) (i : nat) (z : R) : epj :=
  mkEP (e_hb j) (e_bb j) (e_tb j) (e_tbf j) (e_bc j) (e_tc j) (e_rc j) (e_af j) (e_aw j) (e_d0 j) (e_dw j) (e_ebot j)
    (match nth_error (e_rows j) i with
     | Some r => set_nth i (mkER (er_shear r) (er_outside r) z) (e_rows j) | None => e_rows j end)
    (e_etop j) (e_bp j) (e_x j) (e_eb j) (e_tp j) (e_hp j).
(** end_plate_joint.py:229-232, 239-243, 274-276, 284-286 the setters. *)
Definition write (j : epj) (v : evar) (x : R) : epj :=
  let upd etop bp xb eb tp hp := mkEP (e_hb j) (e_bb j) (e_tb j) (e_tbf j) (e_bc j) (e_tc j) (e_rc j) (e_af j) (e_aw j)
    (e_d0 j) (e_dw j) (e_ebot j) (e_rows j) etop bp xb eb tp hp in
  match v_name v with
  | Ntp => upd (e_etop j) (e_bp j) (e_x j) (e_eb j) x (e_hp j)
  | Nx => upd (e_etop j) (e_bp j) x (5/10 * e_bp j - x) (e_tp j) (e_hp j)
  | Netop => upd x (e_bp j) (e_x j) (e_eb j) (e_tp j) (x + e_ebot j + e_hb j)
  | Nbp => upd (e_etop j) x (e_x j) (e_eb j) (e_tp j) (e_hp j)
  | Nz _ => set_row j (v_row v) x
  end.
(** structopt.py:724-741 substitute_variables: values limited to the bounds, then written in order. *)
Fixpoint substitute_values (j : epj) (vs : list evar) (xs : list R) : epj :=
  match vs, xs with
  | v :: vs', x :: xs' => substitute_values (write j v (Rmax (v_lb v) (Rmin x (v_ub v)))) vs' xs'
  | _, _ => j end.
