(** Model of the stiffness factors of a bolt row and of its effective stiffness
    (metku/eurocodes/en1993/en1993_1_8/en1993_1_8.py:593-749, 925-946, 1910-1958, 2039-2107).
    The T-stubs of a row keep a row distance p between calls.  [None] stands for a raised exception. *)
From Verif Require Export Joint_model.

(** A group that contains the row (en1993_1_8.py:966-1013): index of the row, distances of consecutive rows, position of
    the row with respect to flange and plate, whether the group has the component end plate in bending. *)
Record memb := mkMb { g_i : nat; g_ps : list R; g_fl : loc; g_pl : loc; g_plate : bool }.
(** en1993_1_8.py:1917-1924, 1943-1950 the row distance of the flange T-stub; other positions keep the old one. *)
Definition flange_p_row (ps : list R) (i : nat) (l : loc) (old : R) : option R :=
  match l with
  | End_ => if Nat.eqb i 0 then at_ ps (Z.of_nat i) else at_ ps (Z.of_nat i - 1)
  | Inner => bind (at_ ps (Z.of_nat i - 1)) (fun a => bind (at_ ps (Z.of_nat i)) (fun b => Some (5/10 * (a + b))))
  | _ => Some old
  end.
(** en1993_1_8.py:618 min of leff_cp_row and leff_nc_row of the flange (1910-1958): row distance left behind and length;
    the two calls choose the same row distance.  A call that fails returns None, and min raises. *)
Definition flange_len (fa : R -> R -> option R) (j : joint) (r : row) (g : memb) (p : R) : option (R * R) :=
  let m := col_flange_m j in
  bind (flange_p_row (g_ps g) (g_i g) (g_fl g) p) (fun p' =>
  bind (flange_cp_group m p' (r_e1 r) (g_fl g)) (fun cp =>
  bind (flange_nc_group fa (col_flange_e j) m p' (r_e1 r) (stiff_m2 j r) (g_fl g)) (fun nc =>
  Some (p', Rmin cp nc)))).
(** en1993_1_8.py:643 the same for the end plate (2039-2107). *)
Definition plate_len (j : joint) (r : row) (g : memb) (p : R) : option (R * R) :=
  let m := end_plate_m j r in
  bind (plate_p (g_ps g) (g_i g) (g_pl g) p) (fun p' =>
  bind (plate_cp_group m p' (g_pl g)) (fun cp =>
  bind (plate_nc_group m (end_plate_m2 j r) (j_ebolts j) p' (g_pl g)) (fun nc =>
  Some (p', Rmin cp nc)))).
(** en1993_1_8.py:619-624, 646-647. *)
Definition shorter (leff x : R) : R := if Rltb 0 x then Rmin leff x else leff.
(** en1993_1_8.py:608-626 leff_flange_group: row distance left behind and effective length. *)
Fixpoint flange_groups (fa : R -> R -> option R) (j : joint) (r : row) (gs : list memb) (p leff : R) : option (R * R) :=
  match gs with
  | [] => Some (p, leff)
  | g :: t => bind (flange_len fa j r g p) (fun '(p', x) => flange_groups fa j r t p' (shorter leff x))
  end.
(** en1993_1_8.py:629-649 leff_plate_group. *)
Fixpoint plate_groups (j : joint) (r : row) (gs : list memb) (p leff : R) : option (R * R) :=
  match gs with
  | [] => Some (p, leff)
  | g :: t => if g_plate g then bind (plate_len j r g p) (fun '(p', x) => plate_groups j r t p' (shorter leff x))
              else plate_groups j r t p (shorter leff leff)
  end.
(** en1993_1_8.py:670-675, 699-702 effective length for the flange: row alone and in its groups. *)
Definition flange_beff (fa : R -> R -> option R) (j : joint) (r : row) (gs : list memb) (p : R) : option (R * R) :=
  let m := col_flange_m j in
  bind (flange_cp m (r_e1 r) (r_fl r)) (fun cp =>
  bind (flange_nc fa (col_flange_e j) m (r_e1 r) (stiff_m2 j r) (r_fl r)) (fun nc =>
  bind (flange_groups fa j r gs p 100000) (fun '(p', l) => Some (p', Rmin (Rmin cp nc) l)))).
(** en1993_1_8.py:728-737 effective length for the end plate. *)
Definition plate_beff (j : joint) (r : row) (gs : list memb) (p : R) : option (R * R) :=
  let m := end_plate_m j r in let e := j_ebolts j in
  bind (plate_cp m e (j_p j) (r_pl r)) (fun cp =>
  bind (plate_nc m (end_plate_m2 j r) e (emin_plate j r) (j_p j) (j_bp j) (r_pl r)) (fun nc =>
  bind (plate_groups j r gs p 100000) (fun '(p', l) => Some (p', Rmin (Rmin cp nc) l)))).
(** component_method.py:288-298 column_web_tension_k. *)
Definition web_tension_k (c : prof) (beff : R) : option R := pdiv (7/10 * beff * s_tw c) (s_hw c).
(** en1993_1_8.py:652-680 k3. *)
Definition row_k3 (fa : R -> R -> option R) (j : joint) (r : row) (gs : list memb) (p : R) : option (R * R) :=
  bind (flange_beff fa j r gs p) (fun '(p', l) => bind (web_tension_k (j_col j) l) (fun k => Some (p', k))).
(** en1993_1_8.py:683-705 k4. *)
Definition row_k4 (fa : R -> R -> option R) (j : joint) (r : row) (gs : list memb) (p : R) : option (R * R) :=
  bind (flange_beff fa j r gs p) (fun '(p', l) => bind (flange_bending_k (s_tf (j_col j)) l (col_flange_m j)) (fun k => Some (p', k))).
(** en1993_1_8.py:707-742 k5. *)
Definition row_k5 (j : joint) (r : row) (gs : list memb) (p : R) : option (R * R) :=
  bind (plate_beff j r gs p) (fun '(p', l) => bind (flange_bending_k (j_tp j) l (end_plate_m j r)) (fun k => Some (p', k))).
(** en1993_1_8.py:925-946 BoltRow.keff; [pf], [pp]: row distances left in the two T-stubs. *)
Definition row_keff (fa : R -> R -> option R) (j : joint) (r : row) (gs : list memb) (pf pp : R) : option R :=
  bind (row_k3 fa j r gs pf) (fun '(p1, a) =>
  bind (row_k4 fa j r gs p1) (fun '(_, b) =>
  bind (row_k5 j r gs pp) (fun '(_, c) =>
  bind (bolt_row_k (t_As (b_data (r_bolt r))) (Lb j (r_bolt r))) (fun d => keff [a; b; c; d])))).
