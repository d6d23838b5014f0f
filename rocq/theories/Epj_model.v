(** Model of metku/structures/steel/end_plate_joint.py (class EndPlateJoint): assembly of the bolt rows, of
    the bolt row groups and of the compression components into the moment resistance, the stiffness and the
    shear resistance of the joint.  The resistances of single rows and groups and the stiffness factors of
    rows are modelled in Joint_model; here they are data of a row.  [None] stands for a raised exception. *)
From Verif Require Export Joint_model.

(** A bolt row as the joint sees it (en1993_1_8.py:351-426): whether its type is SHEAR_ROW, the stored FtRd,
    the distance h from the centre of compression, the result of tension_resistance, the result of keff, the
    shear resistance of one bolt, and the smaller of the two bearing resistances. *)
Record erow := mkE { er_shear : bool; er_F : R; er_h : R; er_res : option R; er_k : R; er_Fv : R; er_bear : option R }.
(** Assignment row.FtRd = v (end_plate_joint.py:545, 587). *)
Definition set_F (v : R) (r : erow) : erow := mkE (er_shear r) v (er_h r) (er_res r) (er_k r) (er_Fv r) (er_bear r).
(** en1993_1_8.py:406 the FtRd of a row that has just been created. *)
Definition fresh (shear : bool) (h : R) (res : option R) (k Fv : R) (bear : option R) : erow :=
  mkE shear (-1) h res k Fv bear.

(** end_plate_joint.py:501-516 the first loop of bending_resistance: every row that is not a shear row stores
    its own tension resistance (en1993_1_8.py:918). *)
Fixpoint row_loop (l : list erow) : option (list erow) :=
  match l with
  | [] => Some []
  | r :: t =>
      if er_shear r then option_map (cons r) (row_loop t)
      else bind (er_res r) (fun F => option_map (cons (set_F F r)) (row_loop t))
  end.

(** Change of the i-th element of the list of rows, the way a group refers to a row of the joint
    (end_plate_joint.py:132-136); an index out of range raises when the joint is made and changes nothing here. *)
Fixpoint upd_row (i : nat) (f : erow -> erow) (l : list erow) : list erow :=
  match l, i with
  | [], _ => []
  | r :: t, O => f r :: t
  | r :: t, S i => r :: upd_row i f t
  end.
(** The stored FtRd of the i-th row (end_plate_joint.py:544-546). *)
Definition F_at (l : list erow) (i : nat) : R := match nth_error l i with Some r => er_F r | None => 0 end.
(** end_plate_joint.py:542-546 reduction of the rows of one group, [Fg] its resistance, [tot] the sum so far. *)
Fixpoint group_loop (idx : list nat) (Fg tot : R) (l : list erow) : list erow :=
  match idx with
  | [] => l
  | i :: t => let F := Rmin (F_at l i) (Fg - tot) in group_loop t Fg (tot + F) (upd_row i (set_F F) l)
  end.
(** end_plate_joint.py:530-546 the loop over the groups, each given by its row numbers and its resistance. *)
Fixpoint groups_loop (gs : list (list nat * option R)) (l : list erow) : option (list erow) :=
  match gs with
  | [] => Some l
  | (idx, Fg) :: t => bind Fg (fun Fg => groups_loop t (group_loop idx Fg 0 l))
  end.
(** end_plate_joint.py:584-588 limitation by the compression side. *)
Fixpoint comp_loop (Fcom tot : R) (l : list erow) : list erow :=
  match l with
  | [] => []
  | r :: t =>
      if er_shear r then r :: comp_loop Fcom tot t
      else let F := Rmin (er_F r) (Fcom - tot) in set_F F r :: comp_loop Fcom (tot + F) t
  end.
(** end_plate_joint.py:596-598 the sum over all rows. *)
Definition row_moment (l : list erow) : R := Rsum (map (fun r => er_F r * er_h r) l).
(** end_plate_joint.py:479-605 bending_resistance after the compression resistance [Fcom] is known: the rows
    with their new FtRd, and MjRd. *)
Definition bend (Fcom : R) (gs : list (list nat * option R)) (l : list erow) : option (list erow * R) :=
  bind (row_loop l) (fun l1 => bind (groups_loop gs l1) (fun l2 =>
  let l3 := comp_loop Fcom 0 l2 in Some (l3, row_moment l3))).

(* ---------------------------------------------------------------- compression side *)

(** RectPlate (plates.py:25-49) as a stiffener: b, h, t, fy, and the attribute khp which the class does not
    define ([None]) but a caller may have assigned. *)
Record splate := mkSP { sp_b : R; sp_h : R; sp_t : R; sp_fy : R; sp_khp : option R }.
(** end_plate_joint.py:332-348 the plate made by add_stiffener with a thickness; [flange] is the test on the
    name of the stiffener; the plate takes the yield strength of the column. *)
Definition stiffener_plate (flange : bool) (c b : prof) (t : R) : splate :=
  let hp := if flange then s_h c - 2 * s_tf c else s_h b in
  let bp := if flange then 5/10 * (s_b c - s_tw c) else s_hw c in
  mkSP hp bp t (s_fy c) None.
(** end_plate_joint.py:316-322 Mpl_fc_Rd. *)
Definition Mpl_fc (c : prof) : R := 25/100 * s_b c * s_tf c ^ 2 * s_fy c / gammaM0.
(** end_plate_joint.py:324-330 Mpl_st_Rd. *)
Definition Mpl_st (c : prof) (ts fy : R) : R := 25/100 * s_b c * ts ^ 2 * fy / gammaM0.
(** end_plate_joint.py:395-412 V_wp_Rd; [top] and [bot] are the flange stiffeners. *)
Definition V_wp (c b : prof) (top bot : option splate) : option R :=
  match top, bot with
  | Some pt, Some pb =>
      let ds := s_h b - s_tf b in
      bind (pdiv (2 * Mpl_fc c + Mpl_st c (sp_t pt) (sp_fy pt) + Mpl_st c (sp_t pb) (sp_fy pb)) ds) (fun q =>
      Some (col_web_shear c + Rmin (4 * Mpl_fc c) q))
  | _, _ => Some (col_web_shear c + Rmin 0 0)
  end.
(** end_plate_joint.py:422-433 Fc_wc_Rd; [sigma] is the compression stress of the column, [eps] its epsilon;
    without the attribute khp the stiffened formula raises (component_method.py:237). *)
Definition Fc_wc (c b : prof) (eps tp lo a beta sigma : R) (bot : option splate) : option R :=
  match bot with
  | None => col_web_trv_comp c b tp lo a beta sigma
  | Some p => bind (sp_khp p) (fun ts => col_web_stiffened eps (s_tw c) (sp_b p) ts (sp_h p) (sp_fy p))
  end.
(** end_plate_joint.py:482-488 the compression resistance; [MRd] is the bending resistance of the beam. *)
Definition Fcom_Rd (c b : prof) (eps tp lo a beta sigma MRd : R) (top bot : option splate) : option R :=
  bind (V_wp c b top bot) (fun V => bind (Fc_wc c b eps tp lo a beta sigma bot) (fun Fw =>
  bind (beam_web_compression MRd (s_h b) (s_tf b)) (fun Fb => bind (pdiv V beta) (fun q =>
  Some (Rmin (Rmin q Fw) Fb))))).

(* ---------------------------------------------------------------- stiffness *)

(** end_plate_joint.py:250-259 tension_rows. *)
Definition tension_rows (l : list erow) : nat := length (filter (fun r => negb (er_shear r)) l).
(** The sums of keff*hr and keff*hr**2 over rows (end_plate_joint.py:620-647). *)
Definition sum_kh (l : list erow) : R := Rsum (map (fun r => er_k r * er_h r) l).
(** end_plate_joint.py:633, 646 sum(keff*hr**2). *)
Definition sum_kh2 (l : list erow) : R := Rsum (map (fun r => er_k r * er_h r ^ 2) l).
(** end_plate_joint.py:626-635 zeq; a zero denominator, for which numpy gives inf or nan, is [None]. *)
Definition zeq (l : list erow) : option R :=
  let l := filter (fun r => negb (er_shear r)) l in pdiv (sum_kh2 l) (sum_kh l).
(** end_plate_joint.py:618-624 keq: the numerator runs over all rows. *)
Definition keq (l : list erow) : option R := bind (zeq l) (fun z => pdiv (sum_kh l) z).
(** end_plate_joint.py:637-656 zeq_and_keq. *)
Definition zeq_keq (l : list erow) : option (R * R) :=
  let l := filter (fun r => negb (er_shear r)) l in
  bind (pdiv (sum_kh2 l) (sum_kh l)) (fun z => bind (pdiv (sum_kh l) z) (fun k => Some (z, k))).
(** end_plate_joint.py:657-665 moment_arm, the largest distance over all rows; max of no rows raises. *)
Definition moment_arm (l : list erow) : option R :=
  match map er_h l with [] => None | h :: t => Some (fold_left Rmax t h) end.
(** end_plate_joint.py:466-474 k2; [None] stands for numpy's inf, [Some None] for a raised exception. *)
Definition k2_factor (c b : prof) (tp lo a : R) (bot : option splate) : option (option R) :=
  match bot with None => Some (col_web_k c (beff_c c b tp lo a)) | Some _ => None end.
(** end_plate_joint.py:668-677 k_comp. *)
Definition k_comp (c b : prof) (tp lo a beta z : R) (bot : option splate) : option R :=
  bind (col_web_shear_k c beta z) (fun k1 => bind (pdiv 1 k1) (fun i1 =>
  match k2_factor c b tp lo a bot with
  | None => pdiv 1 i1
  | Some k2 => bind k2 (fun k2 => bind (pdiv 1 k2) (fun i2 => pdiv 1 (i1 + i2)))
  end)).
(** end_plate_joint.py:680-712 Sj_ini; with one tension row the name k_eq is never bound. *)
Definition Sj_ini (c b : prof) (tp lo a beta : R) (bot : option splate) (l : list erow) : option R :=
  bind (if Nat.eqb (tension_rows l) 1 then option_map (fun z => (z, None)) (moment_arm l)
        else option_map (fun zk => (fst zk, Some (snd zk))) (zeq_keq l)) (fun zk =>
  bind (k_comp c b tp lo a beta (fst zk) bot) (fun kc =>
  bind (pdiv 1 kc) (fun ic => bind (snd zk) (fun k => bind (pdiv 1 k) (fun ik =>
  pdiv (s_E c * fst zk ^ 2) (ic + ik)))))).
(** end_plate_joint.py:714-730 rotational_stiffness; [M] is the MjEd of the joint, [MRd] its MjRd, [S] its
    initial stiffness. *)
Definition rot_stiffness (M MRd S0 : R) : option R :=
  bind (pdiv M (MRd * (1/1000000))) (fun r => pdiv S0 (stiffness_ratio r (27/10))).

(* ---------------------------------------------------------------- shear *)

(** end_plate_joint.py:732-784 shear_resistance; the bearing resistance is worked out for rows in tension and
    its value is not used. *)
Fixpoint shear_res (l : list erow) : option R :=
  match l with
  | [] => Some 0
  | r :: t =>
      bind (if Rltb 0 (er_F r) then bind (er_bear r) (fun _ => Some (2 * (286/1000) * er_Fv r))
            else if orb (Rltb (Rabs (er_F r)) (1/1000)) (er_shear r) then Some (2 * er_Fv r) else Some 0) (fun v =>
      option_map (Rplus v) (shear_res t))
  end.

(* ---------------------------------------------------------------- geometry *)

(** The dimensions of the joint (end_plate_joint.py:77-86): plate b, h, t, and _etop, ebottom, _ebolts, _xbolts,
    with the depth of the beam. *)
Record egeo := mkG { eg_b : R; eg_h : R; eg_t : R; eg_etop : R; eg_ebot : R; eg_e : R; eg_x : R; eg_beam : R }.
(** end_plate_joint.py:77-86 the dimensions set by the constructor. *)
Definition new_geo (beamh tp bp etop ebot e : R) : egeo :=
  mkG bp (etop + ebot + beamh) tp etop ebot e (5/10 * bp - e) beamh.
(** The setters: etop 230-232, ebolts 217-219, xbolts 240-243, bp 275-277, tp 285-286, and the plain
    attribute ebottom (end_plate_joint.py:87). *)
Inductive geo_op := GEtop (v : R) | GEbolts (v : R) | GXbolts (v : R) | GBp (v : R) | GTp (v : R) | GEbottom (v : R).
(** end_plate_joint.py:217-286 the effect of a setter. *)
Definition geo_set (o : geo_op) (g : egeo) : egeo :=
  match o with
  | GEtop v => mkG (eg_b g) (v + eg_ebot g + eg_beam g) (eg_t g) v (eg_ebot g) (eg_e g) (eg_x g) (eg_beam g)
  | GEbolts v => mkG (eg_b g) (eg_h g) (eg_t g) (eg_etop g) (eg_ebot g) v (eg_x g) (eg_beam g)
  | GXbolts v => mkG (eg_b g) (eg_h g) (eg_t g) (eg_etop g) (eg_ebot g) (5/10 * eg_b g - v) v (eg_beam g)
  | GBp v => mkG v (eg_h g) (eg_t g) (eg_etop g) (eg_ebot g) (eg_e g) (eg_x g) (eg_beam g)
  | GTp v => mkG (eg_b g) (eg_h g) v (eg_etop g) (eg_ebot g) (eg_e g) (eg_x g) (eg_beam g)
  | GEbottom v => mkG (eg_b g) (eg_h g) (eg_t g) (eg_etop g) v (eg_e g) (eg_x g) (eg_beam g)
  end.
(** A sequence of assignments (end_plate_joint.py:217-286). *)
Definition geo_run (os : list geo_op) (g : egeo) : egeo := fold_left (fun g o => geo_set o g) os g.
(** end_plate_joint.py:208-210 p. *)
Definition bolt_dist (g : egeo) : R := eg_b g - 2 * eg_e g.
(** end_plate_joint.py:262-266 zc. *)
Definition zc_level (b : prof) : R := - (5/10) * (s_h b - s_tf b).
