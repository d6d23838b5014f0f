(** Model of metku/eurocodes/en1993/en1993_1_3/cf_profs.py: cold-formed Z and C sections (EN 1993-1-3).
    Printing, drawing, export_cufsm, the free flange and the tables of producers other than ruukki_z are not
    modelled. The thickness handed to OpenProf is a float (t_nom - t_coat); an int would raise. *)
From Coq Require Import Rtrigo.
From Verif Require Export Prof_model Plate_model.
From Verif Require Cold_model.

(** Steel (materials/steel_data.py:23-64): the values the sections read. *)
Record cfmat := mkCM { m_fy : R; m_fu : R; m_E : R; m_nu : R }.
(** eps (materials/steel_data.py:63-64). *)
Definition m_eps (m : cfmat) : R := sqrt (235 / m_fy m).
(** The class of the section: ZSection or CSection (cf_profs.py:106, 1383). *)
Inductive cfkind := KZ | KC.
(** The attributes of a section (cf_profs.py:128-163): nominal thickness, height, widths of the top and the
    bottom flange, lengths of their edge stiffeners, corner radius, coating, the flag rounded_corners. *)
Record cf := mkCf { c_kind : cfkind; c_tn : R; c_h : R; c_a : R; c_b : R; c_ca : R; c_cb : R; c_r : R; c_coat : R; c_round : bool }.

(** t (cf_profs.py:296-299): t_core = t_nom - t_coat (cf_profs.py:137). *)
Definition cf_t (s : cf) : R := c_tn s - c_coat s.
(** Rm and rm (cf_profs.py:218-221, 831-834). *)
Definition cf_rm (s : cf) : R := c_r s + 1/2 * c_tn s.
(** hw (cf_profs.py:738-741). *)
Definition cf_hw (s : cf) : R := c_h s - 2 * (c_r s + c_tn s).
(** hw_center (cf_profs.py:743-748). *)
Definition hw_center (s : cf) : R := c_h s - c_tn s.
(** bt_center and bb_center (cf_profs.py:750-772) for a flange of width [w] with the lip [c]. *)
Definition b_center (s : cf) (w c : R) : R := if Reqb c 0 then w - 1/2 * c_tn s else w - c_tn s.
(** bt_lip_center and bb_lip_center (cf_profs.py:774-792). *)
Definition lip_center (s : cf) (c : R) : R := if Reqb c 0 then 0 else c - 1/2 * c_tn s.
(** c_top and c_bottom (cf_profs.py:794-810). *)
Definition straight_flange (s : cf) (w c : R) : R := if Rltb 0 c then w - 2 * (c_r s + c_tn s) else w - (c_r s + c_tn s).
(** ca_straight and cb_straight (cf_profs.py:812-829). *)
Definition straight_lip (s : cf) (c : R) : R := if Rltb 0 c then c - c_tn s - c_r s else 0.
(** bt_center (cf_profs.py:750-760). *)
Definition bt_center (s : cf) : R := b_center s (c_a s) (c_ca s).
(** bb_center (cf_profs.py:762-772). *)
Definition bb_center (s : cf) : R := b_center s (c_b s) (c_cb s).
(** c_top (cf_profs.py:794-801). *)
Definition c_top (s : cf) : R := straight_flange s (c_a s) (c_ca s).
(** c_bottom (cf_profs.py:803-810). *)
Definition c_bottom (s : cf) : R := straight_flange s (c_b s) (c_cb s).
(** gr (cf_profs.py:398-401). *)
Definition cf_gr (s : cf) : R := Cold_model.gr (c_r s) (c_tn s) 45.
(** bp_w (cf_profs.py:331-337). *)
Definition bp_w (s : cf) : option R :=
  if c_round s then Cold_model.notional_width (cf_hw s) (Cold_model.Lst [cf_rm s; cf_rm s]) (Cold_model.Lst [90; 90])
  else Some (hw_center s).
(** bp_t and bp_b (cf_profs.py:339-364) for a flange of width [w] with the lip [c]. *)
Definition bp_flange (s : cf) (w c : R) : option R :=
  if c_round s then
    if Rltb 0 c then Cold_model.notional_width (straight_flange s w c) (Cold_model.Lst [cf_rm s; cf_rm s]) (Cold_model.Lst [90; 90])
    else Cold_model.notional_width (straight_flange s w c) (Cold_model.Lst [cf_rm s]) (Cold_model.Lst [90])
  else Some (b_center s w c).
(** bp_t_lip and bp_b_lip (cf_profs.py:366-388). *)
Definition bp_lip (s : cf) (c : R) : option R :=
  if c_round s then
    if Rltb 0 c then Cold_model.notional_width (straight_lip s c) (Cold_model.Lst [cf_rm s]) (Cold_model.Lst [90]) else Some 0
  else Some (lip_center s c).
(** The constructor (cf_profs.py:109-174): the default radius and the flag for rounded corners ([corners] False
    is kept only for small radii, tested with the centre line widths). *)
Definition new_cf (k : cfkind) (tn h a b ca cb r coat : R) (corners : bool) : option cf :=
  let r := if Reqb r 0 then 15/10 * tn else r in
  let s := mkCf k tn h a b ca cb r coat in
  if corners then Some (s true)
  else bind (pdiv r (cf_t (s false))) (fun q =>
       if Rleb q 5 then
         bind (pdiv r (bt_center (s false))) (fun q1 =>
         if Rleb q1 (1/10) then bind (pdiv r (bb_center (s false))) (fun q2 => Some (s (negb (Rleb q2 (1/10)))))
         else Some (s true))
       else Some (s true)).

(** corner_points (cf_profs.py:95-103): np.linspace of the angles, then points on the circle. *)
Definition corner_points (xc : pt2) (r f0 f1 : R) (n : nat) : list pt2 :=
  map (fun i => let an := f0 + INR i * ((f1 - f0) / INR (n - 1)) in (fst xc + r * cos an, snd xc + r * sin an)) (seq 0 n).
(** newPts[1:-1] (cf_profs.py:493, 508, 528; 1453, 1479, 1494, 1514). *)
Definition inner (l : list pt2) : list pt2 := removelast (tl l).
(** The nodes of the bottom flange and its lip (cf_profs.py:455-484; 1438-1470). *)
Definition bottom_points (s : cf) : list pt2 :=
  let z0 := - (1/2) * hw_center s in let rm := cf_rm s in let bb := bb_center s in
  let L := lip_center s (c_cb s) in let c := c_bottom s in
  match c_kind s with
  | KZ => if Rltb 0 L then
      [(- bb, z0 + L); (- bb, z0 + L - 1/2 * straight_lip s (c_cb s))] ++
      removelast (corner_points (- bb + rm, z0 + rm) rm PI (15/10 * PI) 5) ++
      [(- bb + rm, z0); (- bb + rm + 1/3 * c, z0); (- bb + rm + 2/3 * c, z0); (- bb + rm + c, z0)]
    else [(- bb, z0); (- bb + 1/2 * c, z0); (- bb + c, z0)]
  | KC => if Rltb 0 L then
      [(bb, z0 + L); (bb, z0 + L - 1/2 * straight_lip s (c_cb s))] ++
      removelast (corner_points (bb - rm, z0 + rm) rm 0 (- (1/2) * PI) 5) ++
      [(bb - rm, z0); (bb - rm - 1/3 * c, z0); (bb - rm - 2/3 * c, z0); (bb - rm - c, z0)]
    else [(bb, z0); (bb - 1/2 * c, z0); (bb - c, z0)]
  end.
(** The corner between the bottom flange and the web (cf_profs.py:487-494; 1473-1480). *)
Definition bottom_corner (s : cf) : list pt2 :=
  let z0 := - (1/2) * hw_center s in let rm := cf_rm s in
  match c_kind s with
  | KZ => inner (corner_points (- rm, z0 + rm) rm (15/10 * PI) (2 * PI) 5)
  | KC => inner (corner_points (rm, z0 + rm) rm (15/10 * PI) PI 5)
  end.
(** The nodes of the web (cf_profs.py:496-500; 1482-1486). *)
Definition web_points (s : cf) : list pt2 :=
  let H := hw_center s in let rm := cf_rm s in let hw := cf_hw s in
  [(0, - (1/2) * H + rm); (0, - (1/2) * H + rm + 1/4 * hw); (0, - (1/2) * H + rm + 3/4 * hw); (0, 1/2 * H - rm)].
(** The corner between the web and the top flange (cf_profs.py:502-509; 1488-1495). *)
Definition top_corner (s : cf) : list pt2 :=
  let z1 := 1/2 * hw_center s in let rm := cf_rm s in inner (corner_points (rm, z1 - rm) rm PI (1/2 * PI) 5).
(** The nodes of the top flange and its lip (cf_profs.py:511-540; 1497-1526). *)
Definition top_points (s : cf) : list pt2 :=
  let z1 := 1/2 * hw_center s in let rm := cf_rm s in let bt := bt_center s in let L := lip_center s (c_ca s) in
  if Rltb 0 L then
    [(rm, z1); (1/4 * bt, z1); (3/4 * bt, z1); (bt - rm, z1)] ++
    inner (corner_points (bt - rm, z1 - rm) rm (1/2 * PI) 0 5) ++
    [(bt, z1 - rm); (bt, z1 - 1/2 * L); (bt, z1 - L)]
  else [(rm, z1); (1/2 * bt, z1); (bt, z1)].
(** create_points (cf_profs.py:429-540; 1414-1526). *)
Definition cf_points (s : cf) : list pt2 := bottom_points s ++ bottom_corner s ++ web_points s ++ top_corner s ++ top_points s.
(** create_model (cf_profs.py:543-562), prof. *)
Definition cf_prof (s : cf) : option prof := new_prof (cf_points s) (Tone (cf_t s)).
(** center_line_length (cf_profs.py:843-853). *)
Definition center_line_length (s : cf) : R :=
  let n := 2 + (if Rltb 0 (c_ca s) then 1 else 0) + (if Rltb 0 (c_cb s) then 1 else 0) in
  straight_lip s (c_cb s) + c_bottom s + cf_hw s + c_top s + straight_lip s (c_ca s) + n * PI * cf_rm s / 2.
(** Agross (cf_profs.py:855-858). *)
Definition Agross (s : cf) : R := cf_t s * center_line_length s.
(** fya (cf_profs.py:281-284), with four corners. *)
Definition cf_fya (m : cfmat) (s : cf) : option R := Cold_model.fya (m_fy m) (m_fu m) (cf_t s) (Agross s) 4 7.
(** area (cf_profs.py:983-1011). *)
Definition cf_area (delta : bool) (s : cf) : option R :=
  bind (if delta then
          bind (bp_flange s (c_b s) (c_cb s)) (fun bb => bind (bp_w s) (fun bw => bind (bp_flange s (c_a s) (c_ca s)) (fun bt =>
          bind (bp_lip s (c_ca s)) (fun lt => bind (bp_lip s (c_cb s)) (fun lb =>
          let top := Rltb 0 (c_ca s) in let bot := Rltb 0 (c_cb s) in
          let more {X} (x y : X) := (if top then [x] else []) ++ (if bot then [y] else []) in
          Cold_model.rounding_factor (Cold_model.Lst ([c_r s; c_r s] ++ more (c_r s) (c_r s)))
            (Cold_model.Lst ([90; 90] ++ more 90 90)) ([bb; bw; bt] ++ more lt lb))))))
        else Some 0)
  (fun d => bind (cf_prof s) (fun p => Some (area p * (1 - d)))).
(** centroid (cf_profs.py:1013-1017). *)
Definition cf_centroid (s : cf) : option (R * R) := bind (cf_prof s) (fun p => bind (centroid p) (fun c => Some (fst c))).
(** issymmetric (cf_profs.py:201-205). *)
Definition issymmetric (s : cf) : bool := andb (Reqb (c_a s) (c_b s)) (Reqb (c_ca s) (c_cb s)).

(** effective_width_flange (cf_profs.py:860-886): the reduction factor and the slenderness of a flange of width
    [w] with the lip [c]; the effective widths are only printed. *)
Definition flange_rho (m : cfmat) (s : cf) (psi w c : R) : option (R * R) :=
  bind (bp_flange s w c) (fun bp =>
  if Rltb (1/10000000000) (Rabs c) then
    bind (buckling_factor_internal psi) (fun ks => bind (lambda_p bp (cf_t s) (m_eps m) ks) (fun l =>
    bind (reduction_factor_internal l psi) (fun rho => Some (rho, l))))
  else bind (lambda_p bp (cf_t s) (m_eps m) (buckling_factor_outstand psi true)) (fun l => Some (reduction_factor_outstand l, l))).
(** effective_width_edge_stiffener (cf_profs.py:896-917). *)
Definition lip_rho (m : cfmat) (s : cf) (w c : R) : option R :=
  bind (bp_flange s w c) (fun bp => bind (bp_lip s c) (fun bpc => bind (pdiv bpc bp) (fun q =>
  bind (Cold_model.ksigma_edge q) (fun ks => bind (lambda_p bpc (cf_t s) (m_eps m) ks) (fun l => Some (reduction_factor_outstand l)))))).
(** effective_width_web (cf_profs.py:929-948). *)
Definition web_rho (m : cfmat) (s : cf) (psi : R) : option (R * R) :=
  bind (bp_w s) (fun bp => bind (buckling_factor_internal psi) (fun ks => bind (lambda_p bp (cf_t s) (m_eps m) ks) (fun l =>
  bind (reduction_factor_internal l psi) (fun rho => Some (rho, l))))).

(** edge_stiffness (cf_profs.py:1120-1167): [Ned], [sym] (issymmetric), the area and the centroid y of the
    stiffener itself ([A1], [y1]) and of the other flange's ([A2], [y2]; [None] when there is none, reading it
    raises). *)
Definition edge_stiffness (m : cfmat) (s : cf) (Ned : R) (A1 y1 : R) (other : option (R * R)) : option R :=
  bind (pdiv (1/4 * m_E m * cf_t s ^ 3) (1 - m_nu m ^ 2)) (fun C =>
  let hw := hw_center s in
  bind (if Rltb Ned 0 then if issymmetric s then Some 1 else bind other (fun o => pdiv (fst o) A1) else Some 0) (fun kf =>
  let b1 := Rabs y1 in
  bind (if Reqb kf 0 then Some 0 else option_map (fun o => Rabs (snd o)) other) (fun b2 =>
  pdiv C (b1 ^ 2 * hw + b1 ^ 3 + 1/2 * b1 * b2 * hw * kf)))).
(** distortional_buckling (cf_profs.py:950-981): chi_d and lambda_d of a stiffener with the stiffness [K], the
    second moment [Is] and the area [As]. *)
Definition distortional (m : cfmat) (K Is As : R) : option (R * R) :=
  bind (Cold_model.sigma_dist Is As (m_E m) K) (fun scr => bind (pdiv (m_fy m) scr) (fun q => bind (psqrt q) (fun l =>
  bind (Cold_model.chi_dist l) (fun chi => Some (chi, l))))).

(** The values kept by effective_section('compression') (cf_profs.py:1071-1088): reduction factors of the flanges, their
    lips, the web, distortional factors and the slendernesses read by axial_force_resistance. *)
Record cfeff := mkEff { e_rt : R; e_rtl : R; e_rw : R; e_rb : R; e_rbl : R; e_xt : R; e_xb : R; e_lt : R; e_lw : R; e_lb : R }.

(** An element of a list changed in place (cf_profs.py:1618-1621, 1630-1636, 1662-1663, 1673-1678, 1704, 1717, 1720, 1741, 1744). *)
Fixpoint setn {X} (n : nat) (f : X -> X) (l : list X) : list X :=
  match l, n with [], _ => [] | x :: l, 0%nat => f x :: l | x :: l, S n => x :: setn n f l end.
(** node.y = v (cf_profs.py:1662, 1704, 1717, 1741). *)
Definition put_y (v : R) (p : pt2) : pt2 := (v, snd p).
(** node.z = v (cf_profs.py:1618-1619, 1720, 1744). *)
Definition put_z (v : R) (p : pt2) : pt2 := (fst p, v).
(** The node with an index (cf_profs.py:1618-1619). *)
Definition node (l : list pt2) (i : nat) : pt2 := nth i l (0, 0).
(** The index of the first web node, parts['web']['nodes'][0] (cf_profs.py:497; 1483). *)
Definition i_web (s : cf) : nat := length (bottom_points s) + 3.
(** parts['top_flange']['nodes'][-2] of a section with a top lip (cf_profs.py:1627, 1713). *)
Definition i_top (s : cf) : nat := i_web s + 9.
(** parts['bottom_flange']['nodes'][1] of a section with a bottom lip (cf_profs.py:1670, 1738). *)
Definition i_bot : nat := 7.

(** create_edge_stiffener of a C section, top flange (cf_profs.py:1712-1720): the shared nodes of the gross
    section after the call. *)
Definition stiff_top (s : cf) (rt rtl bp bpl : R) (l : list pt2) : list pt2 :=
  let l := setn (i_top s) (put_y (bp + cf_gr s - 1/2 * bp * rt)) l in
  let e := (length l - 1)%nat in
  if Rltb rtl 1 then setn (e - 1) (put_z (snd (node l e) + (1 - rtl) * bpl)) l else l.
(** create_edge_stiffener of a C section, bottom flange (cf_profs.py:1737-1744). *)
Definition stiff_bot (s : cf) (rb rbl bp bpl : R) (l : list pt2) : list pt2 :=
  let l := setn i_bot (put_y (bp + cf_gr s - 1/2 * bp * rb)) l in
  if Rltb rbl 1 then setn 1 (put_z (snd (node l 0) + (1 - rbl) * bpl)) l else l.
(** The profile of the top edge stiffener of a C section (cf_profs.py:1713-1715, 1726). *)
Definition edge_top (s : cf) (l : list pt2) : option prof := new_prof (skipn (i_top s) l) (Tone (cf_t s)).
(** The profile of the bottom edge stiffener of a C section (cf_profs.py:1737-1739, 1746). *)
Definition edge_bot (s : cf) (l : list pt2) : option prof := new_prof (firstn (S i_bot) l) (Tone (cf_t s)).

(** The web of an effective section (cf_profs.py:1579-1597): the lengths be1 and bneg. *)
Definition web_parts (b psi rho : R) : R * R :=
  if Rltb psi 0 then let hc := b / (1 - psi) in let beff := rho * hc in (4/10 * beff, hc - beff)
  else if Rltb psi 1 then let beff := rho * b in (2 * beff / (5 - psi), b - beff)
  else let beff := rho * b in (1/2 * beff, b - beff).
(** Nodes and thicknesses of the segments of prof_eff (cf_profs.py:1577). *)
Definition np : Type := (list pt2 * list R)%type.
(** CSection.create_effective_model (cf_profs.py:1579-1621), the web. *)
Definition eff_web (s : cf) (psi rho bpw : R) (x : np) : np :=
  let '(l, ts) := x in
  if Rltb rho 1 then
    let '(be1, bneg) := web_parts bpw psi rho in
    let it := (i_web s + 2)%nat in let ib := (i_web s + 1)%nat in
    let l := setn it (put_z (snd (node l (it + 1)) + cf_rm s * sin (Cold_model.radians 45) - be1)) l in
    let l := setn ib (put_z (snd (node l it) - bneg)) l in
    (l, setn ib (fun _ => 0) ts)
  else x.
(** CSection.create_effective_model (cf_profs.py:1623-1663), the top flange. *)
Definition eff_top (s : cf) (e : cfeff) (bp : R) (x : np) : np :=
  let '(l, ts) := x in
  if Rltb 0 (c_ca s) then
    let ts := firstn (i_top s) ts ++ map (fun t => t * e_xt e) (skipn (i_top s) ts) in
    (l, if Rltb (e_rt e) 1 then setn (i_top s - 1) (fun _ => 0) ts else ts)
  else if Rltb (e_rt e) 1 then (setn (length l - 2) (put_y (e_rt e * bp + cf_gr s)) l, setn (length ts - 1) (fun _ => 0) ts)
  else x.
(** CSection.create_effective_model (cf_profs.py:1666-1704), the bottom flange. *)
Definition eff_bot (s : cf) (e : cfeff) (bp : R) (x : np) : np :=
  let '(l, ts) := x in
  if Rltb 0 (c_cb s) then
    let ts := map (fun t => t * e_xb e) (firstn i_bot ts) ++ skipn i_bot ts in
    (l, if Rltb (e_rb e) 1 then setn i_bot (fun _ => 0) ts else ts)
  else if Rltb (e_rb e) 1 then (setn 1 (put_y (e_rb e * bp + cf_gr s)) l, ts)
  else x.
(** CSection.create_effective_model (cf_profs.py:1569-1708), psi of the web as left by effective_width_web:
    prof_eff made from the nodes [l] of the gross section. *)
Definition eff_C (s : cf) (psi : R) (e : cfeff) (l : list pt2) : option prof :=
  bind (bp_w s) (fun bw => bind (bp_flange s (c_a s) (c_ca s)) (fun bt => bind (bp_flange s (c_b s) (c_cb s)) (fun bb =>
  bind (new_prof l (Tone (cf_t s))) (fun p =>
  let '(l, ts) := eff_bot s e bb (eff_top s e bt (eff_web s psi (e_rw e) bw (pn p, pst p))) in Some (mkProf l ts (parr p)))))).
(** ZSection.create_effective_model (cf_profs.py:591-689); [None]: the web is reduced (OpenProf has no
    attribute parts), or the top flange with a lip is (nseg is not defined). The attribute khp written at 685
    is not read anywhere. *)
Definition eff_Z (s : cf) (e : cfeff) (l : list pt2) : option prof :=
  if Rltb (e_rw e) 1 then None else
  bind (new_prof l (Tone (cf_t s))) (fun p =>
  bind (if Rltb 0 (c_ca s) then
          if Rltb (e_rt e) 1 then None
          else let n := length (pst p) in
               Some (mkProf (pn p) (setn (n - 1) (fun t => t * e_xt e) (setn (n - 2) (fun t => t * e_xt e) (pst p))) (parr p))
        else bind (bp_flange s (c_a s) (c_ca s)) (fun bt =>
             Some (mkProf (setn (length (pn p) - 2) (put_y (e_rt e * bt + cf_gr s)) (pn p)) (setn (length (pst p) - 1) (fun _ => 0) (pst p)) (parr p))))
  (fun p =>
  if Rltb 0 (c_cb s) then
    let p := mkProf (setn 0 (fun q => (fst q, snd q - (1 - e_rbl e) * lip_center s (c_cb s))) (pn p)) (pst p) (parr p) in
    bind (split_segment 1 (1/2 * e_rb e) p) (fun p =>
    bind (if Rltb (e_rb e) 1 then
            match nth_error (segs p) 2 with
            | Some sg => bind (pdiv ((1 - e_rb e) * bb_center s) (seg_len sg)) (fun s2 => split_segment 2 s2 p)
            | None => None end
          else Some p)
    (fun p => Some (mkProf (pn p) (setn 1 (fun t => t * e_xb e) (setn 0 (fun t => t * e_xb e) (pst p))) (parr p))))
  else Some p)).

(** effective_section('compression') of a C section (cf_profs.py:1071-1088): the reduction factors, and the nodes of the
    gross section as the edge stiffeners leave them. *)
Definition compress_C (m : cfmat) (s : cf) (Ned : R) : option (cfeff * list pt2) :=
  let top := Rltb 0 (c_ca s) in let bot := Rltb 0 (c_cb s) in
  bind (bp_flange s (c_a s) (c_ca s)) (fun bt => bind (bp_flange s (c_b s) (c_cb s)) (fun bb =>
  bind (bp_lip s (c_ca s)) (fun blt => bind (bp_lip s (c_cb s)) (fun blb =>
  bind (flange_rho m s 1 (c_a s) (c_ca s)) (fun ft =>
  bind (if top then lip_rho m s (c_a s) (c_ca s) else Some 1) (fun rtl =>
  let l := if top then stiff_top s (fst ft) rtl bt blt (cf_points s) else cf_points s in
  bind (flange_rho m s 1 (c_b s) (c_cb s)) (fun fb =>
  bind (if bot then lip_rho m s (c_b s) (c_cb s) else Some 1) (fun rbl =>
  let l := if bot then stiff_bot s (fst fb) rbl bb blb l else l in
  let data (p : option prof) := bind p (fun p => bind (centroid p) (fun c => bind (second_moments_gc p) (fun I2 => Some (area p, fst (fst c), fst I2)))) in
  let dt := if top then data (edge_top s l) else None in
  let db := if bot then data (edge_bot s l) else None in
  let dist (own other : option (R * R * R)) :=
    bind own (fun o => let '(A1, y1, I1) := o in
    bind (edge_stiffness m s Ned A1 y1 (option_map fst other)) (fun K => distortional m K I1 A1)) in
  bind (if top then dist dt db else Some (1, snd ft)) (fun xt =>
  bind (if bot then dist db dt else Some (1, snd fb)) (fun xb =>
  bind (web_rho m s 1) (fun w =>
  Some (mkEff (fst ft) rtl (fst w) (fst fb) rbl (fst xt) (fst xb) (snd xt) (snd w) (snd xb), l)))))))))))).

(** axial_force_resistance (cf_profs.py:1240-1261) given the effective section: [Aeff] and [Ag] are the areas
    read, [e] the values left by effective_section. *)
Definition NRd_compression (m : cfmat) (s : cf) (Aeff Ag : R) (e : cfeff) : option R :=
  if Rltb Aeff Ag then Some (m_fy m * Aeff / gammaM0)
  else bind (cf_fya m s) (fun fa =>
    let lr := Rmax (Rmax (e_lw e / (673/1000)) (e_lt e / (if Rltb 0 (c_ca s) then 65/100 else 673/1000)))
                   (e_lb e / (if Rltb 0 (c_cb s) then 65/100 else 673/1000)) in
    Some (Rmin (Ag * (m_fy m + 4 * (fa - m_fy m) * (1 - lr))) (fa * Ag) / gammaM0)).
(** NRd of a C section (cf_profs.py:277-279, 1237-1266; Aeff 238-242); the gross area is read after the
    effective section has been made. *)
Definition NRd_C (m : cfmat) (s : cf) (Ned : R) : option R :=
  if Rleb 0 Ned then bind (cf_fya m s) (fun fa => bind (cf_area false s) (fun A => Some (fa * A / gammaM0)))
  else bind (compress_C m s Ned) (fun el => let '(e, l) := el in
       bind (eff_C s 1 e l) (fun pe => bind (new_prof l (Tone (cf_t s))) (fun pg => NRd_compression m s (area pe) (area pg) e))).

(** kh of a Z section (cf_profs.py:1169-1194); [g] is load == 'gravity'; [sc] the shear centre. *)
Definition kh_Z (s : cf) (Iyz Iy : R) (sc : R * R) (g : bool) (a : R) : option R :=
  bind (pdiv Iyz Iy) (fun q => bind (pdiv 1 (c_h s)) (fun _ =>
  let h := c_h s in let e := fst sc in let kh0 := q * (1/2 * h - snd sc) / h in
  if g then let kh := kh0 + e / h in Some (if Rltb e 0 then - kh else kh)
  else let aS := a - e in let kh := kh0 + aS / h in Some (if Rleb kh0 (aS / h) then - kh else kh))).
(** The argument load of kh and KB (cf_profs.py:1169, 1196, 1401): 'gravity', 'uplift', 'down'. *)
Inductive cfload := Lgravity | Luplift | Ldown.
(** kh of a C section (cf_profs.py:1393-1412): only 'down' is compared with. *)
Definition kh_C (s : cf) (Iyz Iy : R) (sc : R * R) (ld : cfload) : option R :=
  bind (pdiv Iyz Iy) (fun q => bind (pdiv 1 (c_h s)) (fun _ =>
  let h := c_h s in let kh0 := q * (1/2 * h - snd sc) / h in
  match ld with Ldown => Some (kh0 + fst sc / h) | _ => Some (kh0 - (1/2 * bt_center s - fst sc) / h) end)).
(** KB (cf_profs.py:1196-1212) given the value of kh(load). *)
Definition KB (m : cfmat) (s : cf) (kh afp : R) : option R :=
  let afp := if Reqb afp 0 then 1/2 * c_a s else afp in
  let bmod := if Rltb 0 kh then afp else 2 * afp + c_b s in
  pdiv (1/4 * m_E m * cf_t s ^ 3) (hw_center s ^ 2 * (1 - m_nu m ^ 2) * (hw_center s + bmod)).
(** K (cf_profs.py:1214-1235); CD zero: CD_A with the fixed arguments of 1221-1228. [g]: load == 'gravity'. *)
Definition Kspring (m : cfmat) (s : cf) (kh afp CD : R) (g : bool) : option R :=
  bind (KB m s kh afp) (fun kb =>
  bind (if Reqb CD 0 then Cold_model.CD_A (c_a s) 1 true 10 50 150 g else Some CD) (fun cd =>
  bind (pdiv (hw_center s ^ 2) cd) (fun ka => bind (pdiv 1 ka) (fun _ => bind (pdiv 1 kb) (fun q => pdiv 1 (q + ka)))))).
(** The flange widths of ruukki_z (cf_profs.py:31-88): the lip, the radius and the widths; [None]: a height or
    thickness not listed leaves a local unassigned. *)
Definition ruukki (h t : R) : option (R * R * (R * R)) :=
  let pick (l : list (R * (R * R))) := option_map snd (find (fun x => Reqb t (fst x)) l) in
  let out c r o := option_map (fun w => (c, r, w)) o in
  if Rleb h 150 then out 18 2 (pick [(1, (45, 39)); (12/10, (454/10, 394/10)); (15/10, (46, 40)); (2, (47, 41))])
  else if Rleb h 250 then out 26 2 (pick [(15/10, (70, 62)); (2, (71, 63)); (25/10, (72, 64)); (3, (73, 65))])
  else if Reqb h 300 then out 26 1 (pick [(15/10, (89, 81)); (2, (90, 82)); (25/10, (91, 83)); (3, (92, 84))])
  else if Reqb h 350 then out 30 2 (pick [(2, (90, 82)); (25/10, (91, 83)); (3, (92, 84))])
  else None.
(** ruukki_z (cf_profs.py:31-92). *)
Definition ruukki_z (h t : R) : option cf :=
  bind (ruukki h t) (fun x => let '(c, r, (a, b)) := x in new_cf KZ t h a b c c r (4/100) true).
