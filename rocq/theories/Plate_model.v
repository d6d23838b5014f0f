(** Model of metku/eurocodes/en1993/en1993_1_5.py (EN 1993-1-5, plated structures).
    [None] stands for a raised exception.  The printing behind [verb] is left out. *)
From Verif Require Export EC3_model.

(** constants.py:19 Young's modulus. *)
Definition E_mod : R := 210000.

(** en1993_1_5.py:21-29. *)
Definition shear_eta (fy : R) : R := if Rleb fy 460 then 12/10 else 1.

(** en1993_1_5.py:32-44; math.sqrt raises for psi > 17/11. The divisor is positive. *)
Definition reduction_factor_internal (lp ps : R) : option R :=
  bind (psqrt (85/1000 - 55/1000 * ps)) (fun s =>
  if Rleb lp (1/2 + s) then Some 1
  else Some (Rmin ((lp - 55/1000 * (3 + ps)) / lp ^ 2) 1)).

(** en1993_1_5.py:47-59. *)
Definition reduction_factor_outstand (lp : R) : R :=
  if Rleb lp (748/1000) then 1 else Rmin ((lp - 188/1000) / lp ^ 2) 1.

(** en1993_1_5.py:62-70. *)
Definition lambda_p (b t eps ks : R) : option R :=
  bind (pdiv b t) (fun q => bind (pdiv (q / (284/10)) eps) (fun q2 =>
  bind (psqrt ks) (fun s => pdiv q2 s))).

(** en1993_1_5.py:73-89; below -3 the local is never assigned and the return raises. *)
Definition buckling_factor_internal (ps : R) : option R :=
  if Reqb ps 1 then Some 4
  else if Rltb 0 ps then Some (82/10 / (105/100 + ps))
  else if Reqb ps 0 then Some (781/100)
  else if Rltb (-1) ps then Some (781/100 - 629/100 * ps + 978/100 * ps ^ 2)
  else if Reqb ps (-1) then Some (239/10)
  else if Rltb (-3) ps then Some (598/100 * (1 - ps) ^ 2)
  else None.

(** en1993_1_5.py:92-121; [tip] is sigma1 == "tip". The first "if" of the support
    branch is not joined to the second by "elif". *)
Definition buckling_factor_outstand (ps : R) (tip : bool) : R :=
  if tip then
    if Reqb ps 1 then 43/100
    else if Reqb ps 0 then 57/100
    else if Reqb ps (-1) then 85/100
    else 57/100 - 21/100 * ps + 7/100 * ps ^ 2
  else
    if andb (Rltb ps 1) (Rltb 0 ps) then 578/1000 / (ps + 34/100)
    else if Reqb ps 0 then 17/10
    else if andb (Rltb ps 0) (Rltb (-1) ps) then 17/10 - 5 * ps + 171/10 * ps ^ 2
    else 238/10.

(** en1993_1_5.py:124-152: (beff, (be1, be2)). *)
Definition effective_width_internal (b ps rho : R) : R * (R * R) :=
  if Rltb (Rabs (ps - 1)) (1/1000000) then
    let beff := rho * b in (beff, (1/2 * beff, 1/2 * beff))
  else if Rltb 0 ps then
    let beff := rho * b in let b0 := 2 / (5 - ps) * beff in (beff, (b0, beff - b0))
  else
    let beff := b * rho / (1 - ps) in (beff, (4/10 * beff, 6/10 * beff)).

(** en1993_1_5.py:155-168. *)
Definition effective_width_outstand (b ps rho : R) : R :=
  if Rltb ps 0 then b * rho / (1 - ps) else rho * b.

(** en1993_1_5.py:181-186 the load types. *)
Inductive ltype := Ta | Tb | Tc.

(** en1993_1_5.py:194-199 buckling coefficient for transverse force. *)
Definition kF (hw a ss c : R) (ty : ltype) : R :=
  match ty with
  | Ta => 6 + 2 * (hw / a) ^ 2
  | Tb => 35/10 + 2 * (hw / a) ^ 2
  | Tc => Rmin (2 + 6 * (ss + c) / hw) 6
  end.
(** en1993_1_5.py:208-213, 236-241 effective loaded length. *)
Definition eff_len (fyw hw tw tf ss a c m1 m2 kf : R) (ty : ltype) : R :=
  match ty with
  | Tc => let le := Rmin (1/2 * kf * E_mod * tw ^ 2 / fyw / hw) (ss + c) in
          Rmin (le + tf * sqrt (1/2 * m1 + (le / tf) ^ 2 + m2)) (le + tf * sqrt (m1 + m2))
  | _ => Rmin (ss + 2 * tf * (1 + sqrt (m1 + m2))) a
  end.
(** en1993_1_5.py:171-265; positive dimensions, so nothing is divided by zero. *)
Definition transverse_force_resistance (fyw hw tw fyf bf tf ss a : R) (ty : ltype) (c : R) : R :=
  let a := if Reqb a 0 then 1000 * hw else a in
  let ss := Rmin ss hw in
  let kf := kF hw a ss c ty in
  let m1 := fyf * bf / fyw / tw in
  let Fcr := 9/10 * kf * E_mod * tw ^ 3 / hw in
  let ly0 := eff_len fyw hw tw tf ss a c m1 0 kf ty in
  let l0 := sqrt (ly0 * tw * fyw / Fcr) in
  let ly := if Rltb (1/2) l0 then eff_len fyw hw tw tf ss a c m1 (2/100 * (hw / tf) ^ 2) kf ty else ly0 in
  let lF := if Rltb (1/2) l0 then sqrt (ly * tw * fyw / Fcr) else l0 in
  let chiF := Rmin (1/2 / lF) 1 in
  fyw * (chiF * ly) * tw / gammaM1.

(** en1993_1_5.py:268-292; [post]: Some true rigid, Some false non-rigid, None any
    other string. *)
Definition shear_buckling_reduction_factor (sw eta : R) (post : option bool) : option R :=
  if Rltb sw (83/100 / eta) then Some eta
  else if Rltb sw (108/100) then Some (83/100 / sw)
  else match post with
       | Some false => Some (83/100 / sw)
       | Some true => Some (137/100 / (7/10 + sw))
       | None => None
       end.

(** en1993_1_5.py:295-317. *)
Definition shear_buckling_coefficient (hw a : R) : R :=
  let rw := a / hw in
  if Rleb 1 rw then 534/100 + 4 / rw ^ 2 else 4 + 534/100 / rw ^ 2.
(** en1993_1_5.py:320-324. *)
Definition sigma_E (t b : R) : R := 190000 * (t / b) ^ 2.
(** en1993_1_5.py:327-346. *)
Definition tau_crit (hw a t b : R) : R := shear_buckling_coefficient hw a * sigma_E t b.
(** en1993_1_5.py:349-362. *)
Definition shear_buckling_slenderness (fyw tau : R) : R := 76/100 * sqrt (fyw / tau).
(** en1993_1_5.py:365-379. *)
Definition shear_buckling_web (chi fyw hw t : R) : R := chi * fyw * hw * t / (sqrt 3 * gammaM1).
(** en1993_1_5.py:382-399. *)
Definition shear_buckling_flanges (bf tf fyf a hw t fyw rM : R) : R :=
  let c := a * (25/100 + 16/10 * bf * tf ^ 2 * fyf / t / hw ^ 2 / fyw) in
  bf * tf ^ 2 * fyf / c / gammaM1 * (1 - rM ^ 2).

(** wi.py:800-804 (also wbox.py:558-562): effective width of a plate from its width,
    thickness, epsilon and stress ratio. *)
Definition plate_beff (b t eps ps : R) : option R :=
  bind (buckling_factor_internal ps) (fun ks => bind (lambda_p b t eps ks) (fun lp =>
  bind (reduction_factor_internal lp ps) (fun rho => Some (fst (effective_width_internal b ps rho))))).

(** wi.py:859-862: contribution of the web to the shear buckling resistance. *)
Definition web_shear (fyw hw a t : R) (post : option bool) : option R :=
  bind (shear_buckling_reduction_factor (shear_buckling_slenderness fyw (tau_crit hw a t hw)) (shear_eta fyw) post)
       (fun chi => Some (shear_buckling_web chi fyw hw t)).
