(** Model of metku/structures/steel/steel_member.py: SteelMember.  [None] stands for a raised
    exception.  Division of numpy values is the division of R: the theorems assume positive lengths,
    areas and moments of inertia.  Printing is not modelled. *)
From Verif Require Export EC3_model.

(** Internal forces of a section (steel_member.py:563-569). *)
Record sec := mkSec { s_N : R; s_My : R; s_Mz : R; s_Vy : R; s_Vz : R; s_T : R }.
(** The forces stored in the profile by check_section: Ned, Med[0], Ved[1] (steel_member.py:597-601). *)
Definition forces : Type := (R * R * R)%type.
(** The profile as the member uses it: area, second moments, moduli, torsion and warping constants,
    height, flange thickness, yield strength, imperfection factors (y, z, lateral torsional specific
    and general), polar radius, zs, zj, weight and cost per length; class, bending resistance and list
    of utilisations as functions of the forces stored in the profile
    (sections/steel/steel_section.py:273-311, 524-549, 623-673). *)
Record prof := mkProf { p_A : R; p_Iy : R; p_Iz : R; p_E : R; p_G : R; p_It : R; p_Iw : R; p_h : R; p_tf : R; p_fy : R;
  p_ay : R; p_az : R; p_aLT : R; p_aLTg : R; p_i0 : R; p_zs : R; p_zj : R; p_w : R; p_cost : R;
  p_class : forces -> nat; p_MRd : forces -> R; p_res : forces -> list R }.
(** The symmetry argument (steel_member.py:28-30): "dual", "mono" or any other string. *)
Inductive symm := Dual | Mono | OtherSym.
(** SteelMember (steel_member.py:53-90): profile, length, buckling length factors, LTB flag, symmetry;
    sections keyed by location in insertion order, forces of the profile, stored Cmy. *)
Record member := mkM { m_p : prof; m_L : R; m_ly : R; m_lz : R; m_LTB : bool; m_sym : symm;
  m_secs : list (R * sec); m_f : forces; m_cmy : R }.

(** Assignment to a key of a dictionary (steel_member.py:567): an existing key keeps its place. *)
Fixpoint dset (k : R) (v : sec) (l : list (R * sec)) : list (R * sec) :=
  match l with [] => [(k, v)] | (k', v') :: l' => if Reqb k' k then (k', v) :: l' else (k', v') :: dset k v l' end.
(** Look-up of a key (steel_member.py:204-211, 599). *)
Fixpoint dget (k : R) (l : list (R * sec)) : option sec :=
  match l with [] => None | (k', v') :: l' => if Reqb k' k then Some v' else dget k l' end.
(** The member with other sections. *)
Definition with_secs (m : member) (l : list (R * sec)) : member :=
  mkM (m_p m) (m_L m) (m_ly m) (m_lz m) (m_LTB m) (m_sym m) l (m_f m) (m_cmy m).
(** The member with other forces in the profile. *)
Definition with_f (m : member) (f : forces) : member :=
  mkM (m_p m) (m_L m) (m_ly m) (m_lz m) (m_LTB m) (m_sym m) (m_secs m) f (m_cmy m).
(** The member with another stored Cmy. *)
Definition with_cmy (m : member) (c : R) : member :=
  mkM (m_p m) (m_L m) (m_ly m) (m_lz m) (m_LTB m) (m_sym m) (m_secs m) (m_f m) c.
(** steel_member.py:28-90 the constructor: no sections, the new profile has no forces. *)
Definition new_member (p : prof) (L ly lz : R) (ltb : bool) (s : symm) : member := mkM p L ly lz ltb s [] (0, 0, 0) (9/10).
(** steel_member.py:563-569 add_section. *)
Definition add_section (m : member) (loc : R) (s : sec) : member := with_secs m (dset loc s (m_secs m)).
(** steel_member.py:582-584 clear_sections. *)
Definition clear_sections (m : member) : member := with_secs m [].
(** steel_member.py:189-192 nsect. *)
Definition nsect (m : member) : nat := length (m_secs m).
(** steel_member.py:92-95 ned. *)
Definition ned (m : member) : list R := map (fun e => s_N (snd e)) (m_secs m).
(** steel_member.py:97-102 setter of ned. *)
Definition set_ned (m : member) (v : R) : member :=
  with_secs m (map (fun e => (fst e, mkSec v (s_My (snd e)) (s_Mz (snd e)) (s_Vy (snd e)) (s_Vz (snd e)) (s_T (snd e)))) (m_secs m)).
(** steel_member.py:104-107 myed. *)
Definition myed (m : member) : list R := map (fun e => s_My (snd e)) (m_secs m).
(** steel_member.py:109-112 setter of myed. *)
Definition set_myed (m : member) (v : R) : member :=
  with_secs m (map (fun e => (fst e, mkSec (s_N (snd e)) v (s_Mz (snd e)) (s_Vy (snd e)) (s_Vz (snd e)) (s_T (snd e)))) (m_secs m)).
(** steel_member.py:114-117 mzed. *)
Definition mzed (m : member) : list R := map (fun e => s_Mz (snd e)) (m_secs m).
(** steel_member.py:163-165 MEdY. *)
Definition MEdY (m : member) : option R := list_max (map Rabs (myed m)).
(** steel_member.py:167-169 MEdZ. *)
Definition MEdZ (m : member) : option R := list_max (map Rabs (mzed m)).
(** steel_member.py:179-182 NEd. *)
Definition NEd (m : member) : option R := list_max (map Rabs (ned m)).
(** steel_member.py:184-187 NcEd. *)
Definition NcEd (m : member) : option R := list_min (map (fun x => Rmin x 0) (ned m)).

(** steel_member.py:198-218 Cmy, with the new state. *)
Definition Cmy (m : member) (sway uni : bool) : R * member :=
  if sway then (9/10, m)
  else match dget 0 (m_secs m), dget 1 (m_secs m) with
       | Some a, Some b =>
           let c := equivalent_moment_factor (s_My a) (s_My b)
                      (match dget (1/2) (m_secs m) with Some s => Some (s_My s) | None => None end) uni in
           (c, with_cmy m c)
       | _, _ => (m_cmy m, m)
       end.

(** steel_member.py:220-233 ncrit for the y axis. *)
Definition ncrit_y (m : member) : R := PI ^ 2 * p_E (m_p m) * p_Iy (m_p m) / (m_L m * m_ly m) ^ 2.
(** steel_member.py:220-233 ncrit for the z axis. *)
Definition ncrit_z (m : member) : R := PI ^ 2 * p_E (m_p m) * p_Iz (m_p m) / (m_L m * m_lz m) ^ 2.
(** steel_member.py:235-244 ncrit_T. *)
Definition ncrit_T (m : member) : R :=
  let p := m_p m in
  1 / p_i0 p ^ 2 * (p_G p * p_It p + PI ^ 2 * p_E p * p_Iw p / m_L m ^ 2).
(** steel_member.py:246-261, 263-279 slenderness for a critical load. *)
Definition slend_of (m : member) (ncr : R) : R := sqrt (p_A (m_p m) * p_fy (m_p m) / ncr).
(** steel_member.py:246-261 slenderness, y axis. *)
Definition slend_y (m : member) : R := slend_of m (ncrit_y m).
(** steel_member.py:246-261 slenderness, z axis. *)
Definition slend_z (m : member) : R := slend_of m (ncrit_z m).
(** steel_member.py:263-279 slenderness_torsional. *)
Definition slend_T (m : member) : R := slend_of m (ncrit_T m).
(** steel_member.py:311-321, 332-336: the strength for a slenderness and an imperfection factor. *)
Definition strength (m : member) (sl al : R) : option R :=
  let p := 1/2 * (1 + al * (sl - 2/10) + sl ^ 2) in
  bind (psqrt (p ^ 2 - sl ^ 2)) (fun s => bind (pdiv 1 (p + s)) (fun q => Some (p_A (m_p m) * p_fy (m_p m) * Rmin q 1))).
(** steel_member.py:296-321 buckling_strength. *)
Definition member_strength (m : member) : option (R * R) :=
  bind (strength m (slend_y m) (p_ay (m_p m))) (fun a => bind (strength m (slend_z m) (p_az (m_p m))) (fun b => Some (a, b))).
(** steel_member.py:323-342 torsional_buckling_strength. *)
Definition torsional_strength (m : member) : option R := strength m (slend_T m) (p_az (m_p m)).

(** steel_member.py:281-294 LT_slenderness. *)
Definition LT_slend (MRd Mcr : R) : R := sqrt (MRd / Mcr).
(** steel_member.py:344-378 LT_buckling_strength; [gen]: method "general". *)
Definition LT_strength (m : member) (Mcr : R) (gen : bool) : option R :=
  let MRd := p_MRd (m_p m) (m_f m) in
  let l := LT_slend MRd Mcr in
  let al := if gen then p_aLTg (m_p m) else p_aLT (m_p m) in
  let l0 := if gen then 2/10 else 4/10 in
  let be := if gen then 1 else 75/100 in
  let cmax := if gen then 1 else Rmin 1 (1 / l ^ 2) in
  bind (MEdY m) (fun md =>
  bind (if orb (Rleb l l0) (Rleb (md / Mcr) (l0 ^ 2)) then Some 1
        else let p := 1/2 * (1 + al * (l - l0) + be * l ^ 2) in
             bind (psqrt (p ^ 2 - be * l ^ 2)) (fun s => bind (pdiv 1 (p + s)) (fun q => Some (Rmin q cmax)))) (fun chi =>
  Some (chi * MRd))).

(** steel_member.py:380-385 weight_per_length, 387-390 weight. *)
Definition weight (m : member) : R := p_w (m_p m) * m_L m.
(** steel_member.py:392-400 cost. *)
Definition cost (m : member) : R := p_cost (m_p m) * m_L m.

(** eurocodes/en1993/constants.py:17 E. *)
Definition cE : R := 210000.
(** eurocodes/en1993/constants.py:20 G. *)
Definition cG : R := 81000.
(** steel_member.py:402-470 mcrit; an unknown symmetry leaves Mcr undefined and raises. *)
Definition mcrit (m : member) (C1 C2 C3 kz kw za : R) : option R :=
  let p := m_p m in let L := m_L m in
  let base := (kz / kw) ^ 2 * p_Iw p / p_Iz p + (kz * L) ^ 2 * cG * p_It p / (PI ^ 2 * cE * p_Iz p) in
  let part1 := C1 * (PI ^ 2 * cE * p_Iz p) / (kz * L) ^ 2 in
  match m_sym m with
  | Dual => Some (part1 * (sqrt (base + (C2 * za) ^ 2) - C2 * za))
  | Mono => let zg := 0 - p_zs p in
            Some (part1 * (C3 * p_zj p - C2 * zg + sqrt (base + (C2 * zg - C3 * p_zj p) ^ 2)))
  | OtherSym => None
  end.
(** steel_member.py:402 mcrit with its default arguments. *)
Definition mcrit_default (m : member) : option R := mcrit m (112/100) (45/100) (525/1000) 1 1 0.

(** Arguments of mcrit_cantilever (steel_member.py:472-479): where the load acts. *)
Inductive lpos := Middle | Top | Bottom.
(** steel_member.py:483-488 the constant K. *)
Definition cant_K (m : member) : R :=
  let p := m_p m in
  PI / m_L m * sqrt (p_E p * p_Iz p * (p_h p - p_tf p) ^ 2 / 4 / p_G p / p_It p).
(** steel_member.py:493-525 the coefficient C1. *)
Definition cant_C1 (K : R) (point free : bool) : R :=
  let d := sqrt (1 + K ^ 2) in
  if free then (if point then 2437/1000 / d + 613/1000 * K / d - 105/1000 * K ^ 2 / d
                else 3840/1000 / d + 1496/1000 * K / d - 247/1000 * K ^ 2 / d)
  else (if point then 2462/1000 / d + 2383/1000 * K / d else 3962/1000 / d + 5531/1000 * K / d).
(** steel_member.py:493-525 the coefficient C2. *)
Definition cant_C2 (K : R) (point free : bool) (l : lpos) : R :=
  match l with
  | Middle => 0
  | Top => if free then (if point then 409/1000 + 1444/1000 * K + 70/1000 * K ^ 2 else 984/1000 + 1420/1000 * K + 165/1000 * K ^ 2)
           else (if point then 380/1000 + 2092/1000 * K - 318/1000 * K ^ 2 else 1130/1000 + 1539/1000 * K - 176/1000 * K ^ 2)
  | Bottom => if free then (if point then 529/1000 + 234/1000 * K + 149/1000 * K ^ 2 else 1028/1000 + 388/1000 * K + 150/1000 * K ^ 2)
           else (if point then 512/1000 + 370/1000 * K - 33/1000 * K ^ 2 else 1049/1000 + 234/1000 * K - 20/1000 * K ^ 2)
  end.
(** steel_member.py:472-543 mcrit_cantilever. *)
Definition mcrit_cantilever (m : member) (point free : bool) (l : lpos) : option R :=
  let K := cant_K m in
  let za := match l with Top => 1/2 * p_h (m_p m) | Bottom => - (1/2) * p_h (m_p m) | Middle => 0 end in
  mcrit m (cant_C1 K point free) (cant_C2 K point free l) 0 2 1 za.

(** steel_member.py:597-606 check_section: utilisations and new state. *)
Definition check_section (m : member) (loc : R) : option (list R * member) :=
  bind (dget loc (m_secs m)) (fun s =>
  let f := (s_N s, s_My s, s_Vz s) in Some (p_res (m_p m) f, with_f m f)).
(** steel_member.py:622-628 check_sections: loop over the keys. *)
Fixpoint check_keys (m : member) (ks : list R) (r : R) : option (R * member) :=
  match ks with
  | [] => Some (r, m)
  | k :: ks' => bind (check_section m k) (fun q => bind (list_max (fst q)) (fun x => check_keys (snd q) ks' (Rmax r x)))
  end.
(** steel_member.py:622-628 check_sections. *)
Definition check_sections (m : member) : option (R * member) := check_keys m (map fst (m_secs m)) 0.
(** steel_member.py:636-656 check_buckling. *)
Definition check_buckling (m : member) : option (R * R) :=
  bind (NcEd m) (fun n => if Rleb 0 n then Some (0, 0)
  else bind (member_strength m) (fun b => Some (Rabs n / fst b, Rabs n / snd b))).
(** steel_member.py:658-666 check_LT_buckling. *)
Definition check_LT (m : member) : option R :=
  bind (MEdY m) (fun md => bind (mcrit_default m) (fun Mcr => bind (LT_strength m Mcr false) (fun b => Some (Rabs md / b)))).
(** steel_member.py:668-758 check_beamcolumn with section_class None; the member has no attribute CmLT
    (the constructor sets the private name), so the branch for LTB raises. *)
Definition check_beamcolumn (m : member) (sway uni : bool) : option ((R * R) * member) :=
  bind (MEdY m) (fun md =>
  if Rltb (Rabs md) (1/1000000) then Some ((0, 0), m)
  else bind (NcEd m) (fun n =>
  let '(_, my, vz) := m_f m in
  let m := with_f m (n, my, vz) in
  let cls := p_class (m_p m) (m_f m) in
  bind (member_strength m) (fun b =>
  let (c, m) := Cmy m sway uni in
  let ky := kyy (Rabs n / fst b) (slend_y m) c cls in
  bind (if m_LTB m then None
        else bind (MEdZ m) (fun mz => Some (if Reqb mz 0 then 0 else if Nat.ltb cls 3 then 6/10 * ky else 8/10 * ky))) (fun kz =>
  let MRd := p_MRd (m_p m) (m_f m) in
  Some ((- n / fst b + ky * md / MRd, - n / snd b + kz * md / MRd), m))))).
(** steel_member.py:760-770 required_shear_stiffness. *)
Definition required_shear_stiffness (m : member) : R :=
  let p := m_p m in let L := m_L m in
  (p_E p * p_Iw p * PI ^ 2 / L ^ 2 + p_G p * p_It p + p_E p * p_Iz p * PI ^ 2 / L ^ 2 * (25/100) * p_h p ^ 2) * 70 / p_h p ^ 2.
(** steel_member.py:772-797 design. *)
Definition design (m : member) (sway : bool) : option (R * member) :=
  bind (check_sections m) (fun q =>
  let (r, m) := q in
  bind (if m_LTB m then bind (check_LT m) (fun x => Some (Rmax r x)) else Some r) (fun r =>
  bind (NcEd m) (fun n =>
  if Rltb n 0 then
    bind (check_buckling m) (fun bk =>
    bind (check_beamcolumn m sway true) (fun bc =>
    Some (Rmax (Rmax r (Rmax (fst bk) (snd bk))) (Rmax (fst (fst bc)) (snd (fst bc))), snd bc)))
  else Some (r, m)))).
