(** Model of the governing sections of the segments of a timber member
    (metku/structures/timber/timber_member.py:283-292, 579-614, 710-753).
    [None] stands for a raised exception. *)
From Verif Require Export Timber_model.

(** timber_member.py:601-602, 727-728 sig_md_list[self.loc.index(loc)]: the first section at the same location. *)
Definition first_at (secs : list tf) (f : tf) : tf :=
  match find (fun g => Reqb (f_loc g) (f_loc f)) secs with Some g => g | None => f end.
(** timber_member.py:598-604, 727-733 the sections whose stresses represent a segment. *)
Definition seg_secs (secs : list tf) (ab : R * R) : list tf := map (first_at secs) (in_seg secs ab).
(** Python's max with a key: the first element of largest key (timber_member.py:605). *)
Fixpoint max_key {A} (k : A -> R) (l : list A) : option A :=
  match l with [] => None
  | x :: l' => match max_key k l' with None => Some x | Some y => if Rltb (k x) (k y) then Some y else Some x end end.
(** timber_member.py:598-605, 607-614 the bending stresses of one segment: the same key, the stress about y, is used for
    the segments of both directions. *)
Definition seg_stress (m : tmem) (secs : list tf) (ab : R * R) : option (R * R) :=
  bind (max_key (fun f => Rabs (sigma_my m f)) (seg_secs secs ab)) (fun f => Some (sigma_my m f, sigma_mz m f)).
(** timber_member.py:579-614 get_max_sigma_per_segment in one direction; [sup]: its lateral supports. *)
Definition max_sigma_per_segment (m : tmem) (secs : list tf) (sup : list R) : option (list (R * R)) :=
  all_some (map (seg_stress m secs) (pairs (with_ends sup))).

(** Python's comparison of two lists [y, z] (timber_member.py:734). *)
Definition lex_lt (p q : R * R) : bool := orb (Rltb (fst p) (fst q)) (andb (Reqb (fst p) (fst q)) (Rltb (snd p) (snd q))).
(** timber_member.py:734, 743 the first section of the largest list of stresses. *)
Fixpoint max_lex (k : tf -> R * R) (l : list tf) : option tf :=
  match l with [] => None
  | x :: l' => match max_lex k l' with None => Some x | Some y => if lex_lt (k x) (k y) then Some y else Some x end end.
(** timber_member.py:727-734 the location whose section gives the radius of gyration of a segment. *)
Definition gyr_loc (m : tmem) (secs : list tf) (ab : R * R) : option R :=
  bind (max_lex (fun f => (sigma_my m f, sigma_mz m f)) (seg_secs secs ab)) (fun f => Some (f_loc f)).
(** timber_section.py:310-311 second moments at a location; [z]: about z. *)
Definition I_at (m : tmem) (z : bool) (x : R) : R :=
  if z then t_H m x * t_B m ^ 3 / 12 else t_B m * t_H m x ^ 3 / 12.
(** timber_member.py:745-746; positive areas. *)
Definition gyr_at (m : tmem) (z : bool) (x : R) : R := sqrt (I_at m z x / A_at m x).
(** timber_member.py:710-753 radius_of_gyration in one direction: radii and locations. *)
Definition radius_of_gyration (m : tmem) (z : bool) (secs : list tf) (sup : list R) : option (list R * list R) :=
  bind (all_some (map (gyr_loc m secs) (pairs (with_ends sup)))) (fun locs => Some (map (gyr_at m z) locs, locs)).

(** timber_member.py:283-292 sigma_m_alpha_d. *)
Definition sigma_m_alpha_d (m : tmem) (secs : list tf) : option R :=
  let l := map (fun f => f_My (first_at secs f) / Wy_at m (f_loc f)) secs in
  bind (list_min l) (fun lo => bind (list_max l) (fun hi =>
  Some (if Reqb (Rmax (Rabs lo) (Rabs hi)) (Rabs lo) then lo else hi))).
