(** Specifications for the timber properties, written independently of the model's functions. *)
From Verif Require Import Base Loads_model Timber_model.

(** A protection side at time [t]: unprotected, or with ordered times; [t] is not the failure time of a
    protection behind which charring has already started. *)
Definition side_ok (fp : option protection) (t : R) : Prop :=
  match fp with None => True
  | Some p => exists tf ta, t_f p = Some tf /\ t_a p = Some ta /\ 0 < t_ch p /\ tf <= ta /\ (t_ch p < tf -> t <> tf) end.
(** All sides of a section. *)
Definition sides_ok (s : tsec) (t : R) : Prop :=
  side_ok (ts_right s) t /\ side_ok (ts_left s) t /\ side_ok (ts_bottom s) t /\ side_ok (ts_top s) t.
(** The section at another fire duration. *)
Definition at_time (s : tsec) (t : R) : tsec :=
  mkTS (ts_H s) (ts_B s) (ts_beta s) t (ts_right s) (ts_left s) (ts_bottom s) (ts_top s) (ts_four s).

(** Sorted list. *)
Fixpoint ascending (l : list R) : Prop :=
  match l with x :: ((y :: _) as l') => x <= y /\ ascending l' | _ => True end.
(** Sum of a list. *)
Fixpoint total (l : list R) : R := match l with [] => 0 | x :: l' => x + total l' end.

(** Interaction of EN 1995-1-1 (6.11), (6.12): stresses without sign. *)
Definition en_biaxial (sy sz fm : R) : R := Rmax (Rabs sy / fm + 7/10 * (Rabs sz / fm)) (7/10 * (Rabs sy / fm) + Rabs sz / fm).
(** EN 1995-1-1 (6.39): tension along the tapered edge. *)
Definition en_kma_tension (tn fm fv ft90 : R) : R := / sqrt (1 + (fm / (75/100 * fv) * tn) ^ 2 + (fm / ft90 * tn ^ 2) ^ 2).
(** EN 1995-1-1 (6.40): compression along the tapered edge. *)
Definition en_kma_compression (tn fm fv fc90 : R) : R := / sqrt (1 + (fm / (15/10 * fv) * tn) ^ 2 + (fm / fc90 * tn ^ 2) ^ 2).
(** EN 1995-1-1 (6.49): inner radius and lamella thickness in the same unit. *)
Definition en_kr (r t : R) : R := if Rle_dec 240 (r / t) then 1 else 76/100 + 1/1000 * (r / t).
(** EN 1995-1-1 (6.43) to (6.47). *)
Definition en_kl (tn q : R) : R :=
  (1 + 14/10 * tn + 54/10 * tn ^ 2) + (35/100 - 8 * tn) * q + (6/10 + 83/10 * tn - 78/10 * tn ^ 2) * q ^ 2 + 6 * tn ^ 2 * q ^ 3.

(** A member whose section has positive sizes and whose strengths are positive. *)
Definition tmem_ok (m : tmem) : Prop :=
  0 < t_B m /\ (forall x, 0 < t_H m x) /\ 0 < t_fm m /\ 0 < t_ft m /\ 0 < t_fc m /\ 0 < t_fv m.
(** A section with the stated components replaced. *)
Definition with_Mz (f : tf) (z : R) : tf := mkTF (f_N f) (f_My f) z (f_Vy f) (f_Vz f) (f_T f) (f_loc f).
(** Idem for the torsional moment. *)
Definition with_T (f : tf) (t : R) : tf := mkTF (f_N f) (f_My f) (f_Mz f) (f_Vy f) (f_Vz f) t (f_loc f).
(** Idem for the moment about the strong axis. *)
Definition with_My (f : tf) (y : R) : tf := mkTF (f_N f) y (f_Mz f) (f_Vy f) (f_Vz f) (f_T f) (f_loc f).
(** Axial stress, bending stresses of a rectangle of width [B] and height [H], without sign. *)
Definition ax (B H N : R) : R := Rabs N / (B * H).
(** Bending about the strong axis. *)
Definition by_ (B H M : R) : R := 6 * Rabs M / (B * H ^ 2).
(** Bending about the weak axis. *)
Definition bz_ (B H M : R) : R := 6 * Rabs M / (H * B ^ 2).
(** EN 1995-1-1 (6.17), (6.18): tension and bending. *)
Definition en_bt (B H ft fm N My Mz : R) : R :=
  ax B H N / ft + Rmax (by_ B H My / fm + 7/10 * (bz_ B H Mz / fm)) (7/10 * (by_ B H My / fm) + bz_ B H Mz / fm).
(** EN 1995-1-1 (6.19), (6.20): compression and bending. *)
Definition en_bc (B H fc fm N My Mz : R) : R :=
  (ax B H N / fc) ^ 2 + Rmax (by_ B H My / fm + 7/10 * (bz_ B H Mz / fm)) (7/10 * (by_ B H My / fm) + bz_ B H Mz / fm).
(** EN 1995-1-1 (6.23), (6.24): flexural buckling about y (z). *)
Definition en_buck (z : bool) (B H kc fc fm N My Mz : R) : R :=
  ax B H N / (kc * fc) + if z then 7/10 * (by_ B H My / fm) + bz_ B H Mz / fm else by_ B H My / fm + 7/10 * (bz_ B H Mz / fm).
(** EN 1995-1-1 (6.56) to (6.59), as a function of hap / r. *)
Definition en_kp (tn q : R) : R := 2/10 * tn + (25/100 - 15/10 * tn + 26/10 * tn ^ 2) * q + (21/10 * tn - 4 * tn ^ 2) * q ^ 2.
(** EN 1995-1-1 (9.34): stiffness of a bracing spring; (9.36), (9.37): line load, length in metres. *)
Definition en_C (ks Nd a : R) : R := ks * Nd / a.
(** EN 1995-1-1 (9.36), (9.37) with kf3 = 50; [L] in millimetres. *)
Definition en_qd (n Nd L : R) : R := Rmin 1 (sqrt (15000 / L)) * (n * Nd / (50 * L)).

(** The softwood and hardwood classes in increasing order. *)
Definition c_classes : list grade := [C14; C16; C18; C20; C22; C24; C27; C30; C35; C40].
(** Idem, hardwood. *)
Definition d_classes : list grade := [D30; D35; D40; D50; D60; D70].
(** Every strength, stiffness and density of the first grade is lower. *)
Definition weaker (a b : grade) : Prop :=
  td_fm (gdata a) < td_fm (gdata b) /\ td_ft0 (gdata a) < td_ft0 (gdata b) /\ td_ft90 (gdata a) <= td_ft90 (gdata b) /\
  td_fc0 (gdata a) <= td_fc0 (gdata b) /\ td_fc90 (gdata a) <= td_fc90 (gdata b) /\ td_fv (gdata a) <= td_fv (gdata b) /\
  td_E0 (gdata a) < td_E0 (gdata b) /\ td_E005 (gdata a) < td_E005 (gdata b) /\ td_rhok (gdata a) < td_rhok (gdata b).
(** Sizes of a curved beam: span, radius, slopes of the upper and lower edge; the arcs fit into the span. *)
Record arc_ok (L h0 alpha beta r : R) : Prop := { ao_L : 0 < L; ao_r : 0 < r; ao_b : 0 <= beta; ao_ba : beta <= alpha;
  ao_a : alpha < PI / 2; ao_fit : r * sin alpha < L / 2 }.
(** The charring depth with its zero-strength layer, for the exact dimensions. *)
Definition left_of (x d1 d2 : R) : R := if Rle_dec (x - d1 - d2) 0 then 1/100000 else x - d1 - d2.
