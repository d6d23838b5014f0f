(** Model of metku/eurocodes/en1993/en1993_1_3/open_prof.py: open thin-walled profiles (EN 1993-1-3,
    Annex C). Accumulating loops are modelled by sums. numpy divisions by zero give nan with a
    warning instead of an exception; here [None]. Drawing and export are not modelled.
    principal_axes always raises (np.atan, float ^ int) and is not modelled. *)
From Verif Require Export EC3_model.

(** Node (open_prof.py:355-374): y and z. *)
Definition pt2 : Type := R * R.
(** OpenProf (open_prof.py:26-52): the nodes, the thickness of each segment, the array [self.t]. *)
Record prof := mkProf { pn : list pt2; pst : list R; parr : list R }.
(** The thickness argument (open_prof.py:43-46): a float, or a sequence. *)
Inductive tin := Tone (t : R) | Tmany (ts : list R).
(** open_prof.py:26-52 OpenProf.__init__; [None]: no nodes with a single thickness (negative
    dimension), or too few thicknesses (IndexError). *)
Definition new_prof (nodes : list pt2) (t : tin) : option prof :=
  let n := length nodes in
  match t with
  | Tone t => match n with 0%nat => None | S m => Some (mkProf nodes (repeat t m) (repeat t m)) end
  | Tmany ts => if Nat.leb (n - 1) (length ts) then Some (mkProf nodes (firstn (n - 1) ts) ts) else None
  end.
(** The list of segments (open_prof.py:48-52): both nodes and the thickness. *)
Definition seg : Type := pt2 * pt2 * R.
(** open_prof.py:48-52: consecutive nodes are connected. *)
Fixpoint segs_of (nodes : list pt2) (ts : list R) : list seg :=
  match nodes, ts with
  | a :: ((b :: _) as r), t :: ts => (a, b, t) :: segs_of r ts
  | _, _ => []
  end.
(** open_prof.py:48-52. *)
Definition segs (p : prof) : list seg := segs_of (pn p) (pst p).
(** Segment.length (open_prof.py:437-440). *)
Definition seg_len (s : seg) : R := let '(a, b, _) := s in sqrt ((fst b - fst a) ^ 2 + (snd b - snd a) ^ 2).
(** Segment.area (open_prof.py:442-445). *)
Definition seg_area (s : seg) : R := snd s * seg_len s.
(** Segment.first_moment_y (open_prof.py:447-451). *)
Definition seg_Sy (s : seg) : R := let '(a, b, _) := s in (snd a + snd b) * seg_area s * (1/2).
(** Segment.second_moment_y (open_prof.py:453-458). *)
Definition seg_Iy (s : seg) : R := let '(a, b, _) := s in (snd b ^ 2 + snd a ^ 2 + snd b * snd a) * seg_area s / 3.
(** Segment.first_moment_z (open_prof.py:460-464). *)
Definition seg_Sz (s : seg) : R := let '(a, b, _) := s in (fst a + fst b) * seg_area s * (1/2).
(** Segment.second_moment_z (open_prof.py:466-471). *)
Definition seg_Iz (s : seg) : R := let '(a, b, _) := s in (fst b ^ 2 + fst a ^ 2 + fst b * fst a) * seg_area s / 3.
(** Segment.product_moment (open_prof.py:473-481). *)
Definition seg_Iyz (s : seg) : R := let '(a, b, _) := s in
  (2 * fst a * snd a + 2 * fst b * snd b + fst a * snd b + fst b * snd a) * seg_area s / 6.
(** OpenProf.area (open_prof.py:130-136). *)
Definition area (p : prof) : R := Rsum (map seg_area (segs p)).
(** OpenProf.first_moments (open_prof.py:138-145). *)
Definition first_moments (p : prof) : R * R := (Rsum (map seg_Sy (segs p)), Rsum (map seg_Sz (segs p))).
(** OpenProf.centroid (open_prof.py:147-154): y, z and the area. *)
Definition centroid (p : prof) : option (R * R * R) :=
  let '(Sy0, Sz0) := first_moments p in
  bind (pdiv Sy0 (area p)) (fun zgc => bind (pdiv Sz0 (area p)) (fun ygc => Some (ygc, zgc, area p))).
(** OpenProf.second_moments (open_prof.py:156-163), Iy0 and Iz0 (173-185). *)
Definition second_moments (p : prof) : R * R := (Rsum (map seg_Iy (segs p)), Rsum (map seg_Iz (segs p))).
(** OpenProf.second_moments_gc (open_prof.py:165-171), Iy and Iz (187-197). *)
Definition second_moments_gc (p : prof) : option (R * R) :=
  bind (centroid p) (fun c => let '(ygc, zgc, A) := c in let '(Iy0, Iz0) := second_moments p in
  Some (Iy0 - A * zgc ^ 2, Iz0 - A * ygc ^ 2)).
(** OpenProf.product_moment (open_prof.py:199-205). *)
Definition product_moment (p : prof) : R := Rsum (map seg_Iyz (segs p)).
(** OpenProf.product_moment_gc (open_prof.py:207-212). *)
Definition product_moment_gc (p : prof) : option R :=
  let '(Sy0, Sz0) := first_moments p in bind (pdiv (Sy0 * Sz0) (area p)) (fun q => Some (product_moment p - q)).
(** The loop of sectorial_coordinates (open_prof.py:221-222), starting with the value [w]. *)
Fixpoint sect_from (w : R) (nodes : list pt2) : list R :=
  match nodes with
  | [] => []
  | a :: r => w :: match r with [] => [] | b :: _ => sect_from (w + fst a * snd b - fst b * snd a) r end
  end.
(** OpenProf.sectorial_coordinates (open_prof.py:214-224). *)
Definition sectorial_coordinates (p : prof) : list R := sect_from 0 (pn p).
(** Element of an array. *)
Definition at_ (l : list R) (i : nat) : R := nth i l 0.
(** OpenProf.mean_sectorial_moment (open_prof.py:241-250). *)
Definition mean_sectorial_moment (p : prof) : R :=
  let dA := map seg_area (segs p) in let w := sectorial_coordinates p in
  Rsum (map (fun i => 1/2 * at_ dA i * (at_ w (S i) + at_ w i)) (seq 0 (length (pn p) - 1))).
(** OpenProf.mean_sectorial_coordinate (open_prof.py:253-256). *)
Definition mean_sectorial_coordinate (p : prof) : option R := pdiv (mean_sectorial_moment p) (area p).
(** A loop of sectorial_constants (open_prof.py:272-274) for a coordinate [u]. *)
Definition mixed_loop (dA u w : list R) (n : nat) : R :=
  Rsum (map (fun i => at_ dA i * (2 * at_ u i * at_ w i + 2 * at_ u (S i) * at_ w (S i) + at_ u i * at_ w (S i) + at_ u (S i) * at_ w i) / 6) (seq 0 n)).
(** OpenProf.sectorial_constants (open_prof.py:258-281): Iyw, Izw, Iww. *)
Definition sectorial_constants (p : prof) : option (R * R * R) :=
  let dA := map seg_area (segs p) in let w := sectorial_coordinates p in
  let y := map fst (pn p) in let z := map snd (pn p) in let n := (length (pn p) - 1)%nat in
  let Iyw0 := mixed_loop dA y w n in
  let Izw0 := mixed_loop dA z w n in
  let Iww0 := Rsum (map (fun i => at_ dA i * (at_ w (S i) ^ 2 + at_ w i ^ 2 + at_ w (S i) * at_ w i) / 3) (seq 0 n)) in
  let Iw := mean_sectorial_moment p in let A := area p in let '(Sy0, Sz0) := first_moments p in
  bind (pdiv (Sz0 * Iw) A) (fun a => bind (pdiv (Sy0 * Iw) A) (fun b => bind (pdiv (Iw ^ 2) A) (fun c =>
  Some (Iyw0 - a, Izw0 - b, Iww0 - c)))).
(** OpenProf.shear_center (open_prof.py:283-298). *)
Definition shear_center (p : prof) : option (R * R) :=
  bind (sectorial_constants p) (fun k => let '(Iyw, Izw, Iww) := k in
  bind (second_moments_gc p) (fun I2 => let '(Iy, Iz) := I2 in
  bind (product_moment_gc p) (fun Iyz =>
  let d := Iy * Iz - Iyz ^ 2 in
  if Rltb (1/100000000) d then Some ((Izw * Iz - Iyw * Iyz) / d, (- Iyw * Iy + Izw * Iyz) / d) else Some (0, 0)))).
(** OpenProf.warping_constant (open_prof.py:300-305). *)
Definition warping_constant (p : prof) : option R :=
  bind (shear_center p) (fun c => let '(y_sc, z_sc) := c in
  bind (sectorial_constants p) (fun k => let '(Iyw, Izw, Iww) := k in Some (Iww + z_sc * Iyw - y_sc * Izw))).
(** numpy product of two one-dimensional arrays (open_prof.py:310); [None]: shapes that cannot be
    broadcast together. *)
Definition bcast (a b : list R) : option (list R) :=
  if Nat.eqb (length a) (length b) then Some (map (fun q => fst q * snd q) (combine a b))
  else match a, b with [x], _ => Some (map (fun y => x * y) b) | _, [y] => Some (map (fun x => x * y) a) | _, _ => None end.
(** OpenProf.torsion_constant (open_prof.py:307-310). *)
Definition torsion_constant (p : prof) : option R :=
  option_map (fun l => Rsum (map (fun x => x / 3) l)) (bcast (map seg_area (segs p)) (map (fun t => t ^ 2) (parr p))).
(** OpenProf.torsion_modulus (open_prof.py:312-314). *)
Definition torsion_modulus (p : prof) : option R :=
  bind (torsion_constant p) (fun It => bind (list_min (parr p)) (fun t => pdiv It t)).
(** OpenProf.split_segment (open_prof.py:316-340): the array of thicknesses is not changed; [None]:
    IndexError. The segments are those of the new nodes with the thickness of the split one twice. *)
Definition split_segment (n : nat) (s : R) (p : prof) : option prof :=
  match nth_error (segs p) n with
  | None => None
  | Some (a, b, t) =>
    let m := (fst a + s * (fst b - fst a), snd a + s * (snd b - snd a)) in
    Some (mkProf (firstn (S n) (pn p) ++ m :: skipn (S n) (pn p)) (firstn n (pst p) ++ t :: t :: skipn (S n) (pst p)) (parr p))
  end.
