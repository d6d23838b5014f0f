(** Specification vocabulary for open profiles. *)
From Verif Require Export Prof_model.

(** A profile with one thickness per pair of consecutive nodes, as the constructor makes it. *)
Definition wf (p : prof) : Prop := length (pn p) = S (length (pst p)).
(** The point of a segment at the fraction [s] of its length. *)
Definition on_seg (sg : seg) (s : R) : pt2 := let '(a, b, _) := sg in (fst a + s * (fst b - fst a), snd a + s * (snd b - snd a)).
(** [F] is an antiderivative along every segment: the area element is thickness times length. *)
Definition antiderivative_of (f : pt2 -> R) (p : prof) (F : seg -> R -> R) : Prop :=
  forall sg s, In sg (segs p) -> 0 <= s <= 1 -> derivable_pt_lim (F sg) s (snd sg * seg_len sg * f (on_seg sg s)).
(** [v] is the integral of [f] over the area of the walls: antiderivatives exist and all give [v]. *)
Definition area_integral (f : pt2 -> R) (p : prof) (v : R) : Prop :=
  (exists F, antiderivative_of f p F) /\
  (forall F, antiderivative_of f p F -> v = Rsum (map (fun sg => F sg 1 - F sg 0) (segs p))).
(** The profile moved, turned (cosine and sine of the angle), mirrored in the z axis, traversed from the
    other end and enlarged. *)
Definition moved (f : pt2 -> pt2) (p : prof) : prof := mkProf (map f (pn p)) (pst p) (parr p).
Definition shift (a b : R) (x : pt2) : pt2 := (fst x + a, snd x + b).
Definition turn (c s : R) (x : pt2) : pt2 := (c * fst x - s * snd x, s * fst x + c * snd x).
Definition flip (x : pt2) : pt2 := (- fst x, snd x).
Definition backwards (p : prof) : prof := mkProf (rev (pn p)) (rev (pst p)) (rev (parr p)).
Definition enlarged (k : R) (p : prof) : prof :=
  mkProf (map (fun x : pt2 => (k * fst x, k * snd x)) (pn p)) (map (Rmult k) (pst p)) (map (Rmult k) (parr p)).
(** Symmetric about the z axis: mirroring is the same as starting from the other end. *)
Definition symmetric (p : prof) : Prop := map flip (pn p) = rev (pn p) /\ pst p = rev (pst p).
(** The determinant of the central second moments. *)
Definition inertia_det (p : prof) (d : R) : Prop :=
  exists Iy Iz Iyz, second_moments_gc p = Some (Iy, Iz) /\ product_moment_gc p = Some Iyz /\ d = Iy * Iz - Iyz ^ 2.
(** All results about the cross-section except torsion agree. *)
Definition same_api (p q : prof) : Prop :=
  area q = area p /\ centroid q = centroid p /\ second_moments_gc q = second_moments_gc p /\ product_moment_gc q = product_moment_gc p /\
  sectorial_constants q = sectorial_constants p /\ shear_center q = shear_center p /\ warping_constant q = warping_constant p.
(** Distances are kept. *)
Definition isometry (f : pt2 -> pt2) : Prop :=
  forall a b, (fst (f b) - fst (f a)) ^ 2 + (snd (f b) - snd (f a)) ^ 2 = (fst b - fst a) ^ 2 + (snd b - snd a) ^ 2.
(** Turning followed by shifting. *)
Definition rigid (c s a b : R) (x : pt2) : pt2 := shift a b (turn c s x).
