(** Specification of the governing sections of the segments of a timber member. *)
From Verif Require Export Timber_model.

(** Sections are given at different locations. *)
Definition distinct_locs (secs : list tf) : Prop := NoDup (map f_loc secs).
(** The section lies in the segment. *)
Definition lies_in (secs : list tf) (ab : R * R) (f : tf) : Prop := In f secs /\ fst ab <= f_loc f <= snd ab.
(** No section of the segment has a larger bending stress about y, in absolute value. *)
Definition governs_y (m : tmem) (secs : list tf) (ab : R * R) (f : tf) : Prop :=
  lies_in secs ab f /\ forall g, lies_in secs ab g -> Rabs (sigma_my m g) <= Rabs (sigma_my m f).
(** No section of the segment has a larger signed bending stress about y, nor the same one and a larger one about z. *)
Definition tops_y (m : tmem) (secs : list tf) (ab : R * R) (f : tf) : Prop :=
  lies_in secs ab f /\ forall g, lies_in secs ab g ->
  sigma_my m g <= sigma_my m f /\ (sigma_my m g = sigma_my m f -> sigma_mz m g <= sigma_mz m f).
