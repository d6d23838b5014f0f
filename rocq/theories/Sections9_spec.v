(** The parts of a rolled I-section and of welded sections, measured from the centroid. *)
From Verif Require Import Base Sections_model Sections_spec.
Require Import Reals List.
Import ListNotations.
Local Open Scope R_scope.

(** Flanges and web stacked along the major axis direction, measured from mid-height. *)
Definition i_plates (b h tf tw : R) : list slab :=
  [mkSlab b (- (h / 2)) (- (h / 2 - tf)); mkSlab tw (- (h / 2 - tf)) (h / 2 - tf); mkSlab b (h / 2 - tf) (h / 2)].
(** The same plates seen sideways: both flanges, then the web. *)
Definition i_plates_z (b h tf tw : R) : list slab :=
  [mkSlab (2 * tf) (- (b / 2)) (b / 2); mkSlab (h - 2 * tf) (- (tw / 2)) (tw / 2)].

(** A fillet of radius r: a square of side r in the corner less a quarter disc whose centre is the far corner of the
    square. Area, static moment and second moment about the two axes of the section; a quarter disc of radius r whose
    centre lies at distance a on the near side has static moment a pi r^2/4 + r^3/3 and second moment
    a^2 pi r^2/4 + 2 a r^3/3 + pi r^4/16, with the signs of the odd terms changed on the far side. *)
Definition fillet_area (r : R) : R := r ^ 2 - PI * r ^ 2 / 4.
Definition fillet_static_y (h tf r : R) : R :=
  let c := h / 2 - tf in let a := c - r in r * (c ^ 2 - a ^ 2) / 2 - (a * (PI * r ^ 2 / 4) + r ^ 3 / 3).
Definition fillet_second_y (h tf r : R) : R :=
  let c := h / 2 - tf in let a := c - r in
  r * (c ^ 3 - a ^ 3) / 3 - (a ^ 2 * (PI * r ^ 2 / 4) + 2 * a * r ^ 3 / 3 + PI * r ^ 4 / 16).
Definition fillet_static_z (tw r : R) : R :=
  let c := tw / 2 in let a := c + r in r * (a ^ 2 - c ^ 2) / 2 - (a * (PI * r ^ 2 / 4) - r ^ 3 / 3).
Definition fillet_second_z (tw r : R) : R :=
  let c := tw / 2 in let a := c + r in
  r * (a ^ 3 - c ^ 3) / 3 - (a ^ 2 * (PI * r ^ 2 / 4) - 2 * a * r ^ 3 / 3 + PI * r ^ 4 / 16).
