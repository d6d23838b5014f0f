(** Model of the export of hollow sections to Abaqus (metku/sections/steel/RHS.py:332-405). *)
Require Import Reals List. Import ListNotations.
From Verif Require Export Base.
Local Open Scope R_scope.

(** RHS.py:334: mm to m. *)
Definition rab_conv : R := 1/1000.
(** RHS.py:337-348, the angle of 22.5 degrees of line 345; the x coordinates of lines 350-374. *)
Definition quarter_X (W T R0 : R) : list R :=
  let RMid := R0 - T/2 in let angle := PI/8 in
  [0; W/2 - R0 - 2*T; W/2 - R0; W/2 - R0 + RMid * sin angle; W/2 - R0 + RMid * sin (2*angle);
   W/2 - R0 + RMid * sin (3*angle); (W - T)/2; (W - T)/2; (W - T)/2].
(** RHS.py:350-375: the y coordinates. *)
Definition quarter_Y (H T R0 : R) : list R :=
  let RMid := R0 - T/2 in let angle := PI/8 in
  [(H - T)/2; (H - T)/2; (H - T)/2; (H - T)/2 - (RMid - RMid * cos angle); (H - T)/2 - (RMid - RMid * cos (2*angle));
   (H - T)/2 - (RMid - RMid * cos (3*angle)); H/2 - R0; H/2 - R0 - 2*T; 0].
(** Python l[7::-1]. *)
Definition back_from_7 (l : list R) : list R := rev (firstn 8 l).
(** Python l[1:9]. *)
Definition slice_1_9 (l : list R) : list R := firstn 8 (skipn 1 l).
(** Python l[7:0:-1]. *)
Definition back_7_to_1 (l : list R) : list R := rev (firstn 7 (skipn 1 l)).
(** RHS.py:378, 381, 384, 387: all x coordinates. *)
Definition outline_X (W T R0 : R) : list R :=
  let X := quarter_X W T R0 in
  let X := X ++ back_from_7 X in
  let X := X ++ map Ropp (slice_1_9 X) in
  let X := X ++ map Ropp (back_7_to_1 X) in
  X ++ [nth 0 X 0].
(** RHS.py:379, 382, 385, 388: all y coordinates. *)
Definition outline_Y (H T R0 : R) : list R :=
  let Y := quarter_Y H T R0 in
  let Y := Y ++ map Ropp (back_from_7 Y) in
  let Y := Y ++ map Ropp (slice_1_9 Y) in
  let Y := Y ++ back_7_to_1 Y in
  Y ++ [nth 0 Y 0].
(** RHS.py:337-341, 400-403: the points of the section as written, in metres, for a section in mm. *)
Definition outline (H B T R0 : R) : list (R * R) :=
  combine (outline_X (B * rab_conv) (T * rab_conv) (R0 * rab_conv)) (outline_Y (H * rab_conv) (T * rab_conv) (R0 * rab_conv)).
(** RHS.py:392, 400: the number of segments announced in the file. *)
Definition outline_segments (H B T R0 : R) : nat := length (outline_X (B * rab_conv) (T * rab_conv) (R0 * rab_conv)) - 1.
(** RHS.py:400-403: the thickness written with every point, in metres. *)
Definition outline_T (T : R) : R := T * rab_conv.
