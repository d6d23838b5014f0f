(** Tables and rules of EN 1993-1-8 and of ISO 261, 4014, 4032 and 7089, written independently of the model. *)
From Verif Require Import Base Joint_model.
Require Import Reals List.
Import ListNotations.
Local Open Scope R_scope.

(** The two numbers of the name of a bolt class "a.b". *)
Definition class_name (c : bclass) : nat * nat :=
  match c with B46 => (4, 6) | B48 => (4, 8) | B56 => (5, 6) | B58 => (5, 8) | B68 => (6, 8) | B88 => (8, 8) | B109 => (10, 9) end%nat.
(** Coarse pitch (ISO 261) of the sizes. *)
Definition pitch : list (nat * R) := [(12%nat, 7/4); (16%nat, 2); (20%nat, 5/2); (24%nat, 3); (30%nat, 7/2); (36%nat, 4)].
(** Thickness and width across flats of the head, thickness and width across corners of the nut, thickness and outer diameter of the washer. *)
Definition hexagons : list (nat * list R) :=
  [(12%nat, [75/10; 18; 108/10; 2003/100; 25/10; 24]); (16%nat, [10; 24; 148/10; 2675/100; 3; 30]);
   (20%nat, [125/10; 30; 18; 3295/100; 3; 37]); (24%nat, [15; 36; 215/10; 3955/100; 4; 44]);
   (30%nat, [187/10; 46; 256/10; 5085/100; 4; 56]); (36%nat, [225/10; 55; 31; 6079/100; 5; 66])].
(** Partially threaded bolts on sale, for each size. *)
Definition lengths (size : nat) : list nat :=
  match size with
  | 12 => [50; 55; 60; 65; 70; 80; 90; 100; 110; 120; 130; 140; 150; 160; 180; 200; 220; 240; 260]
  | 16 => [55; 60; 65; 70; 75; 80; 90; 100; 110; 120; 130; 140; 150; 160; 180; 200; 220; 240; 260; 280; 300]
  | 20 => [65; 70; 75; 80; 90; 100; 110; 120; 130; 140; 150; 160; 180; 200; 220; 240; 260; 300]
  | 24 => [75; 80; 90; 100; 110; 120; 130; 140; 150; 160; 180; 200; 220; 240; 260; 280; 300]
  | 30 => [90; 100; 110; 120; 130; 140; 150; 160; 180; 200; 220; 260; 300]
  | 36 => [120; 130; 140; 160; 180; 200; 240; 280]
  | _ => []
  end%nat.
Definition least (x : R) (l : list R) : Prop := In x l /\ forall y, In y l -> x <= y.
Definition greatest (x : R) (l : list R) : Prop := In x l /\ forall y, In y l -> y <= x.
(** Table 4.1: the throat of a full-strength fillet weld as a multiple of fy / fu, times sqrt 2. *)
Definition weld_factor (g : grade) : R := match g with S235 => 1 | S275 => 17/16 | S355 => 9/8 | S420 | S460 => 5/4 end.
(** EN 1993-1-8 Table 6.4, unstiffened column flange: circular and other patterns for a row considered alone (inner rows and end
    rows at distance e1 of the end of the column) and for a row in a group with row distance p. *)
Definition flange_row (m e : R) (e1 : option R) (inner : bool) : list R * list R :=
  if inner then ([2 * PI * m], [4 * m + 125/100 * e])
  else match e1 with
       | None => ([2 * PI * m], [4 * m + 125/100 * e])
       | Some e1 => ([2 * PI * m; PI * m + 2 * e1], [4 * m + 125/100 * e; 2 * m + 625/1000 * e + e1])
       end.
Definition flange_row_group (m e p : R) (e1 : option R) (inner : bool) : list R * list R :=
  if inner then ([2 * p], [p])
  else match e1 with
       | None => ([PI * m + p], [2 * m + 625/1000 * e + p / 2])
       | Some e1 => ([PI * m + p; 2 * e1 + p], [2 * m + 625/1000 * e + p / 2; e1 + p / 2])
       end.
(** Table 6.6, end plate: row outside the tension flange; first row below it with factor alpha; other rows. *)
Definition plate_outside (mx ex e w bp : R) : list R * list R :=
  ([2 * PI * mx; PI * mx + w; PI * mx + 2 * e],
   [4 * mx + 125/100 * ex; e + 2 * mx + 625/1000 * ex; bp / 2; w / 2 + 2 * mx + 625/1000 * ex]).
