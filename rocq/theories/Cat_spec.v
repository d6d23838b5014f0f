(** Specifications of names, tables and formulas of steel sections, written without the parser of the model. *)
From Coq Require Import String Ascii NArith ZArith List Bool DecimalString Reals.
From Verif Require Import Cat_model.
Import ListNotations.
Local Open Scope string_scope.

(** Decimal writing of a number, as in the standard library. *)
Definition dec (n : N) : string := NilZero.string_of_uint (N.to_uint n).

(** White space of an ASCII string: tab to carriage return, the separators 28 to 31, space. *)
Definition blanks : list ascii := map ascii_of_nat [9; 10; 11; 12; 13; 28; 29; 30; 31; 32]%nat.
Definition figures : list ascii := list_ascii_of_string "0123456789".

(** Text between the numbers of a name: at least one character, none a figure, a point or a blank. *)
Definition between_text (s : string) : Prop :=
  s <> "" /\ forall c, In c (list_ascii_of_string s) -> ~ In c figures /\ c <> "."%char /\ ~ In c blanks.
(** At least one blank and nothing else. *)
Definition blank_text (s : string) : Prop := s <> "" /\ forall c, In c (list_ascii_of_string s) -> In c blanks.
(** A word: at least one character and no blank. *)
Definition word (s : string) : Prop := s <> "" /\ forall c, In c (list_ascii_of_string s) -> ~ In c blanks.

(** A length in tenths of a millimetre, written with one decimal, or without decimals and two figures or more. *)
Inductive spells : string -> Z -> Prop :=
| spells_whole n : (10 <= n)%N -> spells (dec n) (10 * Z.of_N n)
| spells_decimal n d : (d < 10)%N -> spells (dec n ++ "." ++ dec d) (10 * Z.of_N n + Z.of_N d).

(** The name of a tube: three lengths and text between them. *)
Definition rhs_name (blank a s1 b s2 c : string) : string := "RHS" ++ blank ++ a ++ s1 ++ b ++ s2 ++ c.

(** A steel I section that can exist: flanges and web positive, room for the fillets. *)
Definition valid_I (h b tf tw r : R) : Prop :=
  (0 < tf /\ 0 < tw /\ 0 < r /\ 2 * tf + 2 * r < h /\ tw + 2 * r < b)%R.
Definition valid_Z (d : idims) : Prop :=
  let '(h, b, tw, tf, r) := d in (0 < tf /\ 0 < tw /\ 0 < r /\ 2 * tf + 2 * r < h /\ tw + 2 * r < b)%Z.

(** Two tables that never disagree. *)
Definition agree {X} (d e : table X) : Prop := forall k x y, In (k, x) d -> In (k, y) e -> x = y.
(** Every entry of a table is in the other. *)
Definition within {X} (d e : table X) : Prop := forall k x, In (k, x) d -> In (k, x) e.
(** No name twice. *)
Definition once {X} (d : table X) : Prop := NoDup (map fst d).

(** Name of a member of ISections for a name of the catalogue: IPE200 for IPE 200, HEA200 for HE 200 A. *)
Definition short_name (f : family) (n : N) : string :=
  match f with FIPE => "IPE" ++ dec n | FHEA => "HEA" ++ dec n | FHEAA => "HEAA" ++ dec n
             | FHEB => "HEB" ++ dec n | FHEC => "HEC" ++ dec n | FHEM => "HEM" ++ dec n end.
(** Name in the catalogue. *)
Definition long_name (f : family) (n : N) : string :=
  match f with FIPE => "IPE " ++ dec n | FHEA => "HE " ++ dec n ++ " A" | FHEAA => "HE " ++ dec n ++ " AA"
             | FHEB => "HE " ++ dec n ++ " B" | FHEC => "HE " ++ dec n ++ " C" | FHEM => "HE " ++ dec n ++ " M" end.

Local Open Scope R_scope.
(** Area of an I section by its parts: two flanges, the web, four fillets (a square less a quarter of a circle). *)
Definition area_parts (h b tf tw r : R) : R := b * tf + b * tf + tw * (h - 2 * tf) + 4 * (r * r - PI * r * r / 4).
(** Length of the boundary of an I section by its parts. *)
Definition boundary (h b tf tw r : R) : R :=
  2 * b + 4 * tf + 4 * ((b - tw) / 2 - r) + 2 * (h - 2 * tf - 2 * r) + 4 * (PI * r / 2).
(** Relative error at most [p]. *)
Definition close (p x y : R) : Prop := Rabs (x - y) <= p * y.
(** Dimensions of a table in millimetres. *)
Definition mm (z : Z) : R := IZR z / 10.
(** Inside radius of a tube of thickness [t] (EN 10219): tenths to hundredths. *)
Definition tube_radius (t : Z) : Z := (if t <=? 60 then 20 * t else if t <=? 100 then 25 * t else 30 * t)%Z.
(** Tolerances of the formulas against the catalogue, in percent: flange thickness, web thickness, width, radius. *)
Definition tolerance (f : family) : Z * Z * Z * Z :=
  match f with FIPE => (46, 18, 27, 59) | FHEA => (14, 18, 2, 14) | FHEAA => (26, 19, 1, 14)
             | FHEB => (27, 28, 0, 15) | FHEC => (6, 4, 6, 15) | FHEM => (9, 5, 4, 14) end%Z.
(** Area of an entry of a table. *)
Definition entry_area (d : idims) : R := let '(h, b, tw, tf, r) := d in area_parts (mm h) (mm b) (mm tf) (mm tw) (mm r).
