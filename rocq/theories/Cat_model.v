(** Model of the tables and names of steel sections and materials: metku/sections/steel/catalogue.py,
    profile_data.py, the constructors of ISection.py, metku/profiles/steel, metku/materials/steel.py,
    steel_data.py, frame2d/materials.py. Lengths of tables are in tenths of a millimetre. Strings are ASCII. *)
From Coq Require Import String Ascii NArith ZArith List Bool DecimalString.
From Coq Require Import Reals.
From Verif Require Export Base EC3_model.
Import ListNotations.
Local Open Scope string_scope.

(** One entry of a table of I sections (catalogue.py:22): h, b, t_w, t_f, r. *)
Definition idims : Type := (Z * Z * Z * Z * Z)%type.
(** A dictionary with names as keys (catalogue.py:22-1285); literals have no repeated keys. *)
Definition table (X : Type) : Type := list (string * X).
(** d[name]; [None]: KeyError (catalogue.py:22; ISection.py:494-500). *)
Fixpoint look {X} (d : table X) (k : string) : option X :=
  match d with [] => None | (n, x) :: d => if String.eqb n k then Some x else look d k end.

Local Open Scope Z_scope.
(** profile (sections/steel/catalogue.py:22-149). *)
Definition profile_t : table idims :=
  [("IPE 80", (800, 460, 38, 52, 50)); ("IPE 100", (1000, 550, 41, 57, 70)); ("IPE 120", (1200, 640, 44, 63, 70)); ("IPE 140", (1400, 730, 47, 69, 70));
   ("IPE 160", (1600, 820, 50, 74, 90)); ("IPE 180", (1800, 910, 53, 80, 90)); ("IPE 200", (2000, 1000, 56, 85, 120)); ("IPE 220", (2200, 1100, 59, 92, 120));
   ("IPE 240", (2400, 1200, 62, 98, 150)); ("IPE 270", (2700, 1350, 66, 102, 150)); ("IPE 300", (3000, 1500, 71, 107, 150)); ("IPE 330", (3300, 1600, 75, 115, 180));
   ("IPE 360", (3600, 1700, 80, 127, 180)); ("IPE 400", (4000, 1800, 86, 135, 210)); ("IPE 450", (4500, 1900, 94, 146, 210)); ("IPE 500", (5000, 2000, 102, 160, 210));
   ("IPE 550", (5500, 2100, 111, 172, 240)); ("IPE 600", (6000, 2200, 120, 190, 240)); ("IPE 750", (7500, 2640, 120, 155, 170)); ("HE 100 AA", (910, 1000, 42, 55, 120));
   ("HE 100 A", (960, 1000, 50, 80, 120)); ("HE 100 B", (1000, 1000, 60, 100, 120)); ("HE 100 C", (1100, 1030, 90, 150, 120)); ("HE 100 M", (1200, 1060, 120, 200, 120));
   ("HE 120 AA", (1090, 1200, 42, 55, 120)); ("HE 120 A", (1140, 1200, 50, 80, 120)); ("HE 120 B", (1200, 1200, 65, 110, 120)); ("HE 120 C", (1300, 1230, 95, 160, 120));
   ("HE 120 M", (1400, 1260, 125, 210, 120)); ("HE 140 AA", (1280, 1400, 43, 60, 120)); ("HE 140 A", (1330, 1400, 55, 85, 120)); ("HE 140 B", (1400, 1400, 70, 120, 120));
   ("HE 140 C", (1500, 1430, 100, 170, 120)); ("HE 140 M", (1600, 1460, 130, 220, 120)); ("HE 160 AA", (1480, 1600, 45, 70, 150)); ("HE 160 A", (1520, 1600, 60, 90, 150));
   ("HE 160 B", (1600, 1600, 80, 130, 150)); ("HE 160 C", (1700, 1630, 110, 180, 150)); ("HE 160 M", (1800, 1660, 140, 230, 150)); ("HE 180 AA", (1670, 1800, 50, 75, 150));
   ("HE 180 A", (1710, 1800, 60, 95, 150)); ("HE 180 B", (1800, 1800, 85, 140, 150)); ("HE 180 C", (1900, 1830, 115, 190, 150)); ("HE 180 M", (2000, 1860, 145, 240, 150));
   ("HE 200 AA", (1860, 2000, 55, 80, 180)); ("HE 200 A", (1900, 2000, 65, 100, 180)); ("HE 200 B", (2000, 2000, 90, 150, 180)); ("HE 200 C", (2100, 2030, 120, 200, 180));
   ("HE 200 M", (2200, 2060, 150, 250, 180)); ("HE 220 AA", (2050, 2200, 60, 85, 180)); ("HE 220 A", (2100, 2200, 70, 110, 180)); ("HE 220 B", (2200, 2200, 95, 160, 180));
   ("HE 220 C", (2300, 2230, 125, 210, 180)); ("HE 220 M", (2400, 2260, 155, 260, 180)); ("HE 240 AA", (2240, 2400, 65, 90, 210)); ("HE 240 A", (2300, 2400, 75, 120, 210));
   ("HE 240 B", (2400, 2400, 100, 170, 210)); ("HE 240 C", (2550, 2440, 140, 245, 210)); ("HE 240 M", (2700, 2480, 180, 320, 210)); ("HE 260 AA", (2440, 2600, 65, 95, 240));
   ("HE 260 A", (2500, 2600, 75, 125, 240)); ("HE 260 B", (2600, 2600, 100, 175, 240)); ("HE 260 C", (2750, 2640, 140, 250, 240)); ("HE 260 M", (2900, 2680, 180, 325, 240));
   ("HE 280 AA", (2640, 2800, 70, 100, 240)); ("HE 280 A", (2700, 2800, 80, 130, 240)); ("HE 280 B", (2800, 2800, 105, 180, 240)); ("HE 280 C", (2950, 2840, 145, 255, 240));
   ("HE 280 M", (3100, 2880, 185, 330, 240)); ("HE 300 AA", (2830, 3000, 75, 105, 270)); ("HE 300 A", (2900, 3000, 85, 140, 270)); ("HE 300 B", (3000, 3000, 110, 190, 270));
   ("HE 300 C", (3200, 3050, 160, 290, 270)); ("HE 300 M", (3400, 3100, 210, 390, 270)); ("HE 320 AA", (3010, 3000, 80, 110, 270)); ("HE 320 A", (3100, 3000, 90, 155, 270));
   ("HE 320 B", (3200, 3000, 115, 205, 270)); ("HE 320 C", (3400, 3050, 160, 305, 270)); ("HE 320 M", (3590, 3090, 210, 400, 270)); ("HE 340 AA", (3200, 3000, 85, 115, 270));
   ("HE 340 A", (3300, 3000, 95, 165, 270)); ("HE 340 B", (3400, 3000, 120, 215, 270)); ("HE 340 M", (3770, 3090, 210, 400, 270)); ("HE 360 AA", (3390, 3000, 90, 120, 270));
   ("HE 360 A", (3500, 3000, 100, 175, 270)); ("HE 360 B", (3600, 3000, 125, 225, 270)); ("HE 360 M", (3950, 3080, 210, 400, 270)); ("HE 400 AA", (3780, 3000, 95, 130, 270));
   ("HE 400 A", (3900, 3000, 110, 190, 270)); ("HE 400 B", (4000, 3000, 135, 240, 270)); ("HE 400 M", (4320, 3070, 210, 400, 270)); ("HE 450 AA", (4250, 3000, 100, 135, 270));
   ("HE 450 A", (4400, 3000, 115, 210, 270)); ("HE 450 B", (4500, 3000, 140, 260, 270)); ("HE 450 M", (4780, 3070, 210, 400, 270)); ("HE 500 AA", (4720, 3000, 105, 140, 270));
   ("HE 500 A", (4900, 3000, 120, 230, 270)); ("HE 500 B", (5000, 3000, 145, 280, 270)); ("HE 500 M", (5240, 3060, 210, 400, 270)); ("HE 550 AA", (5220, 3000, 115, 150, 270));
   ("HE 550 A", (5400, 3000, 125, 240, 270)); ("HE 550 B", (5500, 3000, 150, 290, 270)); ("HE 550 M", (5720, 3060, 210, 400, 270)); ("HE 600 AA", (5710, 3000, 120, 155, 270));
   ("HE 600 A", (5900, 3000, 130, 250, 270)); ("HE 600 B", (6000, 3000, 155, 300, 270)); ("HE 600 M", (6200, 3050, 210, 400, 270)); ("HE 650 AA", (6200, 3000, 125, 160, 270));
   ("HE 650 A", (6400, 3000, 135, 260, 270)); ("HE 650 B", (6500, 3000, 160, 310, 270)); ("HE 650 M", (6680, 3050, 210, 400, 270)); ("HE 700 AA", (6700, 3000, 130, 170, 270));
   ("HE 700 A", (6900, 3000, 145, 270, 270)); ("HE 700 B", (7000, 3000, 170, 320, 270)); ("HE 700 M", (7160, 3040, 210, 400, 270)); ("HE 800 AA", (7700, 3000, 140, 180, 300));
   ("HE 800 A", (7900, 3000, 150, 280, 300)); ("HE 800 B", (8000, 3000, 175, 330, 300)); ("HE 800 M", (8140, 3030, 210, 400, 300)); ("HE 900 AA", (8700, 3000, 150, 200, 300));
   ("HE 900 A", (8900, 3000, 160, 300, 300)); ("HE 900 B", (9000, 3000, 185, 350, 300)); ("HE 900 M", (9100, 3020, 210, 400, 300)); ("HE 1000 AA", (9700, 3000, 160, 210, 300));
   ("HE 1000 A", (9900, 3000, 165, 310, 300)); ("HE 1000 B", (10000, 3000, 190, 360, 300)); ("HE 1000 M", (10080, 3020, 210, 400, 300))].
(** ipe_profiles (sections/steel/catalogue.py:152-170). *)
Definition ipe_t : table idims :=
  [("IPE 80", (800, 460, 38, 52, 50)); ("IPE 100", (1000, 550, 41, 57, 70)); ("IPE 120", (1200, 640, 44, 63, 70)); ("IPE 140", (1400, 730, 47, 69, 70));
   ("IPE 160", (1600, 820, 50, 74, 90)); ("IPE 180", (1800, 910, 53, 80, 90)); ("IPE 200", (2000, 1000, 56, 85, 120)); ("IPE 220", (2200, 1100, 59, 92, 120));
   ("IPE 240", (2400, 1200, 62, 98, 150)); ("IPE 270", (2700, 1350, 66, 102, 150)); ("IPE 300", (3000, 1500, 71, 107, 150)); ("IPE 330", (3300, 1600, 75, 115, 180));
   ("IPE 360", (3600, 1700, 80, 127, 180)); ("IPE 400", (4000, 1800, 86, 135, 210)); ("IPE 450", (4500, 1900, 94, 146, 210)); ("IPE 500", (5000, 2000, 102, 160, 210));
   ("IPE 550", (5500, 2100, 111, 172, 240)); ("IPE 600", (6000, 2200, 120, 190, 240)); ("IPE 750", (7500, 2640, 120, 155, 170))].
(** hea_profiles (sections/steel/catalogue.py:172-195). *)
Definition hea_t : table idims :=
  [("HE 100 A", (960, 1000, 50, 80, 120)); ("HE 120 A", (1140, 1200, 50, 80, 120)); ("HE 140 A", (1330, 1400, 55, 85, 120)); ("HE 160 A", (1520, 1600, 60, 90, 150));
   ("HE 180 A", (1710, 1800, 60, 95, 150)); ("HE 200 A", (1900, 2000, 65, 100, 180)); ("HE 220 A", (2100, 2200, 70, 110, 180)); ("HE 240 A", (2300, 2400, 75, 120, 210));
   ("HE 260 A", (2500, 2600, 75, 125, 240)); ("HE 280 A", (2700, 2800, 80, 130, 240)); ("HE 300 A", (2900, 3000, 85, 140, 270)); ("HE 320 A", (3100, 3000, 90, 155, 270));
   ("HE 340 A", (3300, 3000, 95, 165, 270)); ("HE 360 A", (3500, 3000, 100, 175, 270)); ("HE 400 A", (3900, 3000, 110, 190, 270)); ("HE 450 A", (4400, 3000, 115, 210, 270));
   ("HE 500 A", (4900, 3000, 120, 230, 270)); ("HE 550 A", (5400, 3000, 125, 240, 270)); ("HE 600 A", (5900, 3000, 130, 250, 270)); ("HE 650 A", (6400, 3000, 135, 260, 270));
   ("HE 700 A", (6900, 3000, 145, 270, 270)); ("HE 800 A", (7900, 3000, 150, 280, 300)); ("HE 900 A", (8900, 3000, 160, 300, 300)); ("HE 1000 A", (9900, 3000, 165, 310, 300))].
(** heb_profiles (sections/steel/catalogue.py:197-220). *)
Definition heb_t : table idims :=
  [("HE 100 B", (1000, 1000, 60, 100, 120)); ("HE 120 B", (1200, 1200, 65, 110, 120)); ("HE 140 B", (1400, 1400, 70, 120, 120)); ("HE 160 B", (1600, 1600, 80, 130, 150));
   ("HE 180 B", (1800, 1800, 85, 140, 150)); ("HE 200 B", (2000, 2000, 90, 150, 180)); ("HE 220 B", (2200, 2200, 95, 160, 180)); ("HE 240 B", (2400, 2400, 100, 170, 210));
   ("HE 260 B", (2600, 2600, 100, 175, 240)); ("HE 280 B", (2800, 2800, 105, 180, 240)); ("HE 300 B", (3000, 3000, 110, 190, 270)); ("HE 320 B", (3200, 3000, 115, 205, 270));
   ("HE 340 B", (3400, 3000, 120, 215, 270)); ("HE 360 B", (3600, 3000, 125, 225, 270)); ("HE 400 B", (4000, 3000, 135, 240, 270)); ("HE 450 B", (4500, 3000, 140, 260, 270));
   ("HE 500 B", (5000, 3000, 145, 280, 270)); ("HE 550 B", (5500, 3000, 150, 290, 270)); ("HE 600 B", (6000, 3000, 155, 300, 270)); ("HE 650 B", (6500, 3000, 160, 310, 270));
   ("HE 700 B", (7000, 3000, 170, 320, 270)); ("HE 800 B", (8000, 3000, 175, 330, 300)); ("HE 900 B", (9000, 3000, 185, 350, 300)); ("HE 1000 B", (10000, 3000, 190, 360, 300))].
(** h_profiles (sections/steel/catalogue.py:222-329). *)
Definition h_t : table idims :=
  [("HE 100 AA", (910, 1000, 42, 55, 120)); ("HE 100 A", (960, 1000, 50, 80, 120)); ("HE 100 B", (1000, 1000, 60, 100, 120)); ("HE 100 C", (1100, 1030, 90, 150, 120));
   ("HE 100 M", (1200, 1060, 120, 200, 120)); ("HE 120 AA", (1090, 1200, 42, 55, 120)); ("HE 120 A", (1140, 1200, 50, 80, 120)); ("HE 120 B", (1200, 1200, 65, 110, 120));
   ("HE 120 C", (1300, 1230, 95, 160, 120)); ("HE 120 M", (1400, 1260, 125, 210, 120)); ("HE 140 AA", (1280, 1400, 43, 60, 120)); ("HE 140 A", (1330, 1400, 55, 85, 120));
   ("HE 140 B", (1400, 1400, 70, 120, 120)); ("HE 140 C", (1500, 1430, 100, 170, 120)); ("HE 140 M", (1600, 1460, 130, 220, 120)); ("HE 160 AA", (1480, 1600, 45, 70, 150));
   ("HE 160 A", (1520, 1600, 60, 90, 150)); ("HE 160 B", (1600, 1600, 80, 130, 150)); ("HE 160 C", (1700, 1630, 110, 180, 150)); ("HE 160 M", (1800, 1660, 140, 230, 150));
   ("HE 180 AA", (1670, 1800, 50, 75, 150)); ("HE 180 A", (1710, 1800, 60, 95, 150)); ("HE 180 B", (1800, 1800, 85, 140, 150)); ("HE 180 C", (1900, 1830, 115, 190, 150));
   ("HE 180 M", (2000, 1860, 145, 240, 150)); ("HE 200 AA", (1860, 2000, 55, 80, 180)); ("HE 200 A", (1900, 2000, 65, 100, 180)); ("HE 200 B", (2000, 2000, 90, 150, 180));
   ("HE 200 C", (2100, 2030, 120, 200, 180)); ("HE 200 M", (2200, 2060, 150, 250, 180)); ("HE 220 AA", (2050, 2200, 60, 85, 180)); ("HE 220 A", (2100, 2200, 70, 110, 180));
   ("HE 220 B", (2200, 2200, 95, 160, 180)); ("HE 220 C", (2300, 2230, 125, 210, 180)); ("HE 220 M", (2400, 2260, 155, 260, 180)); ("HE 240 AA", (2240, 2400, 65, 90, 210));
   ("HE 240 A", (2300, 2400, 75, 120, 210)); ("HE 240 B", (2400, 2400, 100, 170, 210)); ("HE 240 C", (2550, 2440, 140, 245, 210)); ("HE 240 M", (2700, 2480, 180, 320, 210));
   ("HE 260 AA", (2440, 2600, 65, 95, 240)); ("HE 260 A", (2500, 2600, 75, 125, 240)); ("HE 260 B", (2600, 2600, 100, 175, 240)); ("HE 260 C", (2750, 2640, 140, 250, 240));
   ("HE 260 M", (2900, 2680, 180, 325, 240)); ("HE 280 AA", (2640, 2800, 70, 100, 240)); ("HE 280 A", (2700, 2800, 80, 130, 240)); ("HE 280 B", (2800, 2800, 105, 180, 240));
   ("HE 280 C", (2950, 2840, 145, 255, 240)); ("HE 280 M", (3100, 2880, 185, 330, 240)); ("HE 300 AA", (2830, 3000, 75, 105, 270)); ("HE 300 A", (2900, 3000, 85, 140, 270));
   ("HE 300 B", (3000, 3000, 110, 190, 270)); ("HE 300 C", (3200, 3050, 160, 290, 270)); ("HE 300 M", (3400, 3100, 210, 390, 270)); ("HE 320 AA", (3010, 3000, 80, 110, 270));
   ("HE 320 A", (3100, 3000, 90, 155, 270)); ("HE 320 B", (3200, 3000, 115, 205, 270)); ("HE 320 C", (3400, 3050, 160, 305, 270)); ("HE 320 M", (3590, 3090, 210, 400, 270));
   ("HE 340 AA", (3200, 3000, 85, 115, 270)); ("HE 340 A", (3300, 3000, 95, 165, 270)); ("HE 340 B", (3400, 3000, 120, 215, 270)); ("HE 340 M", (3770, 3090, 210, 400, 270));
   ("HE 360 AA", (3390, 3000, 90, 120, 270)); ("HE 360 A", (3500, 3000, 100, 175, 270)); ("HE 360 B", (3600, 3000, 125, 225, 270)); ("HE 360 M", (3950, 3080, 210, 400, 270));
   ("HE 400 AA", (3780, 3000, 95, 130, 270)); ("HE 400 A", (3900, 3000, 110, 190, 270)); ("HE 400 B", (4000, 3000, 135, 240, 270)); ("HE 400 M", (4320, 3070, 210, 400, 270));
   ("HE 450 AA", (4250, 3000, 100, 135, 270)); ("HE 450 A", (4400, 3000, 115, 210, 270)); ("HE 450 B", (4500, 3000, 140, 260, 270)); ("HE 450 M", (4780, 3070, 210, 400, 270));
   ("HE 500 AA", (4720, 3000, 105, 140, 270)); ("HE 500 A", (4900, 3000, 120, 230, 270)); ("HE 500 B", (5000, 3000, 145, 280, 270)); ("HE 500 M", (5240, 3060, 210, 400, 270));
   ("HE 550 AA", (5220, 3000, 115, 150, 270)); ("HE 550 A", (5400, 3000, 125, 240, 270)); ("HE 550 B", (5500, 3000, 150, 290, 270)); ("HE 550 M", (5720, 3060, 210, 400, 270));
   ("HE 600 AA", (5710, 3000, 120, 155, 270)); ("HE 600 A", (5900, 3000, 130, 250, 270)); ("HE 600 B", (6000, 3000, 155, 300, 270)); ("HE 600 M", (6200, 3050, 210, 400, 270));
   ("HE 650 AA", (6200, 3000, 125, 160, 270)); ("HE 650 A", (6400, 3000, 135, 260, 270)); ("HE 650 B", (6500, 3000, 160, 310, 270)); ("HE 650 M", (6680, 3050, 210, 400, 270));
   ("HE 700 AA", (6700, 3000, 130, 170, 270)); ("HE 700 A", (6900, 3000, 145, 270, 270)); ("HE 700 B", (7000, 3000, 170, 320, 270)); ("HE 700 M", (7160, 3040, 210, 400, 270));
   ("HE 800 AA", (7700, 3000, 140, 180, 300)); ("HE 800 A", (7900, 3000, 150, 280, 300)); ("HE 800 B", (8000, 3000, 175, 330, 300)); ("HE 800 M", (8140, 3030, 210, 400, 300));
   ("HE 900 AA", (8700, 3000, 150, 200, 300)); ("HE 900 A", (8900, 3000, 160, 300, 300)); ("HE 900 B", (9000, 3000, 185, 350, 300)); ("HE 900 M", (9100, 3020, 210, 400, 300));
   ("HE 1000 AA", (9700, 3000, 160, 210, 300)); ("HE 1000 A", (9900, 3000, 165, 310, 300)); ("HE 1000 B", (10000, 3000, 190, 360, 300)); ("HE 1000 M", (10080, 3020, 210, 400, 300))].
(** ISECTIONS (sections/steel/profile_data.py:5-132). *)
Definition data_t : table idims :=
  [("IPE 80", (800, 460, 38, 52, 50)); ("IPE 100", (1000, 550, 41, 57, 70)); ("IPE 120", (1200, 640, 44, 63, 70)); ("IPE 140", (1400, 730, 47, 69, 70));
   ("IPE 160", (1600, 820, 50, 74, 90)); ("IPE 180", (1800, 910, 53, 80, 90)); ("IPE 200", (2000, 1000, 56, 85, 120)); ("IPE 220", (2200, 1100, 59, 92, 120));
   ("IPE 240", (2400, 1200, 62, 98, 150)); ("IPE 270", (2700, 1350, 66, 102, 150)); ("IPE 300", (3000, 1500, 71, 107, 150)); ("IPE 330", (3300, 1600, 75, 115, 180));
   ("IPE 360", (3600, 1700, 80, 127, 180)); ("IPE 400", (4000, 1800, 86, 135, 210)); ("IPE 450", (4500, 1900, 94, 146, 210)); ("IPE 500", (5000, 2000, 102, 160, 210));
   ("IPE 550", (5500, 2100, 111, 172, 240)); ("IPE 600", (6000, 2200, 120, 190, 240)); ("IPE 750", (1340, 7500, 2640, 120, 155)); ("HE 100 AA", (910, 1000, 42, 55, 120));
   ("HE 100 A", (960, 1000, 50, 80, 120)); ("HE 100 B", (1000, 1000, 60, 100, 120)); ("HE 100 C", (1100, 1030, 90, 150, 120)); ("HE 100 M", (1200, 1060, 120, 200, 120));
   ("HE 120 AA", (1090, 1200, 42, 55, 120)); ("HE 120 A", (1140, 1200, 50, 80, 120)); ("HE 120 B", (1200, 1200, 65, 110, 120)); ("HE 120 C", (1300, 1230, 95, 160, 120));
   ("HE 120 M", (1400, 1260, 125, 210, 120)); ("HE 140 AA", (1280, 1400, 43, 60, 120)); ("HE 140 A", (1330, 1400, 55, 85, 120)); ("HE 140 B", (1400, 1400, 70, 120, 120));
   ("HE 140 C", (1500, 1430, 100, 170, 120)); ("HE 140 M", (1600, 1460, 130, 220, 120)); ("HE 160 AA", (1480, 1600, 45, 70, 150)); ("HE 160 A", (1520, 1600, 60, 90, 150));
   ("HE 160 B", (1600, 1600, 80, 130, 150)); ("HE 160 C", (1700, 1630, 110, 180, 150)); ("HE 160 M", (1800, 1660, 140, 230, 150)); ("HE 180 AA", (1670, 1800, 50, 75, 150));
   ("HE 180 A", (1710, 1800, 60, 95, 150)); ("HE 180 B", (1800, 1800, 85, 140, 150)); ("HE 180 C", (1900, 1830, 115, 190, 150)); ("HE 180 M", (2000, 1860, 145, 240, 150));
   ("HE 200 AA", (1860, 2000, 55, 80, 180)); ("HE 200 A", (1900, 2000, 65, 100, 180)); ("HE 200 B", (2000, 2000, 90, 150, 180)); ("HE 200 C", (2100, 2030, 120, 200, 180));
   ("HE 200 M", (2200, 2060, 150, 250, 180)); ("HE 220 AA", (2050, 2200, 60, 85, 180)); ("HE 220 A", (2100, 2200, 70, 110, 180)); ("HE 220 B", (2200, 2200, 95, 160, 180));
   ("HE 220 C", (2300, 2230, 125, 210, 180)); ("HE 220 M", (2400, 2260, 155, 260, 180)); ("HE 240 AA", (2240, 2400, 65, 90, 210)); ("HE 240 A", (2300, 2400, 75, 120, 210));
   ("HE 240 B", (2400, 2400, 100, 170, 210)); ("HE 240 C", (2550, 2440, 140, 245, 210)); ("HE 240 M", (2700, 2480, 180, 320, 210)); ("HE 260 AA", (2440, 2600, 65, 95, 240));
   ("HE 260 A", (2500, 2600, 75, 125, 240)); ("HE 260 B", (2600, 2600, 100, 175, 240)); ("HE 260 C", (2750, 2640, 140, 250, 240)); ("HE 260 M", (2900, 2680, 180, 325, 240));
   ("HE 280 AA", (2640, 2800, 70, 100, 240)); ("HE 280 A", (2700, 2800, 80, 130, 240)); ("HE 280 B", (2800, 2800, 105, 180, 240)); ("HE 280 C", (2950, 2840, 145, 255, 240));
   ("HE 280 M", (3100, 2880, 185, 330, 240)); ("HE 300 AA", (2830, 3000, 75, 105, 270)); ("HE 300 A", (2900, 3000, 85, 140, 270)); ("HE 300 B", (3000, 3000, 110, 190, 270));
   ("HE 300 C", (3200, 3050, 160, 290, 270)); ("HE 300 M", (3400, 3100, 210, 390, 270)); ("HE 320 AA", (3010, 3000, 80, 110, 270)); ("HE 320 A", (3100, 3000, 90, 155, 270));
   ("HE 320 B", (3200, 3000, 115, 205, 270)); ("HE 320 C", (3400, 3050, 160, 305, 270)); ("HE 320 M", (3590, 3090, 210, 400, 270)); ("HE 340 AA", (3200, 3000, 85, 115, 270));
   ("HE 340 A", (3300, 3000, 95, 165, 270)); ("HE 340 B", (3400, 3000, 120, 215, 270)); ("HE 340 M", (3770, 3090, 210, 400, 270)); ("HE 360 AA", (3390, 3000, 90, 120, 270));
   ("HE 360 A", (3500, 3000, 100, 175, 270)); ("HE 360 B", (3600, 3000, 125, 225, 270)); ("HE 360 M", (3950, 3080, 210, 400, 270)); ("HE 400 AA", (3780, 3000, 95, 130, 270));
   ("HE 400 A", (3900, 3000, 110, 190, 270)); ("HE 400 B", (4000, 3000, 135, 240, 270)); ("HE 400 M", (4320, 3070, 210, 400, 270)); ("HE 450 AA", (4250, 3000, 100, 135, 270));
   ("HE 450 A", (4400, 3000, 115, 210, 270)); ("HE 450 B", (4500, 3000, 140, 260, 270)); ("HE 450 M", (4780, 3070, 210, 400, 270)); ("HE 500 AA", (4720, 3000, 105, 140, 270));
   ("HE 500 A", (4900, 3000, 120, 230, 270)); ("HE 500 B", (5000, 3000, 145, 280, 270)); ("HE 500 M", (5240, 3060, 210, 400, 270)); ("HE 550 AA", (5220, 3000, 115, 150, 270));
   ("HE 550 A", (5400, 3000, 125, 240, 270)); ("HE 550 B", (5500, 3000, 150, 290, 270)); ("HE 550 M", (5720, 3060, 210, 400, 270)); ("HE 600 AA", (5710, 3000, 120, 155, 270));
   ("HE 600 A", (5900, 3000, 130, 250, 270)); ("HE 600 B", (6000, 3000, 155, 300, 270)); ("HE 600 M", (6200, 3050, 210, 400, 270)); ("HE 650 AA", (6200, 3000, 125, 160, 270));
   ("HE 650 A", (6400, 3000, 135, 260, 270)); ("HE 650 B", (6500, 3000, 160, 310, 270)); ("HE 650 M", (6680, 3050, 210, 400, 270)); ("HE 700 AA", (6700, 3000, 130, 170, 270));
   ("HE 700 A", (6900, 3000, 145, 270, 270)); ("HE 700 B", (7000, 3000, 170, 320, 270)); ("HE 700 M", (7160, 3040, 210, 400, 270)); ("HE 800 AA", (7700, 3000, 140, 180, 300));
   ("HE 800 A", (7900, 3000, 150, 280, 300)); ("HE 800 B", (8000, 3000, 175, 330, 300)); ("HE 800 M", (8140, 3030, 210, 400, 300)); ("HE 900 AA", (8700, 3000, 150, 200, 300));
   ("HE 900 A", (8900, 3000, 160, 300, 300)); ("HE 900 B", (9000, 3000, 185, 350, 300)); ("HE 900 M", (9100, 3020, 210, 400, 300)); ("HE 1000 AA", (9700, 3000, 160, 210, 300));
   ("HE 1000 A", (9900, 3000, 165, 310, 300)); ("HE 1000 B", (10000, 3000, 190, 360, 300)); ("HE 1000 M", (10080, 3020, 210, 400, 300))].
(** rhs_profiles (sections/steel/catalogue.py:552-1035): h, b, t in tenths, r in hundredths of a millimetre. *)
Definition rhs_t : table (Z * Z * Z * Z) :=
  [("RHS 25x25x3.0", (250, 250, 30, 600)); ("RHS 30x30x3.0", (300, 300, 30, 600)); ("RHS 40x20x3.0", (400, 200, 30, 600)); ("RHS 20x40x3.0", (200, 400, 30, 600));
   ("RHS 40x30x3.0", (400, 300, 30, 600)); ("RHS 30x40x3.0", (300, 400, 30, 600)); ("RHS 40x40x3.0", (400, 400, 30, 600)); ("RHS 50x30x3.0", (500, 300, 30, 600));
   ("RHS 30x50x3.0", (300, 500, 30, 600)); ("RHS 40x40x4.0", (400, 400, 40, 800)); ("RHS 50x30x4.0", (500, 300, 40, 800)); ("RHS 30x50x4.0", (300, 500, 40, 800));
   ("RHS 50x50x3.0", (500, 500, 30, 600)); ("RHS 60x40x3.0", (600, 400, 30, 600)); ("RHS 40x60x3.0", (400, 600, 30, 600)); ("RHS 60x60x3.0", (600, 600, 30, 600));
   ("RHS 70x50x3.0", (700, 500, 30, 600)); ("RHS 50x70x3.0", (500, 700, 30, 600)); ("RHS 80x40x3.0", (800, 400, 30, 600)); ("RHS 40x80x3.0", (400, 800, 30, 600));
   ("RHS 50x50x4.0", (500, 500, 40, 800)); ("RHS 60x40x4.0", (600, 400, 40, 800)); ("RHS 40x60x4.0", (400, 600, 40, 800)); ("RHS 70x70x3.0", (700, 700, 30, 600));
   ("RHS 80x60x3.0", (800, 600, 30, 600)); ("RHS 60x80x3.0", (600, 800, 30, 600)); ("RHS 90x50x3.0", (900, 500, 30, 600)); ("RHS 50x90x3.0", (500, 900, 30, 600));
   ("RHS 100x40x3.0", (1000, 400, 30, 600)); ("RHS 40x100x3.0", (400, 1000, 30, 600)); ("RHS 50x50x5.0", (500, 500, 50, 1000)); ("RHS 60x40x5.0", (600, 400, 50, 1000));
   ("RHS 40x60x5.0", (400, 600, 50, 1000)); ("RHS 100x50x3.0", (1000, 500, 30, 600)); ("RHS 50x100x3.0", (500, 1000, 30, 600)); ("RHS 60x60x4.0", (600, 600, 40, 800));
   ("RHS 70x50x4.0", (700, 500, 40, 800)); ("RHS 50x70x4.0", (500, 700, 40, 800)); ("RHS 80x40x4.0", (800, 400, 40, 800)); ("RHS 40x80x4.0", (400, 800, 40, 800));
   ("RHS 80x80x3.0", (800, 800, 30, 600)); ("RHS 100x60x3.0", (1000, 600, 30, 600)); ("RHS 60x100x3.0", (600, 1000, 30, 600)); ("RHS 120x40x3.0", (1200, 400, 30, 600));
   ("RHS 40x120x3.0", (400, 1200, 30, 600)); ("RHS 120x50x3.0", (1200, 500, 30, 600)); ("RHS 50x120x3.0", (500, 1200, 30, 600)); ("RHS 70x70x4.0", (700, 700, 40, 800));
   ("RHS 80x60x4.0", (800, 600, 40, 800)); ("RHS 60x80x4.0", (600, 800, 40, 800)); ("RHS 90x50x4.0", (900, 500, 40, 800)); ("RHS 50x90x4.0", (500, 900, 40, 800));
   ("RHS 100x40x4.0", (1000, 400, 40, 800)); ("RHS 40x100x4.0", (400, 1000, 40, 800)); ("RHS 90x90x3.0", (900, 900, 30, 600)); ("RHS 100x80x3.0", (1000, 800, 30, 600));
   ("RHS 80x100x3.0", (800, 1000, 30, 600)); ("RHS 120x60x3.0", (1200, 600, 30, 600)); ("RHS 60x120x3.0", (600, 1200, 30, 600)); ("RHS 60x60x5.0", (600, 600, 50, 1000));
   ("RHS 70x50x5.0", (700, 500, 50, 1000)); ("RHS 50x70x5.0", (500, 700, 50, 1000)); ("RHS 80x40x5.0", (800, 400, 50, 1000)); ("RHS 40x80x5.0", (400, 800, 50, 1000));
   ("RHS 100x50x4.0", (1000, 500, 40, 800)); ("RHS 50x100x4.0", (500, 1000, 40, 800)); ("RHS 100x100x3.0", (1000, 1000, 30, 600)); ("RHS 120x80x3.0", (1200, 800, 30, 600));
   ("RHS 80x120x3.0", (800, 1200, 30, 600)); ("RHS 140x60x3.0", (1400, 600, 30, 600)); ("RHS 60x140x3.0", (600, 1400, 30, 600)); ("RHS 150x50x3.0", (1500, 500, 30, 600));
   ("RHS 50x150x3.0", (500, 1500, 30, 600)); ("RHS 80x80x4.0", (800, 800, 40, 800)); ("RHS 100x60x4.0", (1000, 600, 40, 800)); ("RHS 60x100x4.0", (600, 1000, 40, 800));
   ("RHS 120x40x4.0", (1200, 400, 40, 800)); ("RHS 40x120x4.0", (400, 1200, 40, 800)); ("RHS 140x70x3.0", (1400, 700, 30, 600)); ("RHS 70x140x3.0", (700, 1400, 30, 600));
   ("RHS 70x70x5.0", (700, 700, 50, 1000)); ("RHS 80x60x5.0", (800, 600, 50, 1000)); ("RHS 60x80x5.0", (600, 800, 50, 1000)); ("RHS 90x50x5.0", (900, 500, 50, 1000));
   ("RHS 50x90x5.0", (500, 900, 50, 1000)); ("RHS 100x40x5.0", (1000, 400, 50, 1000)); ("RHS 40x100x5.0", (400, 1000, 50, 1000)); ("RHS 120x50x4.0", (1200, 500, 40, 800));
   ("RHS 50x120x4.0", (500, 1200, 40, 800)); ("RHS 110x110x3.0", (1100, 1100, 30, 600)); ("RHS 120x100x3.0", (1200, 1000, 30, 600)); ("RHS 100x120x3.0", (1000, 1200, 30, 600));
   ("RHS 140x80x3.0", (1400, 800, 30, 600)); ("RHS 80x140x3.0", (800, 1400, 30, 600)); ("RHS 90x90x4.0", (900, 900, 40, 800)); ("RHS 100x50x5.0", (1000, 500, 50, 1000));
   ("RHS 50x100x5.0", (500, 1000, 50, 1000)); ("RHS 100x80x4.0", (1000, 800, 40, 800)); ("RHS 80x100x4.0", (800, 1000, 40, 800)); ("RHS 120x60x4.0", (1200, 600, 40, 800));
   ("RHS 60x120x4.0", (600, 1200, 40, 800)); ("RHS 120x120x3.0", (1200, 1200, 30, 600)); ("RHS 160x80x3.0", (1600, 800, 30, 600)); ("RHS 80x160x3.0", (800, 1600, 30, 600));
   ("RHS 80x80x5.0", (800, 800, 50, 1000)); ("RHS 100x60x5.0", (1000, 600, 50, 1000)); ("RHS 60x100x5.0", (600, 1000, 50, 1000)); ("RHS 120x40x5.0", (1200, 400, 50, 1000));
   ("RHS 40x120x5.0", (400, 1200, 50, 1000)); ("RHS 150x100x3.0", (1500, 1000, 30, 600)); ("RHS 100x150x3.0", (1000, 1500, 30, 600)); ("RHS 160x90x3.0", (1600, 900, 30, 600));
   ("RHS 90x160x3.0", (900, 1600, 30, 600)); ("RHS 100x100x4.0", (1000, 1000, 40, 800)); ("RHS 120x80x4.0", (1200, 800, 40, 800)); ("RHS 80x120x4.0", (800, 1200, 40, 800));
   ("RHS 140x60x4.0", (1400, 600, 40, 800)); ("RHS 60x140x4.0", (600, 1400, 40, 800)); ("RHS 150x50x4.0", (1500, 500, 40, 800)); ("RHS 50x150x4.0", (500, 1500, 40, 800));
   ("RHS 120x50x5.0", (1200, 500, 50, 1000)); ("RHS 50x120x5.0", (500, 1200, 50, 1000)); ("RHS 100x50x6.0", (1000, 500, 60, 1200)); ("RHS 50x100x6.0", (500, 1000, 60, 1200));
   ("RHS 140x70x4.0", (1400, 700, 40, 800)); ("RHS 70x140x4.0", (700, 1400, 40, 800)); ("RHS 90x90x5.0", (900, 900, 50, 1000)); ("RHS 100x80x5.0", (1000, 800, 50, 1000));
   ("RHS 80x100x5.0", (800, 1000, 50, 1000)); ("RHS 120x60x5.0", (1200, 600, 50, 1000)); ("RHS 60x120x5.0", (600, 1200, 50, 1000)); ("RHS 110x110x4.0", (1100, 1100, 40, 800));
   ("RHS 120x100x4.0", (1200, 1000, 40, 800)); ("RHS 100x120x4.0", (1000, 1200, 40, 800)); ("RHS 140x80x4.0", (1400, 800, 40, 800)); ("RHS 80x140x4.0", (800, 1400, 40, 800));
   ("RHS 80x80x6.0", (800, 800, 60, 1200)); ("RHS 100x60x6.0", (1000, 600, 60, 1200)); ("RHS 60x100x6.0", (600, 1000, 60, 1200)); ("RHS 120x40x6.0", (1200, 400, 60, 1200));
   ("RHS 40x120x6.0", (400, 1200, 60, 1200)); ("RHS 160x70x4.0", (1600, 700, 40, 800)); ("RHS 70x160x4.0", (700, 1600, 40, 800)); ("RHS 120x120x4.0", (1200, 1200, 40, 800));
   ("RHS 120x50x6.0", (1200, 500, 60, 1200)); ("RHS 50x120x6.0", (500, 1200, 60, 1200)); ("RHS 160x80x4.0", (1600, 800, 40, 800)); ("RHS 80x160x4.0", (800, 1600, 40, 800));
   ("RHS 100x100x5.0", (1000, 1000, 50, 1000)); ("RHS 120x80x5.0", (1200, 800, 50, 1000)); ("RHS 80x120x5.0", (800, 1200, 50, 1000)); ("RHS 140x60x5.0", (1400, 600, 50, 1000));
   ("RHS 60x140x5.0", (600, 1400, 50, 1000)); ("RHS 150x50x5.0", (1500, 500, 50, 1000)); ("RHS 50x150x5.0", (500, 1500, 50, 1000)); ("RHS 150x100x4.0", (1500, 1000, 40, 800));
   ("RHS 100x150x4.0", (1000, 1500, 40, 800)); ("RHS 160x90x4.0", (1600, 900, 40, 800)); ("RHS 90x160x4.0", (900, 1600, 40, 800)); ("RHS 90x90x6.0", (900, 900, 60, 1200));
   ("RHS 100x80x6.0", (1000, 800, 60, 1200)); ("RHS 80x100x6.0", (800, 1000, 60, 1200)); ("RHS 120x60x6.0", (1200, 600, 60, 1200)); ("RHS 60x120x6.0", (600, 1200, 60, 1200));
   ("RHS 140x70x5.0", (1400, 700, 50, 1000)); ("RHS 70x140x5.0", (700, 1400, 50, 1000)); ("RHS 110x110x5.0", (1100, 1100, 50, 1000)); ("RHS 120x100x5.0", (1200, 1000, 50, 1000));
   ("RHS 100x120x5.0", (1000, 1200, 50, 1000)); ("RHS 140x80x5.0", (1400, 800, 50, 1000)); ("RHS 80x140x5.0", (800, 1400, 50, 1000)); ("RHS 140x140x4.0", (1400, 1400, 40, 800));
   ("RHS 160x70x5.0", (1600, 700, 50, 1000)); ("RHS 70x160x5.0", (700, 1600, 50, 1000)); ("RHS 180x100x4.0", (1800, 1000, 40, 800)); ("RHS 100x180x4.0", (1000, 1800, 40, 800));
   ("RHS 200x80x4.0", (2000, 800, 40, 800)); ("RHS 80x200x4.0", (800, 2000, 40, 800)); ("RHS 100x100x6.0", (1000, 1000, 60, 1200)); ("RHS 120x80x6.0", (1200, 800, 60, 1200));
   ("RHS 80x120x6.0", (800, 1200, 60, 1200)); ("RHS 140x60x6.0", (1400, 600, 60, 1200)); ("RHS 60x140x6.0", (600, 1400, 60, 1200)); ("RHS 150x50x6.0", (1500, 500, 60, 1200));
   ("RHS 50x150x6.0", (500, 1500, 60, 1200)); ("RHS 120x120x5.0", (1200, 1200, 50, 1000)); ("RHS 160x80x5.0", (1600, 800, 50, 1000)); ("RHS 80x160x5.0", (800, 1600, 50, 1000));
   ("RHS 140x70x6.0", (1400, 700, 60, 1200)); ("RHS 70x140x6.0", (700, 1400, 60, 1200)); ("RHS 150x150x4.0", (1500, 1500, 40, 800)); ("RHS 180x120x4.0", (1800, 1200, 40, 800));
   ("RHS 120x180x4.0", (1200, 1800, 40, 800)); ("RHS 200x100x4.0", (2000, 1000, 40, 800)); ("RHS 100x200x4.0", (1000, 2000, 40, 800)); ("RHS 150x100x5.0", (1500, 1000, 50, 1000));
   ("RHS 100x150x5.0", (1000, 1500, 50, 1000)); ("RHS 160x90x5.0", (1600, 900, 50, 1000)); ("RHS 90x160x5.0", (900, 1600, 50, 1000)); ("RHS 110x110x6.0", (1100, 1100, 60, 1200));
   ("RHS 120x100x6.0", (1200, 1000, 60, 1200)); ("RHS 100x120x6.0", (1000, 1200, 60, 1200)); ("RHS 140x80x6.0", (1400, 800, 60, 1200)); ("RHS 80x140x6.0", (800, 1400, 60, 1200));
   ("RHS 160x160x4.0", (1600, 1600, 40, 800)); ("RHS 100x100x7.1", (1000, 1000, 71, 1775)); ("RHS 120x80x7.1", (1200, 800, 71, 1775)); ("RHS 80x120x7.1", (800, 1200, 71, 1775));
   ("RHS 120x120x5.6", (1200, 1200, 56, 1120)); ("RHS 160x70x6.0", (1600, 700, 60, 1200)); ("RHS 70x160x6.0", (700, 1600, 60, 1200)); ("RHS 120x120x6.0", (1200, 1200, 60, 1200));
   ("RHS 140x140x5.0", (1400, 1400, 50, 1000)); ("RHS 180x100x5.0", (1800, 1000, 50, 1000)); ("RHS 100x180x5.0", (1000, 1800, 50, 1000)); ("RHS 200x80x5.0", (2000, 800, 50, 1000));
   ("RHS 80x200x5.0", (800, 2000, 50, 1000)); ("RHS 160x80x6.0", (1600, 800, 60, 1200)); ("RHS 80x160x6.0", (800, 1600, 60, 1200)); ("RHS 100x100x8.0", (1000, 1000, 80, 2000));
   ("RHS 120x80x8.0", (1200, 800, 80, 2000)); ("RHS 80x120x8.0", (800, 1200, 80, 2000)); ("RHS 150x100x6.0", (1500, 1000, 60, 1200)); ("RHS 100x150x6.0", (1000, 1500, 60, 1200));
   ("RHS 160x90x6.0", (1600, 900, 60, 1200)); ("RHS 90x160x6.0", (900, 1600, 60, 1200)); ("RHS 150x150x5.0", (1500, 1500, 50, 1000)); ("RHS 180x120x5.0", (1800, 1200, 50, 1000));
   ("RHS 120x180x5.0", (1200, 1800, 50, 1000)); ("RHS 200x100x5.0", (2000, 1000, 50, 1000)); ("RHS 100x200x5.0", (1000, 2000, 50, 1000)); ("RHS 140x140x5.6", (1400, 1400, 56, 1120));
   ("RHS 180x100x5.6", (1800, 1000, 56, 1120)); ("RHS 100x180x5.6", (1000, 1800, 56, 1120)); ("RHS 120x80x8.8", (1200, 800, 88, 2200)); ("RHS 80x120x8.8", (800, 1200, 88, 2200));
   ("RHS 120x120x7.1", (1200, 1200, 71, 1775)); ("RHS 160x160x5.0", (1600, 1600, 50, 1000)); ("RHS 160x80x7.1", (1600, 800, 71, 1775)); ("RHS 80x160x7.1", (800, 1600, 71, 1775));
   ("RHS 200x120x5.0", (2000, 1200, 50, 1000)); ("RHS 120x200x5.0", (1200, 2000, 50, 1000)); ("RHS 140x140x6.0", (1400, 1400, 60, 1200)); ("RHS 180x100x6.0", (1800, 1000, 60, 1200));
   ("RHS 100x180x6.0", (1000, 1800, 60, 1200)); ("RHS 200x80x6.0", (2000, 800, 60, 1200)); ("RHS 80x200x6.0", (800, 2000, 60, 1200)); ("RHS 150x100x7.1", (1500, 1000, 71, 1775));
   ("RHS 100x150x7.1", (1000, 1500, 71, 1775)); ("RHS 160x90x7.1", (1600, 900, 71, 1775)); ("RHS 90x160x7.1", (900, 1600, 71, 1775)); ("RHS 160x70x8.0", (1600, 700, 80, 2000));
   ("RHS 70x160x8.0", (700, 1600, 80, 2000)); ("RHS 220x120x5.0", (2200, 1200, 50, 1000)); ("RHS 120x220x5.0", (1200, 2200, 50, 1000)); ("RHS 100x100x10.0", (1000, 1000, 100, 2500));
   ("RHS 120x80x10.0", (1200, 800, 100, 2500)); ("RHS 80x120x10.0", (800, 1200, 100, 2500)); ("RHS 250x100x5.0", (2500, 1000, 50, 1000)); ("RHS 100x250x5.0", (1000, 2500, 50, 1000));
   ("RHS 120x120x8.0", (1200, 1200, 80, 2000)); ("RHS 150x150x6.0", (1500, 1500, 60, 1200)); ("RHS 160x80x8.0", (1600, 800, 80, 2000)); ("RHS 80x160x8.0", (800, 1600, 80, 2000));
   ("RHS 180x120x6.0", (1800, 1200, 60, 1200)); ("RHS 120x180x6.0", (1200, 1800, 60, 1200)); ("RHS 200x100x6.0", (2000, 1000, 60, 1200)); ("RHS 100x200x6.0", (1000, 2000, 60, 1200));
   ("RHS 180x180x5.0", (1800, 1800, 50, 1000)); ("RHS 150x100x8.0", (1500, 1000, 80, 2000)); ("RHS 100x150x8.0", (1000, 1500, 80, 2000)); ("RHS 160x90x8.0", (1600, 900, 80, 2000));
   ("RHS 90x160x8.0", (900, 1600, 80, 2000)); ("RHS 140x140x7.1", (1400, 1400, 71, 1775)); ("RHS 160x160x6.0", (1600, 1600, 60, 1200)); ("RHS 180x100x7.1", (1800, 1000, 71, 1775));
   ("RHS 100x180x7.1", (1000, 1800, 71, 1775)); ("RHS 200x80x7.1", (2000, 800, 71, 1775)); ("RHS 80x200x7.1", (800, 2000, 71, 1775)); ("RHS 200x120x6.0", (2000, 1200, 60, 1200));
   ("RHS 120x200x6.0", (1200, 2000, 60, 1200)); ("RHS 120x120x8.8", (1200, 1200, 88, 2200)); ("RHS 150x100x8.8", (1500, 1000, 88, 2200)); ("RHS 100x150x8.8", (1000, 1500, 88, 2200));
   ("RHS 160x90x8.8", (1600, 900, 88, 2200)); ("RHS 90x160x8.8", (900, 1600, 88, 2200)); ("RHS 200x200x5.0", (2000, 2000, 50, 1000)); ("RHS 250x150x5.0", (2500, 1500, 50, 1000));
   ("RHS 150x250x5.0", (1500, 2500, 50, 1000)); ("RHS 300x100x5.0", (3000, 1000, 50, 1000)); ("RHS 100x300x5.0", (1000, 3000, 50, 1000)); ("RHS 220x120x6.0", (2200, 1200, 60, 1200));
   ("RHS 120x220x6.0", (1200, 2200, 60, 1200)); ("RHS 150x150x7.1", (1500, 1500, 71, 1775)); ("RHS 180x120x7.1", (1800, 1200, 71, 1775)); ("RHS 120x180x7.1", (1200, 1800, 71, 1775));
   ("RHS 200x100x7.1", (2000, 1000, 71, 1775)); ("RHS 100x200x7.1", (1000, 2000, 71, 1775)); ("RHS 250x100x6.0", (2500, 1000, 60, 1200)); ("RHS 100x250x6.0", (1000, 2500, 60, 1200));
   ("RHS 140x140x8.0", (1400, 1400, 80, 2000)); ("RHS 180x100x8.0", (1800, 1000, 80, 2000)); ("RHS 100x180x8.0", (1000, 1800, 80, 2000)); ("RHS 200x80x8.0", (2000, 800, 80, 2000));
   ("RHS 80x200x8.0", (800, 2000, 80, 2000)); ("RHS 120x120x10.0", (1200, 1200, 100, 2500)); ("RHS 160x80x10.0", (1600, 800, 100, 2500)); ("RHS 80x160x10.0", (800, 1600, 100, 2500));
   ("RHS 180x180x6.0", (1800, 1800, 60, 1200)); ("RHS 160x160x7.1", (1600, 1600, 71, 1775)); ("RHS 200x120x7.1", (2000, 1200, 71, 1775)); ("RHS 120x200x7.1", (1200, 2000, 71, 1775));
   ("RHS 150x100x10.0", (1500, 1000, 100, 2500)); ("RHS 100x150x10.0", (1000, 1500, 100, 2500)); ("RHS 150x150x8.0", (1500, 1500, 80, 2000)); ("RHS 180x120x8.0", (1800, 1200, 80, 2000));
   ("RHS 120x180x8.0", (1200, 1800, 80, 2000)); ("RHS 200x100x8.0", (2000, 1000, 80, 2000)); ("RHS 100x200x8.0", (1000, 2000, 80, 2000)); ("RHS 140x140x8.8", (1400, 1400, 88, 2200));
   ("RHS 180x100x8.8", (1800, 1000, 88, 2200)); ("RHS 100x180x8.8", (1000, 1800, 88, 2200)); ("RHS 200x80x8.8", (2000, 800, 88, 2200)); ("RHS 80x200x8.8", (800, 2000, 88, 2200));
   ("RHS 220x120x7.1", (2200, 1200, 71, 1775)); ("RHS 120x220x7.1", (1200, 2200, 71, 1775)); ("RHS 200x200x6.0", (2000, 2000, 60, 1200)); ("RHS 250x150x6.0", (2500, 1500, 60, 1200));
   ("RHS 150x250x6.0", (1500, 2500, 60, 1200)); ("RHS 260x140x6.0", (2600, 1400, 60, 1200)); ("RHS 140x260x6.0", (1400, 2600, 60, 1200)); ("RHS 300x100x6.0", (3000, 1000, 60, 1200));
   ("RHS 100x300x6.0", (1000, 3000, 60, 1200)); ("RHS 160x160x8.0", (1600, 1600, 80, 2000)); ("RHS 200x120x8.0", (2000, 1200, 80, 2000)); ("RHS 120x200x8.0", (1200, 2000, 80, 2000));
   ("RHS 150x150x8.8", (1500, 1500, 88, 2200)); ("RHS 180x120x8.8", (1800, 1200, 88, 2200)); ("RHS 120x180x8.8", (1200, 1800, 88, 2200)); ("RHS 200x100x8.8", (2000, 1000, 88, 2200));
   ("RHS 100x200x8.8", (1000, 2000, 88, 2200)); ("RHS 180x180x7.1", (1800, 1800, 71, 1775)); ("RHS 140x140x10.0", (1400, 1400, 100, 2500)); ("RHS 180x100x10.0", (1800, 1000, 100, 2500));
   ("RHS 100x180x10.0", (1000, 1800, 100, 2500)); ("RHS 200x80x10.0", (2000, 800, 100, 2500)); ("RHS 80x200x10.0", (800, 2000, 100, 2500)); ("RHS 220x120x8.0", (2200, 1200, 80, 2000));
   ("RHS 120x220x8.0", (1200, 2200, 80, 2000)); ("RHS 220x220x6.0", (2200, 2200, 60, 1200)); ("RHS 260x180x6.0", (2600, 1800, 60, 1200)); ("RHS 180x260x6.0", (1800, 2600, 60, 1200));
   ("RHS 160x160x8.8", (1600, 1600, 88, 2200)); ("RHS 200x120x8.8", (2000, 1200, 88, 2200)); ("RHS 120x200x8.8", (1200, 2000, 88, 2200)); ("RHS 250x100x8.0", (2500, 1000, 80, 2000));
   ("RHS 100x250x8.0", (1000, 2500, 80, 2000)); ("RHS 300x150x6.0", (3000, 1500, 60, 1200)); ("RHS 150x300x6.0", (1500, 3000, 60, 1200)); ("RHS 150x150x10.0", (1500, 1500, 100, 2500));
   ("RHS 180x120x10.0", (1800, 1200, 100, 2500)); ("RHS 120x180x10.0", (1200, 1800, 100, 2500)); ("RHS 200x100x10.0", (2000, 1000, 100, 2500)); ("RHS 100x200x10.0", (1000, 2000, 100, 2500));
   ("RHS 180x180x8.0", (1800, 1800, 80, 2000)); ("RHS 200x200x7.1", (2000, 2000, 71, 1775)); ("RHS 250x150x7.1", (2500, 1500, 71, 1775)); ("RHS 150x250x7.1", (1500, 2500, 71, 1775));
   ("RHS 260x140x7.1", (2600, 1400, 71, 1775)); ("RHS 140x260x7.1", (1400, 2600, 71, 1775)); ("RHS 300x100x7.1", (3000, 1000, 71, 1775)); ("RHS 100x300x7.1", (1000, 3000, 71, 1775));
   ("RHS 220x120x8.8", (2200, 1200, 88, 2200)); ("RHS 120x220x8.8", (1200, 2200, 88, 2200)); ("RHS 160x160x10.0", (1600, 1600, 100, 2500)); ("RHS 200x120x10.0", (2000, 1200, 100, 2500));
   ("RHS 120x200x10.0", (1200, 2000, 100, 2500)); ("RHS 180x180x8.8", (1800, 1800, 88, 2200)); ("RHS 250x250x6.0", (2500, 2500, 60, 1200)); ("RHS 300x200x6.0", (3000, 2000, 60, 1200));
   ("RHS 200x300x6.0", (2000, 3000, 60, 1200)); ("RHS 220x220x7.1", (2200, 2200, 71, 1775)); ("RHS 260x180x7.1", (2600, 1800, 71, 1775)); ("RHS 180x260x7.1", (1800, 2600, 71, 1775));
   ("RHS 200x200x8.0", (2000, 2000, 80, 2000)); ("RHS 250x150x8.0", (2500, 1500, 80, 2000)); ("RHS 150x250x8.0", (1500, 2500, 80, 2000)); ("RHS 260x140x8.0", (2600, 1400, 80, 2000));
   ("RHS 140x260x8.0", (1400, 2600, 80, 2000)); ("RHS 300x100x8.0", (3000, 1000, 80, 2000)); ("RHS 100x300x8.0", (1000, 3000, 80, 2000)); ("RHS 260x260x6.0", (2600, 2600, 60, 1200));
   ("RHS 300x150x7.1", (3000, 1500, 71, 1775)); ("RHS 150x300x7.1", (1500, 3000, 71, 1775)); ("RHS 220x120x10.0", (2200, 1200, 100, 2500)); ("RHS 120x220x10.0", (1200, 2200, 100, 2500));
   ("RHS 150x150x12.5", (1500, 1500, 125, 3750)); ("RHS 180x120x12.5", (1800, 1200, 125, 3750)); ("RHS 120x180x12.5", (1200, 1800, 125, 3750)); ("RHS 200x100x12.5", (2000, 1000, 125, 3750));
   ("RHS 100x200x12.5", (1000, 2000, 125, 3750)); ("RHS 250x100x10.0", (2500, 1000, 100, 2500)); ("RHS 100x250x10.0", (1000, 2500, 100, 2500)); ("RHS 180x180x10.0", (1800, 1800, 100, 2500));
   ("RHS 200x200x8.8", (2000, 2000, 88, 2200)); ("RHS 250x150x8.8", (2500, 1500, 88, 2200)); ("RHS 150x250x8.8", (1500, 2500, 88, 2200)); ("RHS 260x140x8.8", (2600, 1400, 88, 2200));
   ("RHS 140x260x8.8", (1400, 2600, 88, 2200)); ("RHS 300x100x8.8", (3000, 1000, 88, 2200)); ("RHS 100x300x8.8", (1000, 3000, 88, 2200)); ("RHS 220x220x8.0", (2200, 2200, 80, 2000));
   ("RHS 260x180x8.0", (2600, 1800, 80, 2000)); ("RHS 180x260x8.0", (1800, 2600, 80, 2000)); ("RHS 160x160x12.5", (1600, 1600, 125, 3750)); ("RHS 200x120x12.5", (2000, 1200, 125, 3750));
   ("RHS 120x200x12.5", (1200, 2000, 125, 3750)); ("RHS 250x250x7.1", (2500, 2500, 71, 1775)); ("RHS 300x150x8.0", (3000, 1500, 80, 2000)); ("RHS 150x300x8.0", (1500, 3000, 80, 2000));
   ("RHS 300x200x7.1", (3000, 2000, 71, 1775)); ("RHS 200x300x7.1", (2000, 3000, 71, 1775)); ("RHS 300x300x6.0", (3000, 3000, 60, 1200)); ("RHS 400x200x6.0", (4000, 2000, 60, 1200));
   ("RHS 200x400x6.0", (2000, 4000, 60, 1200)); ("RHS 260x260x7.1", (2600, 2600, 71, 1775)); ("RHS 220x220x8.8", (2200, 2200, 88, 2200)); ("RHS 260x180x8.8", (2600, 1800, 88, 2200));
   ("RHS 180x260x8.8", (1800, 2600, 88, 2200)); ("RHS 200x200x10.0", (2000, 2000, 100, 2500)); ("RHS 250x150x10.0", (2500, 1500, 100, 2500)); ("RHS 150x250x10.0", (1500, 2500, 100, 2500));
   ("RHS 260x140x10.0", (2600, 1400, 100, 2500)); ("RHS 140x260x10.0", (1400, 2600, 100, 2500)); ("RHS 300x100x10.0", (3000, 1000, 100, 2500)); ("RHS 100x300x10.0", (1000, 3000, 100, 2500));
   ("RHS 250x250x8.0", (2500, 2500, 80, 2000)); ("RHS 300x200x8.0", (3000, 2000, 80, 2000)); ("RHS 200x300x8.0", (2000, 3000, 80, 2000)); ("RHS 180x180x12.5", (1800, 1800, 125, 3750));
   ("RHS 260x260x8.0", (2600, 2600, 80, 2000)); ("RHS 220x220x10.0", (2200, 2200, 100, 2500)); ("RHS 260x180x10.0", (2600, 1800, 100, 2500)); ("RHS 180x260x10.0", (1800, 2600, 100, 2500));
   ("RHS 300x300x7.1", (3000, 3000, 71, 1775)); ("RHS 400x200x7.1", (4000, 2000, 71, 1775)); ("RHS 200x400x7.1", (2000, 4000, 71, 1775)); ("RHS 250x250x8.8", (2500, 2500, 88, 2200));
   ("RHS 300x200x8.8", (3000, 2000, 88, 2200)); ("RHS 200x300x8.8", (2000, 3000, 88, 2200)); ("RHS 300x150x10.0", (3000, 1500, 100, 2500)); ("RHS 150x300x10.0", (1500, 3000, 100, 2500));
   ("RHS 260x260x8.8", (2600, 2600, 88, 2200)); ("RHS 200x200x12.5", (2000, 2000, 125, 3750)); ("RHS 250x150x12.5", (2500, 1500, 125, 3750)); ("RHS 150x250x12.5", (1500, 2500, 125, 3750));
   ("RHS 260x140x12.5", (2600, 1400, 125, 3750)); ("RHS 140x260x12.5", (1400, 2600, 125, 3750)); ("RHS 300x100x12.5", (3000, 1000, 125, 3750)); ("RHS 100x300x12.5", (1000, 3000, 125, 3750));
   ("RHS 300x300x8.0", (3000, 3000, 80, 2000)); ("RHS 400x200x8.0", (4000, 2000, 80, 2000)); ("RHS 200x400x8.0", (2000, 4000, 80, 2000)); ("RHS 250x250x10.0", (2500, 2500, 100, 2500));
   ("RHS 300x200x10.0", (3000, 2000, 100, 2500)); ("RHS 200x300x10.0", (2000, 3000, 100, 2500)); ("RHS 260x260x10.0", (2600, 2600, 100, 2500)); ("RHS 220x220x12.5", (2200, 2200, 125, 3750));
   ("RHS 300x150x12.5", (3000, 1500, 125, 3750)); ("RHS 150x300x12.5", (1500, 3000, 125, 3750)); ("RHS 300x300x8.8", (3000, 3000, 88, 2200)); ("RHS 400x200x8.8", (4000, 2000, 88, 2200));
   ("RHS 200x400x8.8", (2000, 4000, 88, 2200)); ("RHS 250x250x12.5", (2500, 2500, 125, 3750)); ("RHS 300x200x12.5", (3000, 2000, 125, 3750)); ("RHS 200x300x12.5", (2000, 3000, 125, 3750));
   ("RHS 300x300x10.0", (3000, 3000, 100, 2500)); ("RHS 400x200x10.0", (4000, 2000, 100, 2500)); ("RHS 200x400x10.0", (2000, 4000, 100, 2500)); ("RHS 260x260x12.5", (2600, 2600, 125, 3750));
   ("RHS 300x300x12.5", (3000, 3000, 125, 3750)); ("RHS 400x200x12.5", (4000, 2000, 125, 3750)); ("RHS 200x400x12.5", (2000, 4000, 125, 3750))].
(** shs_profiles (sections/steel/catalogue.py:455-549): h, b, t in tenths, r in hundredths of a millimetre. *)
Definition shs_t : table (Z * Z * Z * Z) :=
  [("SHS 25X25X2.0", (250, 250, 20, 400)); ("SHS 25X25X2.5", (250, 250, 25, 500)); ("SHS 30X30X2.0", (300, 300, 20, 400)); ("SHS 25X25X3.0", (250, 250, 30, 600));
   ("SHS 30X30X2.5", (300, 300, 25, 500)); ("SHS 40X40X2.0", (400, 400, 20, 400)); ("SHS 30X30X3.0", (300, 300, 30, 600)); ("SHS 40X40X2.5", (400, 400, 25, 500));
   ("SHS 50X50X2.0", (500, 500, 20, 400)); ("SHS 40X40X3.0", (400, 400, 30, 600)); ("SHS 60X60X2.0", (600, 600, 20, 400)); ("SHS 50X50X2.5", (500, 500, 25, 500));
   ("SHS 40X40X4.0", (400, 400, 40, 800)); ("SHS 50X50X3.0", (500, 500, 30, 600)); ("SHS 60X60X2.5", (600, 600, 25, 500)); ("SHS 70X70X2.5", (700, 700, 25, 500));
   ("SHS 60X60X3.0", (600, 600, 30, 600)); ("SHS 50X50X4.0", (500, 500, 40, 800)); ("SHS 70X70X3.0", (700, 700, 30, 600)); ("SHS 50X50X5.0", (500, 500, 50, 1000));
   ("SHS 60X60X4.0", (600, 600, 40, 800)); ("SHS 80X80X3.0", (800, 800, 30, 600)); ("SHS 70X70X4.0", (700, 700, 40, 800)); ("SHS 90X90X3.0", (900, 900, 30, 600));
   ("SHS 60X60X5.0", (600, 600, 50, 1000)); ("SHS 80X80X4.0", (800, 800, 40, 800)); ("SHS 70X70X5.0", (700, 700, 50, 1000)); ("SHS 90X90X4.0", (900, 900, 40, 800));
   ("SHS 80X80X5.0", (800, 800, 50, 1000)); ("SHS 100X100X4.0", (1000, 1000, 40, 800)); ("SHS 90X90X5.0", (900, 900, 50, 1000)); ("SHS 110X110X4.0", (1100, 1100, 40, 800));
   ("SHS 80X80X6.0", (800, 800, 60, 1200)); ("SHS 120X120X4.0", (1200, 1200, 40, 800)); ("SHS 100X100X5.0", (1000, 1000, 50, 1000)); ("SHS 90X90X6.0", (900, 900, 60, 1200));
   ("SHS 110X110X5.0", (1100, 1100, 50, 1000)); ("SHS 100X100X6.0", (1000, 1000, 60, 1200)); ("SHS 120X120X5.0", (1200, 1200, 50, 1000)); ("SHS 110X110X6.0", (1100, 1100, 60, 1200));
   ("SHS 100X100X7.1", (1000, 1000, 71, 1775)); ("SHS 120X120X5.6", (1200, 1200, 56, 1120)); ("SHS 140X140X5.0", (1400, 1400, 50, 1000)); ("SHS 120X120X6.0", (1200, 1200, 60, 1200));
   ("SHS 100X100X8.0", (1000, 1000, 80, 2000)); ("SHS 150X150X5.0", (1500, 1500, 50, 1000)); ("SHS 140X140X5.6", (1400, 1400, 56, 1120)); ("SHS 120X120X7.1", (1200, 1200, 71, 1775));
   ("SHS 140X140X6.0", (1400, 1400, 60, 1200)); ("SHS 100X100X10.0", (1000, 1000, 100, 2500)); ("SHS 150X150X6.0", (1500, 1500, 60, 1200)); ("SHS 120X120X8.0", (1200, 1200, 80, 2000));
   ("SHS 140X140X7.1", (1400, 1400, 71, 1775)); ("SHS 160X160X6.0", (1600, 1600, 60, 1200)); ("SHS 120X120X8.8", (1200, 1200, 88, 2200)); ("SHS 150X150X7.1", (1500, 1500, 71, 1775));
   ("SHS 140X140X8.0", (1400, 1400, 80, 2000)); ("SHS 120X120X10.0", (1200, 1200, 100, 2500)); ("SHS 180X180X6.0", (1800, 1800, 60, 1200)); ("SHS 160X160X7.1", (1600, 1600, 71, 1775));
   ("SHS 150X150X8.0", (1500, 1500, 80, 2000)); ("SHS 140X140X8.8", (1400, 1400, 88, 2200)); ("SHS 160X160X8.0", (1600, 1600, 80, 2000)); ("SHS 150X150X8.8", (1500, 1500, 88, 2200));
   ("SHS 180X180X7.1", (1800, 1800, 71, 1775)); ("SHS 140X140X10.0", (1400, 1400, 100, 2500)); ("SHS 160X160X8.8", (1600, 1600, 88, 2200)); ("SHS 150X150X10.0", (1500, 1500, 100, 2500));
   ("SHS 180X180X8.0", (1800, 1800, 80, 2000)); ("SHS 200X200X7.1", (2000, 2000, 71, 1775)); ("SHS 160X160X10.0", (1600, 1600, 100, 2500)); ("SHS 180X180X8.8", (1800, 1800, 88, 2200));
   ("SHS 220X220X7.1", (2200, 2200, 71, 1775)); ("SHS 200X200X8.0", (2000, 2000, 80, 2000)); ("SHS 150X150X12.5", (1500, 1500, 125, 3750)); ("SHS 180X180X10.0", (1800, 1800, 100, 2500));
   ("SHS 200X200X8.8", (2000, 2000, 88, 2200)); ("SHS 220X220X8.0", (2200, 2200, 80, 2000)); ("SHS 160X160X12.5", (1600, 1600, 125, 3750)); ("SHS 220X220X8.8", (2200, 2200, 88, 2200));
   ("SHS 200X200X10.0", (2000, 2000, 100, 2500)); ("SHS 250X250X8.0", (2500, 2500, 80, 2000)); ("SHS 180X180X12.5", (1800, 1800, 125, 3750)); ("SHS 220X220X10.0", (2200, 2200, 100, 2500));
   ("SHS 250X250X8.8", (2500, 2500, 88, 2200)); ("SHS 260X260X8.8", (2600, 2600, 88, 2200)); ("SHS 200X200X12.5", (2000, 2000, 125, 3750)); ("SHS 250X250X10.0", (2500, 2500, 100, 2500));
   ("SHS 260X260X10.0", (2600, 2600, 100, 2500)); ("SHS 220X220X12.5", (2200, 2200, 125, 3750)); ("SHS 250X250X12.5", (2500, 2500, 125, 3750)); ("SHS 300X300X10.0", (3000, 3000, 100, 2500));
   ("SHS 260X260X12.5", (2600, 2600, 125, 3750)); ("SHS 300X300X12.5", (3000, 3000, 125, 3750))].
(** chs_profiles (sections/steel/catalogue.py:1152-1285): d, t. *)
Definition chs_t : table (Z * Z) :=
  [("CHS 26.9X2.0", (269, 20)); ("CHS 26.9X2.5", (269, 25)); ("CHS 26.9X2.6", (269, 26)); ("CHS 33.7X2.0", (337, 20)); ("CHS 33.7X2.5", (337, 25)); ("CHS 33.7X2.6", (337, 26));
   ("CHS 33.7X3.0", (337, 30)); ("CHS 33.7X3.2", (337, 32)); ("CHS 42.4X2.0", (424, 20)); ("CHS 42.4X2.5", (424, 25)); ("CHS 42.4X2.6", (424, 26)); ("CHS 42.4X2.9", (424, 29));
   ("CHS 42.4X3.0", (424, 30)); ("CHS 42.4X3.2", (424, 32)); ("CHS 42.4X4.0", (424, 40)); ("CHS 48.3X2.0", (483, 20)); ("CHS 48.3X2.5", (483, 25)); ("CHS 48.3X2.6", (483, 26));
   ("CHS 48.3X3.0", (483, 30)); ("CHS 48.3X3.2", (483, 32)); ("CHS 48.3X4.0", (483, 40)); ("CHS 60.3X2.0", (603, 20)); ("CHS 60.3X2.5", (603, 25)); ("CHS 60.3X2.9", (603, 29));
   ("CHS 60.3X3.0", (603, 30)); ("CHS 60.3X3.2", (603, 32)); ("CHS 60.3X4.0", (603, 40)); ("CHS 60.3X5.0", (603, 50)); ("CHS 76.1X2.0", (761, 20)); ("CHS 76.1X2.5", (761, 25));
   ("CHS 76.1X2.9", (761, 29)); ("CHS 76.1X3.0", (761, 30)); ("CHS 76.1X4.0", (761, 40)); ("CHS 76.1X5.0", (761, 50)); ("CHS 76.1X6.3", (761, 63)); ("CHS 88.9X2.5", (889, 25));
   ("CHS 88.9X3.0", (889, 30)); ("CHS 88.9X3.2", (889, 32)); ("CHS 88.9X4.0", (889, 40)); ("CHS 88.9X5.0", (889, 50)); ("CHS 88.9X6.0", (889, 60)); ("CHS 88.9X6.3", (889, 63));
   ("CHS 101.6X2.5", (1016, 25)); ("CHS 101.6X3.0", (1016, 30)); ("CHS 101.6X3.6", (1016, 36)); ("CHS 101.6X4.0", (1016, 40)); ("CHS 101.6X5.0", (1016, 50)); ("CHS 101.6X6.0", (1016, 60));
   ("CHS 101.6X6.3", (1016, 63)); ("CHS 108.0X2.5", (1080, 25)); ("CHS 108.0X3.0", (1080, 30)); ("CHS 108.0X3.6", (1080, 36)); ("CHS 108.0X4.0", (1080, 40)); ("CHS 108.0X5.0", (1080, 50));
   ("CHS 108.0X6.0", (1080, 60)); ("CHS 108.0X6.3", (1080, 63)); ("CHS 114.3X2.5", (1143, 25)); ("CHS 114.3X3.0", (1143, 30)); ("CHS 114.3X3.6", (1143, 36)); ("CHS 114.3X4.0", (1143, 40));
   ("CHS 114.3X5.0", (1143, 50)); ("CHS 114.3X6.0", (1143, 60)); ("CHS 114.3X6.3", (1143, 63)); ("CHS 127.0X2.5", (1270, 25)); ("CHS 127.0X3.0", (1270, 30)); ("CHS 127.0X4.0", (1270, 40));
   ("CHS 127.0X5.0", (1270, 50)); ("CHS 127.0X6.0", (1270, 60)); ("CHS 127.0X6.3", (1270, 63)); ("CHS 133.0X2.5", (1330, 25)); ("CHS 133.0X3.0", (1330, 30)); ("CHS 133.0X4.0", (1330, 40));
   ("CHS 133.0X5.0", (1330, 50)); ("CHS 133.0X6.0", (1330, 60)); ("CHS 133.0X6.3", (1330, 63)); ("CHS 139.7X3.0", (1397, 30)); ("CHS 139.7X4.0", (1397, 40)); ("CHS 139.7X5.0", (1397, 50));
   ("CHS 139.7X6.0", (1397, 60)); ("CHS 139.7X6.3", (1397, 63)); ("CHS 139.7X8.0", (1397, 80)); ("CHS 139.7X10.0", (1397, 100)); ("CHS 152.4X3.0", (1524, 30)); ("CHS 152.4X4.0", (1524, 40));
   ("CHS 152.4X5.0", (1524, 50)); ("CHS 152.4X6.0", (1524, 60)); ("CHS 152.4X6.3", (1524, 63)); ("CHS 159.0X3.0", (1590, 30)); ("CHS 159.0X4.0", (1590, 40)); ("CHS 159.0X5.0", (1590, 50));
   ("CHS 159.0X6.0", (1590, 60)); ("CHS 159.0X6.3", (1590, 63)); ("CHS 168.3X3.0", (1683, 30)); ("CHS 168.3X3.2", (1683, 32)); ("CHS 168.3X4.0", (1683, 40)); ("CHS 168.3X4.5", (1683, 45));
   ("CHS 168.3X5.0", (1683, 50)); ("CHS 168.3X6.0", (1683, 60)); ("CHS 168.3X6.3", (1683, 63)); ("CHS 168.3X8.0", (1683, 80)); ("CHS 168.3X10.0", (1683, 100)); ("CHS 193.7X4.0", (1937, 40));
   ("CHS 193.7X5.0", (1937, 50)); ("CHS 193.7X6.0", (1937, 60)); ("CHS 193.7X6.3", (1937, 63)); ("CHS 193.7X8.0", (1937, 80)); ("CHS 193.7X10.0", (1937, 100)); ("CHS 193.7X12.5", (1937, 125));
   ("CHS 219.1X4.0", (2191, 40)); ("CHS 219.1X4.5", (2191, 45)); ("CHS 219.1X5.0", (2191, 50)); ("CHS 219.1X6.0", (2191, 60)); ("CHS 219.1X6.3", (2191, 63)); ("CHS 219.1X8.0", (2191, 80));
   ("CHS 219.1X10.0", (2191, 100)); ("CHS 219.1X12.5", (2191, 125)); ("CHS 244.5X6.0", (2445, 60)); ("CHS 244.5X8.0", (2445, 80)); ("CHS 244.5X10.0", (2445, 100)); ("CHS 244.5X12.5", (2445, 125));
   ("CHS 273.0X4.0", (2730, 40)); ("CHS 273.0X5.0", (2730, 50)); ("CHS 273.0X6.0", (2730, 60)); ("CHS 273.0X6.3", (2730, 63)); ("CHS 273.0X8.0", (2730, 80)); ("CHS 273.0X10.0", (2730, 100));
   ("CHS 273.0X12.5", (2730, 125)); ("CHS 323.9X4.0", (3239, 40)); ("CHS 323.9X5.0", (3239, 50)); ("CHS 323.9X6.0", (3239, 60)); ("CHS 323.9X6.3", (3239, 63)); ("CHS 323.9X8.0", (3239, 80));
   ("CHS 323.9X10.0", (3239, 100)); ("CHS 323.9X12.5", (3239, 125))].
(** The members of ISections (profiles/steel/isections.py:102-194). *)
Definition isections_t : table idims :=
  [("IPE80", (800, 460, 38, 52, 50)); ("IPE100", (1000, 550, 41, 57, 70)); ("IPE120", (1200, 640, 44, 63, 70)); ("IPE140", (1400, 730, 47, 69, 70));
   ("IPE160", (1600, 820, 50, 74, 90)); ("IPE180", (1800, 910, 53, 80, 90)); ("IPE200", (2000, 1000, 56, 85, 120)); ("IPE220", (2200, 1100, 59, 92, 120));
   ("IPE240", (2400, 1200, 62, 98, 150)); ("IPE270", (2700, 1350, 66, 102, 150)); ("IPE300", (3000, 1500, 71, 107, 150)); ("IPE330", (3300, 1600, 75, 115, 180));
   ("IPE360", (3600, 1700, 80, 127, 180)); ("IPE400", (4000, 1800, 86, 135, 210)); ("IPE450", (4500, 1900, 94, 146, 210)); ("IPE500", (5000, 2000, 102, 160, 210));
   ("IPE550", (5500, 2100, 111, 172, 240)); ("IPE600", (6000, 2200, 120, 190, 240)); ("HEA100", (960, 1000, 50, 80, 120)); ("HEA120", (1140, 1200, 50, 80, 120));
   ("HEA140", (1330, 1400, 55, 85, 120)); ("HEA160", (1520, 1600, 60, 90, 150)); ("HEA180", (1710, 1800, 60, 95, 150)); ("HEA200", (1900, 2000, 65, 100, 180));
   ("HEA220", (2100, 2200, 70, 110, 180)); ("HEA240", (2300, 2400, 75, 120, 210)); ("HEA260", (2500, 2600, 75, 125, 240)); ("HEA280", (2700, 2800, 80, 130, 240));
   ("HEA300", (2900, 3000, 85, 140, 270)); ("HEA320", (3100, 3000, 90, 155, 270)); ("HEA340", (3300, 3000, 95, 165, 270)); ("HEA360", (3500, 3000, 100, 175, 270));
   ("HEA400", (3900, 3000, 110, 190, 270)); ("HEA450", (4400, 3000, 115, 210, 270)); ("HEA500", (4900, 3000, 120, 230, 270)); ("HEA550", (5400, 3000, 125, 240, 270));
   ("HEA600", (5900, 3000, 130, 250, 270)); ("HEA650", (6400, 3000, 135, 260, 270)); ("HEA700", (6900, 3000, 145, 270, 270)); ("HEA800", (7900, 3000, 150, 280, 300));
   ("HEA900", (8900, 3000, 160, 300, 300)); ("HEA1000", (9900, 3000, 165, 310, 300)); ("HEB100", (1000, 1000, 60, 100, 120)); ("HEB120", (1200, 1200, 65, 110, 120));
   ("HEB140", (1400, 1400, 70, 120, 120)); ("HEB160", (1600, 1600, 80, 130, 150)); ("HEB180", (1800, 1800, 85, 140, 150)); ("HEB200", (2000, 2000, 90, 150, 180));
   ("HEB220", (2200, 2200, 95, 160, 180)); ("HEB240", (2400, 2400, 100, 170, 210)); ("HEB260", (2600, 2600, 100, 175, 240)); ("HEB280", (2800, 2800, 105, 180, 240));
   ("HEB300", (3000, 3000, 110, 190, 270)); ("HEB320", (3200, 3000, 115, 205, 270)); ("HEB340", (3400, 3000, 120, 215, 270)); ("HEB360", (3600, 3000, 125, 225, 270));
   ("HEB400", (4000, 3000, 135, 240, 270)); ("HEB450", (4500, 3000, 140, 260, 270)); ("HEB500", (5000, 3000, 145, 280, 270)); ("HEB550", (5500, 3000, 150, 290, 270));
   ("HEB600", (6000, 3000, 155, 300, 270)); ("HEB650", (6500, 3000, 160, 310, 270)); ("HEB700", (7000, 3000, 170, 320, 270)); ("HEB800", (8000, 3000, 175, 330, 300));
   ("HEB900", (9000, 3000, 185, 350, 300)); ("HEB1000", (10000, 3000, 190, 360, 300)); ("HEM100", (1200, 1060, 120, 200, 120)); ("HEM120", (1400, 1260, 125, 210, 120));
   ("HEM140", (1600, 1460, 130, 220, 120)); ("HEM160", (1800, 1660, 140, 230, 150)); ("HEM180", (2000, 1860, 145, 240, 150)); ("HEM200", (2200, 2060, 150, 250, 180));
   ("HEM220", (2400, 2260, 155, 260, 180)); ("HEM240", (2700, 2480, 180, 320, 210)); ("HEM260", (2900, 2680, 180, 325, 240)); ("HEM280", (3100, 2880, 185, 330, 240));
   ("HEM300", (3400, 3100, 210, 390, 270)); ("HEM320", (3590, 3090, 210, 400, 270)); ("HEM340", (3770, 3090, 210, 400, 270)); ("HEM360", (3950, 3080, 210, 400, 270));
   ("HEM400", (4320, 3070, 210, 400, 270)); ("HEM450", (4780, 3070, 210, 400, 270)); ("HEM500", (5240, 3060, 210, 400, 270)); ("HEM550", (5720, 3060, 210, 400, 270));
   ("HEM600", (6200, 3050, 210, 400, 270)); ("HEM650", (6680, 3050, 210, 400, 270)); ("HEM700", (7160, 3040, 210, 400, 270)); ("HEM800", (8140, 3030, 210, 400, 300));
   ("HEM900", (9100, 3020, 210, 400, 300)); ("HEM1000", (10080, 3020, 210, 400, 300))].
(** mat (sections/steel/catalogue.py:8-18): fy, fu, E in MPa. *)
Definition mat_t : table (Z * Z * Z) :=
  [("S235", (235, 360, 210000)); ("S275", (275, 430, 210000)); ("S355", (355, 510, 210000)); ("S420", (420, 500, 210000));
   ("S355MC", (355, 430, 210000)); ("S500MC", (500, 550, 210000)); ("S700MC", (700, 750, 210000)); ("S355ML", (355, 470, 210000));
   ("S500ML", (500, 570, 210000)); ("S700E/F", (700, 780, 210000))].
(** steels (materials/steel_data.py:16-33). *)
Definition steels_t : table (Z * Z * Z) :=
  [("S235", (235, 360, 210000)); ("S275", (275, 430, 210000)); ("S355", (355, 510, 210000)); ("S420", (420, 500, 210000));
   ("S460M", (460, 540, 210000)); ("S460Q", (460, 570, 210000)); ("B500B", (500, 550, 210000)); ("S220GD", (220, 300, 210000));
   ("S250GD", (250, 330, 210000)); ("S280GD", (280, 360, 210000)); ("S320GD", (320, 390, 210000)); ("S350GD", (350, 420, 210000));
   ("S355MC", (355, 430, 210000)); ("S500", (500, 550, 210000)); ("S700", (700, 750, 210000)); ("DP1000", (590, 980, 210000));
   ("HCT980X", (590, 980, 210000))].
(** stainless, grade 1.4301 (materials/steel_data.py:35-39), by product. *)
Definition stainless_t : table (Z * Z * Z) :=
  [("cold_strip", (230, 540, 200000)); ("hot_strip", (210, 520, 200000)); ("hot_plate", (210, 520, 200000)); ("sections", (190, 500, 200000))].
(** MATERIALS (frame2d/materials.py:12-39). *)
Definition f2d_t : table (Z * Z * Z) :=
  [("S235", (235, 360, 210000)); ("S275", (275, 430, 210000)); ("S355", (355, 510, 210000)); ("S280GD", (280, 360, 210000));
   ("S420", (420, 500, 210000)); ("S355MC", (355, 430, 210000)); ("S500MC", (500, 550, 210000)); ("S700MC", (700, 750, 210000));
   ("S355ML", (355, 470, 210000)); ("S500ML", (500, 570, 210000)); ("S700E/F", (700, 780, 210000))].
(** Steel (materials/steel.py:36-51), the class of default materials. *)
Definition msteel_t : table (Z * Z * Z) :=
  [("S235", (235, 360, 210000)); ("S275", (275, 430, 210000)); ("S355", (355, 510, 210000)); ("S355J2H", (355, 510, 210000)); ("S420", (420, 500, 210000))].
(** StainlessSteel (materials/steel.py:54-62); names of the products as in steel_data.py. *)
Definition mstainless_t : table (Z * Z * Z) :=
  [("cold_strip", (230, 540, 200)); ("hot_strip", (210, 520, 200)); ("hot_plate", (210, 520, 200)); ("sections", (190, 500, 200))].


(** \d in an ASCII string (catalogue.py:1293, 1324). *)
Definition is_digit (c : ascii) : bool := (N.leb 48 (N_of_ascii c) && N.leb (N_of_ascii c) 57)%bool.
(** \s in an ASCII string (catalogue.py:1332). *)
Definition is_space (c : ascii) : bool := let n := N_of_ascii c in (N.eqb n 32 || (N.leb 9 n && N.leb n 13) || (N.leb 28 n && N.leb n 31))%bool.
(** The longest prefix of characters with a property, and the rest: a greedy class with + in a pattern
    (catalogue.py:1293, 1324, 1332). *)
Fixpoint span (f : ascii -> bool) (s : string) : string * string :=
  match s with
  | "" => ("", "")
  | String c t => if f c then let '(a, b) := span f t in (String c a, b) else ("", s)
  end.
(** One match of \d+\.?\d at the start (catalogue.py:1324): the digits with a point and a digit, or at least two digits. *)
Definition number1 (s : string) : option (string * string) :=
  let '(ds, r) := span is_digit s in
  let plain := if Nat.leb 2 (String.length ds) then Some (ds, r) else None in
  match r with
  | String "." (String d r') => if (is_digit d && negb (String.eqb ds ""))%bool then Some (ds ++ String "." (String d ""), r') else plain
  | _ => plain
  end.
(** (\d+\.?\d)+ at the start (catalogue.py:1324): the group keeps its last repetition. [n]: fuel, the length. *)
Fixpoint numbers (n : nat) (s : string) : option (string * string) :=
  match n with
  | O => None
  | S n => match number1 s with
           | None => None
           | Some (m, r) => match numbers n r with Some x => Some x | None => Some (m, r) end
           end
  end.
(** re.findall('(\d+\.?\d)+', s) (catalogue.py:1324). *)
Fixpoint findall (n : nat) (s : string) : list string :=
  match n with
  | O => []
  | S n => match s with
           | "" => []
           | String _ t => match numbers (String.length s) s with Some (m, r) => m :: findall n r | None => findall n t end
           end
  end.
(** re.findall('(\S+)', key) (catalogue.py:1332). *)
Fixpoint words (n : nat) (s : string) : list string :=
  match n with
  | O => []
  | S n => match s with
           | "" => []
           | String c t => if is_space c then words n t else let '(w, r) := span (fun c => negb (is_space c)) s in w :: words n r
           end
  end.
(** int of a string of digits (catalogue.py:1293). *)
Definition int_of (s : string) : option N := option_map N.of_uint (NilZero.uint_of_string s).
(** str of a non-negative int (ISection.py:490, 518, 597). *)
Definition str_of (n : N) : string := NilZero.string_of_uint (N.to_uint n).
(** re.findall('\d+', key)[0] (catalogue.py:1293, 1303, 1313); [None]: IndexError. *)
Fixpoint first_digits (s : string) : option string :=
  match s with "" => None | String c t => if is_digit c then Some (fst (span is_digit s)) else first_digits t end.
(** float of a token of findall (catalogue.py:1324), in tenths. *)
Definition tenths (s : string) : option Z :=
  let '(a, r) := span is_digit s in
  match int_of a with
  | None => None
  | Some n => match r with
              | "" => Some (10 * Z.of_N n)
              | String "." d => option_map (fun k => 10 * Z.of_N n + Z.of_N k) (int_of d)
              | _ => None
              end
  end.

(** The sections made (catalogue.py:1287-1326); the family and the dimensions h, b, tf, tw, r, or H, B, T. *)
Inductive family := FIPE | FHEA | FHEAA | FHEB | FHEC | FHEM.
(** The result of make_section (catalogue.py:1328-1350): an entry of the catalogue, a section by the formulas of the
    family at height [n] (ISection.py:607-619), or a tube. *)
Inductive made := MI (f : family) (d : idims) | MOwn (f : family) (n : N) | MR (H B T : Z).
(** The name a constructor looks for (ISection.py:490, 518, 561, 597, 637, 663). *)
Definition iname (f : family) (n : N) : string :=
  match f with FIPE => "IPE " ++ str_of n | FHEA => "HE " ++ str_of n ++ " A" | FHEAA => "HE " ++ str_of n ++ " AA"
             | FHEB => "HE " ++ str_of n ++ " B" | FHEC => "HE " ++ str_of n ++ " C" | FHEM => "HE " ++ str_of n ++ " M" end.
(** make_ipe, make_hea and make_heb (catalogue.py:1287-1315) with the look-up of the constructors; HEB makes its own
    dimensions when the name is missing (ISection.py:600-619), IPE and HEA raise. *)
Definition make_I (f : family) (key : string) : option made :=
  match first_digits key with
  | None => None
  | Some d => match int_of d with None => None
              | Some n => match look profile_t (iname f n), f with
                          | Some e, _ => Some (MI f e)
                          | None, FHEB => Some (MOwn f n)
                          | None, _ => None
                          end
              end
  end.
(** make_rhs (catalogue.py:1318-1326). *)
Definition make_rhs (key : string) : option made :=
  match map tenths (findall (String.length key) key) with
  | Some a :: Some b :: Some c :: _ => Some (MR a b c)
  | _ => None
  end.
(** make_section (catalogue.py:1328-1350); [None]: ValueError, IndexError, KeyError or UnboundLocalError. *)
Definition make_section (key : string) : option made :=
  match words (String.length key) key with
  | w :: r =>
    if String.eqb w "IPE" then match r with k :: _ => make_I FIPE k | _ => None end
    else if String.eqb w "RHS" then match r with k :: _ => make_rhs k | _ => None end
    else if String.eqb w "HE" then
      match r with
      | k :: l :: _ => if String.eqb l "A" then make_I FHEA k else if String.eqb l "B" then make_I FHEB k else None
      | _ => None
      end
    else None
  | [] => None
  end.
(** profile_list (raami/frame_member.py:59-85) without the filter of RHS by class and thickness. *)
Definition profile_list (t : string) : option (list string) :=
  let keys {X} (d : table X) := Some (map fst d) in
  if String.eqb t "IPE" then keys ipe_t else if String.eqb t "H" then keys h_t else if String.eqb t "HEA" then keys hea_t
  else if String.eqb t "HEB" then keys heb_t else if String.eqb t "RHS" then keys rhs_t else if String.eqb t "CHS" then keys chs_t
  else if String.eqb t "SHS" then keys shs_t else None.

Local Open Scope R_scope.
(** tf, tw, b, r of a section of height [H] outside the catalogue (ISection.py:504-508, 529-543, 571-586, 607-619, 648-652, 674-688). *)
Definition formula (f : family) (H : R) : R * R * R * R :=
  let lin (k0 k1 k2 k3 k4 k5 k6 k7 : R) := (k0 * H + k1, k2 * H + k3, k4 * H + k5, k6 * H + k7) in
  let wide (x : R * R * R * R) (h1 h2 : R) :=
    let '(tf, tw, b, r) := x in if Rleb H h1 then x else (tf, tw, 300, if Rleb H h2 then 27 else 30) in
  match f with
  | FIPE => lin (256/10000) (32831/10000) (155/10000) (24921/10000) (3486/10000) (30178/1000) (155/10000) (24921/10000)
  | FHEA => wide (lin (294/10000) (57651/10000) (14/1000) (42949/10000) (10323/10000) (25368/10000) (781/10000) (29206/10000)) 270 690
  | FHEAA => wide (lin (179/10000) (49342/10000) (144/10000) (32122/10000) (10403/10000) (62902/10000) (786/10000) (3221/1000)) 264 670
  | FHEB => wide (lin (308/10000) (95736/10000) (147/10000) (62014/10000) 1 0 (755/10000) (27636/10000)) 280 700
  | FHEC => lin (669/10000) (67987/10000) (317/10000) (54267/10000) (9256/10000) (5593/1000) (747/10000) (20905/10000)
  | FHEM => if Rleb H 340 then lin (824/10000) (85346/10000) (392/10000) (68259/10000) (9344/10000) (-28966/10000) (732/10000) (15707/10000)
            else (40, 21, - (112/10000) * H + 31241/100, if Rleb H 716 then 27 else 30)
  end.
(** The constructors with the argument catalogue (ISection.py:489-510, 517-545, 560-588, 596-621, 636-654, 662-691): the
    height, then tf, tw, b, r. [n] is the height as an int; IPE and HEB use the catalogue whenever the name is there,
    HEB never raises. *)
Definition new_I (f : family) (n : N) (cat : bool) : option (R * (R * R * R * R)) :=
  let r10 (z : Z) := IZR z / 10 in
  let entry := option_map (fun d => let '(h, b, tw, tf, r) := d in (r10 h, (r10 tf, r10 tw, r10 b, r10 r))) (look profile_t (iname f n)) in
  let H := IZR (Z.of_N n) in let own := Some (H, formula f H) in
  match f with
  | FIPE => if cat then entry else match entry with Some x => Some x | None => own end
  | FHEB => match entry with Some x => Some x | None => own end
  | _ => if cat then entry else own
  end.

(** profiles/steel/isection_formulas.py:15-18. *)
Definition f_area (h b tf tw r : R) : R := 2 * tf * b + (h - 2 * tf) * tw + (4 - PI) * r ^ 2.
(** isection_formulas.py:21-25. *)
Definition f_Avz (h b tf tw r : R) : R := f_area h b tf tw r - 2 * b * tf + (tw + 2 * r) * tf.
(** isection_formulas.py:28-31. *)
Definition f_Avy (h b tf tw r : R) : R := 2 * b * tf.
(** isection_formulas.py:34-37. *)
Definition f_perimeter (h b tf tw r : R) : R := 2 * b + 2 * (b - 2 * r - tw) + 2 * (h - 2 * r) + 2 * PI * r.
(** isection_formulas.py:40-45. *)
Definition f_Iy (h b tf tw r : R) : R :=
  1/12 * (b * h ^ 3 - (b - tw) * (h - 2 * tf) ^ 3) + 3/100 * r ^ 4 + 2146/10000 * r ^ 2 * (h - 2 * tf - 4468/10000 * r) ^ 2.
(** isection_formulas.py:48-53. *)
Definition f_Iz (h b tf tw r : R) : R :=
  1/12 * (2 * tf * b ^ 3 + (h - 2 * tf) * tw ^ 3) + 3/100 * r ^ 4 + 2146/10000 * r ^ 2 * (tw + 4468/10000 * r) ^ 2.
(** isection_formulas.py:56-66; tf and 2 r + tf are not 0. *)
Definition f_It (h b tf tw r : R) : R :=
  let a := - (42/1000) + 2204/10000 * tw / tf + 1355/10000 * r / tf - 865/10000 * r * tw / tf ^ 2 - 725/10000 * tw ^ 2 / tf ^ 2 in
  let D := ((tf + r) ^ 2 + tw * (r + tw / 4)) / (2 * r + tf) in
  (2 * b * tf ^ 3 + (h - 2 * tf) * tw ^ 3) / 3 + 2 * a * D ^ 4 - 4 * (105/1000) * tf ^ 4.
(** ISection.py:734-736, the torsion constant of the other implementation. *)
Definition I_It (b h tf tw r : R) : R :=
  let a1 := - (42/1000) + 2204/10000 * tw / tf + 1355/10000 * r / tf - 865/10000 * r * tw / tf ^ 2 - 725/10000 * tw ^ 2 / tf ^ 2 in
  let D1 := ((tf + r) ^ 2 + (r + 1/4 * tw) * tw) / (2 * r + tf) in
  2/3 * b * tf ^ 3 + (h - 2 * tf) * tw ^ 3 / 3 + 2 * a1 * D1 ^ 4 - 420/1000 * tf ^ 4.
(** isection_formulas.py:69-72. *)
Definition f_Iw (h b tf tw r : R) : R := tf * b ^ 3 / 24 * (h - tf) ^ 2.
(** isection_formulas.py:75-80. *)
Definition f_Wply (h b tf tw r : R) : R :=
  tw * h ^ 2 / 4 + (b - tw) * (h - tf) * tf + (4 - PI) / 2 * r ^ 2 * (h - 2 * tf) + (3 * PI - 10) / 3 * r ^ 3.
(** isection_formulas.py:83-89. *)
Definition f_Wplz (h b tf tw r : R) : R :=
  b ^ 2 * tf / 2 + (h - 2 * tf) / 4 * tw ^ 2 + r ^ 3 * (10 / 3 - PI) + (2 - PI / 2) * tw * r ^ 2.
(** isection_formulas.py:92-95; h is not 0. *)
Definition f_Wely (h b tf tw r : R) : R := f_Iy h b tf tw r / (1/2 * h).
(** isection_formulas.py:98-101; b is not 0. *)
Definition f_Welz (h b tf tw r : R) : R := f_Iz h b tf tw r / (1/2 * b).
(** The property iy (profiles/steel/isections.py:88-90); the area is not 0. *)
Definition f_iy (h b tf tw r : R) : R := sqrt (f_Iy h b tf tw r / f_area h b tf tw r).
(** profiles/steel/isections.py:92-94; the area is not 0. *)
Definition f_iz (h b tf tw r : R) : R := sqrt (f_Iz h b tf tw r / f_area h b tf tw r).

