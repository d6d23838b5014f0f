(** Specification of the tables behind load combinations, wind and timber, written from the standards. *)
From Verif Require Import Base Loads_model.

(** EN 1990 Table A1.1 (Finnish annex), categories A to E: psi0, psi1, psi2 in tenths. *)
Definition table_A11 : list (list Z) := [[7; 5; 3]; [7; 5; 3]; [7; 7; 3]; [7; 7; 6]; [10; 9; 8]]%Z.
Definition tenths (row : list Z) : R * R * R := (IZR (nth 0 row 0%Z) / 10, IZR (nth 1 row 0%Z) / 10, IZR (nth 2 row 0%Z) / 10).
(** What adding a load must append: to the permanent ([false]) or the variable ([true]) loads, the
    multiplier of its value and its factors. *)
Definition appended (cls : nat) (kk : R) (l : load) : bool * R * (R * R * R) :=
  match l_kind l with
  | kLoad => (false, 1, tenths (nth cls table_A11 []))
  | kArea => (false, kk, tenths (nth cls table_A11 []))
  | kImposed => (true, kk, tenths (nth cls table_A11 []))
  | kSnow => (true, kk, if Rlt_dec (l_val l) (11/4) then tenths [7; 4; 2]%Z else tenths [7; 5; 2]%Z)
  | kWind => (true, kk, l_psi l)
  end.
(** EN 1991-1-4 Table 4.1: roughness length and minimum height in millimetres. *)
Definition table_41 : list (Z * Z) := [(3, 1000); (10, 1000); (50, 2000); (300, 5000); (1000, 10000)]%Z.
(** EN 1995-1-1 Table 3.1 in hundredths, from permanent to instantaneous. *)
Definition kmod_12 : list Z := [60; 70; 80; 90; 110]%Z.
Definition kmod_3 : list Z := [50; 55; 65; 70; 90]%Z.
Definition durations : list duration := [perm_; lt; mt; st; inst].
(** EN 1995-1-2 Table 3.1 in hundredths of mm/min: material, softwood, density range, beta0, betan. *)
Definition char_rates : list (timber * bool * Z * Z * Z) :=
  [(solid, true, 290, 65, 80); (glt, true, 290, 65, 70); (solid, false, 450, 50, 55); (glt, false, 450, 50, 55);
   (lvl, true, 480, 65, 70); (lvl, false, 480, 65, 70)]%Z.
