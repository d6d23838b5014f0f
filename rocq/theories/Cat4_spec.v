(** Names of hollow sections in the catalogue. *)
From Coq Require Import String NArith ZArith List.
From Verif Require Import Cat_model Cat_spec.
Local Open Scope string_scope.

(** Tenths of a millimetre written with one decimal: 139.7. *)
Definition one_decimal (z : Z) : string := dec (Z.to_N (z / 10)) ++ "." ++ dec (Z.to_N (z mod 10)).
(** Tenths of a millimetre that make whole millimetres written without decimals: 140. *)
Definition whole (z : Z) (s : string) : Prop := exists n : N, z = (10 * Z.of_N n)%Z /\ s = dec n.
