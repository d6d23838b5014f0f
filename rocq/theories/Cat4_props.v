(** Property C310: names of hollow sections in the catalogue tell their dimensions. *)
From Coq Require Import String NArith ZArith List.
From Verif Require Import Cat4_proofs.
From Verif Require Import Cat_model Cat_spec Cat4_spec.
Import ListNotations.
Local Open Scope string_scope.

(** C310 *)
Theorem C310_circular_names : forall k d t, In (k, (d, t)) chs_t -> k = "CHS " ++ one_decimal d ++ "X" ++ one_decimal t.
Proof. exact chs_names_lemma. Qed.
Print Assumptions C310_circular_names.
Theorem C310_square_names : forall k h b t r, In (k, (h, b, t, r)) shs_t -> exists s, whole h s /\ whole b s /\ k = "SHS " ++ s ++ "X" ++ s ++ "X" ++ one_decimal t.
Proof. exact shs_names_lemma. Qed.
Print Assumptions C310_square_names.
Theorem C310_rectangular_names : forall k h b t r, In (k, (h, b, t, r)) rhs_t -> exists s u, whole h s /\ whole b u /\ k = "RHS " ++ s ++ "x" ++ u ++ "x" ++ one_decimal t.
Proof. exact rhs_names_lemma. Qed.
Print Assumptions C310_rectangular_names.

(** A row of each table. *)
Example C310_names_ex : In ("CHS 139.7X6.3", (1397, 63)%Z) chs_t /\ In ("SHS 300X300X12.5", (3000, 3000, 125, 3750)%Z) shs_t /\
  In ("RHS 40x20x3.0", (400, 200, 30, 600)%Z) rhs_t.
Proof. unfold chs_t, shs_t, rhs_t. repeat split; cbn [In]; intuition congruence. Qed.
