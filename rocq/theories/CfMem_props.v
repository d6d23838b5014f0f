(** Property C360: cold-formed members. *)
Require Import Reals List Bool Lra Lia Psatz.
Import ListNotations.
From Verif Require Import Base EC3_model Bool_tac EC3_spec EC3_proofs Plate_proofs CfMem_proofs.
From Verif Require Import CfMem_model CfMem_spec.
Local Open Scope R_scope.

(** C360 *)
Theorem C360_strength : forall m, cf_ok m -> exists Ny Nz, cf_strength m = Some [Ny; Nz] /\
  reduced (f_Aeff m) (f_fy m) (euler (f_E m * f_Iy m) (f_L m * f_ky m)) (f_ay m) Ny /\ reduced (f_Aeff m) (f_fy m) (euler (f_E m * f_Iz m) (f_L m * f_kz m)) (f_az m) Nz /\
  0 < Ny <= f_Aeff m * f_fy m /\ 0 < Nz <= f_Aeff m * f_fy m /\ Ny <= euler (f_E m * f_Iy m) (f_L m * f_ky m) /\ Nz <= euler (f_E m * f_Iz m) (f_L m * f_kz m).
Proof. exact cf_strength_lemma. Qed.
Print Assumptions C360_strength.
Theorem C360_longer : forall m L' Ny Nz Ny' Nz', cf_ok m -> f_L m <= L' -> cf_strength m = Some [Ny; Nz] -> cf_strength (with_length m L') = Some [Ny'; Nz'] -> Ny' <= Ny /\ Nz' <= Nz.
Proof. exact cf_longer_lemma. Qed.
Print Assumptions C360_longer.
Theorem C360_required_stiffness : forall m, cf_ok m -> cf_Sreq m = 70 / f_h m ^ 2 * (euler (f_E m * f_Iw m) (f_L m) + f_G m * f_It m + (f_h m / 2) ^ 2 * euler (f_E m * f_Iz m) (f_L m)).
Proof. exact cf_Sreq_lemma. Qed.
Print Assumptions C360_required_stiffness.
Theorem C360_stiffness_length : forall m L', cf_ok m -> f_L m < L' -> 70 / f_h m ^ 2 * (f_G m * f_It m) < cf_Sreq (with_length m L') < cf_Sreq m.
Proof. exact cf_Sreq_length_lemma. Qed.
Print Assumptions C360_stiffness_length.
Example C360_ex : cf_ok (mkCf 600 350 210000 81000 2000000 400000 800 500000000 200 (34/100) (34/100) 5000 1 1).
Proof. unfold cf_ok; simpl; repeat split; lra. Qed.
