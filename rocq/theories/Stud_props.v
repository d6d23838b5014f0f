(** Property C352: resistance of shear connectors. *)
From Verif Require Import Base EC3_model Bool_tac EC3_proofs Plate_proofs Stud_proofs.
Require Import Reals Lra Lia Psatz PeanoNat.
From Verif Require Import Stud_model Stud_spec.
Local Open Scope R_scope.

(** C352 *)
Theorem C352_factor : forall len d, stud_alpha len d = std_alpha len d.
Proof. exact stud_alpha_lemma. Qed.
Print Assumptions C352_factor.
Theorem C352_value : forall len d fu fck Ecm, 0 <= fck * Ecm -> stud_PRd len d fu fck Ecm = Some (Rmin (125/100 * PI * std_shank fu d) (std_concrete len d fck Ecm)).
Proof. exact stud_value_lemma. Qed.
Print Assumptions C352_value.
Theorem C352_raises : forall len d fu fck Ecm, fck * Ecm < 0 <-> stud_PRd len d fu fck Ecm = None.
Proof. exact stud_raises_lemma. Qed.
Print Assumptions C352_raises.
Theorem C352_against_standard : forall len d fu fck Ecm P, 0 < fu -> 0 <= fck * Ecm -> stud_PRd len d fu fck Ecm = Some P ->
  std_stud len d fu fck Ecm <= P /\ (std_concrete len d fck Ecm <= std_shank fu d -> P = std_stud len d fu fck Ecm) /\
  (0 < d -> std_shank fu d < std_concrete len d fck Ecm -> std_stud len d fu fck Ecm < P).
Proof. exact stud_unsafe_lemma. Qed.
Print Assumptions C352_against_standard.
Theorem C352_monotone : forall len len' d fu fu' fck fck' Ecm Ecm' P P', 0 < d -> 0 <= len <= len' -> 0 <= fu <= fu' -> 0 <= fck <= fck' -> 0 <= Ecm <= Ecm' ->
  stud_PRd len d fu fck Ecm = Some P -> stud_PRd len' d fu' fck' Ecm' = Some P' -> 0 <= P <= P'.
Proof. exact stud_mono_lemma. Qed.
Print Assumptions C352_monotone.
Theorem C352_unsafe_refuted : exists len d fu fck Ecm P, stud_d 19 = Some d /\ stud_PRd len d fu fck Ecm = Some P /\ std_stud len d fu fck Ecm < P.
Proof.
  exists 105, 19, 450, 50, 50000. eexists. split; [reflexivity|]. split. apply stud_value_lemma; lra.
  apply (stud_unsafe_lemma 105 19 450 50 50000); try lra. apply stud_value_lemma; lra.
  unfold std_shank, std_concrete, std_alpha. rewrite (Rmin_right _ 1) by lra.
  assert (S : 1500 <= sqrt (50 * 50000)). { rewrite <- (sqrt_square 1500) by lra. apply sqrt_le_1_alt. lra. } pose proof PI_4. lra.
Qed.
Print Assumptions C352_unsafe_refuted.
Theorem C352_stud_25_refuted : forall len fu fck Ecm d d', stud_d 19 = Some d -> stud_d 25 = Some d' -> 0 <= fck * Ecm -> stud_PRd len d' fu fck Ecm = stud_PRd len d fu fck Ecm.
Proof. intros len fu fck Ecm d d' H H'. injection H as <-. injection H' as <-. reflexivity. Qed.
Print Assumptions C352_stud_25_refuted.
Theorem C352_catalogue : forall n d, stud_d n = Some d -> n <> 25%nat -> d = INR n.
Proof.
  intros n d H N. assert (G : n = 19%nat \/ n = 22%nat).
  { do 26 (destruct n as [|n]; [cbn in H; try discriminate; tauto|]). cbn in H. discriminate. }
  destruct G as [-> | ->]; injection H as <-; cbn; ring.
Qed.
Print Assumptions C352_catalogue.
Example C352_ex : 0 < 19 /\ 0 <= 25 * 31000 /\ std_alpha 57 19 = 8/10.
Proof. split; [lra|]. split; [lra|]. unfold std_alpha. rewrite Rmin_left; lra. Qed.
