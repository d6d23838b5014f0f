(** Property C353: stress-strain relation of stainless steel in fire. *)
Require Import Reals ZArith List Lra Lia Psatz PeanoNat.
Import ListNotations.
From Verif Require Import Base EC3_model Bool_tac EC3_proofs Plate_proofs Fire_spec Fire_proofs Stls_proofs Stls2_proofs.
From Verif Require Import Fire_model Stls_model Stls_spec.
Local Open Scope R_scope.

(** C353 *)
Theorem C353_values : forall f E Ec eu fu, ss_ok f E Ec eu fu -> (f / E + 2/1000) * Ec < f ->
  ss_law 0 f E Ec eu fu = Some 0 /\ ss_law (f / E + 2/1000) f E Ec eu fu = Some f /\ ss_law eu f E Ec eu fu = Some fu.
Proof. exact law_values. Qed.
Print Assumptions C353_values.
Theorem C353_grows : forall f E Ec eu fu, ss_ok f E Ec eu fu -> (f / E + 2/1000) * Ec < f ->
  forall x y, 0 <= x -> x <= y -> y <= eu -> exists s s', ss_law x f E Ec eu fu = Some s /\ ss_law y f E Ec eu fu = Some s' /\ 0 <= s <= s' /\ s' <= fu /\
    (y <= f / E + 2/1000 -> s' <= Rmin f (E * y)) /\ (f / E + 2/1000 <= y -> f <= s' <= f + Ec * (y - (f / E + 2/1000))).
Proof. exact law_lemma. Qed.
Print Assumptions C353_grows.
Theorem C353_tangent_below : forall f E Ec eu fu, ss_ok f E Ec eu fu -> (f / E + 2/1000) * Ec < f ->
  exists g, (forall x, 0 < x <= f / E + 2/1000 -> ss_law x f E Ec eu fu = Some (g x)) /\ derivable_pt_lim g (f / E + 2/1000) Ec.
Proof. exact lower_tangent_lemma. Qed.
Print Assumptions C353_tangent_below.
Theorem C353_tangent_above : forall f E Ec eu fu, ss_ok f E Ec eu fu -> f < fu ->
  exists g, (forall x, f / E + 2/1000 < x <= eu -> ss_law x f E Ec eu fu = Some (g x)) /\ g (f / E + 2/1000) = f /\ derivable_pt_lim g (f / E + 2/1000) Ec /\ derivable_pt_lim g eu 0.
Proof. exact upper_tangent_lemma. Qed.
Print Assumptions C353_tangent_above.
Theorem C353_table : forall t, (20 <= t <= 100 \/ 200 <= t <= 1000) -> exists f E fu eu, f02pT t 230 s14301 = Some f /\ EaT t 200000 s14301 = Some E /\ fuT_stainless t 540 s14301 = Some fu /\ reduce_property t epsU s14301 = Some eu /\
  0 < f /\ f <= fu /\ f / E + 2/1000 < eu /\
  stress_stainless 0 t 200000 230 540 s14301 = Some 0 /\ stress_stainless (f / E + 2/1000) t 200000 230 540 s14301 = Some f /\ stress_stainless eu t 200000 230 540 s14301 = Some fu /\
  (forall x y, 0 <= x -> x <= y -> y <= eu -> exists s s', stress_stainless x t 200000 230 540 s14301 = Some s /\ stress_stainless y t 200000 230 540 s14301 = Some s' /\ 0 <= s <= s' /\ s' <= fu).
Proof. exact stainless_lemma. Qed.
Print Assumptions C353_table.
Theorem C353_beyond_refuted : forall f E Ec eu fu z, ss_ok f E Ec eu fu -> 0 <= z -> z < eu - (f / E + 2/1000) ->
  ss_law (eu + z) f E Ec eu fu = ss_law (eu - z) f E Ec eu fu.
Proof. exact law_beyond_lemma. Qed.
Print Assumptions C353_beyond_refuted.
Theorem C353_raises_beyond : forall f E Ec eu fu, ss_ok f E Ec eu fu -> exists x, eu < x /\ forall y, x < y -> ss_law y f E Ec eu fu = None.
Proof. exact law_raise_lemma. Qed.
Print Assumptions C353_raises_beyond.
Theorem C353_hot_refuted : forall fua, stress_stainless 0 1100 200000 230 fua s14301 = None.
Proof. exact hot_lemma. Qed.
Print Assumptions C353_hot_refuted.
Theorem C353_slope_refuted : forall f E Ec eu fu, 0 < f -> 0 < E -> f < (f / E + 2/1000) * Ec -> ss_law 0 f E Ec eu fu = None.
Proof. exact lower_raises_lemma. Qed.
Print Assumptions C353_slope_refuted.
Theorem C353_gap_refuted : forall x t Ea fya fua, 100 < t < 200 -> stress_stainless x t Ea fya fua s14301 = None.
Proof.
  intros x t Ea fya fua H. unfold stress_stainless, f02pT.
  assert (G : reduce_property t k02 s14301 = None).
  { destruct (Rlt_dec t 150). 2: destruct (Req_dec t 150) as [->|].
    - unfold reduce_property. destruct (temps_between t 100 150 ltac:(cbn; tauto) ltac:(lra)) as (-> & -> & ->). reflexivity.
    - rewrite (reduce_at 150%Z _ s14301 SS); [reflexivity|cbn; tauto|reflexivity].
    - unfold reduce_property. destruct (temps_between t 150 200 ltac:(cbn; tauto) ltac:(lra)) as (-> & -> & ->). reflexivity. }
  rewrite G. reflexivity.
Qed.
Print Assumptions C353_gap_refuted.
Example C353_ex : ss_ok 230 200000 22000 (40/100) 540 /\ (230 / 200000 + 2/1000) * 22000 < 230 /\ 20 <= 20 <= 100.
Proof. unfold ss_ok. lra. Qed.
