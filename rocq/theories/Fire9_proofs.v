From Verif Require Import Base EC3_proofs Fire_proofs.
From Verif Require Import Fire_model Fire_spec.

(* the printed tables of the standard, one line per property, in ten-thousandths *)
Definition cs_temps := [20; 100; 200; 300; 400; 500; 600; 700; 800; 900; 1000; 1100; 1200]%Z.
Definition bolt_temps := [20; 100; 150; 200; 300; 400; 500; 600; 700; 800; 900; 1000]%Z.
Definition printed : list (steel * prop * list Z * list Z) :=
  [ (carbon, ky, cs_temps, [10000; 10000; 10000; 10000; 10000; 7800; 4700; 2300; 1100; 600; 400; 200; 0]);
    (carbon, kp, cs_temps, [10000; 10000; 8070; 6130; 4200; 3600; 1800; 750; 500; 375; 250; 125; 0]);
    (carbon, kE, cs_temps, [10000; 10000; 9000; 8000; 7000; 6000; 3100; 1300; 900; 675; 450; 225; 0]);
    (carbon, kp02, cs_temps, [10000; 10000; 8900; 7800; 6500; 5300; 3000; 1300; 700; 500; 300; 200; 0]);
    (s14301, k02, cs_temps, [10000; 8200; 6800; 6400; 6000; 5400; 4900; 4000; 2700; 1400; 600; 300; 0]);
    (s14301, ku, cs_temps, [10000; 8700; 7700; 7300; 7200; 6700; 5800; 4300; 2700; 1500; 700; 300; 0]);
    (s14301, kE, cs_temps, [10000; 9600; 9200; 8800; 8400; 8000; 7600; 7100; 6300; 4500; 2000; 1000; 0]);
    (s14301, kEct, cs_temps, [1100; 500; 200; 200; 200; 200; 200; 200; 200; 200; 200; 200; 200]);
    (s14301, epsU, cs_temps, [4000; 4000; 4000; 4000; 4000; 4000; 3500; 3000; 2000; 2000; 2000; 2000; 2000]);
    (bolts, kb, bolt_temps, [10000; 9680; 9520; 9350; 9030; 7750; 5500; 2200; 1000; 670; 330; 0]) ]%Z.
Definition ky_stainless : list Z := [2600; 2400; 1900; 1900; 1900; 1900; 2200; 2600; 3500; 3800; 400; 400; 400]%Z.
Lemma lookup_special z p s d : In z SPECIAL_TEMPS -> table_of s = Some d -> reduce_property (IZR z) p s = lookup z p d.
Proof.
  intros I T. unfold reduce_property. assert (special (IZR z) = Some z) as ->; [|rewrite T; reflexivity].
  unfold special. cbn in I. repeat (destruct I as [<-|I]; [cbn [find SPECIAL_TEMPS]; repeat (unfold Reqb at 1; destruct (Req_EM_T _ _); [try reflexivity; exfalso; lra|]); exfalso; lra|]). contradiction.
Qed.
Lemma printed_lemma : forall s p zs vs z v, In (s, p, zs, vs) printed -> In (z, v) (combine zs vs) -> reduce_property (IZR z) p s = Some (IZR v / 10000).
Proof.
  intros s p zs vs z v I J. cbn [printed In] in I.
  repeat (destruct I as [E|I]; [injection E as <- <- <- <-; cbn [combine cs_temps bolt_temps In] in J;
    repeat (destruct J as [E|J]; [injection E as <- <-; erewrite lookup_special by (cbn; tauto || reflexivity); cbn; f_equal; lra|]); contradiction|]). contradiction.
Qed.
Lemma unknown_steel_lemma : forall z p, In z SPECIAL_TEMPS -> reduce_property (IZR z) p unknown = Some 1.
Proof.
  intros z p I. unfold reduce_property. assert (special (IZR z) = Some z) as ->; [|reflexivity].
  unfold special. cbn in I. repeat (destruct I as [<-|I]; [cbn [find SPECIAL_TEMPS]; repeat (unfold Reqb at 1; destruct (Req_EM_T _ _); [try reflexivity; exfalso; lra|]); exfalso; lra|]). contradiction.
Qed.
Lemma ky_stainless_lemma : forall z v, In (z, v) (combine cs_temps ky_stainless) -> reduce_property (IZR z) ky s14301 = Some (IZR v / 10000).
Proof.
  intros z v J. cbn [combine cs_temps ky_stainless In] in J.
    repeat (destruct J as [E|J]; [injection E as <- <-; erewrite lookup_special by (cbn; tauto || reflexivity); cbn; f_equal; lra|]); contradiction.
Qed.
Lemma conductivity_lemma : (forall t, t < 800 -> therm_conductivity t = 54 - t / 30 + t / 30000) /\ (forall t, 800 <= t -> therm_conductivity t = 273/10) /\
  (forall t t', t <= t' -> therm_conductivity t' <= therm_conductivity t) /\ (forall t, 20 <= t -> 273/10 <= therm_conductivity t <= 53334/1000) /\
  (forall t, therm_conductivity_stainless t = 146/10 + 127/100 * (t / 100)).
Proof.
  unfold therm_conductivity, therm_conductivity_stainless, Rltb. repeat split; intros; repeat destruct Rlt_dec; lra.
Qed.
Lemma heat_values_lemma : (forall t, t < 600 -> spec_heat t = Some (425 + t * (773/1000 + t * (- (169/100000) + t * (222/100000000))))) /\
  (forall t, 600 <= t < 735 -> exists c, spec_heat t = Some c /\ (c - 666) * (738 - t) = 13002) /\
  (forall t, 735 <= t < 900 -> exists c, spec_heat t = Some c /\ (c - 545) * (t - 731) = 17820) /\ (forall t, 900 <= t -> spec_heat t = Some 650) /\
  (forall t, spec_heat_stainless t = 450 + t * (280/1000 + t * (- (291/1000000) + t * (134/1000000000)))).
Proof.
  unfold spec_heat, spec_heat_stainless, Rltb, bind, pdiv. repeat split; intros; repeat destruct Rlt_dec; try lra; try (f_equal; ring); try ring.
  - rewrite (proj2 (Reqb_false _ _)) by lra. eexists. split; [reflexivity|]. field. lra.
  - rewrite (proj2 (Reqb_false _ _)) by lra. eexists. split; [reflexivity|]. field. lra.
Qed.
Lemma elongation_values_lemma : (forall t, t < 750 -> therm_elongation t = (t - 20) * (12 + 4/1000 * (t + 20)) / 1000000) /\
  (forall t, 750 <= t <= 860 -> therm_elongation t = 11/1000) /\ therm_elongation_stainless 20 = 0 /\
  (forall t, therm_elongation_stainless t = (t - 20) * (16 + 479/100000 * t - 1243/1000000000 * t ^ 2) / 1000000).
Proof.
  unfold therm_elongation, therm_elongation_stainless, Rltb, Rleb. repeat split; intros; repeat destruct Rlt_dec; repeat destruct Rle_dec; try lra.
Qed.
