From Verif Require Import Base EC3_model Epj_model Epj_spec.
Require Import Reals List Lra.
Import ListNotations.
Local Open Scope R_scope.

Lemma new_geo_lemma : forall beamh tp bp etop ebot e, let g := new_geo beamh tp bp etop ebot e in
  eg_b g = bp /\ eg_t g = tp /\ eg_etop g = etop /\ eg_e g = e /\ eg_e g + eg_x g = bp / 2 /\ bolt_dist g = 2 * eg_x g.
Proof. intros. unfold g, new_geo, bolt_dist. cbn [eg_b eg_t eg_etop eg_e eg_x]. repeat split; lra. Qed.
