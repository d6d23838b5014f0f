(** Property C368: strength checks in the apex zone of timber beams. *)
Require Import Reals List Bool Lra Lia ZArith.
Import ListNotations.
From Verif Require Import Base EC3_model Bool_tac Timber6_proofs Apx_proofs.
From Verif Require Import Timber_model Timber_spec Apx_model Apx_spec.
Local Open Scope R_scope.

(** C368 *)
Theorem C368_bending_at_apex : forall m a secs kl kr f, NoDup (map f_loc secs) -> In f secs -> f_loc f = ap_x a ->
  k_l (ap_kind a) (ap_alfa a) (ap_r a) (ap_h a) = Some kl -> k_r (ap_kind a) (ap_r a) (ap_t a) = Some kr -> 0 < kr -> 0 < t_fm m ->
  exists u, check_tapered m a secs = Some u /\ (u <= 1 <-> kl * bending_stress m f <= kr * t_fm m).
Proof. exact apx_tapered_at_lemma. Qed.
Print Assumptions C368_bending_at_apex.
Theorem C368_bending_between : forall m a secs kl kr, NoDup (map f_loc secs) -> ~ In (ap_x a) (map f_loc secs) -> reaches secs (ap_x a) ->
  k_l (ap_kind a) (ap_alfa a) (ap_r a) (ap_h a) = Some kl -> k_r (ap_kind a) (ap_r a) (ap_t a) = Some kr -> 0 < kr -> 0 < t_fm m ->
  exists f g, neighbours secs (ap_x a) f g /\ check_tapered m a secs = Some (kl * ((bending_stress m f + bending_stress m g) / 2) / (kr * t_fm m)).
Proof. exact apx_tapered_between_lemma. Qed.
Print Assumptions C368_bending_between.
Theorem C368_hogging_refuted : forall m a secs f, NoDup (map f_loc secs) -> In f secs -> f_loc f = ap_x a -> ap_kind a = SHarja -> 0 <= tan (ap_alfa a) ->
  0 < t_fm m -> 0 < t_B m -> 0 < t_H m (f_loc f) -> f_My f <= 0 -> exists u, check_tapered m a secs = Some u /\ u <= 0.
Proof. exact apx_hogging_lemma. Qed.
Print Assumptions C368_hogging_refuted.
Theorem C368_perpendicular_stress : forall m a secs kp M c ls, k_p (ap_kind a) (ap_alfa a) (ap_r a) (ap_h a) = Some kp -> M_apd secs (ap_x a) = Some M ->
  0 < t_B m -> 0 < t_H m (ap_x a) ->
  sigma_t90d m a secs None = Some (kp * (6 * M / (t_B m * t_H m (ap_x a) ^ 2))) /\
  exists p, sigma_t90d m a secs (Some (c, ls)) = Some (kp * (6 * M / (t_B m * t_H m (ap_x a) ^ 2)) - 6/10 * (p / t_B m)) /\
    (if c then last_uniform ls p else p = 0).
Proof. exact apx_t90_lemma. Qed.
Print Assumptions C368_perpendicular_stress.
Theorem C368_perpendicular_check : forall m a secs kv ft90 kp M kd, k_p (ap_kind a) (ap_alfa a) (ap_r a) (ap_h a) = Some kp -> M_apd secs (ap_x a) = Some M ->
  k_dis (ap_kind a) = Some kd -> 0 < t_B m -> 0 < t_H m (ap_x a) -> 0 < kv -> 0 < ft90 ->
  exists u, check_perp m a secs kv ft90 = Some u /\ (u <= 1 <-> kp * (6 * M / (t_B m * t_H m (ap_x a) ^ 2)) <= kd * kv * ft90).
Proof. exact apx_perp_lemma. Qed.
Print Assumptions C368_perpendicular_check.
Theorem C368_two_loads_refuted : exists l1 l2, tl_y l1 = true /\ tl_y l2 = true /\ tl_0 l1 = tl_1 l1 /\ tl_0 l2 = tl_1 l2 /\
  load_655 true [l1; l2] <> tl_0 l1 + tl_0 l2 /\ load_655 true [l1; l2] <> load_655 true [l2; l1].
Proof. exact apx_two_loads_lemma. Qed.
Print Assumptions C368_two_loads_refuted.
Theorem C368_downward_load_refuted : forall m a secs kp M p, k_p (ap_kind a) (ap_alfa a) (ap_r a) (ap_h a) = Some kp -> M_apd secs (ap_x a) = Some M ->
  0 < t_B m -> 0 < t_H m (ap_x a) -> p < 0 ->
  exists s s', sigma_t90d m a secs None = Some s /\ sigma_t90d m a secs (Some (true, [mkTL true p p])) = Some s' /\ s < s'.
Proof. exact apx_downward_lemma. Qed.
Print Assumptions C368_downward_load_refuted.
Theorem C368_combined : forall m a secs L hs he kv ft90 q kd st, ascending (map f_loc secs) -> secs <> [] -> 0 < L -> 0 < t_fv m -> 0 < kv -> 0 < ft90 ->
  k_dis (ap_kind a) = Some kd -> sigma_t90d m a secs q = Some st ->
  exists f1 f2 i, nth_error secs i = Some f1 /\ nth_error secs (length secs - 1) = Some f2 /\
  check_combined m a secs L hs he kv ft90 q = Some (Rmax (shear_stress m (k_cr m) f1) (shear_stress m (k_cr m) f2) / t_fv m + st / (kd * kv * ft90)) /\
  let s := ((match hs with Some h => h / 2 | None => 0 end) + t_H m 0) / L in
  (s <= nth 0 (map f_loc secs) 0 -> i = 0%nat) /\
  (nth 0 (map f_loc secs) 0 < s -> f_loc f1 <= s /\ ((exists f, nth_error secs (S i) = Some f /\ s < f_loc f) \/ i = 0%nat /\ forall f, In f secs -> f_loc f <= s)).
Proof. exact apx_combined_lemma. Qed.
Print Assumptions C368_combined.
Theorem C368_end_zone_refuted : forall m a secs L hs he he' kv ft90 q, ascending (map f_loc secs) -> secs <> [] -> L <> 0 ->
  check_combined m a secs L hs he kv ft90 q = check_combined m a secs L hs he' kv ft90 q.
Proof. exact apx_no_end_lemma. Qed.
Print Assumptions C368_end_zone_refuted.
Theorem C368_end_shear_refuted : exists m a secs L f, ascending (map f_loc secs) /\ nth_error secs (length secs - 1) = Some f /\ 0 < t_fv m /\
  10 * t_fv m < Rabs (shear_stress m (k_cr m) f) /\ exists u, check_combined m a secs L None None 1 1 None = Some u /\ u < 1.
Proof. exact apx_sign_lemma. Qed.
Print Assumptions C368_end_shear_refuted.
Theorem C368_mirror_refuted : exists m a secs L u u', ascending (map f_loc secs) /\ ap_x a = 1/2 /\ (forall x, t_H m x = t_H m (1 - x)) /\
  check_combined m a secs L None None 1 1 None = Some u /\ check_combined m a (mirrored secs) L None None 1 1 None = Some u' /\ u < 1 < u'.
Proof. exact apx_mirror_lemma. Qed.
Print Assumptions C368_mirror_refuted.

(** A beam with a ridge in the middle and sections on both sides of it. *)
Example C368_ex : exists secs m a kl kr, NoDup (map f_loc secs) /\ ~ In (ap_x a) (map f_loc secs) /\ reaches secs (ap_x a) /\ ascending (map f_loc secs) /\
  k_l (ap_kind a) (ap_alfa a) (ap_r a) (ap_h a) = Some kl /\ k_r (ap_kind a) (ap_r a) (ap_t a) = Some kr /\ 0 < kr /\ 0 < t_fm m /\
  check_tapered m a secs = Some (1/2).
Proof.
  set (secs := [mkTF 0 0 0 0 100 0 0; mkTF 0 50000000 0 0 20 0 (4/10); mkTF 0 70000000 0 0 (-20) 0 (6/10); mkTF 0 0 0 0 (-100) 0 1]).
  assert (ND : NoDup (map f_loc secs)) by (cbn; repeat constructor; cbn; intros Q; lra).
  assert (NI : ~ In (ap_x apk) (map f_loc secs)) by (cbn; lra).
  assert (Re : reaches secs (ap_x apk)) by (exists (mkTF 0 0 0 0 100 0 0), (mkTF 0 0 0 0 (-100) 0 1); cbn; split; [reflexivity|]; split; [reflexivity|lra]).
  exists secs, (apm 2), apk, (1 + 14/10 * tan 0 + 54/10 * tan 0 ^ 2), 1.
  split; [exact ND|]. split; [exact NI|]. split; [exact Re|]. split; [cbn; lra|]. split; [reflexivity|]. split; [reflexivity|]. split; [lra|]. split; [cbn; lra|].
  destruct (apx_tapered_between_lemma (apm 2) apk secs (1 + 14/10 * tan 0 + 54/10 * tan 0 ^ 2) 1 ND NI Re eq_refl eq_refl ltac:(lra) ltac:(cbn; lra)) as (f & g & (If & Ig & Lo & Sep) & E).
  rewrite E. f_equal. rewrite tan_0.
  pose proof (Sep (mkTF 0 50000000 0 0 20 0 (4/10)) ltac:(cbn; auto)) as S1. pose proof (Sep (mkTF 0 70000000 0 0 (-20) 0 (6/10)) ltac:(cbn; auto)) as S2. cbn in S1, S2, Lo.
  destruct If as [<-|[<-|[<-|[<-|[]]]]]; cbn in *; try lra;
  destruct Ig as [<-|[<-|[<-|[<-|[]]]]]; cbn in *; try lra. unfold bending_stress. cbn. field.
Qed.
