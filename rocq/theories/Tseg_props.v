(** Property C365: governing sections of the segments of a timber member. *)
Require Import Reals List Bool Lra Lia PeanoNat.
Import ListNotations.
From Verif Require Import Base EC3_model Bool_tac Timber4_proofs Tseg_proofs.
From Verif Require Import Tseg_model Tseg_spec.
Local Open Scope R_scope.

(** C365 *)
Theorem C365_stress : forall m secs sup r, distinct_locs secs -> max_sigma_per_segment m secs sup = Some r ->
  Forall2 (fun ab s => exists f, governs_y m secs ab f /\ s = (sigma_my m f, sigma_mz m f)) (pairs (with_ends sup)) r.
Proof. exact seg_max_lemma. Qed.
Print Assumptions C365_stress.
Theorem C365_stress_defined : forall m secs sup, (max_sigma_per_segment m secs sup <> None <-> forall ab, In ab (pairs (with_ends sup)) -> exists f, lies_in secs ab f).
Proof. exact seg_defined_lemma. Qed.
Print Assumptions C365_stress_defined.
Theorem C365_radius : forall m z secs sup rs xs, 0 < t_B m -> (forall x, 0 < t_H m x) -> distinct_locs secs -> radius_of_gyration m z secs sup = Some (rs, xs) ->
  Forall2 (fun ab x => exists f, tops_y m secs ab f /\ x = f_loc f) (pairs (with_ends sup)) xs /\
  rs = map (fun x => (if z then t_B m else t_H m x) / sqrt 12) xs.
Proof. exact gyr_value_lemma. Qed.
Print Assumptions C365_radius.
Theorem C365_radius_defined : forall m z secs sup, (radius_of_gyration m z secs sup <> None <-> forall ab, In ab (pairs (with_ends sup)) -> exists f, lies_in secs ab f).
Proof. exact gyr_defined_lemma. Qed.
Print Assumptions C365_radius_defined.
Theorem C365_covered : forall m z secs sup, (forall x, In x (0 :: 1 :: sup) -> exists f, In f secs /\ f_loc f = x) ->
  max_sigma_per_segment m secs sup <> None /\ radius_of_gyration m z secs sup <> None.
Proof. exact seg_covered_lemma. Qed.
Print Assumptions C365_covered.
Theorem C365_sagging : forall m secs ab x, distinct_locs secs -> (forall f, lies_in secs ab f -> 0 <= sigma_my m f) -> gyr_loc m secs ab = Some x ->
  exists f, governs_y m secs ab f /\ x = f_loc f.
Proof. exact gyr_sagging_lemma. Qed.
Print Assumptions C365_sagging.
Theorem C365_hogging_refuted : forall m secs ab x, distinct_locs secs -> (forall f, lies_in secs ab f -> sigma_my m f <= 0) -> gyr_loc m secs ab = Some x ->
  exists f, lies_in secs ab f /\ x = f_loc f /\ forall g, lies_in secs ab g -> Rabs (sigma_my m f) <= Rabs (sigma_my m g).
Proof. exact gyr_hogging_lemma. Qed.
Print Assumptions C365_hogging_refuted.
Theorem C365_about_z_refuted : forall m secs ab s, distinct_locs secs -> seg_stress m secs ab = Some s ->
  (forall f g, lies_in secs ab f -> lies_in secs ab g -> Rabs (sigma_my m f) = Rabs (sigma_my m g) -> f = g) ->
  forall f g, governs_y m secs ab f -> lies_in secs ab g -> Rabs (sigma_mz m f) < Rabs (sigma_mz m g) -> Rabs (snd s) < Rabs (sigma_mz m g).
Proof. exact seg_z_lemma. Qed.
Print Assumptions C365_about_z_refuted.
Theorem C365_alpha : forall m secs r, distinct_locs secs -> sigma_m_alpha_d m secs = Some r ->
  (exists f, In f secs /\ r = sigma_my m f) /\ (forall f, In f secs -> Rabs (sigma_my m f) <= Rabs r) /\
  (forall f, In f secs -> sigma_my m f = - Rabs r -> r <= 0).
Proof. exact tsg_alpha_lemma. Qed.
Print Assumptions C365_alpha.
Theorem C365_alpha_defined : forall m secs, sigma_m_alpha_d m secs <> None <-> secs <> [].
Proof. exact tsg_alpha_defined_lemma. Qed.
Print Assumptions C365_alpha_defined.

(** A member 100 wide and 200 to 400 high. *)
Definition ex_tap : tmem := mkTM (fun x => 200 + 200 * x) 100 20 20 20 20 lvl 1 false.
(** Bending stresses -6, -2 and -1 about y at the start, middle and end; 5 about z at the end. *)
Definition ex_secs : list tf :=
  [mkTF 0 (-4000000) 0 0 0 0 0; mkTF 0 (-3000000) 0 0 0 0 (1/2); mkTF 0 (-16000000/6) (20000000/6) 0 0 0 1].
Lemma ex_distinct : distinct_locs ex_secs.
Proof. unfold distinct_locs; cbn. constructor; [cbn; intros [X|[X|[]]]; lra|]. constructor; [cbn; intros [X|[]]; lra|]. constructor; [intros []|constructor]. Qed.
Lemma ex_ends : with_ends [] = [0; 1].
Proof. unfold with_ends; cbn. rewrite (proj2 (Rleb_true 0 1)) by lra. reflexivity. Qed.
Lemma ex_in : in_seg ex_secs (0, 1) = ex_secs.
Proof.
  unfold in_seg, ex_secs. cbn [filter f_loc fst snd].
  rewrite (proj2 (Rleb_true 0 0)), (proj2 (Rleb_true 0 1)), (proj2 (Rleb_true 0 (1/2))), (proj2 (Rleb_true (1/2) 1)), (proj2 (Rleb_true 1 1)) by lra. reflexivity.
Qed.
Lemma ex_sig : map (fun f => (sigma_my ex_tap f, sigma_mz ex_tap f)) ex_secs = [(-6, 0); (-2, 0); (-1, 5)].
Proof.
  unfold ex_secs, sigma_my, sigma_mz, Wy_at, Wz_at, ex_tap; cbn [map t_H t_B f_My f_Mz f_loc].
  repeat (apply (f_equal2 cons)); [| | |reflexivity]; apply (f_equal2 pair); field.
Qed.
(** The stresses of the segment are those at the start, the radius of gyration is that of the end, where the member is
    twice as high and its stress about y is smallest, and the stress about z is largest at the end. *)
Example C365_ex : max_sigma_per_segment ex_tap ex_secs [] = Some [(-6, 0)] /\
  radius_of_gyration ex_tap false ex_secs [] = Some ([400 / sqrt 12], [1]) /\ sigma_m_alpha_d ex_tap ex_secs = Some (-6).
Proof.
  pose proof ex_sig as X. unfold ex_secs in X. cbn [map] in X. injection X as A1 A2 A3 A4 A5 A6.
  split; [|split].
  - unfold max_sigma_per_segment. rewrite ex_ends. cbn [pairs map all_some]. unfold seg_stress.
    rewrite (seg_secs_distinct _ _ ex_distinct), ex_in. unfold ex_secs. cbn [max_key].
    rewrite ?A1, ?A3, ?A5. rewrite (Rabs_left (-6)), (Rabs_left (-2)), (Rabs_left (-1)) by lra.
    rewrite (proj2 (Rltb_false (- -2) (- -1))) by lra. rewrite ?A1, ?A3, ?A5. rewrite (Rabs_left (-2)) by lra.
    rewrite (proj2 (Rltb_false (- -6) (- -2))) by lra. cbn [bind]. rewrite A1, A2. reflexivity.
  - unfold radius_of_gyration. rewrite ex_ends. cbn [pairs map all_some]. unfold gyr_loc.
    rewrite (seg_secs_distinct _ _ ex_distinct), ex_in. unfold ex_secs. cbn [max_lex].
    rewrite ?A1, ?A2, ?A3, ?A4, ?A5, ?A6.
    rewrite (proj2 (lex_lt_true (-2, 0) (-1, 5))) by (cbn; lra). rewrite ?A5, ?A6.
    rewrite (proj2 (lex_lt_true (-6, 0) (-1, 5))) by (cbn; lra). cbn [bind f_loc map].
    rewrite gyr_sq by (cbn; lra). cbn [ex_tap t_H]. do 3 f_equal. f_equal. ring.
  - unfold sigma_m_alpha_d. replace (map _ ex_secs) with [-6; -2; -1].
    2:{ unfold ex_secs. cbn [map]. fold ex_secs. rewrite !first_at_self by (first [exact ex_distinct | unfold ex_secs; cbn; tauto]).
        unfold sigma_my in A1, A3, A5. cbn [f_loc f_My] in *. rewrite A1, A3, A5. reflexivity. }
    replace (list_min [-6; -2; -1]) with (Some (-6)).
    2:{ symmetry. apply list_min_spec. split; [left; reflexivity|]. intros x [<-|[<-|[<-|[]]]]; lra. }
    replace (list_max [-6; -2; -1]) with (Some (-1)).
    2:{ symmetry. apply list_max_spec. split; [right; right; left; reflexivity|]. intros x [<-|[<-|[<-|[]]]]; lra. }
    cbn [bind]. rewrite (Rabs_left (-6)), (Rabs_left (-1)), Rmax_left by lra. rewrite (proj2 (Reqb_true _ _)) by reflexivity. reflexivity.
Qed.
Example C365_ex_hyps : distinct_locs ex_secs /\ (forall f, lies_in ex_secs (0, 1) f -> sigma_my ex_tap f <= 0) /\
  (exists f g, governs_y ex_tap ex_secs (0, 1) f /\ lies_in ex_secs (0, 1) g /\ Rabs (sigma_mz ex_tap f) < Rabs (sigma_mz ex_tap g)).
Proof.
  pose proof ex_sig as X. unfold ex_secs in X. cbn [map] in X. injection X as A1 A2 A3 A4 A5 A6.
  split; [exact ex_distinct|]. split.
  - intros f [[<-|[<-|[<-|[]]]] _]; lra.
  - exists (mkTF 0 (-4000000) 0 0 0 0 0), (mkTF 0 (-16000000/6) (20000000/6) 0 0 0 1). split; [|split].
    + split; [split; [unfold ex_secs; cbn; tauto|cbn; lra]|]. intros g [[<-|[<-|[<-|[]]]] _]; rewrite ?A1, ?A3, ?A5; rewrite ?(Rabs_left (-6)), ?(Rabs_left (-2)), ?(Rabs_left (-1)) by lra; lra.
    + split; [unfold ex_secs; cbn; tauto|cbn; lra].
    + rewrite A2, A6, Rabs_R0, Rabs_pos_eq by lra. lra.
Qed.
