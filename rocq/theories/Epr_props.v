(** C370: resistance and stiffness constraints in the optimisation of end plate joints. *)
Require Import Reals List Bool Lra. Import ListNotations.
From Verif Require Import Bool_tac EC3_proofs Plate_proofs Sections_proofs Epr_proofs.
From Verif Require Import Epr_model Epr_spec.
Local Open Scope R_scope.

(** C370: a design is accepted exactly if it meets what the options ask for. *)
Theorem C370_accepted_iff : forall d MEd VEd target dev Sr r, 0 < rM r ->
  (accepted (fst (new_problem d MEd VEd target dev Sr)) r <->
   let o := match d with Some d => d | None => all_opts end in
   (oget Obending o = true -> strong_in_bending MEd r) /\
   (oget Oshear o = true -> strong_in_shear VEd r) /\
   (forall St, oget Otarget o = true -> target = Some St -> near_target dev St (if oget Oinitial o then rSini r else rS r)) /\
   (oget Origid o = true -> 1000000 * Sr <= rSini r)).
Proof. exact epr_main. Qed.
Print Assumptions C370_accepted_iff.
(** C370: the values of the constraints. *)
Theorem C370_values : forall d MEd VEd St dev Sr r, rM r <> 0 ->
  map (fun c => snd c r) (fst (new_problem (Some d) MEd VEd (Some St) dev Sr)) =
  map Some ((if oget Obending d then [MEd / (rM r / 1000000) - 1] else []) ++ (if oget Oshear d then [VEd - rV r / 1000] else []) ++
    (if oget Otarget d then let S := (if oget Oinitial d then rSini r else rS r) / 1000000 in
       [(S - (100 + dev) / 100 * St) / 100; (S - (100 - dev) / 100 * St) / 100] else []) ++
    (if oget Origid d then [rSini r / 1000000 - Sr] else [])).
Proof. exact epr_values. Qed.
Print Assumptions C370_values.
(** C370: without options all of bending, shear and, given a target, stiffness are required. *)
Theorem C370_no_options : forall MEd VEd St dev Sr r, 0 < rM r ->
  (accepted (fst (new_problem None MEd VEd (Some St) dev Sr)) r <-> strong_in_bending MEd r /\ strong_in_shear VEd r /\ near_target dev St (rS r)) /\
  (accepted (fst (new_problem None MEd VEd None dev Sr)) r <-> strong_in_bending MEd r /\ strong_in_shear VEd r).
Proof.
  intros MEd VEd St dev Sr r P. rewrite !epr_main by auto. cbn. split; split.
  - intros (A & B & C & _). auto.
  - intros (A & B & C). split; [auto|]. split; [auto|]. split; [intros x _ E; injection E as <-; auto|discriminate].
  - intros (A & B & _). auto.
  - intros (A & B). split; [auto|]. split; [auto|]. split; [intros x _ E; discriminate|discriminate].
Qed.
Print Assumptions C370_no_options.
(** C370: the options in force: those given, or all of geometry, bending, shear and stiffness; without a target the last
    is off. *)
Theorem C370_options_in_force : forall d target k,
  (oget k (options None target) = true <-> k = Ogeometry \/ k = Obending \/ k = Oshear \/ (k = Otarget /\ target <> None)) /\
  (k <> Otarget \/ target <> None -> oget k (options (Some d) target) = oget k d) /\
  (target = None -> oget Otarget (options (Some d) target) = false).
Proof.
  intros d target k. split; [|split].
  - destruct target, k; cbn; split; intros H; try reflexivity; try discriminate; auto; intuition congruence.
  - intros H. destruct target as [x|]; [reflexivity|]. destruct H as [H|H]; [|congruence]. cbn [options].
    induction d as [|[k' b] d IH]; [destruct k; try reflexivity; congruence|].
    cbn [oset]. destruct k'; cbn [eopt_eqb]; cbn [oget]; destruct k; cbn [eopt_eqb]; try reflexivity; try congruence; exact IH.
  - intros ->. cbn [options]. induction d as [|[k' b] d IH]; [reflexivity|].
    cbn [oset]. destruct k'; cbn [eopt_eqb oget]; try reflexivity; exact IH.
Qed.
Print Assumptions C370_options_in_force.
(** C370, finding: a dictionary of options used once without a target has lost the requirement on the stiffness: every
    later problem made with it is the problem without a target. *)
Theorem C370_options_reused_refuted : forall d M1 V1 e1 s1 M V St dev Sr,
  match snd (new_problem (Some d) M1 V1 None e1 s1) with
  | Some d' => fst (new_problem (Some d') M V (Some St) dev Sr) = fst (new_problem (Some d) M V None dev Sr)
  | None => False end.
Proof. exact epr_reuse. Qed.
Print Assumptions C370_options_reused_refuted.
(** C370, finding: the option for a pinned joint has no effect. *)
Theorem C370_pinned_refuted : forall d MEd VEd target dev Sr b,
  fst (new_problem (Some (oset Opinned b d)) MEd VEd target dev Sr) = fst (new_problem (Some d) MEd VEd target dev Sr).
Proof. exact epr_pinned. Qed.
Print Assumptions C370_pinned_refuted.
(** C370, finding: with the threshold the constructor sets, 0, the option for a rigid joint has no effect. *)
Theorem C370_rigid_refuted : forall d MEd VEd target dev r, 0 <= rSini r ->
  accepted (fst (new_problem (Some (oset Origid true d)) MEd VEd target dev 0)) r <-> accepted (fst (new_problem (Some (oset Origid false d)) MEd VEd target dev 0)) r.
Proof. exact epr_rigid. Qed.
Print Assumptions C370_rigid_refuted.
(** C370, finding: a moment of the other sign is never checked. *)
Theorem C370_reversed_moment_refuted : forall MEd r, 0 < rM r -> MEd <= 0 -> accepted (fst (new_problem (Some [(Obending, true)]) MEd 0 None 0 0)) r.
Proof.
  intros MEd r P N. apply epr_main; [auto|]. cbn. unfold strong_in_bending. split; [intros _; lra|]. split; [discriminate|]. split; [intros; discriminate|discriminate].
Qed.
Print Assumptions C370_reversed_moment_refuted.
Example C370_ex : accepted (fst (new_problem None 100 80 (Some 20000) 5 0)) (mkResp 120000000 90000 30000000000 20500000000) /\
  ~ accepted (fst (new_problem None 100 80 (Some 20000) (1/10) 0)) (mkResp 120000000 90000 30000000000 20500000000).
Proof.
  split.
  - apply epr_main; cbn; [lra|]. unfold strong_in_bending, strong_in_shear, near_target; cbn. split; [intros; lra|]. split; [intros; lra|].
    split; [intros St _ E; injection E as <-; apply Rabs_le; lra|discriminate].
  - intros H. apply epr_main in H; cbn in *; [|lra]. destruct H as (_ & _ & H & _). specialize (H 20000 eq_refl eq_refl).
    unfold near_target in H; cbn in H. pose proof (Rle_abs (20500000000 / 1000000 - 20000)). lra.
Qed.
