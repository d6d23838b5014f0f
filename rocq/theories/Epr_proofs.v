Require Import Reals List Bool Lra Lia Psatz PeanoNat. Import ListNotations.
From Verif Require Import Base EC3_model Bool_tac EC3_proofs Plate_proofs Sections_proofs.
From Verif Require Import Epr_model Epr_spec.
Local Open Scope R_scope.

Lemma epr_app cs ds r : accepted (cs ++ ds) r <-> accepted cs r /\ accepted ds r.
Proof. apply Forall_app. Qed.
Lemma epr_one c r : accepted [c] r <-> meets r c.
Proof. unfold accepted. split; [intros H; inversion H; auto|intros H; repeat constructor; auto]. Qed.
Lemma epr_nil r : accepted [] r <-> True.
Proof. split; [auto|constructor]. Qed.
Lemma epr_m MEd r : 0 < rM r -> (meets r (m_con MEd) <-> strong_in_bending MEd r).
Proof.
  intros P. unfold meets, m_con, strong_in_bending; cbn [fst snd].
  assert (Q : 0 < rM r * / 1000000) by lra. rewrite pdiv_ok by lra. cbn [bind].
  pose proof (div_le_iff MEd (rM r * / 1000000) 1 Q). split; intros H1; [assert (MEd / (rM r * / 1000000) <= 1) by lra; apply H in H0; lra|].
  assert (MEd / (rM r * / 1000000) <= 1) by (apply H; lra). lra.
Qed.
Lemma epr_v VEd r : meets r (v_con VEd) <-> strong_in_shear VEd r.
Proof. unfold meets, v_con, strong_in_shear; cbn [fst snd]. split; lra. Qed.
Lemma epr_s ini dev St r : accepted (s_cons ini dev St) r <-> near_target dev St (s_val ini r).
Proof.
  unfold accepted, s_cons, near_target. split.
  - intros H. inversion H as [|? ? A B]; subst. inversion B as [|? ? C D]; subst. unfold meets in A, C; cbn [fst snd] in A, C.
    apply Rabs_le. split; lra.
  - intros H. assert (X := Rle_abs (s_val ini r / 1000000 - St)). assert (Y := Rle_abs (- (s_val ini r / 1000000 - St))). rewrite Rabs_Ropp in Y.
    constructor; [|constructor; [|constructor]]; unfold meets; cbn [fst snd]; lra.
Qed.
Lemma epr_r Sr r : meets r (r_con Sr) <-> 1000000 * Sr <= rSini r.
Proof. unfold meets, r_con; cbn [fst snd]. split; lra. Qed.

Lemma epr_oget_set k b d k' : oget k' (oset k b d) = if eopt_eqb k' k then b else oget k' d.
Proof.
  induction d as [|[q c] d IH]; cbn; [auto|]. destruct (eopt_eqb k q) eqn:E; cbn.
  - assert (k = q) by (destruct k, q; cbn in E; congruence). subst. destruct (eopt_eqb k' q); auto.
  - rewrite IH. destruct (eopt_eqb k' q) eqn:F, (eopt_eqb k' k) eqn:G; auto. exfalso. destruct k, q, k'; cbn in *; congruence.
Qed.

Lemma epr_main d MEd VEd target dev Sr r : 0 < rM r ->
  (accepted (fst (new_problem d MEd VEd target dev Sr)) r <->
   let o := match d with Some d => d | None => all_opts end in
   (oget Obending o = true -> strong_in_bending MEd r) /\
   (oget Oshear o = true -> strong_in_shear VEd r) /\
   (forall St, oget Otarget o = true -> target = Some St -> near_target dev St (if oget Oinitial o then rSini r else rS r)) /\
   (oget Origid o = true -> 1000000 * Sr <= rSini r)).
Proof.
  intros P. cbv zeta. unfold new_problem; cbn [fst]. unfold create_constraints. rewrite !epr_app.
  set (o := match d with Some d => d | None => all_opts end).
  assert (G : forall k, k <> Otarget -> oget k (options d target) = oget k o).
  { intros k K. unfold options. fold o. destruct target; [auto|]. rewrite epr_oget_set. destruct k; cbn; auto; congruence. }
  rewrite (G Obending), (G Oshear), (G Origid), (G Oinitial) by discriminate.
  assert (T : accepted (if oget Otarget (options d target) then match target with Some St => s_cons (oget Oinitial o) dev St | None => [] end else []) r <->
    (forall St, oget Otarget o = true -> target = Some St -> near_target dev St (if oget Oinitial o then rSini r else rS r))).
  { unfold options. fold o. destruct target as [St|].
    - destruct (oget Otarget o).
      + rewrite epr_s. unfold s_val. split; [intros H x _ E; injection E as <-; auto|intros H; apply H; auto].
      + split; [intros _ x; discriminate|intros _; constructor].
    - rewrite epr_oget_set. cbn. split; [intros _ x _; discriminate|intros _; constructor]. }
  rewrite T.
  assert (A : accepted (if oget Obending o then [m_con MEd] else []) r <-> (oget Obending o = true -> strong_in_bending MEd r)).
  { destruct (oget Obending o); [rewrite epr_one, epr_m by auto; tauto|]. rewrite epr_nil. split; [discriminate|auto]. }
  assert (B : accepted (if oget Oshear o then [v_con VEd] else []) r <-> (oget Oshear o = true -> strong_in_shear VEd r)).
  { destruct (oget Oshear o); [rewrite epr_one, epr_v; tauto|]. rewrite epr_nil. split; [discriminate|auto]. }
  assert (C : accepted (if oget Origid o then [r_con Sr] else []) r <-> (oget Origid o = true -> 1000000 * Sr <= rSini r)).
  { destruct (oget Origid o); [rewrite epr_one, epr_r; tauto|]. rewrite epr_nil. split; [discriminate|auto]. }
  rewrite A, B, C. reflexivity.
Qed.

Lemma epr_values d MEd VEd St dev Sr r : rM r <> 0 ->
  map (fun c => snd c r) (fst (new_problem (Some d) MEd VEd (Some St) dev Sr)) =
  map Some ((if oget Obending d then [MEd / (rM r / 1000000) - 1] else []) ++ (if oget Oshear d then [VEd - rV r / 1000] else []) ++
    (if oget Otarget d then let S := (if oget Oinitial d then rSini r else rS r) / 1000000 in
       [(S - (100 + dev) / 100 * St) / 100; (S - (100 - dev) / 100 * St) / 100] else []) ++
    (if oget Origid d then [rSini r / 1000000 - Sr] else [])).
Proof.
  intros N. unfold new_problem, options, create_constraints; cbn [fst]. rewrite !map_app.
  assert (E : rM r / 1000000 <> 0) by (intros H; apply N; lra).
  f_equal; [|f_equal; [|f_equal]].
  - destruct (oget Obending d); [|auto]. cbn [map snd m_con]. rewrite (pdiv_ok MEd (rM r * / 1000000) E). reflexivity.
  - destruct (oget Oshear d); reflexivity.
  - destruct (oget Otarget d); [|auto]. unfold s_cons, s_val; cbn [map snd]. destruct (oget Oinitial d); f_equal; [f_equal; lra|f_equal; f_equal; lra|f_equal; lra|f_equal; f_equal; lra].
  - destruct (oget Origid d); [|auto]. cbn [map snd r_con]. f_equal. f_equal. lra.
Qed.

Lemma epr_reuse d M1 V1 e1 s1 M V St dev Sr :
  match snd (new_problem (Some d) M1 V1 None e1 s1) with
  | Some d' => fst (new_problem (Some d') M V (Some St) dev Sr) = fst (new_problem (Some d) M V None dev Sr)
  | None => False end.
Proof.
  unfold new_problem, options, create_constraints; cbn [fst snd]. rewrite !epr_oget_set. reflexivity.
Qed.
Lemma epr_keeps d MEd VEd St dev Sr : snd (new_problem (Some d) MEd VEd (Some St) dev Sr) = Some d.
Proof. reflexivity. Qed.
Lemma epr_pinned d MEd VEd target dev Sr b : fst (new_problem (Some (oset Opinned b d)) MEd VEd target dev Sr) = fst (new_problem (Some d) MEd VEd target dev Sr).
Proof.
  unfold new_problem, options, create_constraints; cbn [fst snd]. destruct target; rewrite !epr_oget_set; cbn [eopt_eqb]; reflexivity.
Qed.
Lemma epr_rigid d MEd VEd target dev r : 0 <= rSini r -> 
  accepted (fst (new_problem (Some (oset Origid true d)) MEd VEd target dev 0)) r <-> accepted (fst (new_problem (Some (oset Origid false d)) MEd VEd target dev 0)) r.
Proof.
  intros P. unfold new_problem, options, create_constraints; cbn [fst snd]. destruct target; rewrite !epr_oget_set; cbn [eopt_eqb]; rewrite !epr_app, epr_one, epr_nil, epr_r; intuition lra.
Qed.
