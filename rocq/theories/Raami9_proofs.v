(** Further facts about frames: load ids, the sweeps of the member optimisation, fresh members. *)
From Verif Require Import Tac Raami_proofs Raami2_proofs.
From Verif Require Import Raami_model Raami_spec.

Lemma case_add_lids i o f f' : case_add i o f = Some f' -> lids f' = lids f.
Proof.
  unfold case_add. destruct (dget Nat.eqb i (cases f)); [|discriminate]. cbn [bind]. destruct (existsb (Nat.eqb o) l); intros E; injection E as <-; reflexivity.
Qed.
Lemma add_load_ids o f f' : add_load o f = Some f' -> incl (lids f) (lids f') /\ In (o_lid (obj f o)) (lids f') /\
  forall x, In x (lids f') -> In x (lids f) \/ x = o_lid (obj f o).
Proof.
  unfold add_load. destruct (existsb (Nat.eqb (o_lid (obj f o))) (lids f)) eqn:E.
  - intros H. apply case_add_lids in H. cbn [lids] in H. rewrite H. split; [apply incl_refl|]. split; [|auto].
    apply existsb_exists in E. destruct E as (x & X & Y). apply Nat.eqb_eq in Y. subst. exact X.
  - intros H. injection H as <-. cbn [lids]. split; [apply incl_appl, incl_refl|]. split; [apply in_or_app; right; left; reflexivity|].
    intros x X. apply in_app_or in X. destruct X as [X | [X | [X | []]]]; auto.
Qed.
Lemma add_new_names_ids os : forall f f', add_new_names os f = Some f' -> incl (lids f) (lids f').
Proof.
  induction os as [|o os IH]; intros f f' H; cbn in H; [injection H as <-; apply incl_refl|].
  match type of H with context [if ?b then _ else _] => destruct b end.
  - apply IH in H. exact H.
  - match type of H with bind ?x _ = _ => destruct x as [g|] eqn:G end; [|discriminate]. cbn [bind] in H.
    apply add_load_ids in G. destruct G as (G & _). apply IH in H. eapply incl_tran; eauto.
Qed.
Lemma loadcase_id_lemma i os f f' : add_loadcase i os f = Some f' -> In i (lids f') /\ incl (lids f) (lids f').
Proof.
  unfold add_loadcase. intros H. apply add_new_names_ids in H. cbn [lids make_case] in H. 
  assert (L : lids (make_case i os f) = lids f) by reflexivity. destruct (existsb (Nat.eqb i) (lids f)) eqn:E.
  - split; [|exact H]. apply existsb_exists in E. destruct E as (x & X & Y). apply Nat.eqb_eq in Y. subst. auto.
  - split; [apply H, in_or_app; right; left; reflexivity|]. intros x X. apply H, in_or_app. auto.
Qed.
Lemma empty_case_lemma i f f' : add_loadcase i [] f = Some f' ->
  (In i (lids f) -> lids f' = lids f) /\ (~ In i (lids f) -> lids f' = lids f ++ [i]) /\ loads f' = loads f /\ dget Nat.eqb i (cases f') = Some [].
Proof.
  unfold add_loadcase. cbn. intros H. injection H as <-. cbn [lids loads cases]. split; [|split; [|split]]; auto.
  - intros X. destruct (existsb (Nat.eqb i) (lids f)) eqn:E; [reflexivity|]. exfalso.
    assert (existsb (Nat.eqb i) (lids f) = true) by (apply existsb_exists; exists i; split; [auto|apply Nat.eqb_refl]). congruence.
  - intros X. destruct (existsb (Nat.eqb i) (lids f)) eqn:E; [|reflexivity]. exfalso. apply X. apply existsb_exists in E. destruct E as (x & X1 & Y). apply Nat.eqb_eq in Y. subst. exact X1.
  - induction (cases f) as [|[k v] l IH]; cbn; [rewrite Nat.eqb_refl; reflexivity|]. destruct (Nat.eqb i k) eqn:E; cbn; rewrite ?Nat.eqb_refl, ?E; auto.
Qed.
Lemma nth_map_seq (f : nat -> nat) n j : (j < n)%nat -> nth j (map f (seq 0 n)) 0%nat = f j.
Proof. intros J. rewrite (nth_indep _ 0%nat (f 0%nat)) by (rewrite map_length, seq_length; auto). rewrite map_nth, seq_nth by auto. reflexivity. Qed.
Lemma sweep_lemma bestg bestm s : let r := fst (sweep bestg bestm s) in
  List.length (fst r) = List.length (fst s) /\ List.length (snd r) = List.length (snd s) /\
  (forall j, (j < List.length (fst s))%nat -> nth j (fst r) 0%nat = bestg s j) /\
  (forall j, (j < List.length (snd s))%nat -> nth j (snd r) 0%nat = bestm s j).
Proof.
  cbn [sweep fst snd]. rewrite !map_length, !seq_length. split; [reflexivity|]. split; [reflexivity|]. split; intros j J; apply nth_map_seq; exact J.
Qed.
Lemma fresh_run os : Forall (fun o => match o with Hnew _ None => True | _ => False end) os -> forall s, hval s 0%nat = (false, false) ->
  let r := fold_left hstep os s in hval r 0%nat = (false, false) /\ (forall m, In (Hnew m None) os \/ href s m = 0%nat -> href r m = 0%nat).
Proof.
  induction os as [|o os IH]; intros F s V; [cbn; split; [auto|]; intros m [[] | H]; auto|].
  inversion F as [|? ? F1 F2]; subst. destruct o as [m0 [own|] | m0 b]; try contradiction. cbn [fold_left].
  destruct (IH F2 (hstep s (Hnew m0 None)) V) as (A & B). split; [exact A|]. intros m H. apply B. cbn [hstep new_member href].
  destruct (Nat.eqb m m0) eqn:E; [right; reflexivity|]. destruct H as [[H | H] | H]; auto.
  injection H as ->. rewrite Nat.eqb_refl in E. discriminate.
Qed.
Lemma fresh_members_lemma os m : Forall (fun o => match o with Hnew _ None => True | _ => False end) os -> In (Hnew m None) os ->
  hinges_of (hrun os) m = (false, false).
Proof.
  intros F I0. destruct (fresh_run os F no_hinges eq_refl) as (A & B). unfold hinges_of, hrun. rewrite B by auto. exact A.
Qed.
Lemma selfweight_history_lemma n ops : let s := sw_run n ops in
  sw_on s = last ops false /\ sw_flag s = repeat (last ops false) n /\ sw_loads s = repeat (List.length (filter (fun b => b) ops)) n.
Proof.
  cbn zeta. induction ops as [|b ops IH] using rev_ind; [cbn; auto|]. destruct IH as (A & B & C).
  unfold sw_run in *. rewrite fold_left_app, last_last, filter_app, app_length. cbn [fold_left filter].
  set (s := fold_left _ ops _) in *. destruct s as [on fl ld]. cbn in A, B, C. subst fl ld. destruct b; cbn [List.length].
  - replace (List.length (filter (fun b => b) ops) + 1)%nat with (S (List.length (filter (fun b => b) ops))) by lia.
    unfold add_self_weight, add_sw_members, remove_self_weight. cbn [sw_on sw_flag sw_loads]. destruct on; cbn [sw_on sw_flag sw_loads];
      rewrite ?sw_map2; [rewrite sw_map1; auto|]. rewrite <- A. cbn. rewrite sw_map1. auto.
  - rewrite Nat.add_0_r. unfold remove_self_weight. cbn [sw_on sw_flag sw_loads]. rewrite sw_map2. auto.
Qed.
