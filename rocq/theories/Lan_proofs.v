From Verif Require Import Sections_proofs Plate_proofs.
From Verif Require Import Raami_spec Raami_proofs.
From Verif Require Import Lan_spec.
Require Import Psatz.
Open Scope nat_scope.

Notation keys f := (map fst (cases f)).
Definition linv (f : frame) : Prop :=
  NoDup (keys f) /\ Forall (fun p => snd p < List.length (heap f)) (loads f) /\
  (forall p, In p (loads f) -> In (o_lid (obj f (snd p))) (keys f)) /\ (forall j, In j (keys f) <-> In j (lids f)).

Lemma lan_keys_dset {V} i (v : V) d j : In j (map fst (dset Nat.eqb i v d)) <-> j = i \/ In j (map fst d).
Proof.
  induction d as [|[k w] d IH]; cbn; [intuition|]. destruct (Nat.eqb_spec i k); cbn; [subst; intuition|rewrite IH; intuition].
Qed.
Lemma lan_nodup_dset {V} i (v : V) d : NoDup (map fst d) -> NoDup (map fst (dset Nat.eqb i v d)).
Proof.
  induction d as [|[k w] d IH]; cbn; intros N; [repeat constructor; auto|]. inversion N; subst.
  destruct (Nat.eqb_spec i k); cbn; [subst; constructor; auto|]. constructor; [|auto].
  rewrite lan_keys_dset. intros [H|H]; [subst; congruence|auto].
Qed.
Lemma lan_dget_in {V} i (d : list (nat * V)) l : dget Nat.eqb i d = Some l -> In i (map fst d).
Proof. induction d as [|[k w] d IH]; cbn; [discriminate|]. destruct (Nat.eqb_spec i k); [subst; auto|auto]. Qed.
Lemma lan_set_len {A} (h : list A) o x : List.length (set_nth o x h) = List.length h.
Proof. revert o; induction h as [|a h IH]; intros [|o]; cbn; auto. Qed.
Lemma lan_nth_set {A} (h : list A) o x d : o < List.length h -> forall p, nth p (set_nth o x h) d = if Nat.eqb p o then x else nth p h d.
Proof.
  revert o; induction h as [|a h IH]; intros [|o] L [|p]; cbn in *; try lia; auto. apply IH. lia.
Qed.
Lemma lan_dset_in n o (d : list (string * nat)) p : In p (dset String.eqb n o d) -> In p d \/ snd p = o.
Proof.
  induction d as [|[k w] d IH]; cbn; [intros [<-|[]]; auto|]. destruct (String.eqb n k); cbn.
  - intros [<-|H]; auto.
  - intros [<-|H]; [auto|]. destruct (IH H); auto.
Qed.

Lemma lan_case_add i o f f' : o < List.length (heap f) -> case_add i o f = Some f' ->
  linv f -> linv f' /\ List.length (heap f') = List.length (heap f).
Proof.
  unfold case_add. intros L E (N & B & K & I). destruct (dget Nat.eqb i (cases f)) as [l|] eqn:G; [|discriminate]. cbn [bind] in E.
  pose proof (lan_dget_in _ _ _ G) as KI.
  destruct (existsb (Nat.eqb o) l); injection E as <-; [split; [exact (conj N (conj B (conj K I)))|reflexivity]|].
  split; [|cbn; apply lan_set_len].
  unfold linv; cbn [heap loads lids cases]. rewrite lan_set_len.
  split; [apply lan_nodup_dset; auto|]. split; [auto|]. split.
  - intros p Hp. apply lan_keys_dset. unfold obj; cbn [heap]. rewrite lan_nth_set by auto. destruct (Nat.eqb_spec (snd p) o); [left; reflexivity|].
    right. apply K; auto.
  - intros j. rewrite lan_keys_dset, <- I. split; [intros [->|H]; auto|auto].
Qed.

Lemma lan_add_load o f f' : o < List.length (heap f) -> add_load o f = Some f' -> linv f -> linv f' /\ List.length (heap f') = List.length (heap f).
Proof.
  intros L E (N & B & K & I). unfold add_load in E.
  set (n := stored_name o f) in *. set (h := set_nth o (set_name n (obj f o)) (heap f)) in *.
  set (ls := if andb _ _ then loads f else _) in *.
  assert (LS : forall p, In p ls -> In p (loads f) \/ snd p = o).
  { intros p. unfold ls. destruct (andb _ _); auto. apply lan_dset_in. }
  assert (LH : List.length h = List.length (heap f)) by apply lan_set_len.
  assert (OL : forall p, o_lid (nth p h (mkLobj EmptyString 0 OTHER 0 false 0)) = o_lid (obj f p)).
  { intros p. unfold h. rewrite lan_nth_set by auto. destruct (Nat.eqb_spec p o); [subst; reflexivity|reflexivity]. }
  destruct (existsb (Nat.eqb (o_lid (obj f o))) (lids f)) eqn:X.
  - apply existsb_exists in X. destruct X as (j & Hj & Ej). apply Nat.eqb_eq in Ej. subst j.
    assert (V : linv (mkFrame h ls (lids f) (cases f))).
    { unfold linv; cbn [heap loads lids cases]. rewrite LH. split; [auto|]. split.
      - rewrite Forall_forall in *. intros p Hp. destruct (LS p Hp) as [A|A]; [auto|rewrite A; auto].
      - split; [|auto]. intros p Hp. unfold obj at 1; cbn [heap]. rewrite OL. destruct (LS p Hp) as [A|A]; [auto|rewrite A; apply I; auto]. }
    assert (L2 : o < List.length (heap (mkFrame h ls (lids f) (cases f)))) by (cbn [heap]; rewrite LH; exact L).
    destruct (lan_case_add _ _ _ _ L2 E V) as (V' & L'). split; [auto|]. rewrite L'. cbn. auto.
  - injection E as <-. split; [|cbn; auto]. unfold linv; cbn [heap loads lids cases]. rewrite LH.
    split; [apply lan_nodup_dset; auto|]. split.
    + rewrite Forall_forall in *. intros p Hp. destruct (LS p Hp) as [A|A]; [auto|rewrite A; auto].
    + split.
      * intros p Hp. unfold obj at 1; cbn [heap]. rewrite OL. apply lan_keys_dset. destruct (LS p Hp) as [A|A]; [right; auto|left; rewrite A; auto].
      * intros j. rewrite lan_keys_dset, in_app_iff, I. cbn. intuition.
Qed.

Lemma lan_new_names os : forall f f', Forall (fun o => o < List.length (heap f)) os -> add_new_names os f = Some f' -> linv f ->
  linv f' /\ List.length (heap f') = List.length (heap f).
Proof.
  induction os as [|o os IH]; cbn [add_new_names]; intros f f' F E V; [injection E as <-; auto|]. inversion F; subst.
  destruct (has_name _ f); [eapply IH; eauto|].
  destruct (add_load o f) as [g|] eqn:G; [|discriminate]. cbn [bind] in E.
  destruct (lan_add_load _ _ _ H1 G V) as (V' & L').
  assert (F' : Forall (fun o => o < List.length (heap g)) os) by (rewrite L'; auto).
  destruct (IH _ _ F' E V') as (A & B). split; [auto|congruence].
Qed.

Lemma lan_make i os : forall h : list lobj, Forall (fun o => o < List.length h) os ->
  let h' := fold_left (fun h o => set_nth o (set_lid i (nth o h (mkLobj EmptyString 0 OTHER 0 false 0))) h) os h in
  List.length h' = List.length h /\
  forall p, o_lid (nth p h' (mkLobj EmptyString 0 OTHER 0 false 0)) = i \/ o_lid (nth p h' (mkLobj EmptyString 0 OTHER 0 false 0)) = o_lid (nth p h (mkLobj EmptyString 0 OTHER 0 false 0)).
Proof.
  induction os as [|o os IH]; intros h F; cbn [fold_left]; [split; auto|]. inversion F; subst.
  set (h1 := set_nth o _ h). assert (L1 : List.length h1 = List.length h) by apply lan_set_len.
  destruct (IH h1) as (A & B); [rewrite L1; auto|]. cbv zeta. split; [rewrite A; auto|].
  intros p. destruct (B p) as [C|C]; [auto|]. rewrite C. unfold h1. rewrite lan_nth_set by auto. destruct (Nat.eqb_spec p o); [left; reflexivity|right; reflexivity].
Qed.

Lemma lan_add_case i os f f' : Forall (fun o => o < List.length (heap f)) os -> add_loadcase i os f = Some f' -> linv f ->
  linv f' /\ List.length (heap f') = List.length (heap f).
Proof.
  intros F E (N & B & K & I). unfold add_loadcase, make_case in E. cbn [heap loads lids cases] in E.
  destruct (lan_make i os (heap f) F) as (L & P). set (h := fold_left _ os (heap f)) in *.
  assert (V : linv (mkFrame h (loads f) (if existsb (Nat.eqb i) (lids f) then lids f else lids f ++ [i]) (dset Nat.eqb i os (cases f)))).
  { unfold linv; cbn [heap loads lids cases]. rewrite L. split; [apply lan_nodup_dset; auto|]. split; [auto|]. split.
    - intros p Hp. apply lan_keys_dset. unfold obj; cbn [heap]. destruct (P (snd p)) as [A|A]; [left; auto|]. right. rewrite A. apply K; auto.
    - intros j. rewrite lan_keys_dset, I. destruct (existsb (Nat.eqb i) (lids f)) eqn:X; [|rewrite in_app_iff; cbn; intuition].
      apply existsb_exists in X. destruct X as (q & Hq & Eq). apply Nat.eqb_eq in Eq. subst q. split; [intros [->|H]; auto|auto]. }
  assert (F' : Forall (fun o => o < List.length (heap (mkFrame h (loads f) (if existsb (Nat.eqb i) (lids f) then lids f else lids f ++ [i]) (dset Nat.eqb i os (cases f))))) os)
    by (cbn [heap]; rewrite L; auto).
  destruct (lan_new_names _ _ _ F' E V) as (A & C). split; [auto|]. rewrite C. cbn. auto.
Qed.

Lemma lan_new l f : linv f -> linv (fst (new_load l f)).
Proof.
  intros (N & B & K & I). unfold new_load, linv; cbn [fst heap loads lids cases]. split; [auto|]. split.
  - rewrite Forall_forall in *. intros p Hp. rewrite app_length. specialize (B p Hp). cbn in *. lia.
  - split; [|auto]. intros p Hp. unfold obj; cbn [heap]. rewrite app_nth1; [apply K; auto|]. rewrite Forall_forall in B. exact (B p Hp).
Qed.

Lemma lan_copies c lead cid os : forall f f', Forall (fun o => o < List.length (heap f)) os -> add_copies c lead cid os f = Some f' -> linv f ->
  linv f' /\ List.length (heap f) <= List.length (heap f').
Proof.
  induction os as [|o os IH]; cbn [add_copies]; intros f f' F E V; [injection E as <-; auto|]. inversion F; subst.
  destruct (add_copy c lead cid o f) as [g|] eqn:G; [|discriminate]. cbn [bind] in E.
  unfold add_copy, new_load in G.
  pose proof (lan_new (factored_copy c lead cid (obj f o)) f V) as V1. unfold new_load in V1; cbn [fst] in V1.
  assert (LL : List.length (heap f) < List.length (heap (mkFrame (heap f ++ [factored_copy c lead cid (obj f o)]) (loads f) (lids f) (cases f)))) by (cbn; rewrite app_length; cbn; lia).
  destruct (lan_add_load _ _ _ LL G V1) as (V' & L').
  assert (F' : Forall (fun o => o < List.length (heap g)) os). { rewrite Forall_forall in *. intros x Hx. specialize (H2 x Hx). cbn in *. lia. }
  destruct (IH _ _ F' E V') as (A & B). split; [auto|]. cbn in *; lia.
Qed.

Lemma lan_cases c cid ld cs : forall k f f', Forall (fun o => o < List.length (heap f)) (List.concat cs) -> add_cases c cid ld k cs f = Some f' -> linv f -> linv f'.
Proof.
  induction cs as [|os cs IH]; cbn [add_cases List.concat]; intros k f f' F E V; [injection E as <-; auto|].
  apply Forall_app in F. destruct F as (F1 & F2).
  destruct (add_copies _ _ _ _ _) as [g|] eqn:G; [|discriminate]. cbn [bind] in E.
  destruct (lan_copies _ _ _ _ _ _ F1 G V) as (V' & L). apply (IH (S k) g f'); auto.
  rewrite Forall_forall in *. intros x Hx. specialize (F2 x Hx). cbn in *. lia.
Qed.

Lemma lan_clear cid f : linv f -> linv (clear_loads cid f).
Proof.
  intros (N & B & K & I). unfold clear_loads, linv; cbn [heap loads lids cases]. split; [auto|]. split.
  - rewrite Forall_forall in *. intros p Hp. apply filter_In in Hp. apply B, Hp.
  - split; [|auto]. intros p Hp. apply filter_In in Hp. apply (K p), Hp.
Qed.

Lemma lan_exist f os : exist f os = true -> Forall (fun o => o < List.length (heap f)) os.
Proof. unfold exist. rewrite forallb_forall, Forall_forall. intros H x Hx. apply Nat.ltb_lt. auto. Qed.

Lemma lan_step p f f' : lstep p f = Some f' -> linv f -> linv f'.
Proof.
  destruct p; cbn [lstep]; intros E V.
  - injection E as <-. apply lan_new; auto.
  - pose proof (lan_new l f V) as V1. refine (proj1 (lan_add_load _ _ f' _ E V1)). unfold new_load; cbn. rewrite app_length. cbn. lia.
  - destruct (exist f [o]) eqn:X; [|discriminate]. apply lan_exist in X. inversion X; subst. apply (lan_add_load o f f'); auto.
  - destruct (exist f os) eqn:X; [|discriminate]. apply lan_exist in X. apply (lan_add_case i os f f'); auto.
  - destruct (exist f (List.concat cs)) eqn:X; [|discriminate]. apply lan_exist in X.
    unfold combine_loads in E. refine (lan_cases c cid _ cs 0 (clear_loads cid f) f' X E _). apply lan_clear; auto.
Qed.

Lemma lan_run ps : forall f f', lrun ps f = Some f' -> linv f -> linv f'.
Proof.
  induction ps as [|p ps IH]; cbn [lrun]; intros f f' E V; [injection E as <-; auto|].
  destruct (lstep p f) as [g|] eqn:G; [|discriminate]. cbn [bind] in E. eapply IH; eauto. eapply lan_step; eauto.
Qed.
Lemma lan_inv0 : linv new_frame.
Proof. unfold linv; cbn. split; [constructor|]. split; [constructor|]. split; [intros x []|]. tauto. Qed.

(* ---- FEM *)
Lemma lan_gen ls : forall m, let r := fold_left fem_load ls m in
  fe_loads r = fe_loads m ++ ls /\ (forall i, In i (fe_cases r) <-> In i (fe_cases m) \/ In i (map o_lid ls)) /\ (NoDup (fe_cases m) -> NoDup (fe_cases r)).
Proof.
  induction ls as [|l ls IH]; intros m; cbn [fold_left map]; cbv zeta.
  - rewrite app_nil_r. split; [auto|]. split; [intros i; cbn; intuition|auto].
  - destruct (IH (fem_load m l)) as (A & B & C). cbv zeta in *. split; [rewrite A; cbn; rewrite <- app_assoc; reflexivity|].
    assert (D : forall i, In i (fe_cases (fem_load m l)) <-> In i (fe_cases m) \/ i = o_lid l).
    { intros i. unfold fem_load, fem_case; cbn [fe_cases]. destruct (existsb _ _) eqn:X.
      - apply existsb_exists in X. destruct X as (j & Hj & Ej). apply Nat.eqb_eq in Ej. subst j. split; [auto|intros [H|H]; [auto|subst; auto]].
      - rewrite in_app_iff. cbn. intuition. }
    split.
    + intros i. rewrite B, D. cbn. intuition.
    + intros N. apply C. unfold fem_load, fem_case; cbn [fe_cases]. destruct (existsb _ _) eqn:X; [auto|].
      apply (Permutation_NoDup (Permutation_cons_append (fe_cases m) (o_lid l))). constructor; [|auto].
      intros H. assert (Y : existsb (Nat.eqb (o_lid l)) (fe_cases m) = true) by (apply existsb_exists; exists (o_lid l); split; [auto|apply Nat.eqb_refl]). congruence.
Qed.
Lemma lan_fem f : fe_loads (generate_fem f) = applied f /\ (forall i, In i (fe_cases (generate_fem f)) <-> In i (map o_lid (applied f))) /\ NoDup (fe_cases (generate_fem f)).
Proof.
  destruct (lan_gen (applied f) (mkFemd [] [])) as (A & B & C). cbv zeta in *. fold (generate_fem f) in *. cbn in A.
  split; [auto|]. split; [intros i; rewrite B; cbn; intuition|apply C; constructor].
Qed.

Lemma lan_columns m lcs : (forall i, In i lcs -> In i (fe_cases m)) ->
  columns m lcs = Some (map (fun i => (i, filter (fun l => Nat.eqb (o_lid l) i) (fe_loads m))) lcs).
Proof.
  induction lcs as [|i lcs IH]; intros H; cbn [columns map]; [auto|]. unfold column at 1.
  assert (X : existsb (Nat.eqb i) (fe_cases m) = true) by (apply existsb_exists; exists i; split; [apply H; left; auto|apply Nat.eqb_refl]).
  rewrite X. cbn [bind]. rewrite IH; [reflexivity|]. intros j Hj. apply H. right; auto.
Qed.
Lemma lan_columns_inv m lcs cs : columns m lcs = Some cs -> forall i, In i lcs -> In i (fe_cases m).
Proof.
  revert cs; induction lcs as [|i lcs IH]; cbn [columns]; intros cs E j Hj; [destruct Hj|].
  unfold column in E at 1. destruct (existsb (Nat.eqb i) (fe_cases m)) eqn:X; [|discriminate]. cbn [bind] in E.
  destruct (columns m lcs) as [r|] eqn:Y; [|discriminate].
  destruct Hj as [<-|Hj]; [|eapply IH; eauto]. apply existsb_exists in X. destruct X as (k & Hk & Ek). apply Nat.eqb_eq in Ek. subst; auto.
Qed.

Lemma lan_partition (ls : list lobj) : forall ks, NoDup ks -> Forall (fun l => In (o_lid l) ks) ls ->
  Permutation (List.concat (map (fun i => filter (fun l => Nat.eqb (o_lid l) i) ls) ks)) ls.
Proof.
  induction ls as [|l ls IH]; intros ks N F.
  - assert (E : List.concat (map (fun _ : nat => @nil lobj) ks) = []) by (clear; induction ks; auto). cbn. rewrite E. constructor.
  - inversion F; subst. specialize (IH ks N H2). apply in_split in H1. destruct H1 as (a & b & ->).
    assert (Na : ~ In (o_lid l) a /\ ~ In (o_lid l) b). { apply NoDup_remove_2 in N. rewrite in_app_iff in N. tauto. }
    rewrite map_app, concat_app in *. cbn [map List.concat] in *. cbn [filter] in *. rewrite Nat.eqb_refl.
    assert (G : forall q, ~ In (o_lid l) q -> map (fun i => if Nat.eqb (o_lid l) i then l :: filter (fun l => Nat.eqb (o_lid l) i) ls else filter (fun l => Nat.eqb (o_lid l) i) ls) q
      = map (fun i => filter (fun l => Nat.eqb (o_lid l) i) ls) q).
    { intros q Hq. apply map_ext_in. intros i Hi. destruct (Nat.eqb_spec (o_lid l) i); [subst; tauto|auto]. }
    rewrite (G a) by tauto. rewrite (G b) by tauto. cbn [app].
    apply Permutation_sym. apply Permutation_cons_app. apply Permutation_sym. exact IH.
Qed.

Lemma lan_all_lemma ps f cols : lrun ps new_frame = Some f -> analyse_all (generate_fem f) f = Some cols ->
  map fst cols = keys f /\ NoDup (map fst cols) /\
  (forall i ls, In (i, ls) cols -> ls = filter (fun l => Nat.eqb (o_lid l) i) (applied f) /\ ls <> []) /\
  Permutation (List.concat (map snd cols)) (applied f).
Proof.
  intros E A. pose proof (lan_run _ _ _ E lan_inv0) as (N & B & K & I). destruct (lan_fem f) as (FL & FC & FN).
  unfold analyse_all, statics in A. destruct (keys f) as [|k0 ks] eqn:KE; [discriminate|]. rewrite <- KE in *.
  pose proof (lan_columns_inv _ _ _ A) as J. rewrite (lan_columns _ _ J) in A. injection A as <-.
  rewrite map_map. cbn [fst]. rewrite map_id. split; [auto|]. split; [auto|]. split.
  - intros i ls H. apply in_map_iff in H. destruct H as (j & H & Hj). injection H as <- <-. rewrite FL. split; [auto|].
    specialize (J j Hj). apply FC in J. apply in_map_iff in J. destruct J as (l & L1 & L2).
    intros Z. assert (Y : In l (filter (fun l => Nat.eqb (o_lid l) j) (applied f))) by (apply filter_In; split; [auto|apply Nat.eqb_eq; auto]).
    rewrite Z in Y. destruct Y.
  - rewrite map_map. cbn [snd]. rewrite FL. apply lan_partition; [auto|]. rewrite Forall_forall. intros l Hl. unfold applied in Hl.
    apply in_map_iff in Hl. destruct Hl as (p & <- & Hp). apply K; auto.
Qed.

Lemma lan_ok_lemma f : (exists cols, analyse_all (generate_fem f) f = Some cols) <->
  (cases f <> [] /\ forall i, In i (keys f) -> exists l, In l (applied f) /\ o_lid l = i).
Proof.
  destruct (lan_fem f) as (FL & FC & FN). unfold analyse_all, statics. split.
  - intros (cols & A). destruct (cases f) as [|c cs] eqn:KE; [discriminate|]. rewrite <- KE in *. split; [rewrite KE; discriminate|].
    assert (A' : columns (generate_fem f) (keys f) = Some cols) by (rewrite KE in *; exact A).
    intros i Hi. pose proof (lan_columns_inv _ _ _ A' i Hi) as J. apply FC in J. apply in_map_iff in J. destruct J as (l & L1 & L2). exists l; auto.
  - intros (NE & H). destruct (cases f) as [|c cs] eqn:KE; [congruence|]. rewrite <- KE in *.
    eexists. replace (match keys f with [] => None | _ => columns (generate_fem f) (keys f) end) with (columns (generate_fem f) (keys f)) by (rewrite KE; reflexivity).
    apply lan_columns. intros i Hi. apply FC. destruct (H i Hi) as (l & L1 & L2). apply in_map_iff. exists l; auto.
Qed.

Lemma lan_one_lemma f i : (exists cols, analyse_one (generate_fem f) f (Some i) = Some cols) <-> exists l, In l (applied f) /\ o_lid l = i.
Proof.
  destruct (lan_fem f) as (FL & FC & FN). unfold analyse_one, statics; cbn [bind]. split.
  - intros (cols & A). pose proof (lan_columns_inv _ _ _ A i (or_introl eq_refl)) as J. apply FC in J. apply in_map_iff in J. destruct J as (l & ? & ?). eauto.
  - intros (l & H1 & H2). eexists. apply lan_columns. intros j [<-|[]]. apply FC. apply in_map_iff. eauto.
Qed.
Lemma lan_one_value f i cols : analyse_one (generate_fem f) f (Some i) = Some cols -> cols = [(i, filter (fun l => Nat.eqb (o_lid l) i) (applied f))].
Proof.
  destruct (lan_fem f) as (FL & FC & FN). unfold analyse_one, statics; cbn [bind]. intros A.
  rewrite (lan_columns _ _ (lan_columns_inv _ _ _ A)) in A. injection A as <-. rewrite FL. reflexivity.
Qed.

Lemma lan_add_all ls : forall f, lrun (map OPut ls) f = add_all ls f.
Proof.
  induction ls as [|l ls IH]; intros f; [reflexivity|]. cbn [map lrun lstep add_all]. unfold new_load; cbn [fst snd].
  destruct (add_load _ _); cbn [bind]; auto.
Qed.
Lemma lan_ids_lemma ps f : lrun ps new_frame = Some f -> forall i, In i (lids f) <-> In i (keys f).
Proof. intros E i. pose proof (lan_run _ _ _ E lan_inv0) as (_ & _ & _ & I). symmetry. apply I. Qed.
Lemma lan_plain_lemma ls : ls <> [] -> Forall (fun l => plain (o_name l)) ls ->
  exists f cols, lrun (map OPut ls) new_frame = Some f /\ analyse_all (generate_fem f) f = Some cols /\
    exists xs, Permutation (List.concat (map snd cols)) xs /\ Forall2 same_load xs ls.
Proof.
  intros NE P. destruct (add_all_lemma ls P) as (f & E & F2 & _ & _ & IC & KL). rewrite <- lan_add_all in E.
  pose proof (lan_ids_lemma _ _ E) as I.
  assert (FI : forall l, In l ls -> exists x, In x (applied f) /\ o_lid x = o_lid l).
  { clear - F2. induction F2 as [|x l xs ls H F IH]; intros k Hk; [destruct Hk|]. destruct Hk as [<-|Hk].
    - exists x. split; [left; auto|apply H].
    - destruct (IH k Hk) as (y & A & B). exists y. split; [right; auto|auto]. }
  assert (OK : exists cols, analyse_all (generate_fem f) f = Some cols).
  { apply lan_ok_lemma. split.
    - destruct ls as [|l ls]; [congruence|]. destruct (IC 0 l eq_refl) as (q & Q & _). intros Z. rewrite Z in Q. discriminate.
    - intros i Hi. apply I in Hi. apply KL in Hi. destruct Hi as (l & Hl & <-). apply FI; auto. }
  destruct OK as (cols & A). exists f, cols. split; [auto|]. split; [auto|]. exists (applied f). split; [|auto].
  apply (lan_all_lemma _ _ _ E A).
Qed.

Lemma lan_case_add_lids i o f f' : case_add i o f = Some f' -> lids f' = lids f.
Proof.
  unfold case_add. destruct (dget _ _ _); [|discriminate]. cbn [bind]. destruct (existsb _ _); intros E; injection E as <-; reflexivity.
Qed.
Lemma lan_add_load_lids o f f' : add_load o f = Some f' -> exists x, lids f' = lids f ++ x.
Proof.
  unfold add_load. destruct (existsb _ (lids f)).
  - intros E. apply lan_case_add_lids in E. exists []. rewrite app_nil_r. exact E.
  - intros E; injection E as <-. eexists; reflexivity.
Qed.
Lemma lan_names_lids os : forall f f', add_new_names os f = Some f' -> exists x, lids f' = lids f ++ x.
Proof.
  induction os as [|o os IH]; cbn [add_new_names]; intros f f' E; [injection E as <-; exists []; rewrite app_nil_r; auto|].
  destruct (has_name _ f); [auto|]. destruct (add_load o f) as [g|] eqn:G; [|discriminate]. cbn [bind] in E.
  destruct (lan_add_load_lids _ _ _ G) as (x & X). destruct (IH _ _ E) as (y & Y). exists (x ++ y). rewrite Y, X, app_assoc. reflexivity.
Qed.
Lemma lan_case_lids i os f f' : add_loadcase i os f = Some f' -> exists x, lids f' = (if existsb (Nat.eqb i) (lids f) then lids f else lids f ++ [i]) ++ x.
Proof. unfold add_loadcase, make_case. cbn [heap loads lids cases]. intros E. apply lan_names_lids in E. exact E. Qed.
Lemma lan_copies_lids c lead cid os : forall f f', add_copies c lead cid os f = Some f' -> exists x, lids f' = lids f ++ x.
Proof.
  induction os as [|o os IH]; cbn [add_copies]; intros f f' E; [injection E as <-; exists []; rewrite app_nil_r; auto|].
  destruct (add_copy c lead cid o f) as [g|] eqn:G; [|discriminate]. cbn [bind] in E. unfold add_copy, new_load in G.
  destruct (lan_add_load_lids _ _ _ G) as (x & X). cbn in X. destruct (IH _ _ E) as (y & Y). exists (x ++ y). rewrite Y, X, app_assoc. reflexivity.
Qed.
Lemma lan_cases_lids c cid ldp cs : forall k f f', add_cases c cid ldp k cs f = Some f' -> exists x, lids f' = lids f ++ x.
Proof.
  induction cs as [|os cs IH]; cbn [add_cases]; intros k f f' E; [injection E as <-; exists []; rewrite app_nil_r; auto|].
  destruct (add_copies _ _ _ _ _) as [g|] eqn:G; [|discriminate]. cbn [bind] in E.
  destruct (lan_copies_lids _ _ _ _ _ _ G) as (x & X). destruct (IH _ _ _ E) as (y & Y). exists (x ++ y). rewrite Y, X, app_assoc. reflexivity.
Qed.
Lemma lan_step_lids p f f' : lstep p f = Some f' -> exists x, lids f' = lids f ++ x.
Proof.
  destruct p; cbn [lstep]; intros E.
  - injection E as <-. exists []. cbn. rewrite app_nil_r. auto.
  - apply lan_add_load_lids in E. exact E.
  - destruct (exist _ _); [|discriminate]. eapply lan_add_load_lids; eauto.
  - destruct (exist _ _); [|discriminate]. destruct (lan_case_lids _ _ _ _ E) as (x & X). rewrite X. destruct (existsb _ _); [eexists; eauto|]. rewrite <- app_assoc. eexists; eauto.
  - destruct (exist _ _); [|discriminate]. unfold combine_loads in E. apply lan_cases_lids in E. exact E.
Qed.
Lemma lan_run_lids ps : forall f f', lrun ps f = Some f' -> exists x, lids f' = lids f ++ x.
Proof.
  induction ps as [|p ps IH]; cbn [lrun]; intros f f' E; [injection E as <-; exists []; rewrite app_nil_r; auto|].
  destruct (lstep p f) as [g|] eqn:G; [|discriminate]. cbn [bind] in E.
  destruct (lan_step_lids _ _ _ G) as (x & X). destruct (IH _ _ E) as (y & Y). exists (x ++ y). rewrite Y, X, app_assoc. reflexivity.
Qed.
Lemma lan_default_lemma : forall ps p f f' g i, lrun ps new_frame = Some f -> lids f = [] -> lstep p f = Some f' ->
  (exists l, p = OPut l /\ o_lid l = i) \/ (exists os, p = OCase i os) -> forall qs, lrun qs f' = Some g ->
  analyse_one (generate_fem g) g None = analyse_one (generate_fem g) g (Some i).
Proof.
  intros ps p f f' g i E0 NI E C qs Q. destruct (lan_run_lids _ _ _ Q) as (x & X).
  assert (H : exists y, lids f' = i :: y).
  { destruct C as [(l & -> & <-)|(os & ->)]; cbn [lstep] in E.
    - unfold add_load, new_load in E. cbn [fst snd heap loads lids cases] in E. rewrite obj_app in E. rewrite NI in E. cbn [existsb] in E.
      injection E as <-. eexists; reflexivity.
    - destruct (exist _ _); [|discriminate]. destruct (lan_case_lids _ _ _ _ E) as (z & Z). rewrite NI in Z. cbn in Z. exists z; auto. }
  destruct H as (y & Y). unfold analyse_one. rewrite X, Y. reflexivity.
Qed.
