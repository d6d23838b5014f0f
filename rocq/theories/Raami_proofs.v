From Verif Require Import Sections_proofs Plate_proofs.
From Verif Require Import Raami_spec.
Require Import Psatz.
Open Scope nat_scope.

(* ------------------------------------------------------------ names *)
Notation las := list_ascii_of_string.
Lemma las_app a b : las (append a b) = las a ++ las b.
Proof. induction a; cbn; [auto|f_equal; auto]. Qed.
Lemma las_inj a b : las a = las b -> a = b.
Proof. intros E. rewrite <- (string_of_list_ascii_of_string a), E. apply string_of_list_ascii_of_string. Qed.
Lemma uint_digits d : Forall digit (las (NilEmpty.string_of_uint d)).
Proof. induction d; cbn; constructor; auto; unfold digit; cbn; lia. Qed.
Lemma str_digits k : Forall digit (las (str k)).
Proof. apply uint_digits. Qed.
Lemma str_inj k k' : str k = str k' -> k = k'.
Proof.
  unfold str. intros E. apply DecimalNat.Unsigned.to_uint_inj.
  pose proof (f_equal NilEmpty.uint_of_string E) as E'. rewrite !NilEmpty.usu in E'. congruence.
Qed.
Lemma str_nonempty k : las (str k) <> [].
Proof.
  unfold str. intros E. assert (Nat.to_uint k = Decimal.Nil) by (destruct (Nat.to_uint k); cbn in E; congruence).
  assert (K := DecimalNat.Unsigned.of_to k). rewrite H in K. cbn in K. subst k. cbn in H. discriminate.
Qed.
Definition plainl (l : list ascii) : Prop := forall p c, l = p ++ [c] -> ~ digit c.
Lemma plain_l n : plain n <-> plainl (las n).
Proof.
  split; intros P p c E.
  - apply (P (string_of_list_ascii p)). apply las_inj. rewrite las_app, list_ascii_of_string_of_list_ascii. exact E.
  - apply (P (las p)). rewrite E, las_app. reflexivity.
Qed.
Lemma plain_split a d a' d' : plainl a -> plainl a' -> Forall digit d -> Forall digit d' -> a ++ d = a' ++ d' -> a = a' /\ d = d'.
Proof.
  intros P P' D D' E. 
  assert (K : forall x y u v l, plainl x -> Forall digit v -> x = y ++ l -> v = l ++ u -> l = []).
  { intros x y u v l PX DV -> ->. destruct (list_eq_dec ascii_dec l []) as [Z|Z]; auto. exfalso.
    destruct (exists_last Z) as (l' & c & ->). apply (PX (y ++ l') c); [rewrite app_assoc; reflexivity|].
    apply Forall_app in DV. destruct DV as [DV _]. apply Forall_app in DV. destruct DV as [_ DV]. inversion DV; auto. }
  destruct (app_eq_app _ _ _ _ E) as (l & [[E1 E2]|[E1 E2]]).
  - assert (Z := K a a' d d' l P D' E1 E2). subst l. rewrite app_nil_r in E1. cbn in E2. auto.
  - assert (Z := K a' a d' d l P' D E1 E2). subst l. rewrite app_nil_r in E1. cbn in E2. auto.
Qed.
Lemma plain_not_numbered b k : ~ plain (append b (str k)).
Proof.
  intros P. destruct (exists_last (str_nonempty k)) as (l & c & E).
  assert (D := str_digits k). rewrite E in D. apply Forall_app in D. destruct D as [_ D]. inversion D; subst.
  apply plain_l in P. apply (P (las b ++ l) c); auto. rewrite las_app, E, app_assoc. reflexivity.
Qed.
Lemma numbered_inj b k b' k' : plain b -> plain b' -> append b (str k) = append b' (str k') -> b = b' /\ k = k'.
Proof.
  intros P P' E. apply plain_l in P. apply plain_l in P'.
  pose proof (f_equal las E) as E'. rewrite !las_app in E'.
  destruct (plain_split _ _ _ _ P P' (str_digits k) (str_digits k') E') as [A B].
  split; [apply las_inj; auto|apply str_inj, las_inj; auto].
Qed.

(* ------------------------------------------------------------ dictionaries *)
Lemma dset_fresh {V} n (v : V) d : ~ In n (map fst d) -> dset String.eqb n v d = d ++ [(n, v)].
Proof.
  induction d as [|[k w] d IH]; cbn; intros H; auto. destruct (String.eqb n k) eqn:E; [apply String.eqb_eq in E; exfalso; auto|].
  f_equal. apply IH. auto.
Qed.
Lemma has_name_in n f : has_name n f = true <-> In n (map fst (loads f)).
Proof.
  unfold has_name. rewrite existsb_exists. split.
  - intros (p & H & E). apply String.eqb_eq in E. subst. apply in_map; auto.
  - intros H. apply in_map_iff in H. destruct H as (p & <- & H). exists p. split; auto. apply String.eqb_refl.
Qed.
Lemma dget_dset {V} i j (v : V) d : dget Nat.eqb j (dset Nat.eqb i v d) = if Nat.eqb j i then Some v else dget Nat.eqb j d.
Proof.
  induction d as [|[k w] d IH]; cbn.
  - destruct (Nat.eqb j i); auto.
  - destruct (Nat.eqb i k) eqn:E; cbn.
    + apply Nat.eqb_eq in E. subst. destruct (Nat.eqb j k); auto.
    + destruct (Nat.eqb j k) eqn:E2; auto. apply Nat.eqb_eq in E2. subst. rewrite Nat.eqb_sym, E. auto.
Qed.
Lemma set_nth_last {A} (h : list A) v x : set_nth (List.length h) v (h ++ [x]) = h ++ [v].
Proof. induction h; cbn; [auto|f_equal; auto]. Qed.
Lemma obj_app f h l : obj (mkFrame (h ++ [l]) (loads f) (lids f) (cases f)) (List.length h) = l.
Proof. unfold obj. cbn. rewrite app_nth2, Nat.sub_diag by lia. reflexivity. Qed.

Lemma stored_fresh l f : tidy f -> plain (o_name l) ->
  let f1 := fst (new_load l f) in let n := stored_name (List.length (heap f)) f1 in
  ~ In n (map fst (loads f)) /\ (plain n \/ exists b k, plain b /\ n = append b (str k) /\ (k < S (List.length (loads f)))%nat).
Proof.
  intros (ND & KS & _ & _) P f1 n. unfold n, stored_name, f1, new_load. cbn [fst]. rewrite obj_app. cbn [loads].
  set (f2 := mkFrame _ _ _ _). change (has_name (o_name l) f2) with (has_name (o_name l) f).
  destruct (has_name (o_name l) f) eqn:E.
  - split; [|right; exists (o_name l), (List.length (loads f)); auto].
    intros H. rewrite Forall_forall in KS. destruct (KS _ H) as [Q|(b & k & Q & E2 & L)]; [exact (plain_not_numbered _ _ Q)|].
    apply numbered_inj in E2; auto. lia.
  - split; [|left; auto]. intros H. apply (has_name_in _ f) in H. congruence.
Qed.

Lemma add_step l f : tidy f -> plain (o_name l) ->
  exists f' n, add_load (List.length (heap f)) (fst (new_load l f)) = Some f' /\ tidy f' /\
    heap f' = heap f ++ [set_name n l] /\ loads f' = loads f ++ [(n, List.length (heap f))] /\
    in_case f' (o_lid l) (List.length (heap f)) /\ In (o_lid l) (lids f') /\
    (forall i o, in_case f i o -> In i (lids f) -> in_case f' i o) /\ (forall i, In i (lids f) -> In i (lids f')) /\
    (forall i, In i (lids f') -> In i (lids f) \/ i = o_lid l).
Proof.
  intros T P. destruct (stored_fresh l f T P) as [FR NM]. destruct T as (ND & KS & VS & CS).
  set (n := stored_name (List.length (heap f)) (fst (new_load l f))) in *.
  assert (NV : existsb (fun p : string * nat => Nat.eqb (List.length (heap f)) (snd p)) (loads f) = false).
  { destruct (existsb _ (loads f)) eqn:E; auto. exfalso. apply existsb_exists in E. destruct E as (p & H & E). apply Nat.eqb_eq in E.
    rewrite Forall_forall in VS. specialize (VS (snd p) (in_map snd _ _ H)). lia. }
  unfold add_load. fold n. unfold new_load. cbn [fst]. rewrite !obj_app. cbn [loads lids cases heap]. rewrite NV, Bool.andb_false_r, dset_fresh by auto.
  rewrite set_nth_last.
  assert (TID : forall c ls, (forall i, In i ls -> dget Nat.eqb i c <> None) -> tidy (mkFrame (heap f ++ [set_name n l]) (loads f ++ [(n, List.length (heap f))]) ls c)).
  { intros c ls HC. unfold tidy. cbn [loads heap lids cases]. rewrite !map_app, !app_length. cbn [map fst snd List.length]. repeat split; auto.
    - apply NoDup_Add with (a := n) (l := map fst (loads f)); [|split; auto]. rewrite <- (app_nil_r (map fst (loads f))) at 1. apply Add_app.
    - apply Forall_app. split.
      + eapply Forall_impl; [|exact KS]. cbn. intros a [Q|(b & k & Q & E & L)]; [left; auto|right; exists b, k; repeat split; auto; lia].
      + constructor; auto. destruct NM as [Q|(b & k & Q & E & L)]; [left; auto|right; exists b, k; repeat split; auto; lia].
    - apply Forall_app. split; [eapply Forall_impl; [|exact VS]; cbn; intros; lia|constructor; auto; lia]. }
  destruct (existsb (Nat.eqb (o_lid l)) (lids f)) eqn:EL.
  - assert (IL : In (o_lid l) (lids f)) by (apply existsb_exists in EL; destruct EL as (x & H & E); apply Nat.eqb_eq in E; subst; auto).
    unfold case_add. cbn [cases]. destruct (dget Nat.eqb (o_lid l) (cases f)) as [c|] eqn:EC; [|exfalso; apply (CS _ IL); auto]. cbn [bind].
    destruct (existsb (Nat.eqb (List.length (heap f))) c) eqn:EO.
    + eexists. exists n. split; [reflexivity|]. split; [apply TID; auto|]. repeat (split; [reflexivity|]).
      split; [exists c; split; auto; apply existsb_exists in EO; destruct EO as (x & H & E); apply Nat.eqb_eq in E; subst; auto|].
      split; [auto|]. split; [intros i o H _; exact H|]. auto.
    + eexists. exists n. split; [reflexivity|].
      assert (OB : obj (mkFrame (heap f ++ [set_name n l]) (loads f ++ [(n, List.length (heap f))]) (lids f) (cases f)) (List.length (heap f)) = set_name n l).
      { unfold obj. cbn [heap]. rewrite app_nth2, Nat.sub_diag by lia. reflexivity. }
      rewrite OB. cbn [heap]. rewrite set_nth_last.
      replace (set_lid (o_lid l) (set_name n l)) with (set_name n l) by (destruct l; reflexivity).
      split.
      { apply TID. cbn. intros i H. rewrite dget_dset. destruct (Nat.eqb i (o_lid l)); [discriminate|auto]. }
      repeat (split; [reflexivity|]).
      split; [exists (c ++ [List.length (heap f)]); split; [cbn; rewrite dget_dset, Nat.eqb_refl; auto|apply in_or_app; right; left; auto]|].
      split; [auto|]. split.
      { intros i o (c' & E & H) _. unfold in_case. cbn [cases]. rewrite dget_dset. destruct (Nat.eqb i (o_lid l)) eqn:EI; [|exists c'; auto].
        apply Nat.eqb_eq in EI. subst. rewrite EC in E. injection E as <-. eexists. split; [reflexivity|apply in_or_app; auto]. }
      split; auto.
  - eexists. exists n. split; [reflexivity|]. split.
    { apply TID. intros i H. rewrite dget_dset. destruct (Nat.eqb i (o_lid l)) eqn:EI; [discriminate|]. apply CS.
      apply in_app_or in H. destruct H as [H|[H|[H|[]]]]; auto; subst; rewrite Nat.eqb_refl in EI; discriminate. }
    repeat (split; [reflexivity|]).
    split; [exists [List.length (heap f)]; split; [cbn; rewrite dget_dset, Nat.eqb_refl; auto|left; auto]|].
    split; [cbn; apply in_or_app; right; left; auto|]. split.
    { intros i o (c' & E & H) IL. unfold in_case. cbn [cases]. rewrite dget_dset. destruct (Nat.eqb i (o_lid l)) eqn:EI; [|exists c'; auto].
      exfalso. apply Nat.eqb_eq in EI. subst. assert (existsb (Nat.eqb (o_lid l)) (lids f) = true); [|congruence].
      apply existsb_exists. exists (o_lid l). split; auto. apply Nat.eqb_refl. }
    split; [intros; cbn; apply in_or_app; auto|]. intros i H. cbn in H. apply in_app_or in H. destruct H as [H|[H|[H|[]]]]; auto.
Qed.

Lemma set_name_same n l : same_load (set_name n l) l.
Proof. repeat split; reflexivity. Qed.
Lemma tidy_new : tidy new_frame.
Proof. unfold tidy. cbn. repeat split; try constructor. intros i []. Qed.

Lemma applied_eq f f' n x h : heap f' = heap f ++ [x] -> loads f' = loads f ++ [(n, h)] -> h = List.length (heap f) ->
  Forall (fun o => (o < List.length (heap f))%nat) (map snd (loads f)) -> applied f' = applied f ++ [x].
Proof.
  intros H L -> V. unfold applied. rewrite L, map_app. cbn [map snd]. f_equal.
  - apply map_ext_in. intros p HP. unfold obj. rewrite H, app_nth1; auto. rewrite Forall_forall in V. apply V. apply in_map; auto.
  - unfold obj. rewrite H, app_nth2, Nat.sub_diag by lia. reflexivity.
Qed.

Lemma add_all_gen ls : forall f, tidy f -> Forall (fun l => plain (o_name l)) ls ->
  exists f' xs, add_all ls f = Some f' /\ tidy f' /\ applied f' = applied f ++ xs /\ Forall2 same_load xs ls /\
    map snd (loads f') = map snd (loads f) ++ seq (List.length (heap f)) (List.length ls) /\
    List.length (heap f') = (List.length (heap f) + List.length ls)%nat /\
    (forall i o, In i (lids f) -> in_case f i o -> In i (lids f') /\ in_case f' i o) /\
    (forall k l, nth_error ls k = Some l -> in_case f' (o_lid l) (List.length (heap f) + k)%nat) /\
    (forall i, In i (lids f') <-> In i (lids f) \/ exists l, In l ls /\ o_lid l = i).
Proof.
  induction ls as [|l ls IH]; intros f T FP.
  - exists f, []. cbn. rewrite !app_nil_r. split; [auto|]. split; [auto|]. split; [auto|]. split; [constructor|]. split; [auto|]. split; [lia|].
    split; [auto|]. split; [intros [|k] l E; discriminate|]. intros i. split; [auto|]. intros [H|(x & [] & _)]; auto.
  - inversion FP; subst. destruct (add_step l f T H1) as (f1 & n & E & T1 & HH & HL & IC & IL & K1 & K2 & K3).
    destruct (IH f1 T1 H2) as (f' & xs & E' & T' & AP & F2 & SN & LN & KC & KN & KL).
    exists f', (set_name n l :: xs). cbn [add_all]. unfold new_load in *. cbn [fst] in E. rewrite E. cbn [bind].
    split; [auto|]. split; [auto|].
    assert (LH : List.length (heap f1) = S (List.length (heap f))) by (rewrite HH, app_length; cbn; lia).
    split; [rewrite AP, (applied_eq f f1 n _ _ HH HL eq_refl), <- app_assoc; [reflexivity|apply T]|].
    split; [constructor; auto; apply set_name_same|].
    split; [rewrite SN, HL, map_app, LH; cbn; rewrite <- app_assoc; reflexivity|].
    split; [rewrite LN, LH; cbn; lia|].
    split; [intros i o A B; apply KC; [apply K2; auto|apply K1; auto]|].
    split.
    + intros [|k] x EK; cbn in EK.
      * injection EK as <-. rewrite Nat.add_0_r. apply KC; auto.
      * specialize (KN k x EK). rewrite LH in KN. replace (List.length (heap f) + S k)%nat with (S (List.length (heap f)) + k)%nat by lia. exact KN.
    + intros i. rewrite KL. split.
      * intros [A|(x & A & B)]; [destruct (K3 i A) as [C|C]; [left; auto|right; exists l; split; [left; auto|auto]]|right; exists x; split; [right; auto|auto]].
      * intros [A|(x & [A|A] & B)]; [left; apply K2; auto|subst; left; auto|right; exists x; auto].
Qed.

Lemma add_all_lemma ls : Forall (fun l => plain (o_name l)) ls ->
  exists f, add_all ls new_frame = Some f /\
    Forall2 same_load (applied f) ls /\ NoDup (map fst (loads f)) /\ List.length (loads f) = List.length ls /\
    (forall k l, nth_error ls k = Some l -> in_case f (o_lid l) k) /\
    (forall i, In i (lids f) <-> exists l, In l ls /\ o_lid l = i).
Proof.
  intros FP. destruct (add_all_gen ls new_frame tidy_new FP) as (f & xs & E & T & AP & F2 & SN & LN & _ & KN & KL).
  exists f. split; [auto|]. cbn in AP. rewrite AP. split; [auto|]. split; [apply T|]. split.
  { rewrite <- (map_length snd), SN. cbn. rewrite seq_length. reflexivity. }
  split; [exact KN|]. intros i. rewrite KL. cbn. split; [intros [[]|H]; auto|auto].
Qed.

Definition ld (n : string) (w : nat) : lobj := mkLobj n 0 LIVE 1%R true w.
Open Scope string_scope.
Lemma name_clash_lemma : option_map (fun f => map o_what (applied f)) (add_all [ld "P" 1; ld "P2" 2; ld "P" 3] new_frame) = Some [1; 3].
Proof. vm_compute. repeat split; reflexivity. Qed.
Lemma case_clash_lemma : option_map (fun f => map o_what (applied f)) (add_loadcase 7 [0; 1] (mkFrame [ld "LineLoad" 1; ld "LineLoad" 2] [] [] [])) = Some [1].
Proof. vm_compute. repeat split; reflexivity. Qed.
Lemma lids_twice_lemma : option_map lids (add_all [ld "P" 1] new_frame) = Some [0; 0].
Proof. vm_compute. repeat split; reflexivity. Qed.
Lemma line_twice_lemma : option_map (fun f => map o_what (applied f)) (bind (add_load 0 (mkFrame [ld "P" 1] [] [] [])) (add_load 0)) = Some [1; 1].
Proof. vm_compute. repeat split; reflexivity. Qed.
Close Scope string_scope.

(* ------------------------------------------------------------ combinations *)
Lemma factor_lemma t c lead l cid :
  o_f (factored_copy c lead cid l) = comb_factor (o_type l) c lead /\ o_lid (factored_copy c lead cid l) = cid /\
  o_what (factored_copy c lead cid l) = o_what l /\ o_type (factored_copy c lead cid l) = o_type l /\
  (0 < comb_factor t c false <= comb_factor t c true)%R.
Proof. repeat split; destruct t, c; cbn; lra. Qed.

Lemma lead_case_lemma f cs k : lead_case f cs = Some k <->
  exists pre os post, cs = pre ++ os :: post /\ List.length pre = k /\ case_type f os <> Some DEAD /\ Forall (fun os => case_type f os = Some DEAD) pre.
Proof.
  revert k. induction cs as [|os cs IH]; intros k; cbn.
  - split; [discriminate|]. intros (pre & x & post & E & _). destruct pre; discriminate.
  - split.
    + intros H. destruct (case_type f os) as [[]|] eqn:E; try (injection H as <-; exists [], os, cs; repeat split; auto; congruence).
      destruct (lead_case f cs) as [j|] eqn:EJ; [|discriminate]. injection H as <-. 
      destruct (proj1 (IH j) eq_refl) as (pre & x & post & -> & L & N & F). exists (os :: pre), x, post. repeat split; auto. cbn. auto.
    + intros (pre & x & post & E & L & N & F). destruct pre as [|y pre]; cbn in E; injection E as -> ->.
      * subst. cbn. destruct (case_type f x) as [[]|]; auto. congruence.
      * inversion F; subst. rewrite H1. rewrite (proj2 (IH (List.length pre))); [reflexivity|]. exists pre, x, post. auto.
Qed.

(** Objects already on the heap are not touched by additions. *)
Lemma obj_old f f' x o : heap f' = heap f ++ [x] -> (o < List.length (heap f))%nat -> obj f' o = obj f o.
Proof. intros H L. unfold obj. rewrite H, app_nth1; auto. Qed.

Lemma add_copies_gen c lead cid os : forall f, tidy f -> Forall (fun o => (o < List.length (heap f))%nat /\ plain (o_name (obj f o))) os ->
  exists f' xs, add_copies c lead cid os f = Some f' /\ tidy f' /\ applied f' = applied f ++ xs /\
    Forall2 same_load xs (map (fun o => factored_copy c lead cid (obj f o)) os) /\
    (List.length (heap f) <= List.length (heap f'))%nat /\ (forall o, (o < List.length (heap f))%nat -> obj f' o = obj f o).
Proof.
  induction os as [|o os IH]; intros f T FO.
  - exists f, []. cbn. rewrite app_nil_r. split; [auto|split; [auto|split; [auto|split; [constructor|split; [lia|auto]]]]].
  - inversion FO as [|? ? [LO PO] FO2]; subst. cbn [add_copies]. unfold add_copy.
    destruct (add_step (factored_copy c lead cid (obj f o)) f T) as (f1 & n & E & T1 & HH & HL & _); [exact PO|].
    unfold new_load in *. cbn [fst] in E. rewrite E. cbn [bind].
    assert (LH : List.length (heap f1) = S (List.length (heap f))) by (rewrite HH, app_length; cbn; lia).
    destruct (IH f1 T1) as (f' & xs & E' & T' & AP & F2 & LL & KO).
    { eapply Forall_impl; [|exact FO2]. cbn. intros a [A B]. rewrite (obj_old f f1 _ a HH A). split; [lia|auto]. }
    exists f', (set_name n (factored_copy c lead cid (obj f o)) :: xs). split; [auto|split; [auto|]].
    split; [rewrite AP, (applied_eq f f1 n _ _ HH HL eq_refl), <- app_assoc; [reflexivity|apply T]|].
    split; [cbn [map]; constructor; [apply set_name_same|]|].
    { erewrite map_ext_in; [exact F2|]. intros a Ha. cbn. rewrite Forall_forall in FO2. rewrite (obj_old f f1 _ a HH); auto. apply FO2; auto. }
    split; [lia|]. intros a La. rewrite KO by lia. apply (obj_old f f1 _ a HH); auto.
Qed.

Lemma flat_map_ext_in' {A B} (f g : A -> list B) l : (forall x, In x l -> f x = g x) -> flat_map f l = flat_map g l.
Proof. induction l; cbn; intros H; [auto|]. rewrite (H a) by (left; auto). f_equal. apply IHl. intros; apply H; right; auto. Qed.

Lemma add_cases_gen c cid ldp cs : forall k f, tidy f ->
  Forall (Forall (fun o => (o < List.length (heap f))%nat /\ plain (o_name (obj f o)))) cs ->
  exists f' xs, add_cases c cid ldp k cs f = Some f' /\ tidy f' /\ applied f' = applied f ++ xs /\
    Forall2 same_load xs (flat_map (fun kc : nat * list nat => map (fun o => factored_copy c (match ldp with Some i => Nat.eqb i (fst kc) | None => false end) cid (obj f o)) (snd kc))
      (combine (seq k (List.length cs)) cs)) /\
    (List.length (heap f) <= List.length (heap f'))%nat /\ (forall o, (o < List.length (heap f))%nat -> obj f' o = obj f o).
Proof.
  induction cs as [|os cs IH]; intros k f T FO.
  - exists f, []. cbn. rewrite app_nil_r. split; [auto|split; [auto|split; [auto|split; [constructor|split; [lia|auto]]]]].
  - inversion FO as [|? ? F1 F2]; subst. cbn [add_cases].
    destruct (add_copies_gen c (match ldp with Some i => Nat.eqb i k | None => false end) cid os f T F1) as (f1 & xs & E & T1 & AP & SL & LL & KO).
    rewrite E. cbn [bind]. destruct (IH (S k) f1 T1) as (f' & ys & E' & T' & AP' & SL' & LL' & KO').
    { eapply Forall_impl; [|exact F2]. cbn. intros a Fa. eapply Forall_impl; [|exact Fa]. cbn. intros o [A B]. rewrite KO by auto. split; [lia|auto]. }
    exists f', (xs ++ ys). split; [auto|split; [auto|]]. split; [rewrite AP', AP, app_assoc; reflexivity|].
    split; [cbn [List.length seq combine flat_map fst snd]; apply Forall2_app; [exact SL|]|].
    { erewrite flat_map_ext_in'; [exact SL'|]. intros [j os'] H. cbn [fst snd]. apply in_combine_r in H.
      apply map_ext_in. intros o Ho. rewrite Forall_forall in F2. specialize (F2 _ H). rewrite Forall_forall in F2. rewrite KO; auto. apply F2; auto. }
    split; [lia|]. intros o Lo. rewrite KO' by lia. auto.
Qed.

Lemma clear_none cid f : Forall (fun l => o_lid l <> cid) (applied f) -> clear_loads cid f = f.
Proof.
  unfold applied, clear_loads. intros H. destruct f as [h ls li cs]. cbn [loads heap lids cases] in *. f_equal.
  set (F := mkFrame h ls li cs) in *. clearbody F.
  induction ls as [|p ls IH]; cbn in *; auto. inversion H; subst. destruct (Nat.eqb (o_lid (obj F (snd p))) cid) eqn:E; [apply Nat.eqb_eq in E; congruence|].
  cbn. f_equal. auto.
Qed.
Lemma combine_lemma cid c cs f : tidy f -> Forall (fun l => o_lid l <> cid) (applied f) ->
  Forall (Forall (fun o => (o < List.length (heap f))%nat /\ plain (o_name (obj f o)))) cs ->
  exists f' xs, combine_loads cid c cs f = Some f' /\ tidy f' /\ applied f' = applied f ++ xs /\
    Forall2 same_load xs (comb_loads c cid f (lead_case f cs) cs) /\
    (List.length (heap f) <= List.length (heap f'))%nat /\ (forall o, (o < List.length (heap f))%nat -> obj f' o = obj f o).
Proof.
  intros T NL FO. unfold combine_loads. rewrite (clear_none cid f NL). apply add_cases_gen; auto.
Qed.
Lemma clear_lemma cid f : applied (clear_loads cid f) = filter (fun l => negb (Nat.eqb (o_lid l) cid)) (applied f).
Proof.
  unfold applied, clear_loads. cbn [loads]. change (obj (mkFrame (heap f) (filter (fun p : string * nat => negb (Nat.eqb (o_lid (obj f (snd p))) cid)) (loads f)) (lids f) (cases f))) with (obj f).
  induction (loads f) as [|p ls IH]; cbn; auto. destruct (Nat.eqb (o_lid (obj f (snd p))) cid); cbn; [auto|f_equal; auto].
Qed.
Open Scope string_scope.
Lemma recombine_lemma : let f2 := bind (bind (add_all [ld "A" 1] new_frame) (combine_loads 1 ULS [[0]])) (combine_loads 2 SLS [[0]]) in
  option_map (fun f => map o_lid (applied f)) f2 = Some [0; 1; 2] /\
  option_map (fun f => map o_lid (applied f)) (bind f2 (combine_loads 1 ULS [[0]])) = Some [0; 1].
Proof. vm_compute. repeat split; reflexivity. Qed.
Lemma user_factor_lemma : option_map (fun f => map o_f (applied f)) (bind (add_all [mkLobj "A" 0 LIVE 3%R true 1] new_frame) (combine_loads 1 ULS [[0]])) = Some [3; 15/10]%R.
Proof. vm_compute. repeat split; reflexivity. Qed.
Close Scope string_scope.

(* ------------------------------------------------------------ identifiers *)
Lemma nodes_lemma os : NoDup os ->
  let s := fold_left (fun s o => add_node o s) os (mkNodes (fun _ => None) []) in
  nlist s = os /\ forall k o, nth_error os k = Some o -> nid s o = Some k.
Proof.
  intros ND. cbn zeta.
  assert (G : forall os s, NoDup (nlist s ++ os) -> (forall k o, nth_error (nlist s) k = Some o -> nid s o = Some k) ->
    let s' := fold_left (fun s o => add_node o s) os s in nlist s' = nlist s ++ os /\ forall k o, nth_error (nlist s') k = Some o -> nid s' o = Some k).
  { clear. induction os as [|o os IH]; intros s N K; cbn zeta; cbn [fold_left]; [rewrite app_nil_r; auto|].
    destruct (IH (add_node o s)) as [A B].
    - cbn [add_node nlist]. rewrite <- app_assoc. exact N.
    - cbn [add_node nlist nid]. intros k x E. destruct (Nat.ltb k (List.length (nlist s))) eqn:L.
      + apply Nat.ltb_lt in L. rewrite nth_error_app1 in E by auto. destruct (Nat.eqb x o) eqn:X; [|auto]. exfalso. apply Nat.eqb_eq in X. subst.
        apply NoDup_remove_2 in N. apply N. apply in_or_app. left. eapply nth_error_In; eauto.
      + apply Nat.ltb_ge in L. rewrite nth_error_app2 in E by auto. destruct (k - List.length (nlist s))%nat as [|[|]] eqn:D; cbn in E; try discriminate.
        injection E as <-. rewrite Nat.eqb_refl. f_equal. lia.
    - split; [rewrite A; cbn [add_node nlist]; rewrite <- app_assoc; reflexivity|exact B]. }
  destruct (G os (mkNodes (fun _ => None) [])) as [A B]; cbn in *; auto; [intros [|]; discriminate|]. split; auto. rewrite A in B. exact B.
Qed.
Lemma node_twice_lemma : exists s, s = add_node 5 (add_node 5 (mkNodes (fun _ => None) [])) /\ nlist s = [5; 5] /\ nid s 5 = Some 1.
Proof. eexists. split; [reflexivity|]. split; reflexivity. Qed.
Lemma dset_key_fresh {V} i (v : V) d : ~ In i (map fst d) -> dset Nat.eqb i v d = d ++ [(i, v)].
Proof.
  induction d as [|[k w] d IH]; cbn; intros H; auto. destruct (Nat.eqb i k) eqn:E; [apply Nat.eqb_eq in E; exfalso; auto|]. f_equal. auto.
Qed.
Lemma combine_app_same {A B} (a a' : list A) (b b' : list B) : List.length a = List.length b -> combine (a ++ a') (b ++ b') = combine a b ++ combine a' b'.
Proof. revert b. induction a; intros [|y b] H; cbn in *; try discriminate; auto. f_equal. auto. Qed.
Lemma map_fst_combine {A B} (a : list A) (b : list B) : List.length a = List.length b -> map fst (combine a b) = a.
Proof. revert b. induction a; intros [|y b] H; cbn in *; try discriminate; auto. f_equal. auto. Qed.
Lemma members_lemma os : NoDup os ->
  let s := fold_left (fun s o => add_member o s) os (mkMembers (fun _ => None) []) in
  mdict s = combine (seq 0 (List.length os)) os /\ forall k o, nth_error os k = Some o -> mid s o = Some k.
Proof.
  intros ND. cbn zeta.
  assert (G : forall os pre s, NoDup (pre ++ os) -> mdict s = combine (seq 0 (List.length pre)) pre -> (forall k o, nth_error pre k = Some o -> mid s o = Some k) ->
    let s' := fold_left (fun s o => add_member o s) os s in
    mdict s' = combine (seq 0 (List.length (pre ++ os))) (pre ++ os) /\ forall k o, nth_error (pre ++ os) k = Some o -> mid s' o = Some k).
  { clear. induction os as [|o os IH]; intros pre s N M K; cbn zeta; cbn [fold_left]; [rewrite app_nil_r; auto|].
    assert (LM : List.length (mdict s) = List.length pre) by (rewrite M, combine_length, seq_length, Nat.min_id; auto).
    replace (pre ++ o :: os) with ((pre ++ [o]) ++ os) in * by (rewrite <- app_assoc; reflexivity).
    apply IH; auto.
    - cbn [add_member mdict]. rewrite LM, dset_key_fresh.
      + rewrite M, app_length, seq_app. cbn [List.length seq plus]. rewrite combine_app_same; [reflexivity|apply seq_length].
      + rewrite M, map_fst_combine by apply seq_length. rewrite in_seq. lia.
    - cbn [add_member mid]. rewrite LM. intros k x E. destruct (Nat.ltb k (List.length pre)) eqn:L.
      + apply Nat.ltb_lt in L. rewrite nth_error_app1 in E by auto. destruct (Nat.eqb x o) eqn:X; [|auto]. exfalso. apply Nat.eqb_eq in X. subst.
        rewrite <- app_assoc in N. apply NoDup_remove_2 in N. apply N. apply in_or_app. left. eapply nth_error_In; eauto.
      + apply Nat.ltb_ge in L. rewrite nth_error_app2 in E by auto. destruct (k - List.length pre)%nat as [|[|]] eqn:D; cbn in E; try discriminate.
        injection E as <-. rewrite Nat.eqb_refl. f_equal. lia. }
  apply (G os [] (mkMembers (fun _ => None) [])); cbn; auto. intros [|]; discriminate.
Qed.
