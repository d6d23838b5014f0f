From Verif Require Import Raami_model Raami_spec Raami_proofs.
From Verif Require Import Base EC3_model Bool_tac EC3_proofs Plate_proofs Sections_proofs Rhs_model Truss_model Truss_proofs Portal_model Portal_spec Portal_proofs Portal2_proofs.
Require Import Reals String Ascii List Bool Arith Permutation Lra Lia Psatz.
Import ListNotations.
Local Open Scope nat_scope.

Definition noC (n : string) : Prop := exists c s, n = String c s /\ c <> "C"%char.
Definition tname (b : string) : Prop := vname b /\ noC b.
Lemma tname_sep : sep tname.
Proof.
  destruct vname_sep as [A B]. split.
  - intros a b k [H _] [H' _]. apply A; auto.
  - intros a b k m [H _] [H' _]. apply B; auto.
Qed.
Lemma noC_app a b : noC a -> noC (append a b).
Proof. intros (c & s & -> & H). exists c, (append s b). split; auto. Qed.
Definition cname (b : string) : Prop := b = "COL_left"%string \/ b = "COL_right"%string.
Lemma cname_sep : sep cname.
Proof.
  assert (P : forall b, cname b -> plain b).
  { intros b [->| ->]; apply plain_l; [apply (las_plain (las "COL_lef") "t")|apply (las_plain (las "COL_righ") "t")]; unfold digit; cbn; lia. }
  split.
  - intros a b k _ H E. apply (plain_not_numbered a k). rewrite E. auto.
  - intros a b k m H H' E. apply numbered_inj in E; auto.
Qed.
Lemma cname_C b s : cname b -> ~ noC (append b s).
Proof. intros [->| ->] (c & r & E & H); cbn in E; injection E as <- _; auto. Qed.

(** The case table has only known ids. *)
Definition known (f : lf) : Prop := forall i c, dget Nat.eqb i (cs f) = Some c -> In i (ids f).
Lemma add_ld_known l f f' : known f -> add_ld l f = Some f' -> known f'.
Proof.
  intros K E. unfold add_ld in E. assert (LI : lid (rename l f) = lid l) by (unfold rename; destruct (named _ _); reflexivity).
  destruct (existsb (Nat.eqb (lid (rename l f))) (ids f)) eqn:EI.
  - apply bind_inv in E. destruct E as (c & E1 & E). injection E as <-. intros i c' H. cbn [cs ids] in *. rewrite dget_dset in H.
    destruct (Nat.eqb_spec i (lid (rename l f))) as [->|Z]; [apply inb; auto|eapply K; eauto].
  - injection E as <-. intros i c' H. cbn [cs ids] in *. rewrite dget_dset in H. apply in_or_app.
    destruct (Nat.eqb_spec i (lid (rename l f))) as [->|Z]; [right; left; auto|left; eapply K; eauto].
Qed.
Lemma add_lds_known l : forall f f', known f -> add_lds l f = Some f' -> known f'.
Proof.
  induction l as [|x l IH]; intros f f' K E; cbn in E; [injection E as <-; auto|].
  apply bind_inv in E. destruct E as (f1 & E1 & E). eapply IH; [|exact E]. eapply add_ld_known; eauto.
Qed.

Lemma adopt_fresh c : forall d, NoDup (map lname c) -> (forall l, In l c -> ~ In (lname l) (map fst d)) ->
  adopt c d = d ++ map (fun l => (lname l, l)) c.
Proof.
  induction c as [|l c IH]; intros d ND H; cbn [adopt map]; [rewrite app_nil_r; reflexivity|].
  inversion ND; subst. assert (F : ~ In (lname l) (map fst d)) by (apply H; left; auto).
  rewrite (proj2 (named_not _ _) F), dset_fresh by auto. rewrite IH; auto.
  - rewrite <- app_assoc. reflexivity.
  - intros m Hm. rewrite map_app, in_app_iff. cbn. intros [Q|[Q|[]]]; [apply (H m); [right; auto|auto]|].
    apply H2. rewrite Q. apply in_map; auto.
Qed.

Definition pinv (seen : list nat) (t f : lf) : Prop :=
  keyed tname t /\ known t /\ NoDup (map fst (ls f)) /\ known f /\
  (forall p, In p (ls f) -> In p (ls t) \/ cname (fst p) \/ exists b k, cname b /\ fst p = append b (str k) /\ k < length (ls f)) /\
  (forall i, In i (ids f) <-> In i seen) /\
  (forall i, In i (ids t) -> In i (ids f)) /\
  (forall i, In i (ids f) -> dget Nat.eqb i (cs f) <> None).

Lemma pinv_seen s s' t f : (forall i, In i s <-> In i s') -> pinv s t f -> pinv s' t f.
Proof. intros E (A & B & C & D & F & G & H). repeat (split; [assumption|]). split; [intros i; rewrite G; apply E|exact H]. Qed.

Lemma truss_noC t n : keyed tname t -> In n (map fst (ls t)) -> noC n.
Proof. intros (_ & K & _) H. destruct (K n H) as [[_ Q]|(b & k & [_ Q] & -> & _)]; [auto|apply noC_app; auto]. Qed.

Lemma truss_call L i seen t f : pinv seen t f -> Forall (fun x => tname (lname x)) L -> Forall (fun x => lid x = i) L ->
  exists t', add_lds L t = Some t' /\
  (take_case i t' f = None <-> ~ In i seen /\ L = []) /\
  forall f', take_case i t' f = Some f' ->
    pinv (i :: seen) t' f' /\
    Permutation (map what (fem_loads (t', f')))
      (map what (fem_loads (t, f)) ++ (if existsb (Nat.eqb i) seen then map what L else map what L ++ map what L)).
Proof.
  intros (KT & NT & NDF & NF & KF & SF & TF & CF) TN LI.
  destruct (add_lds_step tname L tname_sep t KT TN) as (t' & new & E & KT' & LT & W & LD & IT). exists t'. split; [exact E|].
  assert (NT' := add_lds_known _ _ _ NT E).
  assert (LNEW : forall p, In p new -> lid (snd p) = i).
  { intros p Hp. rewrite Forall_forall in LI. assert (In (lid (snd p)) (map lid L)) by (rewrite <- LD; apply in_map, in_map; auto).
    apply in_map_iff in H. destruct H as (x & <- & H). apply LI; auto. }
  assert (IT' : forall j, In j (ids t') -> In j (ids t) \/ j = i).
  { intros j H. apply IT in H. destruct H as [H|H]; [auto|right]. apply in_map_iff in H. destruct H as (x & <- & H). rewrite Forall_forall in LI. auto. }
  unfold take_case. destruct (existsb (Nat.eqb i) (ids f)) eqn:EI.
  - apply inb in EI. assert (IS : In i seen) by (apply SF; auto). split; [split; [discriminate|intros [H _]; contradiction]|].
    intros f' E1. injection E1 as <-. split.
    + apply pinv_seen with (s := seen); [intros j; cbn; split; [auto|intros [<-|H]; auto]|].
      split; [exact KT'|]. split; [exact NT'|]. split; [exact NDF|]. split; [exact NF|]. split.
      { intros p H. destruct (KF p H) as [Q|Q]; [left; rewrite LT; apply in_or_app; auto|right; auto]. }
      split; [exact SF|]. split; [|exact CF]. intros j H. destruct (IT' j H) as [Q| ->]; [apply TF; auto|auto].
    + rewrite (proj2 (inb i seen) IS). unfold fem_loads. cbn [fst snd]. rewrite LT, !map_app, W, <- !app_assoc. apply Permutation_app_head, Permutation_app_comm.
  - apply inb_f in EI. assert (IS : ~ In i seen) by (intros H; apply EI, SF; auto).
    assert (NOT : ~ In i (ids t)) by (intros H; apply EI, TF; auto).
    destruct (dget Nat.eqb i (cs t')) as [c|] eqn:EC; cbn [bind].
    + assert (IC : In i (ids t')) by (eapply NT'; eauto). split.
      { split; [discriminate|]. intros [_ ->]. exfalso. cbn in E. injection E as <-. contradiction. }
      intros f' E1. injection E1 as <-.
      assert (EC' : c = map snd new).
      { destruct KT' as (_ & _ & _ & Q). rewrite (Q i IC) in EC. injection EC as <-. rewrite LT, ofid_app.
        rewrite ofid_nil by (intros p Hp EQ; apply NOT; rewrite <- EQ; apply KT; auto). cbn [app]. unfold ofid. f_equal.
        clear - LNEW. induction new as [|p new IH]; [auto|]. cbn. rewrite (LNEW p (or_introl eq_refl)), Nat.eqb_refl. f_equal. apply IH. intros q Q. apply LNEW. right; auto. }
      subst c.
      assert (NK : forall p, In p new -> lname (snd p) = fst p).
      { intros p Hp. destruct KT' as (_ & _ & Q & _). apply Q. rewrite LT. apply in_or_app; auto. }
      assert (FSTS : map lname (map snd new) = map fst new).
      { rewrite map_map. apply map_ext_in. intros p Hp. apply NK; auto. }
      assert (NDT : NoDup (map fst (ls t) ++ map fst new)).
      { destruct KT' as (Q & _). rewrite LT, map_app in Q. exact Q. }
      assert (NDN : NoDup (map fst new)).
      { clear - NDT. induction (map fst (ls t)) as [|x l IH]; [auto|]. cbn in NDT. inversion NDT; auto. }
      assert (DIS : forall n, In n (map fst (ls t)) -> In n (map fst new) -> False).
      { clear - NDT. intros n A B. induction (map fst (ls t)) as [|x l IH]; [contradiction|]. cbn in NDT. inversion NDT; subst.
        destruct A as [<-|A]; [apply H1, in_or_app; auto|auto]. }
      assert (FRESH : forall l, In l (map snd new) -> ~ In (lname l) (map fst (ls f))).
      { intros l Hl H. apply in_map_iff in Hl. destruct Hl as (p & <- & Hp). rewrite (NK p Hp) in H.
        apply in_map_iff in H. destruct H as (p' & EQ & Hp').
        assert (IN : In (fst p) (map fst new)) by (apply in_map; auto).
        assert (NC : noC (fst p)) by (apply (truss_noC t'); [exact KT'|rewrite LT, map_app; apply in_or_app; auto]).
        destruct (KF p' Hp') as [Q|[Q|(b & k & Q & Q2 & _)]].
        - apply (DIS (fst p)); [rewrite <- EQ; apply in_map; auto|auto].
        - rewrite <- EQ in NC. apply (cname_C (fst p') "" Q). replace (append (fst p') "") with (fst p'); [auto|].
          clear. induction (fst p'); cbn; congruence.
        - rewrite <- EQ, Q2 in NC. apply (cname_C b (str k) Q NC). }
      assert (AD : adopt (map snd new) (ls f) = ls f ++ new).
      { rewrite adopt_fresh; [|rewrite FSTS; auto|auto]. f_equal. rewrite map_map. transitivity (map (fun p => p) new); [|apply map_id].
        apply map_ext_in. intros p Hp. rewrite (NK p Hp). symmetry. apply surjective_pairing. }
      rewrite AD. split.
      * split; [exact KT'|]. split; [exact NT'|]. cbn [ls ids cs]. split.
        { rewrite map_app. assert (GN : forall a b : list string, NoDup a -> NoDup b -> (forall x, In x a -> ~ In x b) -> NoDup (a ++ b)).
          { induction a as [|x a IH]; intros b NA NB DD; [auto|]. cbn. inversion NA; subst. constructor.
            - intros H. apply in_app_or in H. destruct H; [auto|]. apply (DD x); [left; auto|auto].
            - apply IH; auto. intros y Hy. apply DD. right; auto. }
          apply GN; auto. intros x Hx Hn. apply in_map_iff in Hn. destruct Hn as (p & <- & Hp). apply (FRESH (snd p)); [apply in_map; auto|]. rewrite (NK p Hp). auto. }
        split. { intros j c' H. cbn [cs ids] in *. rewrite dget_dset in H. apply in_or_app. destruct (Nat.eqb_spec j i) as [->|Z]; [right; left; auto|left; eapply NF; eauto]. }
        split. { intros p H. apply in_app_or in H. destruct H as [H|H]; [|left; rewrite LT; apply in_or_app; auto].
          destruct (KF p H) as [Q|[Q|(b & k & Q & Q2 & Q3)]]; [left; rewrite LT; apply in_or_app; auto|right; left; auto|].
          right; right. exists b, k. rewrite app_length. repeat split; auto. lia. }
        split. { intros j. rewrite in_app_iff, SF. cbn. intuition. }
        split. { intros j H. apply in_or_app. destruct (IT' j H) as [Q| ->]; [left; apply TF; auto|right; left; auto]. }
        intros j H. rewrite dget_dset. destruct (Nat.eqb_spec j i); [discriminate|]. apply CF. apply in_app_or in H. destruct H as [H|[H|[]]]; [auto|congruence].
      * rewrite (proj2 (inb_f i seen) IS). unfold fem_loads. cbn [fst snd ls]. rewrite LT, !map_app, W, <- !app_assoc.
        apply Permutation_app_head. rewrite app_assoc. rewrite (app_assoc (map what (map snd (ls f)))). apply Permutation_app_tail, Permutation_app_comm.
    + split; [|intros f' H; discriminate]. split; [|reflexivity]. intros _. split; [auto|].
      destruct L as [|x L]; [auto|]. exfalso. assert (In i (ids t')).
      { apply IT. right. left. inversion LI; auto. }
      destruct KT' as (_ & _ & _ & Q). rewrite (Q i H) in EC. discriminate.
Qed.

Lemma column_call b q i seen t f : pinv seen t f ->
  (p_step [] 0 (PCol b q i "") (t, f) = None <-> ~ In i seen) /\
  forall s', p_step [] 0 (PCol b q i "") (t, f) = Some s' ->
    pinv (i :: seen) (fst s') (snd s') /\
    Permutation (map what (fem_loads s')) (map what (fem_loads (t, f)) ++ [(i, OnCol b, Uni q)]).
Proof.
  intros (KT & NT & NDF & NF & KF & SF & TF & CF). unfold p_step. destruct (existsb (Nat.eqb i) (ids f)) eqn:EI.
  - apply inb in EI. assert (IS : In i seen) by (apply SF; auto).
    set (l := mkLd _ i (OnCol b) (Uni q)). assert (CL : cname (lname l)) by (unfold l; destruct b; [left|right]; reflexivity).
    set (n := lname (rename l f)).
    assert (RN : rename l f = as_named n l) by (unfold n, rename, as_named; destruct (named (lname l) (ls f)); reflexivity).
    assert (FR : ~ In n (map fst (ls f)) /\ (cname n \/ exists b k, cname b /\ n = append b (str k) /\ k < S (length (ls f)))).
    { unfold n, rename. destruct (named (lname l) (ls f)) eqn:EN; cbn [lname].
      - split; [|right; exists (lname l), (length (ls f)); auto]. intros H. apply in_map_iff in H. destruct H as (p & EQ & Hp).
        destruct (KF p Hp) as [Q|[Q|(b' & k & Q & E & L)]].
        + apply (cname_C (lname l) (str (length (ls f))) CL). fold (lname l) in EQ. rewrite <- EQ. apply (truss_noC t); auto. apply in_map; auto.
        + rewrite EQ in Q. exact (proj1 cname_sep _ _ _ CL Q eq_refl).
        + rewrite EQ in E. apply (proj2 cname_sep) in E; auto. lia.
      - apply named_not in EN. auto. }
    destruct FR as [FR NM]. unfold add_ld. rewrite RN. cbn [lname lid as_named l]. rewrite dset_fresh by auto.
    rewrite (proj2 (inb i (ids f)) EI). destruct (dget Nat.eqb i (cs f)) as [c|] eqn:EC; [|exfalso; apply (CF i EI); auto]. cbn [bind].
    split; [split; [discriminate|intros H; contradiction]|]. intros s' E. injection E as <-. cbn [fst snd]. split.
    + apply pinv_seen with (s := seen); [intros j; cbn; split; [auto|intros [<-|H]; auto]|].
      split; [exact KT|]. split; [exact NT|]. cbn [ls ids cs]. split; [rewrite map_app; cbn [map fst]; apply NoDup_snoc; auto|].
      split. { intros j c' H. cbn [cs ids] in *. rewrite dget_dset in H. destruct (Nat.eqb_spec j i) as [->|Z]; [auto|eapply NF; eauto]. }
      split. { rewrite app_length. cbn [length]. intros p H. apply in_app_or in H. destruct H as [H|[<-|[]]].
        - destruct (KF p H) as [Q|[Q|(b' & k & Q & Q2 & Q3)]]; [left; auto|right; left; auto|right; right; exists b', k; repeat split; auto; lia].
        - right. cbn [fst]. destruct NM as [Q|(b' & k & Q & Q2 & Q3)]; [left; auto|right; exists b', k; repeat split; auto; lia]. }
      split; [exact SF|]. split; [exact TF|]. intros j H. rewrite dget_dset. destruct (Nat.eqb j i); [discriminate|auto].
    + unfold fem_loads. cbn [fst snd ls]. rewrite !map_app, <- !app_assoc. apply Permutation_refl.
  - apply inb_f in EI. assert (IS : ~ In i seen) by (intros H; apply EI, SF; auto).
    unfold add_ld. cbn [ids cs ls]. rewrite (proj2 (inb _ (ids f ++ [i]))).
    2:{ unfold rename. destruct (named _ _); cbn [lid]; apply in_or_app; right; left; reflexivity. }
    assert (LI : forall l g, lid (rename l g) = lid l) by (intros; unfold rename; destruct (named _ _); reflexivity). rewrite LI. cbn [lid].
    destruct (dget Nat.eqb i (cs f)) as [c|] eqn:EC; [exfalso; apply EI; eapply NF; eauto|]. cbn [bind].
    split; [tauto|]. intros s' E. discriminate.
Qed.

Lemma tname_line top lt : tname (append (if top : bool then "TC_" else "BC_")%string (append lt "_line")).
Proof. split; [apply vname_line|]. destruct top; cbn; eexists _, _; (split; [reflexivity|discriminate]). Qed.
Lemma vname_pw s lt : vname (append s (append lt "_pw_line")).
Proof.
  exists (las s ++ las lt ++ las "_pw_lin"), "e"%char, []. rewrite !las_app. cbn [las]. rewrite <- !app_assoc. cbn [app].
  split; [reflexivity|]. split; [apply not_digit_e|]. split; [constructor|left; auto].
Qed.
Lemma piece_ok q zones i lt : forall tops k L, piece_lds q zones i lt k tops = Some L ->
  map what L = zone_given q zones i k tops /\ Forall (fun x => tname (lname x)) L /\ Forall (fun x => lid x = i) L.
Proof.
  induction tops as [|[xa xb] tops IH]; intros k L E; cbn in E; [injection E as <-; cbn; auto|].
  apply bind_inv in E. destruct E as (ms & E1 & E). apply bind_inv in E. destruct E as (l & E2 & E). injection E as <-.
  destruct (IH _ _ E2) as (A & B & C). cbn [zone_given]. rewrite E1, map_app, A, map_map. split; [reflexivity|].
  split; apply Forall_app; (split; [|auto]); apply Forall_forall; intros x H; apply in_map_iff in H; destruct H as (m & <- & _); [|reflexivity].
  cbn [lname]. destruct m; split; try apply (vname_line "TC_"); try apply (vname_pw "TC_"); cbn; eexists _, _; (split; [reflexivity|discriminate]).
Qed.
Lemma piece_some q zones i lt : forall tops k, Forall (fun m => member_zone_loads q zones (fst m) (snd m) <> None) tops ->
  exists L, piece_lds q zones i lt k tops = Some L.
Proof.
  induction tops as [|[xa xb] tops IH]; intros k F; [eexists; reflexivity|]. inversion F; subst. cbn [piece_lds]. cbn [fst snd] in H1.
  destruct (member_zone_loads q zones xa xb) as [ms|]; [|contradiction]. destruct (IH (S k) H2) as (l & ->). eexists; reflexivity.
Qed.
Lemma uniform_what tops nb top q i lt : map what (uniform_lds top (if top then length tops else nb) q i lt) = given tops nb (PUni top q i lt) /\
  Forall (fun x => tname (lname x)) (uniform_lds top (if top then length tops else nb) q i lt) /\
  Forall (fun x => lid x = i) (uniform_lds top (if top then length tops else nb) q i lt).
Proof.
  unfold uniform_lds. split; [rewrite map_map; destruct top; reflexivity|].
  split; apply Forall_forall; intros x H; apply in_map_iff in H; destruct H as (k & <- & _); [apply tname_line|reflexivity].
Qed.

Lemma p_step_ok tops nb o seen t f : pinv seen t f -> forall s', p_step tops nb o (t, f) = Some s' ->
  pinv (pop_id o :: seen) (fst s') (snd s') /\
  Permutation (map what (fem_loads s')) (map what (fem_loads (t, f)) ++
    (if on_truss o && negb (existsb (Nat.eqb (pop_id o)) seen) then given tops nb o ++ given tops nb o else given tops nb o)).
Proof.
  intros V s' E. destruct o as [top q i lt|q zones i lt|b q i lt].
  - cbn [p_step] in E. destruct (uniform_what tops nb top q i lt) as (W & TN & LI).
    destruct (truss_call _ i seen t f V TN LI) as (t' & E1 & _ & K). rewrite E1 in E. cbn [bind] in E. apply bind_inv in E. destruct E as (f' & E2 & E).
    injection E as <-. cbn [fst snd pop_id on_truss andb]. destruct (K f' E2) as [V' PP]. split; [exact V'|]. rewrite W in PP. destruct (existsb _ seen); exact PP.
  - cbn [p_step] in E. apply bind_inv in E. destruct E as (L & E0 & E). destruct (piece_ok _ _ _ _ _ _ _ E0) as (W & TN & LI).
    destruct (truss_call _ i seen t f V TN LI) as (t' & E1 & _ & K). rewrite E1 in E. cbn [bind] in E. apply bind_inv in E. destruct E as (f' & E2 & E).
    injection E as <-. cbn [fst snd pop_id on_truss andb]. destruct (K f' E2) as [V' PP]. split; [exact V'|]. rewrite W in PP. cbn [given]. destruct (existsb _ seen); exact PP.
  - destruct (column_call b q i seen t f V) as [_ K]. exact (K s' E).
Qed.
Lemma p_run_ok tops nb os : forall seen t f s', pinv seen t f -> p_run tops nb os (t, f) = Some s' ->
  Permutation (map what (fem_loads s')) (map what (fem_loads (t, f)) ++ p_applied tops nb seen os).
Proof.
  induction os as [|o os IH]; intros seen t f s' V E.
  - cbn in E. injection E as <-. cbn. rewrite app_nil_r. apply Permutation_refl.
  - cbn [p_run] in E. apply bind_inv in E. destruct E as ([t1 f1] & E1 & E). destruct (p_step_ok tops nb o seen t f V _ E1) as [V1 P1].
    eapply Permutation_trans; [eapply IH; [exact V1|exact E]|]. cbn [p_applied]. rewrite app_assoc. apply Permutation_app_tail. exact P1.
Qed.
Lemma pinv_new : pinv [] no_loads no_loads.
Proof.
  split; [apply keyed_new|]. split; [intros i c H; discriminate|]. split; [constructor|]. split; [intros i c H; discriminate|].
  split; [intros p []|]. split; [intros i; reflexivity|]. split; [intros i []|intros i []].
Qed.
(** C318 *)
Lemma p_applied_lemma tops nb os s : p_run tops nb os (no_loads, no_loads) = Some s ->
  Permutation (map what (fem_loads s)) (p_applied tops nb [] os).
Proof. intros E. apply (p_run_ok tops nb os [] no_loads no_loads s pinv_new E). Qed.
Lemma p_run_app tops nb a : forall b s, p_run tops nb (a ++ b) s = bind (p_run tops nb a s) (p_run tops nb b).
Proof. induction a as [|o a IH]; intros b s; [reflexivity|]. cbn. destruct (p_step tops nb o s); cbn; auto. Qed.
Lemma p_run_inv tops nb os : forall seen t f s', pinv seen t f -> p_run tops nb os (t, f) = Some s' -> pinv (rev (map pop_id os) ++ seen) (fst s') (snd s').
Proof.
  induction os as [|o os IH]; intros seen t f s' V E.
  - cbn in E. injection E as <-. exact V.
  - cbn [p_run] in E. apply bind_inv in E. destruct E as ([t1 f1] & E1 & E). destruct (p_step_ok tops nb o seen t f V _ E1) as [V1 P1].
    cbn [map rev]. rewrite <- app_assoc. cbn [app]. eapply IH; eauto.
Qed.
(** C319 *)
Lemma p_column_first_lemma tops nb a b q i lt c : ~ In i (map pop_id a) -> p_run tops nb (a ++ PCol b q i lt :: c) (no_loads, no_loads) = None.
Proof.
  intros H. rewrite p_run_app. destruct (p_run tops nb a (no_loads, no_loads)) as [[t f]|] eqn:E; [|reflexivity]. cbn [bind p_run].
  assert (V := p_run_inv tops nb a [] _ _ _ pinv_new E). cbn [fst snd] in V. destruct (column_call b q i _ t f V) as [K _].
  replace (p_step tops nb (PCol b q i lt) (t, f)) with (p_step [] 0 (PCol b q i "") (t, f)) by reflexivity.
  rewrite (proj2 K); [reflexivity|]. rewrite app_nil_r, <- in_rev. exact H.
Qed.
Lemma p_orderly_gen tops nb os : forall seen t f, pinv seen t f -> orderly tops nb seen os -> exists s, p_run tops nb os (t, f) = Some s.
Proof.
  induction os as [|o os IH]; intros seen t f V O; [eexists; reflexivity|]. cbn [orderly] in O. destruct O as [O1 O2].
  assert (S1 : exists s1, p_step tops nb o (t, f) = Some s1).
  { destruct o as [top q i lt|q zones i lt|b q i lt].
    - cbn [p_step]. destruct (uniform_what tops nb top q i lt) as (W & TN & LI).
      destruct (truss_call _ i seen t f V TN LI) as (t' & E1 & NN & _). rewrite E1. cbn [bind].
      destruct (take_case i t' f) as [f'|] eqn:E2; [eexists; reflexivity|]. exfalso. destruct (proj1 NN eq_refl) as [_ Z].
      apply (f_equal (@length _)) in Z. unfold uniform_lds in Z. rewrite map_length, seq_length in Z. cbn in Z.
      destruct top; [destruct tops; [contradiction|discriminate]|lia].
    - cbn [p_step]. destruct O1 as [NE F]. destruct (piece_some q zones i lt tops 0 F) as (L & EL). rewrite EL. cbn [bind].
      destruct (piece_ok _ _ _ _ _ _ _ EL) as (W & TN & LI).
      destruct (truss_call _ i seen t f V TN LI) as (t' & E1 & NN & _). rewrite E1. cbn [bind].
      destruct (take_case i t' f) as [f'|] eqn:E2; [eexists; reflexivity|]. exfalso. destruct (proj1 NN eq_refl) as [_ Z].
      apply NE. cbn [given]. rewrite <- W, Z. reflexivity.
    - destruct (column_call b q i seen t f V) as [K _].
      destruct (p_step tops nb (PCol b q i lt) (t, f)) as [s1|] eqn:E; [eexists; reflexivity|]. exfalso. apply (proj1 K E). exact O1. }
  destruct S1 as ([t1 f1] & E1). cbn [p_run]. rewrite E1. cbn [bind]. eapply IH; [|exact O2]. apply (p_step_ok tops nb o seen t f V _ E1).
Qed.
Lemma p_orderly_lemma tops nb os : orderly tops nb [] os -> exists s, p_run tops nb os (no_loads, no_loads) = Some s /\
  Permutation (map what (fem_loads s)) (p_applied tops nb [] os).
Proof.
  intros O. destruct (p_orderly_gen tops nb os [] _ _ pinv_new O) as (s & E). exists s. split; [exact E|]. apply p_applied_lemma; auto.
Qed.
Lemma p_twice_lemma tops nb q i lt : tops <> [] -> exists s, p_run tops nb [PUni true q i lt] (no_loads, no_loads) = Some s /\
  forall k, (k < length tops)%nat -> length (filter (fun l => match on l with OnTop j => Nat.eqb j k | _ => false end) (fem_loads s)) = 2%nat.
Proof.
  intros N1. destruct (p_orderly_lemma tops nb [PUni true q i lt]) as (s & E & P); [cbn; auto|]. exists s. split; [exact E|]. intros k H.
  set (w := fun x : nat * target * mload => match snd (fst x) with OnTop j => Nat.eqb j k | _ => false end).
  assert (FM : forall l, length (filter (fun l => match on l with OnTop j => Nat.eqb j k | _ => false end) l) = length (filter w (map what l))).
  { induction l as [|x l IH]; [auto|]. cbn. unfold w at 1. cbn. destruct (on x); cbn; rewrite ?IH; auto. destruct (Nat.eqb k0 k); cbn; rewrite ?IH; auto. }
  rewrite FM. assert (PF : forall a b, Permutation a b -> length (filter w a) = length (filter w b)).
  { intros a b PP. induction PP; cbn; auto.
    - destruct (w x); cbn; auto.
    - destruct (w x), (w y); cbn; auto.
    - congruence. }
  rewrite (PF _ _ P). cbn [p_applied on_truss pop_id existsb negb andb given app]. rewrite app_nil_r, filter_app, app_length.
  assert (C1 : length (filter w (map (fun k => (i, OnTop k, Uni q)) (seq 0 (length tops)))) = 1%nat).
  { assert (G : forall n a, length (filter w (map (fun k => (i, OnTop k, Uni q)) (seq a n))) = if ((a <=? k) && (k <? a + n))%nat then 1%nat else 0%nat).
    { induction n as [|n IHn]; intros a; cbn [seq map filter].
      - replace ((a <=? k) && (k <? a + 0))%nat with false; [reflexivity|]. symmetry. apply andb_false_iff. rewrite Nat.leb_gt, Nat.ltb_ge. lia.
      - unfold w at 1. cbn [fst snd]. destruct (Nat.eqb_spec a k) as [->|Z].
        + cbn [length]. rewrite IHn. replace ((S k <=? k) && (k <? S k + n))%nat with false by (symmetry; apply andb_false_iff; left; apply Nat.leb_gt; lia).
          replace ((k <=? k) && (k <? k + S n))%nat with true by (symmetry; apply andb_true_iff; rewrite Nat.leb_le, Nat.ltb_lt; lia). reflexivity.
        + rewrite IHn. destruct ((S a <=? k) && (k <? S a + n))%nat eqn:E1; symmetry.
          * apply andb_true_iff in E1. rewrite Nat.leb_le, Nat.ltb_lt in E1. replace ((a <=? k) && (k <? a + S n))%nat with true; [reflexivity|].
            symmetry. apply andb_true_iff. rewrite Nat.leb_le, Nat.ltb_lt. lia.
          * apply andb_false_iff in E1. rewrite Nat.leb_gt, Nat.ltb_ge in E1. replace ((a <=? k) && (k <? a + S n))%nat with false; [reflexivity|].
            symmetry. apply andb_false_iff. rewrite Nat.leb_gt, Nat.ltb_ge. lia. }
    rewrite G. replace ((0 <=? k) && (k <? 0 + length tops))%nat with true; [reflexivity|]. symmetry. apply andb_true_iff. rewrite Nat.leb_le, Nat.ltb_lt. lia. }
  rewrite C1. reflexivity.
Qed.
