From Verif Require Import Raami_model Raami_spec Raami_proofs.
From Verif Require Import Base EC3_model Bool_tac EC3_proofs Plate_proofs Sections_proofs Rhs_model Truss_model Truss_proofs Portal_model Portal_spec Portal_proofs.
Require Import Reals String Ascii List Bool Arith Permutation Lra Lia Psatz.
Import ListNotations.
Local Open Scope nat_scope.

(** Names that numbering keeps apart. *)
Definition sep (B : string -> Prop) : Prop :=
  (forall a b k, B a -> B b -> append a (str k) <> b) /\
  (forall a b k m, B a -> B b -> append a (str k) = append b (str m) -> a = b /\ k = m).
Definition ofid (i : nat) (d : list (string * ld)) : list ld := map snd (filter (fun p => Nat.eqb (lid (snd p)) i) d).
Definition keyed (B : string -> Prop) (f : lf) : Prop :=
  NoDup (map fst (ls f)) /\
  (forall n, In n (map fst (ls f)) -> B n \/ exists b k, B b /\ n = append b (str k) /\ k < length (ls f)) /\
  (forall p, In p (ls f) -> lname (snd p) = fst p /\ In (lid (snd p)) (ids f)) /\
  (forall i, In i (ids f) -> dget Nat.eqb i (cs f) = Some (ofid i (ls f))).
Definition as_named (n : string) (l : ld) : ld := mkLd n (lid l) (on l) (lv l).

Lemma named_in n d : named n d = true <-> In n (map fst d).
Proof.
  unfold named. rewrite existsb_exists. split.
  - intros (p & H & E). apply String.eqb_eq in E. subst. apply in_map; auto.
  - intros H. apply in_map_iff in H. destruct H as (p & <- & H). exists p. split; auto. apply String.eqb_refl.
Qed.
Lemma named_not n d : named n d = false <-> ~ In n (map fst d).
Proof. rewrite <- named_in. destruct (named n d); split; intros; congruence. Qed.
Lemma inb i l : existsb (Nat.eqb i) l = true <-> In i l.
Proof.
  rewrite existsb_exists. split.
  - intros (x & H & E). apply Nat.eqb_eq in E. subst; auto.
  - intros H. exists i. split; auto. apply Nat.eqb_refl.
Qed.
Lemma inb_f i l : existsb (Nat.eqb i) l = false <-> ~ In i l.
Proof. rewrite <- inb. destruct (existsb _ l); split; intros; congruence. Qed.
Lemma ofid_app i a b : ofid i (a ++ b) = ofid i a ++ ofid i b.
Proof. unfold ofid. rewrite filter_app, map_app. reflexivity. Qed.
Lemma ofid_one i n l : ofid i [(n, l)] = if Nat.eqb (lid l) i then [l] else [].
Proof. unfold ofid. cbn. destruct (Nat.eqb (lid l) i); reflexivity. Qed.
Lemma ofid_nil i d : (forall p, In p d -> lid (snd p) <> i) -> ofid i d = [].
Proof.
  intros H. unfold ofid. induction d as [|p d IH]; [auto|]. cbn. destruct (Nat.eqb_spec (lid (snd p)) i) as [E|E].
  - exfalso. apply (H p); [left; auto|auto].
  - apply IH. intros q Q. apply H. right; auto.
Qed.
Lemma NoDup_snoc {A} (l : list A) a : NoDup l -> ~ In a l -> NoDup (l ++ [a]).
Proof. intros H N1. apply NoDup_Add with (a := a) (l := l); [|split; auto]. rewrite <- (app_nil_r l) at 1. apply Add_app. Qed.

Lemma add_ld_step B l f : sep B -> keyed B f -> B (lname l) ->
  exists f' n, add_ld l f = Some f' /\ keyed B f' /\ ls f' = ls f ++ [(n, as_named n l)] /\
    (forall i, In i (ids f') <-> In i (ids f) \/ i = lid l).
Proof.
  intros [S1 S2] (ND & KS & VS & CS) BL.
  set (n := lname (rename l f)).
  assert (RN : rename l f = as_named n l).
  { unfold n, rename, as_named. destruct (named (lname l) (ls f)); [reflexivity|destruct l; reflexivity]. }
  assert (FR : ~ In n (map fst (ls f)) /\ (B n \/ exists b k, B b /\ n = append b (str k) /\ k < S (length (ls f)))).
  { unfold n, rename. destruct (named (lname l) (ls f)) eqn:EN; cbn [lname].
    - split; [|right; exists (lname l), (length (ls f)); auto]. intros H. destruct (KS _ H) as [Q|(b & k & Q & E & L)].
      + exact (S1 _ _ _ BL Q eq_refl).
      + apply S2 in E; auto. lia.
    - apply named_not in EN. auto. }
  destruct FR as [FR NM].
  assert (KY : forall c is, (forall i, In i is <-> In i (ids f) \/ i = lid l) ->
    (forall i, In i is -> dget Nat.eqb i c = Some (ofid i (ls f ++ [(n, as_named n l)]))) ->
    keyed B (mkF (ls f ++ [(n, as_named n l)]) is c)).
  { intros c is HI HC. unfold keyed. cbn [ls ids cs]. rewrite map_app. cbn [map fst]. rewrite app_length. cbn [length]. repeat split.
    - apply NoDup_snoc; auto.
    - intros m H. apply in_app_or in H. destruct H as [H|[<-|[]]].
      + destruct (KS _ H) as [Q|(b & k & Q & E & L)]; [left; auto|right; exists b, k; repeat split; auto; lia].
      + destruct NM as [Q|(b & k & Q & E & L)]; [left; auto|right; exists b, k; repeat split; auto; lia].
    - apply in_app_or in H. destruct H as [H|[<-|[]]]; [apply VS; auto|reflexivity].
    - apply HI. apply in_app_or in H. destruct H as [H|[<-|[]]]; [left; apply VS; auto|right; reflexivity].
    - exact HC. }
  unfold add_ld. rewrite RN. cbn [lname lid as_named]. rewrite dset_fresh by auto.
  destruct (existsb (Nat.eqb (lid l)) (ids f)) eqn:EI.
  - apply inb in EI. rewrite (CS _ EI). cbn [bind]. eexists. exists n. split; [reflexivity|]. split; [|split].
    + apply KY; [intros i; split; [auto|intros [H| ->]; auto]|]. intros i H. rewrite dget_dset, ofid_app, ofid_one. cbn [lid as_named].
      rewrite (Nat.eqb_sym i). destruct (Nat.eqb_spec (lid l) i) as [->|Z]; [reflexivity|]. rewrite app_nil_r. apply CS; auto.
    + reflexivity.
    + cbn [ids]. intros i. split; [auto|intros [H| ->]; auto].
  - apply inb_f in EI. eexists. exists n. split; [reflexivity|]. split; [|split].
    + apply KY.
      * intros i. rewrite in_app_iff. cbn. intuition.
      * intros i H. rewrite dget_dset, ofid_app, ofid_one. cbn [lid as_named]. rewrite (Nat.eqb_sym i). destruct (Nat.eqb_spec (lid l) i) as [<-|Z].
        -- rewrite ofid_nil; [reflexivity|]. intros p Hp E. apply EI. rewrite <- E. apply VS; auto.
        -- rewrite app_nil_r. apply CS. apply in_app_or in H. destruct H as [H|[H|[H|[]]]]; auto; congruence.
    + reflexivity.
    + cbn [ids]. intros i. rewrite in_app_iff. cbn. intuition.
Qed.
Lemma add_lds_step B l : sep B -> forall f, keyed B f -> Forall (fun x => B (lname x)) l ->
  exists f' new, add_lds l f = Some f' /\ keyed B f' /\ ls f' = ls f ++ new /\ map what (map snd new) = map what l /\
    map lid (map snd new) = map lid l /\
    (forall i, In i (ids f') <-> In i (ids f) \/ In i (map lid l)).
Proof.
  intros S. induction l as [|x l IH]; intros f K F.
  - exists f, []. rewrite app_nil_r. cbn. intuition.
  - inversion F; subst. destruct (add_ld_step B x f S K H1) as (f1 & n & E & K1 & L1 & I1).
    destruct (IH f1 K1 H2) as (f' & new & E' & K' & L' & W & LI & I'). exists f', ((n, as_named n x) :: new). cbn [add_lds]. rewrite E. cbn [bind].
    split; [auto|]. split; [auto|]. split; [rewrite L', L1, <- app_assoc; reflexivity|].
    split; [cbn [map snd]; rewrite W; reflexivity|]. split; [cbn [map snd]; rewrite LI; reflexivity|].
    intros i. rewrite I', I1. cbn [map In]. intuition.
Qed.
Lemma keyed_new B : keyed B no_loads.
Proof. repeat split; cbn; try constructor; intros; contradiction. Qed.

(* ------------------------------------------------------------ the names *)
Lemma las_plain q c : plainl (q ++ [c]) <-> ~ digit c.
Proof.
  split; [intros H; apply (H q c eq_refl)|]. intros H p d E. apply app_inj_tail in E. destruct E as [_ <-]. exact H.
Qed.
(** A name of a load of a Vierendeel truss: a stem that ends in 'e', or a stem that ends in '_' and one digit. *)
Definition vname (b : string) : Prop :=
  exists q c ds, las b = (q ++ [c]) ++ ds /\ ~ digit c /\ Forall digit ds /\
  ((c = "e"%char /\ ds = []) \/ (c = "_"%char /\ length ds = 1)).
Lemma app_same_len {A} (a b c d : list A) : a ++ b = c ++ d -> length a = length c -> a = c /\ b = d.
Proof. revert c. induction a as [|x a IH]; intros [|y c] E L; cbn in *; try discriminate; auto. injection E as <- E. destruct (IH c E ltac:(lia)) as [-> ->]. auto. Qed.
Lemma vname_sep : sep vname.
Proof.
  assert (SPL : forall q c ds q' c' ds', ~ digit c -> ~ digit c' -> Forall digit ds -> Forall digit ds' ->
     (q ++ [c]) ++ ds = (q' ++ [c']) ++ ds' -> q = q' /\ c = c' /\ ds = ds').
  { intros q c ds q' c' ds' D D' F F' E. apply plain_split in E; auto; [|apply las_plain; auto|apply las_plain; auto].
    destruct E as [E ->]. apply app_inj_tail in E. destruct E; auto. }
  split.
  - intros a b k (q & c & ds & E1 & D1 & F1 & O1) (q' & c' & ds' & E2 & D2 & F2 & O2) E.
    apply (f_equal las) in E. rewrite las_app, E1, E2, <- app_assoc in E.
    apply SPL in E; auto; [|apply Forall_app; split; auto; apply str_digits]. destruct E as (_ & -> & E).
    assert (N1 : las (str k) <> []) by apply str_nonempty. assert (length (las (str k)) > 0) by (destruct (las (str k)); [contradiction|cbn; lia]).
    apply (f_equal (@length _)) in E. rewrite app_length in E.
    destruct O1 as [[A B]|[A B]], O2 as [[A' B']|[A' B']]; subst; try discriminate; try (cbn in E; lia).
  - intros a b k m (q & c & ds & E1 & D1 & F1 & O1) (q' & c' & ds' & E2 & D2 & F2 & O2) E.
    apply (f_equal las) in E. rewrite !las_app, E1, E2, <- !app_assoc in E.
    assert (E' : (q ++ [c]) ++ (ds ++ las (str k)) = (q' ++ [c']) ++ (ds' ++ las (str m))) by (rewrite <- !app_assoc; exact E).
    apply SPL in E'; auto; try (apply Forall_app; split; auto; apply str_digits). destruct E' as (-> & -> & E').
    apply app_same_len in E'.
    + destruct E' as [-> E']. split; [apply las_inj; rewrite E1, E2; reflexivity|apply str_inj, las_inj; auto].
    + destruct O1 as [[A B]|[A B]], O2 as [[A' B']|[A' B']]; subst; try discriminate; auto. congruence.
Qed.
Lemma digit1 : digit "1"%char. Proof. unfold digit; cbn; lia. Qed.
Lemma digit2 : digit "2"%char. Proof. unfold digit; cbn; lia. Qed.
Lemma not_digit_e : ~ digit "e"%char. Proof. unfold digit; cbn; lia. Qed.
Lemma not_digit_u : ~ digit "_"%char. Proof. unfold digit; cbn; lia. Qed.
Lemma vname_line s lt : vname (append s (append lt "_line")).
Proof.
  exists (las s ++ las lt ++ las "_lin"), "e"%char, []. rewrite !las_app. cbn [las]. rewrite <- !app_assoc. cbn [app].
  split; [reflexivity|]. split; [apply not_digit_e|]. split; [constructor|left; auto].
Qed.
Lemma vname_point s lt d : d = "1"%char \/ d = "2"%char -> vname (append (append s (append lt "_point")) (String "_" (String d ""))).
Proof.
  intros H. exists (las s ++ las lt ++ las "_point"), "_"%char, [d]. rewrite !las_app. cbn [las]. rewrite <- !app_assoc. cbn [app].
  split; [reflexivity|]. split; [apply not_digit_u|].
  split; [constructor; auto; destruct H as [->| ->]; [apply digit1|apply digit2]|right; auto].
Qed.
Lemma vop_names t o : Forall (fun x => vname (lname x)) (vop_lds t o).
Proof.
  apply Forall_forall. intros x H. destruct o as [top q i lt|top p0 p1 i lt]; cbn [vop_lds] in H.
  - apply in_map_iff in H. destruct H as (k & <- & _). cbn [lname]. apply vname_line.
  - unfold point_lds in H. apply in_app_or in H. destruct H as [H|H].
    + destruct top; [|contradiction]. cbn in H. destruct H as [<-|[<-|[]]]; cbn [lname]; apply (vname_point "TC_" lt "1"); auto.
    + apply in_map_iff in H. destruct H as (k & <- & _). cbn [lname]. apply (vname_point _ lt "2"); auto.
Qed.

Lemma v_run_step t os : forall f, keyed vname f -> exists f' new, v_run t os f = Some f' /\ keyed vname f' /\ ls f' = ls f ++ new /\
  map what (map snd new) = map what (flat_map (vop_lds t) os).
Proof.
  induction os as [|o os IH]; intros f K.
  - exists f, []. rewrite app_nil_r. cbn. auto.
  - destruct (add_lds_step vname (vop_lds t o) vname_sep f K (vop_names t o)) as (f1 & n1 & E1 & K1 & L1 & W1 & _).
    destruct (IH f1 K1) as (f' & n2 & E2 & K2 & L2 & W2). exists f', (n1 ++ n2). cbn [v_run]. rewrite E1. cbn [bind].
    split; [auto|]. split; [auto|]. split; [rewrite L2, L1, app_assoc; reflexivity|]. cbn [flat_map]. rewrite !map_app, W1, W2. reflexivity.
Qed.
Lemma vop_given v t o : (1 <= v_n v)%nat -> v_topology v = Some t -> map what (vop_lds t o) = v_given (v_n v) o.
Proof.
  intros P E. rewrite (v_topology_eq v P) in E. injection E as <-. destruct o as [[|] q i lt|[|] p0 p1 i lt]; cbn [vop_lds v_given];
    cbn [vtop vbot vtc vbc]; unfold uniform_lds, point_lds; rewrite ?chord_len, ?map_length, ?seq_length, ?map_app, ?map_map; cbn [map app].
  - reflexivity.
  - reflexivity.
  - replace (v_n v + 1 - 1)%nat with (v_n v) by lia. replace (v_n v + 1 - 2)%nat with (v_n v - 1)%nat by lia. reflexivity.
  - replace (v_n v + 1 - 2)%nat with (v_n v - 1)%nat by lia. reflexivity.
Qed.
Lemma v_loads_lemma v os : (1 <= v_n v)%nat -> exists t f, v_topology v = Some t /\ v_run t os no_loads = Some f /\
  NoDup (map fst (ls f)) /\ map what (map snd (ls f)) = flat_map (v_given (v_n v)) os.
Proof.
  intros P. destruct (v_geometry_lemma v P) as (t & E & _). exists t.
  destruct (v_run_step t os no_loads (keyed_new _)) as (f & new & E1 & K1 & L1 & W1). exists f. split; [auto|]. split; [auto|].
  split; [apply K1|]. rewrite L1. cbn [ls no_loads app]. rewrite W1. clear - P E. induction os as [|o os IH]; [reflexivity|].
  cbn [flat_map]. rewrite map_app, IH, (vop_given v t o P E). reflexivity.
Qed.
Local Open Scope R_scope.
Lemma v_force_what t a b : what a = what b -> v_force t a = v_force t b.
Proof. unfold what, v_force. intros E. injection E as _ E1 E2. rewrite E1, E2. reflexivity. Qed.
Lemma v_forces t : forall l l', map what l = map what l' -> Rsum (map (v_force t) l) = Rsum (map (v_force t) l').
Proof.
  induction l as [|a l IH]; intros [|b l'] E; try discriminate; [reflexivity|]. cbn [map] in E |- *. injection E as E1 E2 E3 E4.
  rewrite !Rsum_cons, (IH l' E4). f_equal. apply v_force_what. unfold what. congruence.
Qed.
Lemma v_total_lemma v os : (1 <= v_n v)%nat -> exists t f, v_topology v = Some t /\ v_run t os no_loads = Some f /\
  Rsum (map (v_force t) (map snd (ls f))) = Rsum (map (v_total (v_span v) (v_n v)) os).
Proof.
  intros P. destruct (v_geometry_lemma v P) as (t & E & G). exists t.
  destruct (v_run_step t os no_loads (keyed_new _)) as (f & new & E1 & K1 & L1 & W1). exists f. split; [auto|]. split; [auto|].
  rewrite L1. cbn [ls no_loads app]. rewrite (v_forces t _ _ W1). clear - P E. pose proof (pl_INR _ P) as P1.
  induction os as [|o os IH]; [reflexivity|]. cbn [flat_map map]. rewrite map_app, Rsum_app, Rsum_cons, IH. f_equal.
  clear IH. rewrite (v_topology_eq v P) in E. injection E as <-. destruct o as [[|] q i lt|[|] p0 p1 i lt]; cbn [vop_lds v_total];
    cbn [vtop vbot vtc vbc]; unfold uniform_lds, point_lds; rewrite ?chord_len, ?map_length, ?seq_length, ?map_app, ?map_map; cbn [map app].
  - rewrite (Rsum_same _ (q * (v_span v / INR (v_n v)))); [rewrite seq_length; field; lra|].
    intros k Hk. apply in_seq in Hk. cbn [v_force on lv vtop vbot]. rewrite !chord_nth by lia. cbn [fst]. rewrite plus_INR. cbn [INR]. ring.
  - rewrite (Rsum_same _ (q * (v_span v / INR (v_n v)))); [rewrite seq_length; field; lra|].
    intros k Hk. apply in_seq in Hk. cbn [v_force on lv vtop vbot]. rewrite !chord_nth by lia. cbn [fst]. rewrite plus_INR. cbn [INR]. ring.
  - rewrite !Rsum_cons. cbn [v_force on lv]. rewrite (Rsum_same _ p1); [|reflexivity]. rewrite seq_length.
    replace (v_n v + 1 - 2)%nat with (v_n v - 1)%nat by lia. rewrite minus_INR by lia. cbn [INR]. ring.
  - rewrite (Rsum_same _ p1); [|reflexivity]. rewrite seq_length. replace (v_n v + 1 - 2)%nat with (v_n v - 1)%nat by lia. rewrite minus_INR by lia. reflexivity.
Qed.
