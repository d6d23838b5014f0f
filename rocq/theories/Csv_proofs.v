(** Proofs about the creation and substitution of variables. *)
Require Import Reals List Bool Lra Lia PeanoNat String. Import ListNotations.
From Verif Require Import Bool_tac EC3_proofs.
From Verif Require Import Csv_model Csv_spec.
Local Open Scope R_scope.

Lemma csv_truthy a : truthy a = true <-> given a.
Proof.
  destruct a as [|x|s|[|a l]]; cbn; try (split; [discriminate|tauto]).
  - rewrite negb_true_iff. unfold Reqb. destruct (Req_EM_T x 0); split; intros H; try discriminate; try reflexivity; try contradiction; auto.
  - rewrite negb_true_iff. rewrite String.eqb_neq. tauto.
Qed.
Lemma csv_has o os : (has_objs os || has_obj o)%bool = true <-> names_object o os.
Proof.
  unfold names_object. destruct os as [[|x l]|], o as [y|]; cbn; split; intros H; try discriminate; try reflexivity;
    try (left; eexists; reflexivity); try (right; do 2 eexists; reflexivity);
    destruct H as [[z H]|[z [l' H]]]; discriminate.
Qed.
Lemma csv_init_raises t tp tps o os : init_target t tp tps o os = None <->
  (names_property tp tps /\ ~ names_object o os) \/ (~ names_property tp tps /\ names_object o os).
Proof.
  unfold init_target, names_property. rewrite <- !csv_truthy, <- csv_has.
  destruct (truthy tp), (truthy tps), (has_objs os), (has_obj o); cbn; split; intros H; try discriminate; try reflexivity; intuition discriminate.
Qed.
Lemma csv_init_none t tp tps o os : ~ names_property tp tps -> ~ names_object o os -> init_target t tp tps o os = Some t.
Proof.
  unfold init_target, names_property. rewrite <- !csv_truthy, <- csv_has.
  destruct (truthy tp), (truthy tps), (has_objs os), (has_obj o); cbn; intros A B; try reflexivity; exfalso; tauto.
Qed.
Lemma csv_raises lb ub t pr x f : given x -> new_csv lb ub t pr x f = None.
Proof.
  intros H. unfold new_csv, new_variable. assert (E : init_target t pr x None None = None).
  { apply csv_init_raises. left. split; [right; exact H|]. intros [[z K]|[z [l K]]]; discriminate. }
  rewrite E. reflexivity.
Qed.

(** Copies of sections. *)
Lemma csv_copy_sound h o : sound h -> sound (copy_sec h o).
Proof. intros S m. specialize (S m). cbn. destruct (m =? o)%nat; lia. Qed.
Lemma csv_copy_attr h o m p : sound h -> of_member (copy_sec h o) m p = of_member h m p.
Proof.
  intros S. unfold of_member. cbn. destruct (Nat.eqb_spec m o) as [->|N].
  - rewrite Nat.eqb_refl. reflexivity.
  - specialize (S m). destruct (Nat.eqb_spec (h_sec h m) (h_next h)); [lia|reflexivity].
Qed.
Lemma csv_copy_own h o m : sound h -> m = o \/ own_section h m -> own_section (copy_sec h o) m.
Proof.
  intros S H m'. cbn. pose proof (S m) as A. pose proof (S m') as B.
  destruct (Nat.eqb_spec m' o) as [->|N'], (Nat.eqb_spec m o) as [->|N]; intros E; try lia.
  destruct H as [H|H]; [contradiction|]. apply H. exact E.
Qed.
Lemma csv_copies os : forall h, sound h ->
  sound (fold_left copy_sec os h) /\ (forall m p, of_member (fold_left copy_sec os h) m p = of_member h m p) /\
  (forall m, In m os \/ own_section h m -> own_section (fold_left copy_sec os h) m) /\ h_oattr (fold_left copy_sec os h) = h_oattr h.
Proof.
  induction os as [|o os IH]; intros h S; cbn [fold_left].
  - repeat split; auto. intros m [[]|H]; exact H.
  - destruct (IH (copy_sec h o) (csv_copy_sound h o S)) as (A & B & C & D). repeat split; auto.
    + intros m p. rewrite B. apply csv_copy_attr; auto.
    + intros m [[<-|H]|H]; apply C; [right|left; exact H|right]; apply csv_copy_own; auto.
Qed.

(** Substitution. *)
Lemma csv_set_objs_sec v x p : forall os h, exists h', set_objs true v x h (AStr p) os = Some h' /\
  h_sec h' = h_sec h /\ h_oattr h' = h_oattr h /\ h_next h' = h_next h /\
  (forall s q, h_sattr h' s q = if andb (existsb (Nat.eqb s) (map (h_sec h) os)) (String.eqb q p) then x * v_scaling v else h_sattr h s q).
Proof.
  induction os as [|o os IH]; intros h.
  - exists h. cbn. auto.
  - destruct (IH (set_sattr h o p (x * v_scaling v))) as (h' & E & A & B & D & F). exists h'. cbn [set_objs bind]. rewrite E.
    repeat split; auto. intros s q. rewrite F. cbn [set_sattr h_sec h_sattr map existsb]. unfold upd.
    destruct (existsb _ _), (s =? h_sec h o)%nat, (String.eqb q p); reflexivity.
Qed.
Lemma csv_set_list_sec v x o : forall ps h h', set_list v x h o ps = Some h' -> h_sec h' = h_sec h /\ h_sattr h' = h_sattr h.
Proof.
  induction ps as [|a ps IH]; intros h h' H; cbn in H.
  - injection H as <-. auto.
  - destruct a; try discriminate. apply IH in H. exact H.
Qed.
Lemma csv_set_objs_plain v x prop : forall os h h', set_objs false v x h prop os = Some h' -> h_sec h' = h_sec h /\ h_sattr h' = h_sattr h.
Proof.
  induction os as [|o os IH]; intros h h' H; cbn in H.
  - injection H as <-. auto.
  - destruct prop; cbn in H; try discriminate; [|destruct (set_list v x h o l) eqn:E; [|discriminate]; cbn in H].
    + apply IH in H. exact H.
    + apply IH in H. apply csv_set_list_sec in E. destruct H, E. split; congruence.
Qed.

(** A list of properties. *)
Lemma csv_set_list v x o : forall ps h, exists h', set_list v x h o (map AStr ps) = Some h' /\
  h_sec h' = h_sec h /\ h_sattr h' = h_sattr h /\ h_next h' = h_next h /\
  (forall m q, h_oattr h' m q = if andb (Nat.eqb m o) (existsb (String.eqb q) ps)
     then match v_fun v with Some f => match fun_of q f with Some g => g (x * v_scaling v) | None => x * v_scaling v end | None => x end
     else h_oattr h m q).
Proof.
  induction ps as [|p ps IH]; intros h; cbn [map set_list].
  - exists h. repeat split. intros m q. cbn. rewrite andb_false_r. reflexivity.
  - match goal with |- context [set_list v x ?h1 o _] => destruct (IH h1) as (h' & E & A & B & D & F) end.
    exists h'. split; [exact E|]. repeat split; auto. intros m q. rewrite F. cbn [set_oattr h_oattr existsb]. unfold upd.
    destruct (Nat.eqb_spec m o) as [->|N]; cbn [andb]; [|reflexivity].
    destruct (existsb _ ps); [rewrite orb_true_r; reflexivity|]. rewrite orb_false_r.
    destruct (String.eqb_spec q p) as [->|]; reflexivity.
Qed.
Lemma csv_set_objs_list sec v x ps : forall os h, exists h', set_objs sec v x h (AList (map AStr ps)) os = Some h' /\
  h_sec h' = h_sec h /\ h_sattr h' = h_sattr h /\ h_next h' = h_next h /\
  (forall m q, h_oattr h' m q = if andb (existsb (Nat.eqb m) os) (existsb (String.eqb q) ps)
     then match v_fun v with Some f => match fun_of q f with Some g => g (x * v_scaling v) | None => x * v_scaling v end | None => x end
     else h_oattr h m q).
Proof.
  induction os as [|o os IH]; intros h; cbn [set_objs].
  - exists h. repeat split.
  - destruct (csv_set_list v x o ps h) as (h1 & E1 & A1 & B1 & D1 & F1). rewrite E1. cbn [bind].
    destruct (IH h1) as (h' & E & A & B & D & F). exists h'. split; [exact E|]. repeat split; try congruence.
    intros m q. rewrite F, F1. cbn [existsb]. destruct (existsb (Nat.eqb m) os), (Nat.eqb m o), (existsb (String.eqb q) ps); reflexivity.
Qed.
Lemma csv_existsb s l : existsb (Nat.eqb s) l = true <-> In s l.
Proof. rewrite existsb_exists. split; [intros (y & H & K); apply Nat.eqb_eq in K; subst; auto|intros H; exists s; rewrite Nat.eqb_refl; auto]. Qed.
Lemma csv_existsb_s s l : existsb (String.eqb s) l = true <-> In s l.
Proof. rewrite existsb_exists. split; [intros (y & H & K); apply String.eqb_eq in K; subst; auto|intros H; exists s; rewrite String.eqb_refl; auto]. Qed.

(** Bounds. *)
Lemma csv_fold_min l : forall a, (fold_left Rmin l a = a \/ In (fold_left Rmin l a) l) /\ fold_left Rmin l a <= a /\ forall x, In x l -> fold_left Rmin l a <= x.
Proof.
  induction l as [|b l IH]; intros a; cbn [fold_left]; [repeat split; [left; reflexivity|lra|intros x []]|].
  destruct (IH (Rmin a b)) as (A & B & C). pose proof (Rmin_l a b). pose proof (Rmin_r a b). repeat split.
  - destruct A as [A|A]; [|right; right; exact A]. rewrite A. unfold Rmin. destruct (Rle_dec a b); [left; reflexivity|right; left; reflexivity].
  - lra.
  - intros x [<-|H1]; [lra|apply C; exact H1].
Qed.
Lemma csv_fold_max l : forall a, (fold_left Rmax l a = a \/ In (fold_left Rmax l a) l) /\ a <= fold_left Rmax l a /\ forall x, In x l -> x <= fold_left Rmax l a.
Proof.
  induction l as [|b l IH]; intros a; cbn [fold_left]; [repeat split; [left; reflexivity|lra|intros x []]|].
  destruct (IH (Rmax a b)) as (A & B & C). pose proof (Rmax_l a b). pose proof (Rmax_r a b). repeat split.
  - destruct A as [A|A]; [|right; right; exact A]. rewrite A. unfold Rmax. destruct (Rle_dec a b); [right; left; reflexivity|left; reflexivity].
  - lra.
  - intros x [<-|H1]; [lra|apply C; exact H1].
Qed.
Lemma csv_least l : l <> [] -> least (lmin l) l.
Proof.
  destruct l as [|a l]; [congruence|]. intros _. destruct (csv_fold_min l a) as (A & B & C). split.
  - destruct A as [A|A]; [left; symmetry; exact A|right; exact A].
  - intros x [<-|H]; [exact B|apply C; exact H].
Qed.
Lemma csv_greatest l : l <> [] -> greatest (lmax l) l.
Proof.
  destruct l as [|a l]; [congruence|]. intros _. destruct (csv_fold_max l a) as (A & B & C). split.
  - destruct A as [A|A]; [left; symmetry; exact A|right; exact A].
  - intros x [<-|H]; [exact B|apply C; exact H].
Qed.

(** Property variables made for an index variable. *)
Lemma csv_make os cat cur : (cur < List.length cat)%nat -> forall disc h, sound h ->
  exists vs h', make_props false os cat cur disc h = Some (vs, h') /\ sound h' /\
  Forall2 (fun p v => exists s, nth_error cat cur = Some s /\ v_value v = ANum (s p) /\
             least (v_lb v) (map (fun s => s p) cat) /\ greatest (v_ub v) (map (fun s => s p) cat) /\
             v_target v = Some (AStr p, os) /\ v_locked v = false /\ v_scaling v = 1) disc vs /\
  (forall m p, of_member h' m p = of_member h m p) /\
  (forall m, (In m os /\ disc <> []) \/ own_section h m -> own_section h' m).
Proof.
  intros L. destruct (nth_error cat cur) as [s|] eqn:E; [|apply nth_error_None in E; lia].
  assert (NE : forall p : string, map (fun s : string -> R => s p) cat <> []) by (intros p; destruct cat; [cbn in L; lia|discriminate]).
  induction disc as [|p disc IH]; intros h S.
  - exists [], h. repeat split; auto. intros m [[_ H]|H]; [congruence|exact H].
  - destruct (csv_copies os h S) as (S1 & A1 & O1 & _). destruct (IH _ S1) as (vs & h' & EQ & S' & F & A & O).
    cbn [make_props]. rewrite (map_nth_error (fun s => s p) cur cat E). cbn [bind]. rewrite EQ.
    unfold new_discrete, new_variable. rewrite csv_init_none; [|intros [[]|[]]|intros [[z K]|[z [l K]]]; discriminate]. cbn [bind fst snd].
    eexists. exists h'. split; [reflexivity|]. split; [exact S'|]. split; [|split].
    + constructor; [|exact F]. exists s. cbn. repeat split; try reflexivity; try (apply csv_least; apply NE); try (apply csv_greatest; apply NE).
    + intros m q. rewrite A. apply A1.
    + intros m H. apply O. right. apply O1. tauto.
Qed.
Lemma csv_set_objs_obj v x p : forall os h, exists h', set_objs false v x h (AStr p) os = Some h' /\
  (forall m q, h_oattr h' m q = if andb (existsb (Nat.eqb m) os) (String.eqb q p) then x * v_scaling v else h_oattr h m q).
Proof.
  induction os as [|o os IH]; intros h.
  - exists h. split; reflexivity.
  - destruct (IH (set_oattr h o p (x * v_scaling v))) as (h' & E & F). exists h'. cbn [set_objs bind]. split; [exact E|].
    intros m q. rewrite F. cbn [set_oattr h_oattr existsb]. unfold upd. destruct (existsb _ _), (m =? o)%nat, (String.eqb q p); reflexivity.
Qed.
