(** C375: creation and substitution of variables; cross-section variables. *)
Require Import Reals List Bool Lra Lia PeanoNat String. Import ListNotations.
From Verif Require Import EC3_proofs Csv_proofs.
From Verif Require Import Csv_model Csv_spec.
Local Open Scope R_scope.
Local Open Scope string_scope.

(** C375: a variable is refused exactly if properties are named without objects or objects without properties; with
    neither it keeps the target it was given. *)
Theorem C375_refused : forall lb ub t tp tps o os value f,
  (new_variable lb ub t tp tps o os value f = None <->
     (names_property tp tps /\ ~ names_object o os) \/ (~ names_property tp tps /\ names_object o os)) /\
  (~ names_property tp tps -> ~ names_object o os -> exists v, new_variable lb ub t tp tps o os value f = Some v /\
     v_target v = t /\ v_value v = value /\ v_lb v = lb /\ v_ub v = ub /\ v_locked v = false /\ v_scaling v = 1 /\ v_fun v = f).
Proof.
  intros. split.
  - rewrite <- (csv_init_raises t). unfold new_variable. destruct (init_target t tp tps o os); cbn; split; intros H; congruence.
  - intros A B. unfold new_variable. rewrite csv_init_none by auto. eexists. split; [reflexivity|]. repeat split.
Qed.
Print Assumptions C375_refused.

(** C375: a variable made with one property name and one object, or with lists of them, has them as its target. *)
Theorem C375_named_target : forall lb ub t p o ps os value f, p <> "" -> ps <> [] -> os <> [] ->
  (exists v, new_variable lb ub t (AStr p) ANone (Some o) None value f = Some v /\ v_target v = Some (AList [AStr p], [o])) /\
  (exists v, new_variable lb ub t ANone (AList ps) None (Some os) value f = Some v /\ v_target v = Some (AList ps, os)).
Proof.
  intros lb ub t p o ps os value f P Q O. apply String.eqb_neq in P. destruct ps as [|a ps]; [congruence|]. destruct os as [|b os]; [congruence|].
  unfold new_variable, init_target. cbn [truthy has_obj has_objs]. rewrite P. cbn. split; eexists; split; reflexivity.
Qed.
Print Assumptions C375_named_target.

(** C375, finding: a cross-section variable cannot be made with a value (other than zero) or with profiles, and one that
    is made has no value. *)
Theorem C375_cross_section_value_refuted : forall lb ub t profiles value f,
  (given value \/ given profiles -> new_csv lb ub t profiles value f = None) /\
  (forall v, new_csv lb ub t profiles value f = Some v -> v_value v = ANone).
Proof.
  intros lb ub t pr x f. split.
  - intros H. apply (C375_refused lb ub t pr x None None ANone f). left. split; [unfold names_property; tauto|].
    intros [[z K]|[z [l K]]]; discriminate.
  - intros v H. unfold new_csv, new_variable in H. destruct (init_target t pr x None None); [|discriminate]. injection H as <-. reflexivity.
Qed.
Print Assumptions C375_cross_section_value_refuted.

(** C375, finding: hence the change to binary variables with continuous property variables (the default) fails as soon
    as an index variable's current profile has a first property other than zero. *)
Theorem C375_continuous_change_refuted : forall os cat cur s p disc h, nth_error cat cur = Some s -> s p <> 0 ->
  make_props true os cat cur (p :: disc) h = None.
Proof.
  intros os cat cur s p disc h E N. cbn [make_props]. rewrite (map_nth_error (fun s => s p) cur cat E). cbn [bind].
  rewrite csv_raises by exact N. reflexivity.
Qed.
Print Assumptions C375_continuous_change_refuted.

(** C375: with discrete property variables it makes one variable for each property, with the value of the current
    profile, bounded by the least and greatest values of the profiles; the sections of all members keep their numbers
    and no two members of the variable, nor any other member, share a section any more. *)
Theorem C375_discrete_change : forall os cat cur disc h, (cur < List.length cat)%nat -> sound h ->
  exists vs h', make_props false os cat cur disc h = Some (vs, h') /\ sound h' /\
  Forall2 (fun p v => exists s, nth_error cat cur = Some s /\ v_value v = ANum (s p) /\
             least (v_lb v) (map (fun s => s p) cat) /\ greatest (v_ub v) (map (fun s => s p) cat) /\
             v_target v = Some (AStr p, os) /\ v_locked v = false /\ v_scaling v = 1) disc vs /\
  (forall m p, of_member h' m p = of_member h m p) /\
  (forall m, (In m os /\ disc <> []) \/ own_section h m -> own_section h' m).
Proof. intros os cat cur disc h L S. exact (csv_make os cat cur L disc h S). Qed.
Print Assumptions C375_discrete_change.

(** C375: substituting a plain or discrete variable sets the property of every object of its target to the value times
    the scaling factor, and no other property of any object. *)
Theorem C375_plain_substitute : forall v x h p os, v_locked v = false -> v_target v = Some (AStr p, os) ->
  exists h', substitute v x h = Some (with_value v x, h') /\
  (forall m, In m os -> h_oattr h' m p = x * v_scaling v) /\
  (forall m q, ~ In m os \/ q <> p -> h_oattr h' m q = h_oattr h m q).
Proof.
  intros v x h p os L T. unfold substitute. rewrite L, T. cbn [fst snd].
  destruct (csv_set_objs_obj v x p os h) as (h' & E & F). rewrite E. exists h'. cbn [bind]. split; [reflexivity|]. split.
  - intros m I. rewrite F, String.eqb_refl, andb_true_r, (proj2 (csv_existsb _ _) I). reflexivity.
  - intros m q N. rewrite F. destruct (existsb (Nat.eqb m) os) eqn:X; [|reflexivity]. destruct (String.eqb_spec q p) as [Y|Y]; [|reflexivity].
    apply csv_existsb in X. tauto.
Qed.
Print Assumptions C375_plain_substitute.

(** C375, finding: substituting such a variable, as any variable that is not a cross-section variable, never changes a
    section. *)
Theorem C375_section_reached_refuted : forall v x h v' h' m p, substitute v x h = Some (v', h') -> of_member h' m p = of_member h m p.
Proof.
  intros v x h v' h' m p H. unfold substitute in H. destruct (v_locked v); [injection H as <- <-; reflexivity|].
  destruct (v_target v) as [[prop os]|]; [|injection H as <- <-; reflexivity]. cbn [fst snd] in H.
  destruct (set_objs false v x h prop os) eqn:E; [|discriminate]. injection H as _ <-. apply csv_set_objs_plain in E. destruct E as [A B].
  unfold of_member. rewrite A, B. reflexivity.
Qed.
Print Assumptions C375_section_reached_refuted.

(** C375: substituting a cross-section variable sets the property of the section of every member of its target to the
    value times the scaling factor; no other property changes, and no section but those of these members. *)
Theorem C375_substitute : forall v x h p os, v_locked v = false -> v_target v = Some (AStr p, os) ->
  exists h', csv_substitute v x h = Some (with_value v x, h') /\
  (forall m, In m os -> of_member h' m p = x * v_scaling v) /\
  (forall m q, q <> p -> of_member h' m q = of_member h m q) /\
  (forall m q, (forall o, In o os -> h_sec h o <> h_sec h m) -> of_member h' m q = of_member h m q) /\
  h_sec h' = h_sec h /\ h_oattr h' = h_oattr h.
Proof.
  intros v x h p os L T. unfold csv_substitute. rewrite L, T. cbn [bind fst snd].
  destruct (csv_set_objs_sec v x p os h) as (h' & E & A & B & _ & F). rewrite E. exists h'. cbn [bind].
  split; [reflexivity|]. unfold of_member. rewrite A. split; [|split; [|split; [|split]]]; auto.
  - intros m I. rewrite F, String.eqb_refl, andb_true_r. rewrite (proj2 (csv_existsb _ _)); [reflexivity|]. apply in_map. exact I.
  - intros m q N. rewrite F. apply String.eqb_neq in N. rewrite N, andb_false_r. reflexivity.
  - intros m q N. rewrite F. destruct (existsb _ _) eqn:X; [|reflexivity]. apply csv_existsb in X. apply in_map_iff in X.
    destruct X as (o & K & I). exfalso. exact (N o I K).
Qed.
Print Assumptions C375_substitute.

(** C375: when members have sections of their own, other members see no change at all. *)
Theorem C375_others_untouched : forall v x h p os m q, v_locked v = false -> v_target v = Some (AStr p, os) ->
  (forall o, In o os -> own_section h o) -> ~ In m os ->
  exists h', csv_substitute v x h = Some (with_value v x, h') /\ of_member h' m q = of_member h m q.
Proof.
  intros v x h p os m q L T O N. destruct (C375_substitute v x h p os L T) as (h' & E & _ & _ & K & _). exists h'. split; [exact E|].
  apply K. intros o I S. apply N. rewrite (O o I m (eq_sym S)). exact I.
Qed.
Print Assumptions C375_others_untouched.

(** C375: a locked variable changes nothing. *)
Theorem C375_locked : forall v x h, v_locked v = true -> csv_substitute v x h = Some (v, h) /\ substitute v x h = Some (v, h).
Proof. intros v x h L. unfold csv_substitute, substitute. rewrite L. split; reflexivity. Qed.
Print Assumptions C375_locked.

(** C375: with a list of properties each member of the target gets the property's function of the scaled value, or the
    scaled value, and nothing else changes; sections never do. *)
Theorem C375_list_with_functions : forall v x h ps os f, v_locked v = false -> v_target v = Some (AList (map AStr ps), os) -> v_fun v = Some f ->
  exists h', csv_substitute v x h = Some (with_value v x, h') /\ substitute v x h = Some (with_value v x, h') /\
  (forall m q, In m os -> In q ps -> (forall g, fun_of q f = Some g -> h_oattr h' m q = g (x * v_scaling v)) /\
                                    (fun_of q f = None -> h_oattr h' m q = x * v_scaling v)) /\
  (forall m q, ~ In m os \/ ~ In q ps -> h_oattr h' m q = h_oattr h m q) /\ (forall m q, of_member h' m q = of_member h m q).
Proof.
  intros v x h ps os f L T F. destruct (csv_set_objs_list true v x ps os h) as (h' & E & A & B & D & K).
  destruct (csv_set_objs_list false v x ps os h) as (h2 & E2 & _).
  assert (EQ : forall os h, set_objs false v x h (AList (map AStr ps)) os = set_objs true v x h (AList (map AStr ps)) os).
  { induction os0 as [|o os0 IH]; intros h0; [reflexivity|]. cbn [set_objs]. destruct (set_list v x h0 o (map AStr ps)); cbn [bind]; auto. }
  exists h'. unfold csv_substitute, substitute. rewrite L, T. cbn [bind fst snd]. rewrite EQ, E. cbn [bind]. split; [reflexivity|]. split; [reflexivity|].
  split; [|split].
  - intros m q I J. rewrite K, F, (proj2 (csv_existsb m os) I), (proj2 (csv_existsb_s q ps) J). cbn [andb].
    split; [intros g ->; reflexivity|intros ->; reflexivity].
  - intros m q N. rewrite K. destruct (existsb (Nat.eqb m) os) eqn:X; [|reflexivity]. destruct (existsb (String.eqb q) ps) eqn:Y; [|reflexivity].
    apply csv_existsb in X. apply csv_existsb_s in Y. tauto.
  - intros m q. unfold of_member. rewrite A, B. reflexivity.
Qed.
Print Assumptions C375_list_with_functions.

(** C375, finding: with a list of properties and no functions the scaling factor is left out, though the bounds have
    been scaled: the members get the value itself. *)
Theorem C375_unscaled_list_refuted : forall v x h ps os, v_locked v = false -> v_target v = Some (AList (map AStr ps), os) -> v_fun v = None ->
  exists h', csv_substitute v x h = Some (with_value v x, h') /\ forall m q, In m os -> In q ps -> h_oattr h' m q = x.
Proof.
  intros v x h ps os L T F. destruct (csv_set_objs_list true v x ps os h) as (h' & E & A & B & D & K).
  exists h'. unfold csv_substitute. rewrite L, T. cbn [bind fst snd]. rewrite E. split; [reflexivity|].
  intros m q I J. rewrite K, F, (proj2 (csv_existsb m os) I), (proj2 (csv_existsb_s q ps) J). reflexivity.
Qed.
Print Assumptions C375_unscaled_list_refuted.

(** Two members that share a section, two profiles and two properties. *)
Definition ex_heap : heap := mkHp (fun _ => 0%nat) (fun _ _ => 1) (fun _ _ => 0) 1.
Definition ex_cat : list (string -> R) := [fun p => if String.eqb p "A" then 1000 else 5; fun p => if String.eqb p "A" then 2000 else 7].
Example C375_ex : sound ex_heap /\ ~ own_section ex_heap 0 /\ (1 < List.length ex_cat)%nat /\ make_props true [0%nat] ex_cat 1 ["A"; "Iy"] ex_heap = None /\
  exists vs h', make_props false [0%nat] ex_cat 1 ["A"; "Iy"] ex_heap = Some (vs, h') /\ own_section h' 0 /\ map v_value vs = [ANum 2000; ANum 7].
Proof.
  assert (S : sound ex_heap) by (intros m; cbn; lia). split; [exact S|]. split; [intros H; specialize (H 1%nat eq_refl); discriminate|].
  split; [cbn; lia|]. split; [eapply C375_continuous_change_refuted; [reflexivity|cbn; lra]|].
  destruct (C375_discrete_change [0%nat] ex_cat 1 ["A"; "Iy"] ex_heap ltac:(cbn; lia) S) as (vs & h' & E & _ & F & _ & O).
  exists vs, h'. split; [exact E|]. split; [apply O; left; split; [left; reflexivity|discriminate]|].
  inversion F as [|p1 v1 l1 r1 (s1 & N1 & V1 & _) F1]; subst. inversion F1 as [|p2 v2 l2 r2 (s2 & N2 & V2 & _) F2]; subst. inversion F2; subst.
  cbn in N1, N2. injection N1 as <-. injection N2 as <-. cbn [map]. rewrite V1, V2. reflexivity.
Qed.
