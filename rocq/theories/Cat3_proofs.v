From Coq Require Import String Ascii NArith ZArith List Bool DecimalString Sorted.
Require Import Reals Lra Lia Psatz.
From Verif Require Import Base EC3_model Bool_tac EC3_proofs Plate_proofs Sections_model Sections_proofs Sections9_proofs.
From Verif Require Import Cat_model Cat_spec Cat_proofs Cat2_proofs.
Import ListNotations.
Local Open Scope string_scope.
Local Open Scope R_scope.

(* tables *)
Definition id_eqb (x y : idims) : bool :=
  let '(a, b, c, d, e) := x in let '(a', b', c', d', e') := y in ((a =? a') && (b =? b') && (c =? c') && (d =? d') && (e =? e'))%Z%bool.
Lemma id_eqb_ok : forall x y, id_eqb x y = true <-> x = y.
Proof.
  intros [[[[a b] c] d] e] [[[[a' b'] c'] d'] e']. unfold id_eqb. rewrite !andb_true_iff, !Z.eqb_eq. split; [intros [[[[-> ->] ->] ->] ->]; reflexivity|].
  intro E. injection E as -> -> -> -> ->. tauto.
Qed.
Definition m_eqb (x y : Z * Z * Z) : bool := let '(a, b, c) := x in let '(a', b', c') := y in ((a =? a') && (b =? b') && (c =? c'))%Z%bool.
Lemma m_eqb_ok : forall x y, m_eqb x y = true <-> x = y.
Proof.
  intros [[a b] c] [[a' b'] c']. unfold m_eqb. rewrite !andb_true_iff, !Z.eqb_eq. split; [intros [[-> ->] ->]; reflexivity|].
  intro E. injection E as -> -> ->. tauto.
Qed.
Definition withinb {X} (eqb : X -> X -> bool) (d e : table X) : bool :=
  forallb (fun p => match look e (fst p) with Some y => eqb (snd p) y | None => false end) d.
Lemma withinb_ok : forall {X} (eqb : X -> X -> bool) d e, (forall x y, eqb x y = true <-> x = y) -> withinb eqb d e = true -> within d e.
Proof.
  intros X eqb d e He H k x Hi. unfold withinb in H. rewrite forallb_forall in H. specialize (H _ Hi). cbn [fst snd] in H.
  destruct (look e k) as [y|] eqn:E; [|discriminate H]. apply He in H. subst. now apply look_in.
Qed.
Definition agreeb {X} (eqb : X -> X -> bool) (d e : table X) : bool :=
  forallb (fun p => match look e (fst p) with Some y => eqb (snd p) y | None => true end) d.
Lemma agreeb_ok : forall {X} (eqb : X -> X -> bool) d e, (forall x y, eqb x y = true <-> x = y) -> once e -> agreeb eqb d e = true -> agree d e.
Proof.
  intros X eqb d e He Ho H k x y Hi Hj. unfold agreeb in H. rewrite forallb_forall in H. specialize (H _ Hi). cbn [fst snd] in H.
  rewrite (in_look _ _ _ Ho Hj) in H. now apply He.
Qed.
Lemma tables_lemma : within ipe_t profile_t /\ within hea_t profile_t /\ within heb_t profile_t /\ within h_t profile_t /\
  (forall k e, In (k, e) profile_t -> In (k, e) ipe_t \/ In (k, e) h_t) /\ within hea_t h_t /\ within heb_t h_t.
Proof.
  split; [apply (withinb_ok id_eqb _ _ id_eqb_ok); vm_compute; reflexivity|].
  split; [apply (withinb_ok id_eqb _ _ id_eqb_ok); vm_compute; reflexivity|].
  split; [apply (withinb_ok id_eqb _ _ id_eqb_ok); vm_compute; reflexivity|].
  split; [apply (withinb_ok id_eqb _ _ id_eqb_ok); vm_compute; reflexivity|].
  split; [|split; apply (withinb_ok id_eqb _ _ id_eqb_ok); vm_compute; reflexivity].
  assert (W : within profile_t (ipe_t ++ h_t)%list) by (apply (withinb_ok id_eqb _ _ id_eqb_ok); vm_compute; reflexivity).
  intros k e H. apply in_app_or, W, H.
Qed.
Lemma family_lists_lemma : forall n e, (In (long_name FIPE n, e) profile_t <-> In (long_name FIPE n, e) ipe_t) /\
  (In (long_name FHEA n, e) profile_t <-> In (long_name FHEA n, e) hea_t) /\ (In (long_name FHEB n, e) profile_t <-> In (long_name FHEB n, e) heb_t).
Proof.
  assert (C : forallb (fun p => match family_of (fst p) with
      | Some FIPE => existsb (fun q => String.eqb (fst p) (fst q) && id_eqb (snd p) (snd q)) ipe_t
      | Some FHEA => existsb (fun q => String.eqb (fst p) (fst q) && id_eqb (snd p) (snd q)) hea_t
      | Some FHEB => existsb (fun q => String.eqb (fst p) (fst q) && id_eqb (snd p) (snd q)) heb_t
      | _ => true end) profile_t = true) by (vm_compute; reflexivity).
  rewrite forallb_forall in C. destruct tables_lemma as (T1 & T2 & T3 & _).
  assert (X : forall k e d, existsb (fun q => String.eqb k (fst q) && id_eqb e (snd q)) d = true -> In (k, e) d).
  { intros k e d H. apply existsb_exists in H as ([k' e'] & Hi & H). apply andb_prop in H as [H1 H2]. apply String.eqb_eq in H1. apply id_eqb_ok in H2. simpl in *. now subst. }
  intros n e. repeat split; intro H; try (now apply T1); try (now apply T2); try (now apply T3);
    specialize (C _ H); cbn [fst snd] in C; rewrite family_long in C; now apply X.
Qed.
Lemma valid_table_lemma : forall k e, In (k, e) profile_t -> valid_Z e.
Proof.
  assert (C : forallb (fun p => let '(h, b, tw, tf, r) := snd p in ((0 <? tf) && (0 <? tw) && (0 <? r) && (2 * tf + 2 * r <? h) && (tw + 2 * r <? b))%Z%bool) profile_t = true) by (vm_compute; reflexivity).
  intros k [[[[h b] tw] tf] r] Hi. rewrite forallb_forall in C. specialize (C _ Hi). cbn [snd] in C. rewrite !andb_true_iff, !Z.ltb_lt in C. unfold valid_Z. tauto.
Qed.
Lemma tube_table_lemma : forall k h b t r, In (k, (h, b, t, r)) rhs_t \/ In (k, (h, b, t, r)) shs_t ->
  r = tube_radius t /\ (0 < t /\ 2 * r < 10 * h /\ 2 * r < 10 * b)%Z.
Proof.
  assert (C : forallb (fun p => let '(h, b, t, r) := snd p in ((r =? tube_radius t) && (0 <? t) && (2 * r <? 10 * h) && (2 * r <? 10 * b))%Z%bool) (rhs_t ++ shs_t)%list = true) by (vm_compute; reflexivity).
  intros k h b t r Hi. apply in_or_app in Hi. rewrite forallb_forall in C. specialize (C _ Hi). cbn [snd] in C. rewrite !andb_true_iff, !Z.ltb_lt, Z.eqb_eq in C. tauto.
Qed.
Lemma square_table_lemma : (forall k h b t r, In (k, (h, b, t, r)) shs_t -> h = b) /\ (forall k d t, In (k, (d, t)) chs_t -> (0 < t /\ 2 * t < d)%Z).
Proof.
  assert (C1 : forallb (fun p => let '(h, b, t, r) := snd p in (h =? b)%Z) shs_t = true) by (vm_compute; reflexivity).
  assert (C2 : forallb (fun p => let '(d, t) := snd p in ((0 <? t) && (2 * t <? d))%Z%bool) chs_t = true) by (vm_compute; reflexivity).
  rewrite forallb_forall in C1, C2. split; [intros k h b t r Hi; specialize (C1 _ Hi); now apply Z.eqb_eq in C1|].
  intros k d t Hi. specialize (C2 _ Hi). cbn [snd] in C2. now rewrite andb_true_iff, !Z.ltb_lt in C2.
Qed.
Lemma data_lemma : (forall k e, k <> "IPE 750" -> In (k, e) data_t <-> In (k, e) profile_t) /\
  (forall h b tw tf r, In ("IPE 750", (h, b, tw, tf, r)) profile_t -> forall e, In ("IPE 750", e) data_t <-> e = (1340%Z, h, b, tw, tf)).
Proof.
  assert (W1 : forallb (fun p => String.eqb (fst p) "IPE 750" || match look profile_t (fst p) with Some y => id_eqb (snd p) y | None => false end) data_t = true) by (vm_compute; reflexivity).
  assert (W2 : forallb (fun p => String.eqb (fst p) "IPE 750" || match look data_t (fst p) with Some y => id_eqb (snd p) y | None => false end) profile_t = true) by (vm_compute; reflexivity).
  rewrite forallb_forall in W1, W2. split.
  - intros k e Hk. apply String.eqb_neq in Hk. split; intro H; [specialize (W1 _ H)|specialize (W2 _ H)]; cbn [fst snd] in *; rewrite Hk in *; cbn [orb] in *.
    + destruct (look profile_t k) eqn:E; [|discriminate W1]. apply id_eqb_ok in W1. subst. now apply look_in.
    + destruct (look data_t k) eqn:E; [|discriminate W2]. apply id_eqb_ok in W2. subst. now apply look_in.
  - intros h b tw tf r Hp e. destruct once_lemma as (O1 & _ & _ & _ & _ & _ & _ & _ & _ & O2 & _).
    apply (in_look _ _ _ O1) in Hp. assert (D : look data_t "IPE 750" = Some (1340%Z, h, b, tw, tf)) by (vm_compute in Hp; injection Hp as <- <- <- <- <-; vm_compute; reflexivity).
    split; intro H; [|subst; now apply look_in]. apply (in_look _ _ _ O2) in H. rewrite D in H. now injection H as <-.
Qed.

Definition parse_short (k : string) : option (family * N) :=
  match k with
  | String "I" (String "P" (String "E" r)) => option_map (fun n => (FIPE, n)) (int_of r)
  | String "H" (String "E" (String "A" (String "A" r))) => option_map (fun n => (FHEAA, n)) (int_of r)
  | String "H" (String "E" (String "A" r)) => option_map (fun n => (FHEA, n)) (int_of r)
  | String "H" (String "E" (String "B" r)) => option_map (fun n => (FHEB, n)) (int_of r)
  | String "H" (String "E" (String "C" r)) => option_map (fun n => (FHEC, n)) (int_of r)
  | String "H" (String "E" (String "M" r)) => option_map (fun n => (FHEM, n)) (int_of r)
  | _ => None
  end.
Lemma parse_short_ok : forall f n, parse_short (short_name f n) = Some (f, n).
Proof.
  intros f n. destruct f; unfold short_name; simpl; try (now rewrite int_dec). pose proof (int_dec n) as Hn. destruct (dec_cons n) as (c & t & E & D). rewrite E in *.
  destruct c as [[] [] [] [] [] [] [] []]; try discriminate D; now rewrite Hn.
Qed.
Lemma isections_lemma : forall f n e, In (short_name f n, e) isections_t -> In (long_name f n, e) profile_t.
Proof.
  assert (C : forallb (fun p => match parse_short (fst p) with Some (f, n) => match look profile_t (long_name f n) with Some y => id_eqb (snd p) y | None => false end | None => false end) isections_t = true) by (vm_compute; reflexivity).
  intros f n e H. rewrite forallb_forall in C. specialize (C _ H). cbn [fst snd] in C. rewrite parse_short_ok in C.
  destruct (look profile_t (long_name f n)) eqn:E; [|discriminate]. apply id_eqb_ok in C. subst. now apply look_in.
Qed.
Lemma isections_names_lemma : forall k e, In (k, e) isections_t -> exists f n, k = short_name f n /\ f <> FHEAA /\ f <> FHEC.
Proof.
  assert (C : forallb (fun p => match parse_short (fst p) with Some (f, n) => String.eqb (fst p) (short_name f n) && match f with FHEAA | FHEC => false | _ => true end | None => false end) isections_t = true) by (vm_compute; reflexivity).
  intros k e H. rewrite forallb_forall in C. specialize (C _ H). cbn [fst snd] in C. destruct (parse_short k) as [[f n]|]; [|discriminate].
  apply andb_prop in C as [C1 C2]. apply String.eqb_eq in C1. exists f, n. split; [exact C1|]. destruct f; try discriminate; split; discriminate.
Qed.

(* order of the lists *)
Definition twice (d : idims) : Z * Z := let '(h, b, tw, tf, r) := d in ((2 * tf * b + (h - 2 * tf) * tw)%Z, (r * r)%Z).
Lemma entry_twice : forall d, entry_area d = (IZR (fst (twice d)) + (4 - PI) * IZR (snd (twice d))) / 100.
Proof.
  intros [[[[h b] tw] tf] r]. unfold entry_area, area_parts, twice, mm. cbn [fst snd]. rewrite !plus_IZR, !mult_IZR, minus_IZR, !mult_IZR. field.
Qed.
Fixpoint ordered (l : list idims) : bool :=
  match l with
  | x :: ((y :: _) as t) => let '(a, c) := twice x in let '(a', c') := twice y in ((a <? a') && (0 <? 10 * (a' - a) + 9 * (c' - c)))%Z%bool && ordered t
  | _ => true
  end.
Lemma ordered_ok : forall l, ordered l = true -> Sorted Rlt (map entry_area l).
Proof.
  induction l as [|x l IH]; intros H; [constructor|]. cbn [map]. destruct l as [|y l]; [repeat constructor|].
  change (ordered (x :: y :: l)) with (let '(a, c) := twice x in let '(a', c') := twice y in ((a <? a') && (0 <? 10 * (a' - a) + 9 * (c' - c)))%Z%bool && ordered (y :: l)) in H.
  pose proof (entry_twice x) as Ex. pose proof (entry_twice y) as Ey. destruct (twice x) as [a c], (twice y) as [a' c'].
  apply andb_prop in H as [H1 H2]. apply andb_prop in H1 as [H0 H1]. constructor; [now apply IH|]. cbn [map]. constructor.
  rewrite Ex, Ey. cbn [fst snd]. apply Z.ltb_lt, IZR_lt in H0. apply Z.ltb_lt, IZR_lt in H1. rewrite plus_IZR, !mult_IZR, !minus_IZR in H1. pose proof PI_bounds. nra.
Qed.
Lemma sorted_lists_lemma : StronglySorted Rlt (map (fun e => entry_area (snd e)) ipe_t) /\ StronglySorted Rlt (map (fun e => entry_area (snd e)) hea_t) /\
  StronglySorted Rlt (map (fun e => entry_area (snd e)) heb_t).
Proof.
  assert (T : Relations_1.Transitive Rlt) by (intros x y z; apply Rlt_trans).
  repeat split; apply Sorted_StronglySorted; try exact T; rewrite <- (map_map snd entry_area); apply ordered_ok; vm_compute; reflexivity.
Qed.

(* materials *)
Lemma materials_lemma : agree mat_t steels_t /\ agree mat_t f2d_t /\ agree mat_t msteel_t /\ agree steels_t f2d_t /\ agree steels_t msteel_t /\ agree f2d_t msteel_t.
Proof.
  destruct once_lemma as (_ & _ & _ & _ & _ & _ & _ & _ & _ & _ & O1 & O2 & O3 & O4).
  repeat split; apply (agreeb_ok m_eqb _ _ m_eqb_ok); try assumption; vm_compute; reflexivity.
Qed.
Lemma material_values_lemma : forall k fy fu E, In (k, (fy, fu, E)) mat_t \/ In (k, (fy, fu, E)) steels_t \/ In (k, (fy, fu, E)) f2d_t \/ In (k, (fy, fu, E)) msteel_t ->
  (0 < fy < fu /\ E = 210000 /\ (k <> "S700" -> k <> "S700MC" -> 11 * fy <= 10 * fu))%Z.
Proof.
  assert (C : forallb (fun p => let '(fy, fu, E) := snd p in ((0 <? fy) && (fy <? fu) && (E =? 210000))%Z%bool && (String.eqb (fst p) "S700" || String.eqb (fst p) "S700MC" || (11 * fy <=? 10 * fu)%Z)) (mat_t ++ steels_t ++ f2d_t ++ msteel_t)%list = true) by (vm_compute; reflexivity).
  intros k fy fu E H. rewrite forallb_forall in C.
  assert (Hi : In (k, (fy, fu, E)) (mat_t ++ steels_t ++ f2d_t ++ msteel_t)%list) by (rewrite !in_app_iff; tauto).
  specialize (C _ Hi). cbn [fst snd] in C. rewrite !andb_true_iff, !orb_true_iff, !Z.ltb_lt, Z.eqb_eq, Z.leb_le, !String.eqb_eq in C.
  destruct C as [[[C1 C2] C3] C4]. repeat split; try assumption. intros K1 K2. destruct C4 as [[C4|C4]|C4]; try congruence; assumption.
Qed.
Lemma ductility_refuted_lemma : exists fy fu E, In ("S700MC", (fy, fu, E)) mat_t /\ In ("S700MC", (fy, fu, E)) f2d_t /\ (10 * fu < 11 * fy)%Z.
Proof.
  destruct (look mat_t "S700MC") as [[[fy fu] E]|] eqn:H; [|vm_compute in H; discriminate H].
  exists fy, fu, E. split; [now apply look_in|]. assert (H' : look f2d_t "S700MC" = Some (fy, fu, E)) by (vm_compute in H |- *; exact H). split; [now apply look_in|].
  vm_compute in H. injection H as <- <- <-. lia.
Qed.
Lemma stainless_lemma : forall k fy fu E, In (k, (fy, fu, E)) stainless_t <-> E = 200000%Z /\ In (k, (fy, fu, 200%Z)) mstainless_t.
Proof.
  intros k fy fu E. unfold stainless_t, mstainless_t. simpl. split.
  - intro H. repeat (destruct H as [H|H]; [injection H as <- <- <- <-; tauto|]). destruct H.
  - intros [-> H]. repeat (destruct H as [H|H]; [injection H as <- <- <-; tauto|]). destruct H.
Qed.

(* formulas of section properties *)
Lemma same_lemma : forall h b tf tw r,
  f_area h b tf tw r = I_area b h tf tw r /\ f_Avz h b tf tw r = I_shear b h tf tw r /\ f_Iy h b tf tw r = I_Iy b h tf tw r /\ f_Iz h b tf tw r = I_Iz b h tf tw r /\
  f_Iw h b tf tw r = I_Iw b h tf /\ f_Wply h b tf tw r = I_Wply b h tf tw r /\ f_Wplz h b tf tw r = I_Wplz b h tf tw r /\
  f_Wely h b tf tw r = I_Wely b h tf tw r /\ f_Welz h b tf tw r = I_Welz b h tf tw r.
Proof. intros. unfold f_Avz, I_shear, f_Wely, I_Wely, f_Welz, I_Welz. repeat split; reflexivity. Qed.
Lemma same_It_lemma : forall h b tf tw r, 0 < tf -> 0 <= r -> f_It h b tf tw r = I_It b h tf tw r.
Proof. intros h b tf tw r H1 H2. unfold f_It, I_It. field. repeat split; lra. Qed.
Lemma area_perimeter_lemma : forall h b tf tw r, f_area h b tf tw r = area_parts h b tf tw r /\ f_perimeter h b tf tw r = boundary h b tf tw r /\
  I_paint b h tf tw r = boundary h b tf tw r - 2 * tw.
Proof. intros. unfold f_area, area_parts, f_perimeter, boundary, I_paint. repeat split; field. Qed.
Lemma units_lemma : forall s h b tf tw r, 0 < s -> 0 < h -> 0 < b -> 0 < tf -> 0 <= r ->
  f_area (s*h) (s*b) (s*tf) (s*tw) (s*r) = s^2 * f_area h b tf tw r /\ f_Avz (s*h) (s*b) (s*tf) (s*tw) (s*r) = s^2 * f_Avz h b tf tw r /\
  f_Avy (s*h) (s*b) (s*tf) (s*tw) (s*r) = s^2 * f_Avy h b tf tw r /\
  f_perimeter (s*h) (s*b) (s*tf) (s*tw) (s*r) = s * f_perimeter h b tf tw r /\ f_Iy (s*h) (s*b) (s*tf) (s*tw) (s*r) = s^4 * f_Iy h b tf tw r /\
  f_Iz (s*h) (s*b) (s*tf) (s*tw) (s*r) = s^4 * f_Iz h b tf tw r /\ f_It (s*h) (s*b) (s*tf) (s*tw) (s*r) = s^4 * f_It h b tf tw r /\
  f_Iw (s*h) (s*b) (s*tf) (s*tw) (s*r) = s^6 * f_Iw h b tf tw r /\ f_Wply (s*h) (s*b) (s*tf) (s*tw) (s*r) = s^3 * f_Wply h b tf tw r /\
  f_Wplz (s*h) (s*b) (s*tf) (s*tw) (s*r) = s^3 * f_Wplz h b tf tw r /\ f_Wely (s*h) (s*b) (s*tf) (s*tw) (s*r) = s^3 * f_Wely h b tf tw r /\
  f_Welz (s*h) (s*b) (s*tf) (s*tw) (s*r) = s^3 * f_Welz h b tf tw r.
Proof.
  intros s h b tf tw r Hs Hh Hb Ht Hr. unfold f_area, f_Avz, f_Avy, f_area, f_perimeter, f_Iy, f_Iz, f_It, f_Iw, f_Wply, f_Wplz, f_Wely, f_Welz, f_Iy, f_Iz.
  repeat split; try ring; field; repeat split; nra.
Qed.
Lemma wy_lemma : forall h b tf tw r, valid_I h b tf tw r -> 0 < f_Wely h b tf tw r < f_Wply h b tf tw r.
Proof.
  intros h b tf tw r (H1 & H2 & H3 & H4 & H5). pose proof PI_bounds as P. unfold f_Wely, f_Iy, f_Wply.
  set (c := h - 2 * tf). assert (Hc : 2 * r < c) by (unfold c; lra). assert (Hch : c < h) by (unfold c; lra).
  set (q := b - tw). assert (Hq : 0 < q) by (unfold q; lra). replace b with (q + tw) by (unfold q; ring).
  replace (h - tf) with ((h + c) / 2) by (unfold c; field). replace tf with ((h - c) / 2) by (unfold c; field). clearbody c q.
  assert (F : 0 < r ^ 2) by nra.
  assert (Q : c ^ 3 < h ^ 3) by (assert (0 < (h - c) * (h * h + h * c + c * c)) by (apply Rmult_lt_0_compat; nra); lra).
  split.
  - apply Rdiv_lt_0_compat; [|lra]. assert (0 <= r ^ 4) by nra. assert (0 <= r ^ 2 * (c - 4468 / 10000 * r) ^ 2) by (apply Rmult_le_pos; [lra|apply pow2_ge_0]).
    assert (q * c ^ 3 < q * h ^ 3) by (apply Rmult_lt_compat_l; lra). assert (0 < tw * h ^ 3) by (apply Rmult_lt_0_compat; [lra|apply pow_lt; lra]). lra.
  - apply Rmult_lt_reg_r with (1 / 2 * h); [lra|]. unfold Rdiv at 1. rewrite Rmult_assoc, Rinv_l, Rmult_1_r by lra.
    assert (A1 : q * (h ^ 3 / 24 + c ^ 3 / 12 - c ^ 2 * h / 8) > 0).
    { apply Rmult_lt_0_compat; [exact Hq|]. replace (h ^ 3 / 24 + c ^ 3 / 12 - c ^ 2 * h / 8) with ((h - c) ^ 2 * (h + 2 * c) / 24) by field.
      assert (0 < (h - c) ^ 2) by (apply pow_lt; lra). nra. }
    assert (A2 : 0 < tw * h ^ 3) by (apply Rmult_lt_0_compat; [lra|apply pow_lt; lra]).
    set (W := (4 - PI) / 2 * r ^ 2 * c + (3 * PI - 10) / 3 * r ^ 3).
    assert (A3 : 4292/10000 * r ^ 2 * c - 192/1000 * r ^ 3 <= W).
    { unfold W. assert (0 <= r ^ 2 * c) by (apply Rmult_le_pos; lra). assert (0 <= r ^ 3) by (apply pow_le; lra). nra. }
    assert (A4 : 0 <= 4292/10000 * r ^ 2 * c - 192/1000 * r ^ 3).
    { replace (4292/10000 * r ^ 2 * c - 192/1000 * r ^ 3) with (r ^ 2 * (4292/10000 * c - 192/1000 * r)) by ring. apply Rmult_le_pos; lra. }
    assert (A5 : 3/100 * r ^ 4 + 2146/10000 * r ^ 2 * (c - 4468/10000 * r) ^ 2 <= W * (1/2 * h)).
    { apply Rle_trans with ((4292/10000 * r ^ 2 * c - 192/1000 * r ^ 3) * (1/2 * c)); [|nra].
      replace (3/100 * r ^ 4 + 2146/10000 * r ^ 2 * (c - 4468/10000 * r) ^ 2) with (r ^ 2 * (3/100 * r ^ 2 + 2146/10000 * (c - 4468/10000 * r) ^ 2)) by ring.
      replace ((4292/10000 * r ^ 2 * c - 192/1000 * r ^ 3) * (1/2 * c)) with (r ^ 2 * ((4292/10000 * c - 192/1000 * r) * (1/2 * c))) by ring.
      apply Rmult_le_compat_l; [lra|]. nra. }
    replace ((tw * h ^ 2 / 4 + q * ((h + c) / 2) * ((h - c) / 2) + (4 - PI) / 2 * r ^ 2 * c + (3 * PI - 10) / 3 * r ^ 3)) with
      (tw * h ^ 2 / 4 + q * (h ^ 2 - c ^ 2) / 4 + W) by (unfold W; field). clearbody W. nra.
Qed.
Lemma wz_lemma : forall h b tf tw r, valid_I h b tf tw r -> 0 < f_Welz h b tf tw r < f_Wplz h b tf tw r.
Proof.
  intros h b tf tw r (H1 & H2 & H3 & H4 & H5). pose proof PI_bounds as P. unfold f_Welz, f_Iz, f_Wplz.
  set (c := h - 2 * tf). assert (Hc : 2 * r < c) by (unfold c; lra). clearbody c.
  assert (B : 0 < b) by lra. assert (F : 0 < r ^ 2) by nra. assert (B3 : 0 < b ^ 3) by (apply pow_lt; lra). assert (T3 : 0 < tw ^ 3) by (apply pow_lt; lra).
  split.
  - apply Rdiv_lt_0_compat; [|lra]. assert (0 <= r ^ 4) by nra. assert (0 <= r ^ 2 * (tw + 4468 / 10000 * r) ^ 2) by (apply Rmult_le_pos; [lra|apply pow2_ge_0]).
    assert (0 < tf * b ^ 3) by nra. assert (0 < c * tw ^ 3) by nra. nra.
  - apply Rmult_lt_reg_r with (1 / 2 * b); [lra|]. unfold Rdiv at 1. rewrite Rmult_assoc, Rinv_l, Rmult_1_r by lra.
    assert (A1 : 0 < tf * b ^ 3) by nra.
    assert (A2 : c * tw ^ 3 <= c * (tw ^ 2 * b)) by (apply Rmult_le_compat_l; [lra|]; assert (0 < tw ^ 2) by nra; nra).
    assert (A0 : 0 < c * (tw ^ 2 * b)) by (apply Rmult_lt_0_compat; [lra|]; assert (0 < tw ^ 2) by nra; nra).
    set (W := r ^ 3 * (10 / 3 - PI) + (2 - PI / 2) * tw * r ^ 2).
    assert (A3 : r ^ 2 * (1917/10000 * r + 4292/10000 * tw) <= W).
    { unfold W. replace (r ^ 3 * (10 / 3 - PI) + (2 - PI / 2) * tw * r ^ 2) with (r ^ 2 * ((10 / 3 - PI) * r + (2 - PI / 2) * tw)) by ring.
      apply Rmult_le_compat_l; [lra|]. nra. }
    assert (A5 : 3/100 * r ^ 4 + 2146/10000 * r ^ 2 * (tw + 4468/10000 * r) ^ 2 <= W * (1/2 * b)).
    { apply Rle_trans with (r ^ 2 * (1917/10000 * r + 4292/10000 * tw) * (1/2 * (tw + 2 * r))).
      - replace (3/100 * r ^ 4 + 2146/10000 * r ^ 2 * (tw + 4468/10000 * r) ^ 2) with (r ^ 2 * (3/100 * r ^ 2 + 2146/10000 * (tw + 4468/10000 * r) ^ 2)) by ring.
        rewrite Rmult_assoc. apply Rmult_le_compat_l; [lra|]. nra.
      - assert (0 < r ^ 2 * (1917 / 10000 * r + 4292 / 10000 * tw)) by (apply Rmult_lt_0_compat; lra). nra. }
    replace (b ^ 2 * tf / 2 + c / 4 * tw ^ 2 + r ^ 3 * (10 / 3 - PI) + (2 - PI / 2) * tw * r ^ 2) with (b ^ 2 * tf / 2 + c / 4 * tw ^ 2 + W) by (unfold W; ring).
    clearbody W. nra.
Qed.
Lemma shear_bounds_lemma : forall h b tf tw r, valid_I h b tf tw r -> (h - 2 * tf) * tw < f_Avz h b tf tw r < f_area h b tf tw r /\ f_Avy h b tf tw r < f_area h b tf tw r.
Proof.
  intros h b tf tw r (H1 & H2 & H3 & H4 & H5). pose proof PI_bounds as P. unfold f_Avz, f_Avy, f_area.
  assert (0 < (4 - PI) * r ^ 2) by (apply Rmult_lt_0_compat; nra). assert (0 < (h - 2 * tf) * tw) by nra. assert (0 < (tw + 2 * r) * tf) by nra.
  assert ((tw + 2 * r) * tf < b * tf) by nra. assert (0 < b * tf) by nra. repeat split; lra.
Qed.
Lemma gyration_lemma : forall h b tf tw r, valid_I h b tf tw r -> 0 < f_iy h b tf tw r < h / 2 /\ 0 < f_iz h b tf tw r < b / 2.
Proof.
  intros h b tf tw r V. pose proof V as (H1 & H2 & H3 & H4 & H5). pose proof PI_bounds as P. destruct (wy_lemma _ _ _ _ _ V) as [Y1 Y2]. destruct (wz_lemma _ _ _ _ _ V) as [Z1 Z2].
  assert (A : 0 < f_area h b tf tw r) by (destruct (shear_bounds_lemma _ _ _ _ _ V) as [[S1 S2] _]; assert (0 < (h - 2 * tf) * tw) by nra; lra).
  assert (PY : f_Wply h b tf tw r <= f_area h b tf tw r * (h / 2)).
  { unfold f_Wply, f_area. set (c := h - 2 * tf). assert (Hc : 2 * r < c) by (unfold c; lra). replace h with (c + 2 * tf) by (unfold c; ring). clearbody c. clear Y1 Y2 Z1 Z2 A V.
    assert (0 < r ^ 2) by nra. assert (0 < r ^ 3) by (apply pow_lt; lra). assert (0 < r ^ 2 * c) by (apply Rmult_lt_0_compat; lra). assert (0 < r ^ 2 * tf) by (apply Rmult_lt_0_compat; lra).
    assert ((3 * PI - 10) / 3 * r ^ 3 <= 0) by nra.
    assert ((4 - PI) / 2 * r ^ 2 * (c + 2 * tf - 2 * tf) <= (4 - PI) * r ^ 2 * ((c + 2 * tf) / 2)) by nra.
    assert (tw * (c + 2 * tf) ^ 2 / 4 + (b - tw) * (c + 2 * tf - tf) * tf <= (2 * tf * b + c * tw) * ((c + 2 * tf) / 2)).
    { assert (0 < tf * tf) by nra. assert (0 < c * tw) by nra. assert (0 < (b - tw) * (tf * tf)) by (apply Rmult_lt_0_compat; lra). assert (0 < tw * (tf * tf)) by (apply Rmult_lt_0_compat; lra). assert (0 < c * tw * c) by nra. assert (0 < c * tw * tf) by nra. assert (0 < b * (tf * tf)) by nra. nra. }
    replace (c + 2 * tf - 2 * tf) with c in * by ring. lra. }
  assert (PZ : f_Wplz h b tf tw r <= f_area h b tf tw r * (b / 2)).
  { unfold f_Wplz, f_area. set (c := h - 2 * tf). assert (Hc : 2 * r < c) by (unfold c; lra). clearbody c. clear Y1 Y2 Z1 Z2 A V.
    assert (0 < r ^ 2) by nra.
    assert (r ^ 3 * (10 / 3 - PI) + (2 - PI / 2) * tw * r ^ 2 <= (4 - PI) * r ^ 2 * (b / 2)).
    { replace (r ^ 3 * (10 / 3 - PI) + (2 - PI / 2) * tw * r ^ 2) with (r ^ 2 * (r * (10 / 3 - PI) + (2 - PI / 2) * tw)) by ring.
      replace ((4 - PI) * r ^ 2 * (b / 2)) with (r ^ 2 * ((4 - PI) * (b / 2))) by ring. apply Rmult_le_compat_l; [lra|]. nra. }
    assert (c / 4 * tw ^ 2 <= c * tw * (b / 2)) by (assert (0 < c * tw) by nra; nra).
    assert (0 < b ^ 2 * tf) by (apply Rmult_lt_0_compat; nra). nra. }
  assert (IY : f_Iy h b tf tw r = f_Wely h b tf tw r * (1 / 2 * h)) by (unfold f_Wely; field; lra).
  assert (IZ : f_Iz h b tf tw r = f_Welz h b tf tw r * (1 / 2 * b)) by (unfold f_Welz; field; lra).
  unfold f_iy, f_iz. split; (split; [apply sqrt_lt_R0, Rdiv_lt_0_compat; [|exact A]|]).
  - rewrite IY. apply Rmult_lt_0_compat; lra.
  - rewrite <- (sqrt_pow2 (h / 2)) by lra. apply sqrt_lt_1_alt. split; [apply Rlt_le, Rdiv_lt_0_compat; [rewrite IY; apply Rmult_lt_0_compat; lra|exact A]|].
    apply Rmult_lt_reg_r with (f_area h b tf tw r); [exact A|]. unfold Rdiv at 1. rewrite Rmult_assoc, Rinv_l, Rmult_1_r by lra. rewrite IY. nra.
  - rewrite IZ. apply Rmult_lt_0_compat; lra.
  - rewrite <- (sqrt_pow2 (b / 2)) by lra. apply sqrt_lt_1_alt. split; [apply Rlt_le, Rdiv_lt_0_compat; [rewrite IZ; apply Rmult_lt_0_compat; lra|exact A]|].
    apply Rmult_lt_reg_r with (f_area h b tf tw r); [exact A|]. unfold Rdiv at 1. rewrite Rmult_assoc, Rinv_l, Rmult_1_r by lra. rewrite IZ. nra.
Qed.
