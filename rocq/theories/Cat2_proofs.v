From Coq Require Import String Ascii NArith ZArith List Bool DecimalString Sorted.
Require Import Reals Lra Lia Psatz.
From Verif Require Import Base EC3_model Bool_tac EC3_proofs Plate_proofs Sections_model Sections_proofs Sections9_proofs.
From Verif Require Import Cat_model Cat_spec Cat_proofs.
Import ListNotations.
Local Open Scope string_scope.
Local Open Scope R_scope.

Ltac cmph := repeat match goal with
  | H : context [Rleb ?a ?b] |- _ => let E := fresh "C" in destruct (Rleb a b) eqn:E; [apply Rleb_true in E | apply Rleb_false in E]; cbv beta iota zeta in H
  end.
(* the formulas of the families *)
Lemma formula_valid_lemma : forall f H tf tw b r, 40 <= H <= 10000 -> formula f H = (tf, tw, b, r) -> valid_I H b tf tw r.
Proof.
  intros f H tf tw b r [H1 H2] E. unfold valid_I. destruct f; cbv beta iota zeta delta [formula] in E; cmph; injection E as <- <- <- <-; repeat split; lra.
Qed.
Lemma formula_mono_lemma : forall f H1 H2 tf1 tw1 b1 r1 tf2 tw2 b2 r2, H1 <= H2 -> formula f H1 = (tf1, tw1, b1, r1) -> formula f H2 = (tf2, tw2, b2, r2) ->
  tf1 <= tf2 /\ tw1 <= tw2 /\ r1 <= r2 /\ (f <> FHEM -> b1 <= b2).
Proof.
  intros f H1 H2 tf1 tw1 b1 r1 tf2 tw2 b2 r2 L E1 E2.
  destruct f; cbv beta iota zeta delta [formula] in E1, E2; cmph; injection E1 as <- <- <- <-; injection E2 as <- <- <- <-; (repeat split; [lra|lra|lra|]); intro K; try (now elim K); lra.
Qed.
Lemma hem_width_lemma : forall H tf tw b r tf' tw' b' r', 340 < H -> formula FHEM 340 = (tf, tw, b, r) -> formula FHEM H = (tf', tw', b', r') -> b' < b - 6 /\ tf < tf' /\ tw < tw'.
Proof.
  intros H tf tw b r tf' tw' b' r' L E1 E2. cbv beta iota zeta delta [formula] in E1, E2; cmph; injection E1 as <- <- <- <-; injection E2 as <- <- <- <-; lra.
Qed.
Lemma area_step : forall h1 b1 tf1 tw1 r1 h2 b2 tf2 tw2 r2, valid_I h1 b1 tf1 tw1 r1 -> tf1 <= tf2 -> tw1 <= tw2 -> r1 <= r2 -> b1 <= b2 -> h1 - 2 * tf1 < h2 - 2 * tf2 ->
  area_parts h1 b1 tf1 tw1 r1 < area_parts h2 b2 tf2 tw2 r2.
Proof.
  intros h1 b1 tf1 tw1 r1 h2 b2 tf2 tw2 r2 (A1 & A2 & A3 & A4 & A5) L1 L2 L3 L4 L5. unfold area_parts. pose proof PI_bounds as P.
  assert (0 < b1) by lra. assert (0 < h1 - 2 * tf1) by lra.
  assert (b1 * tf1 <= b2 * tf2) by nra.
  assert (tw1 * (h1 - 2 * tf1) < tw2 * (h2 - 2 * tf2)) by nra.
  assert (r1 * r1 <= r2 * r2) by nra.
  assert (r1 * r1 * (4 - PI) <= r2 * r2 * (4 - PI)) by nra. lra.
Qed.
Lemma area_formula_lemma : forall f H1 H2 tf1 tw1 b1 r1 tf2 tw2 b2 r2, 40 <= H1 -> H1 < H2 -> H2 <= 10000 -> formula f H1 = (tf1, tw1, b1, r1) -> formula f H2 = (tf2, tw2, b2, r2) ->
  area_parts H1 b1 tf1 tw1 r1 < area_parts H2 b2 tf2 tw2 r2.
Proof.
  intros f H1 H2 tf1 tw1 b1 r1 tf2 tw2 b2 r2 L0 L1 L2 E1 E2.
  pose proof (formula_valid_lemma f H1 _ _ _ _ (conj L0 (Rlt_le _ _ (Rlt_le_trans _ _ _ L1 L2))) E1) as V.
  destruct (formula_mono_lemma f H1 H2 _ _ _ _ _ _ _ _ (Rlt_le _ _ L1) E1 E2) as (M1 & M2 & M3 & M4).
  assert (D : f = FHEM \/ f <> FHEM) by (destruct f; (left; reflexivity) || (right; discriminate)).
  destruct D as [D|D].
  - subst f. cbv beta iota zeta delta [formula] in E1, E2. pose proof PI_bounds as P. cmph; injection E1 as <- <- <- <-; injection E2 as <- <- <- <-.
    all: try (exfalso; lra).
    all: try (apply area_step; try assumption; lra).
    all: unfold area_parts; try lra.
    all: set (c := 4 - PI); assert (0 < c < 1) by (unfold c; lra);
      replace (PI) with (4 - c) by (unfold c; ring); clearbody c; clear P V M1 M2 M3 M4;
      set (r1 := 732 / 10000 * H1 + 15707 / 10000); assert (0 < r1 <= 27) by (unfold r1; lra); clearbody r1;
      assert (r1 * r1 <= 729) by nra; assert (c * (r1 * r1) <= c * 729) by nra; nra.
  - apply area_step; try assumption; [now apply M4|].
    destruct f; cbv beta iota zeta delta [formula] in E1, E2; cmph; injection E1 as <- <- <- <-; injection E2 as <- <- <- <-; try lra. now elim D.
Qed.

(* families of names *)
Definition family_of (k : string) : option family :=
  match words (String.length k) k with
  | [a; _] => if String.eqb a "IPE" then Some FIPE else None
  | [a; _; l] => if String.eqb a "HE" then
      (if String.eqb l "A" then Some FHEA else if String.eqb l "AA" then Some FHEAA else if String.eqb l "B" then Some FHEB
       else if String.eqb l "C" then Some FHEC else if String.eqb l "M" then Some FHEM else None) else None
  | _ => None
  end.
Lemma long_app : forall f n, long_name f n = match f with
  | FIPE => "IPE" ++ " " ++ dec n | FHEA => "HE" ++ " " ++ dec n ++ " " ++ "A" | FHEAA => "HE" ++ " " ++ dec n ++ " " ++ "AA"
  | FHEB => "HE" ++ " " ++ dec n ++ " " ++ "B" | FHEC => "HE" ++ " " ++ dec n ++ " " ++ "C" | FHEM => "HE" ++ " " ++ dec n ++ " " ++ "M" end.
Proof. now intros []. Qed.
Lemma family_long : forall f n, family_of (long_name f n) = Some f.
Proof.
  intros f n. rewrite long_app. unfold family_of. destruct f;
    (rewrite words_three || rewrite words_two); try reflexivity; try apply blank1; try apply dec_word; apply lit_word; try reflexivity; discriminate.
Qed.
Definition number_of (k : string) : option N := match words (String.length k) k with _ :: d :: _ => int_of d | _ => None end.
Lemma number_long : forall f n, number_of (long_name f n) = Some n.
Proof.
  intros f n. rewrite long_app. unfold number_of. destruct f;
    (rewrite words_three || rewrite words_two); try apply int_dec; try apply blank1; try apply dec_word; apply lit_word; try reflexivity; discriminate.
Qed.

(* look-up *)
Lemma look_in : forall {X} (d : table X) k x, look d k = Some x -> In (k, x) d.
Proof.
  induction d as [|[n y] d IH]; intros k x H; [discriminate H|]. simpl in H. destruct (String.eqb n k) eqn:E.
  - apply String.eqb_eq in E. injection H as ->. subst. now left.
  - right. now apply IH.
Qed.
Lemma in_look : forall {X} (d : table X) k x, once d -> In (k, x) d -> look d k = Some x.
Proof.
  induction d as [|[n y] d IH]; intros k x Hd H; [destruct H|]. inversion Hd as [|a l Hn Hl]; subst. simpl. destruct H as [H|H].
  - injection H as -> ->. now rewrite String.eqb_refl.
  - destruct (String.eqb n k) eqn:E; [|now apply IH]. apply String.eqb_eq in E. subst. elim Hn. apply in_map_iff. exists (k, x). now split.
Qed.
Fixpoint nodupb (l : list string) : bool := match l with [] => true | a :: l => negb (existsb (String.eqb a) l) && nodupb l end.
Lemma nodupb_ok : forall l, nodupb l = true -> NoDup l.
Proof.
  induction l as [|a l IH]; intros H; constructor; simpl in H; apply andb_prop in H as [H1 H2]; [|now apply IH].
  intro K. apply negb_true_iff in H1. assert (existsb (String.eqb a) l = true) by (apply existsb_exists; exists a; split; [exact K|apply String.eqb_refl]). congruence.
Qed.
Lemma once_lemma : once profile_t /\ once ipe_t /\ once hea_t /\ once heb_t /\ once h_t /\ once rhs_t /\ once shs_t /\ once chs_t /\ once isections_t /\ once data_t /\
  once mat_t /\ once steels_t /\ once f2d_t /\ once msteel_t.
Proof. unfold once. repeat split; apply nodupb_ok; vm_compute; reflexivity. Qed.

(* accuracy *)
Definition zform (f : family) (h : Z) : Z * Z * Z * Z :=
  (let lin k0 k1 k2 k3 k4 k5 k6 k7 := (k0 * h + 10 * k1, k2 * h + 10 * k3, k4 * h + 10 * k5, k6 * h + 10 * k7) in
  let wide (x : Z * Z * Z * Z) h1 h2 := let '(tf, tw, b, r) := x in if h <=? 10 * h1 then x else (tf, tw, 30000000, if h <=? 10 * h2 then 2700000 else 3000000) in
  match f with
  | FIPE => lin 256 32831 155 24921 3486 301780 155 24921
  | FHEA => wide (lin 294 57651 140 42949 10323 25368 781 29206) 270 690
  | FHEAA => wide (lin 179 49342 144 32122 10403 62902 786 32210) 264 670
  | FHEB => wide (lin 308 95736 147 62014 10000 0 755 27636) 280 700
  | FHEC => lin 669 67987 317 54267 9256 55930 747 20905
  | FHEM => if h <=? 3400 then lin 824 85346 392 68259 9344 (-28966) 732 15707
            else (4000000, 2100000, - 112 * h + 31241000, if h <=? 7160 then 2700000 else 3000000)
  end)%Z.
Lemma zform_ok : forall f h, formula f (mm h) = let '(a, b, c, d) := zform f h in (IZR a / 100000, IZR b / 100000, IZR c / 100000, IZR d / 100000).
Proof.
  intros f h. unfold mm.
  assert (L : forall k, Rleb (IZR h / 10) (IZR k) = (h <=? 10 * k)%Z).
  { intro k. destruct (Z.leb_spec h (10 * k)) as [H|H].
    - apply Rleb_true. apply IZR_le in H. rewrite mult_IZR in H. lra.
    - apply Rleb_false. apply IZR_lt in H. rewrite mult_IZR in H. lra. }
  destruct f; cbv beta iota zeta delta [formula zform];
    rewrite ?(L 270%Z), ?(L 690%Z), ?(L 264%Z), ?(L 670%Z), ?(L 280%Z), ?(L 700%Z), ?(L 340%Z), ?(L 716%Z);
    change (10 * 270)%Z with 2700%Z; change (10 * 690)%Z with 6900%Z; change (10 * 264)%Z with 2640%Z; change (10 * 670)%Z with 6700%Z;
    change (10 * 280)%Z with 2800%Z; change (10 * 700)%Z with 7000%Z; change (10 * 340)%Z with 3400%Z; change (10 * 716)%Z with 7160%Z;
    repeat match goal with |- context [if ?x then _ else _] => destruct x end; cbv beta iota zeta;
    repeat (apply f_equal2); rewrite ?plus_IZR, ?mult_IZR; rewrite ?opp_IZR; try lra; field.
Qed.
Definition closeZ (p a t : Z) : bool := (Z.abs (a - 10000 * t) * 100 <=? p * (10000 * t))%Z.
Lemma closeZ_ok : forall p a t, closeZ p a t = true -> close (IZR p / 100) (IZR a / 100000) (mm t).
Proof.
  intros p a t H. apply Z.leb_le in H. apply IZR_le in H. rewrite !mult_IZR, abs_IZR, minus_IZR, !mult_IZR in H. unfold close, mm.
  replace (IZR a / 100000 - IZR t / 10) with ((IZR a - 10000 * IZR t) * / 100000) by lra. rewrite Rabs_mult, (Rabs_right (/ 100000)) by lra. lra.
Qed.
Definition close_entry (e : string * idims) : bool :=
  match family_of (fst e) with
  | None => false
  | Some f => let '(h, b, tw, tf, r) := snd e in let '(a1, a2, a3, a4) := zform f h in let '(p1, p2, p3, p4) := tolerance f in
              closeZ p1 a1 tf && closeZ p2 a2 tw && closeZ p3 a3 b && closeZ p4 a4 r
  end.
Lemma accuracy_lemma : forall f n h b tw tf r tf' tw' b' r' p1 p2 p3 p4, In (long_name f n, (h, b, tw, tf, r)) profile_t -> formula f (mm h) = (tf', tw', b', r') ->
  tolerance f = (p1, p2, p3, p4) ->
  close (IZR p1 / 100) tf' (mm tf) /\ close (IZR p2 / 100) tw' (mm tw) /\ close (IZR p3 / 100) b' (mm b) /\ close (IZR p4 / 100) r' (mm r).
Proof.
  assert (C : forallb close_entry profile_t = true) by (vm_compute; reflexivity).
  intros f n h b tw tf r tf' tw' b' r' p1 p2 p3 p4 Hi Hf Hp. rewrite forallb_forall in C. specialize (C _ Hi). unfold close_entry in C.
  cbn [fst snd] in C. rewrite family_long in C. rewrite zform_ok in Hf. destruct (zform f h) as [[[a1 a2] a3] a4]. rewrite Hp in C.
  injection Hf as <- <- <- <-. repeat (apply andb_prop in C as [C ?]). repeat split; now apply closeZ_ok.
Qed.
Lemma ipe_radius_lemma : forall n h b tw tf r tf' tw' b' r', In (long_name FIPE n, (h, b, tw, tf, r)) profile_t -> formula FIPE (mm h) = (tf', tw', b', r') ->
  r' = tw' /\ r' < mm r * (84/100).
Proof.
  assert (C : forallb (fun e => match family_of (fst e) with Some FIPE => let '(h, b, tw, tf, r) := snd e in let '(_, _, _, a) := zform FIPE h in (100 * a <? 84 * (10000 * r))%Z | _ => true end) profile_t = true) by (vm_compute; reflexivity).
  intros n h b tw tf r tf' tw' b' r' Hi Hf. rewrite forallb_forall in C. specialize (C _ Hi). cbn [fst snd] in C. rewrite family_long in C.
  assert (K : let '(_, x, _, y) := zform FIPE h in x = y) by reflexivity.
  rewrite zform_ok in Hf. destruct (zform FIPE h) as [[[a1 a2] a3] a4]. apply Z.ltb_lt in C. apply IZR_lt in C. rewrite !mult_IZR in C.
  injection Hf as <- <- <- <-. subst a4. unfold mm. split; [reflexivity|lra].
Qed.

(* constructors *)
Definition r10 (z : Z) : R := IZR z / 10.
Lemma entry_new : forall f n h b tw tf r, In (long_name f n, (h, b, tw, tf, r)) profile_t -> new_I f n true = Some (mm h, (mm tf, mm tw, mm b, mm r)).
Proof.
  intros f n h b tw tf r Hi. unfold new_I. rewrite iname_long, (in_look _ _ _ (proj1 once_lemma) Hi). destruct f; reflexivity.
Qed.
Lemma catalogue_true_lemma : forall f n x, f <> FHEB -> new_I f n true = Some x ->
  exists h b tw tf r, In (long_name f n, (h, b, tw, tf, r)) profile_t /\ x = (mm h, (mm tf, mm tw, mm b, mm r)).
Proof.
  intros f n x Hf H. unfold new_I in H. rewrite iname_long in H. destruct (look profile_t (long_name f n)) as [[[[[h b] tw] tf] r]|] eqn:E.
  - exists h, b, tw, tf, r. split; [now apply look_in|]. destruct f; cbn in H; injection H as <-; try reflexivity. 
  - destruct f; try discriminate H. now elim Hf.
Qed.
Lemma catalogue_false_lemma : forall f n x, new_I f n false = Some x ->
  (f = FIPE \/ f = FHEB) /\ (exists e, In (long_name f n, e) profile_t) /\ new_I f n true = Some x \/
  ((f = FIPE \/ f = FHEB) -> ~ exists e, In (long_name f n, e) profile_t) /\ x = (IZR (Z.of_N n), formula f (IZR (Z.of_N n))).
Proof.
  intros f n x H. assert (D : (f = FIPE \/ f = FHEB) \/ (f <> FIPE /\ f <> FHEB)) by (destruct f; ((left; tauto) || (right; split; discriminate))).
  destruct (look profile_t (long_name f n)) as [e|] eqn:E.
  - destruct D as [D|D].
    + left. split; [exact D|]. split; [exists e; now apply look_in|]. unfold new_I in *. rewrite iname_long, E in *. destruct D; subst f; exact H.
    + right. split; [tauto|]. unfold new_I in H. rewrite iname_long, E in H. destruct f; try tauto; now injection H as <-.
  - right. split.
    + intros _ [e He]. rewrite (in_look _ _ _ (proj1 once_lemma) He) in E. discriminate E.
    + unfold new_I in H. rewrite iname_long, E in H. destruct f; now injection H as <-.
Qed.
Lemma height_lemma : forall f n H x, (exists e, In (long_name f n, e) profile_t) -> new_I f n true = Some (H, x) ->
  match f with FIPE | FHEB => H = IZR (Z.of_N n) | FHEA | FHEAA => H < IZR (Z.of_N n) | FHEC | FHEM => IZR (Z.of_N n) < H end.
Proof.
  assert (C : forallb (fun e => match family_of (fst e), number_of (fst e) with
     | Some f, Some n => let '(h, b, tw, tf, r) := snd e in let m := (10 * Z.of_N n)%Z in
         match f with FIPE | FHEB => (h =? m)%Z | FHEA | FHEAA => (h <? m)%Z | FHEC | FHEM => (m <? h)%Z end
     | _, _ => false end) profile_t = true) by (vm_compute; reflexivity).
  intros f n H x [[[[[h b] tw] tf] r] Hi] E. rewrite (entry_new _ _ _ _ _ _ _ Hi) in E. injection E as <- _.
  rewrite forallb_forall in C. specialize (C _ Hi). cbn [fst snd] in C. rewrite family_long, number_long in C. unfold mm.
  destruct f; (apply Z.eqb_eq in C || apply Z.ltb_lt in C; try apply IZR_lt in C); try (apply (f_equal IZR) in C); rewrite mult_IZR in C; lra.
Qed.
