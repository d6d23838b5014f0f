From Coq Require Import String Ascii NArith ZArith List Bool DecimalString DecimalN DecimalFacts Lia PeanoNat.
From Verif Require Import Cat_model Cat_spec.
Import ListNotations.
Local Open Scope string_scope.

Lemma app_assoc_s : forall a b c : string, (a ++ b) ++ c = a ++ b ++ c.
Proof. induction a as [|x a IH]; intros; simpl; [reflexivity|]. now rewrite IH. Qed.
Lemma length_app_s : forall a b : string, String.length (a ++ b) = (String.length a + String.length b)%nat.
Proof. induction a as [|x a IH]; intros; simpl; [reflexivity|]. now rewrite IH. Qed.
Lemma app_nil_s : forall a : string, a ++ "" = a.
Proof. induction a as [|x a IH]; simpl; [reflexivity|]. now rewrite IH. Qed.

Fixpoint all (f : ascii -> bool) (s : string) : bool := match s with "" => true | String c t => f c && all f t end.
Definition head_not (f : ascii -> bool) (s : string) : Prop := match s with "" => True | String c _ => f c = false end.

Lemma digit_figures : forall c, is_digit c = true <-> In c figures.
Proof. intros [a b c d e f g h]; destruct a, b, c, d, e, f, g, h; (vm_compute; split; intro H; [try discriminate H; tauto|]); try reflexivity;
  repeat (destruct H as [H|H]; [discriminate H|]); destruct H. Qed.
Lemma space_blanks : forall c, is_space c = true <-> In c blanks.
Proof. intros [a b c d e f g h]; destruct a, b, c, d, e, f, g, h; (vm_compute; split; intro H; [try discriminate H; tauto|]); try reflexivity;
  repeat (destruct H as [H|H]; [discriminate H|]); destruct H. Qed.
Lemma digit_not_space : forall c, is_digit c = true -> is_space c = false.
Proof. intros [a b c d e f g h]; destruct a, b, c, d, e, f, g, h; vm_compute; congruence. Qed.

Lemma all_app : forall f a b, all f (a ++ b) = (all f a && all f b)%bool.
Proof. induction a as [|x a IH]; intros; simpl; [reflexivity|]. now rewrite IH, andb_assoc. Qed.
Lemma all_in : forall f s, (forall c, In c (list_ascii_of_string s) -> f c = true) -> all f s = true.
Proof. induction s as [|x s IH]; intros H; simpl; [reflexivity|]. rewrite H by (now left). apply IH. intros; apply H; now right. Qed.

Lemma span_app : forall f a b, all f a = true -> head_not f b -> span f (a ++ b) = (a, b).
Proof.
  induction a as [|x a IH]; intros b Ha Hb; simpl.
  - destruct b as [|y b]; simpl; [reflexivity|]. simpl in Hb. now rewrite Hb.
  - simpl in Ha. apply andb_prop in Ha as [H1 H2]. rewrite H1, (IH b H2 Hb). reflexivity.
Qed.

(* decimal writing *)
Lemma uint_digits : forall d, all is_digit (NilEmpty.string_of_uint d) = true.
Proof. induction d; simpl; auto. Qed.
Lemma dec_digits : forall n, all is_digit (dec n) = true.
Proof. intro n. unfold dec, NilZero.string_of_uint. destruct (N.to_uint n) eqn:E; try (rewrite <- E; apply uint_digits); try apply uint_digits. reflexivity. Qed.
Lemma to_uint_nn : forall n, N.to_uint n <> Decimal.Nil.
Proof. intros [|p]; simpl; [discriminate|]. apply DecimalPos.Unsigned.to_uint_nonnil. Qed.
Lemma int_dec : forall n, int_of (dec n) = Some n.
Proof. intro n. unfold int_of, dec. rewrite NilZero.usu by apply to_uint_nn. simpl. now rewrite DecimalN.Unsigned.of_to. Qed.
Lemma dec_nil : forall n, dec n <> "".
Proof. intros n E. pose proof (int_dec n) as H. rewrite E in H. discriminate H. Qed.
Lemma dec_cons : forall n, exists c t, dec n = String c t /\ is_digit c = true.
Proof.
  intro n. pose proof (dec_digits n) as H. pose proof (dec_nil n) as H0. destruct (dec n) as [|c t]; [congruence|].
  simpl in H. apply andb_prop in H as [H _]. eauto.
Qed.
Lemma dec_short : forall n, (n < 10)%N -> String.length (dec n) = 1%nat.
Proof.
  intros n H. destruct n as [|p]; [reflexivity|].
  do 4 (destruct p as [p|p|]; try reflexivity; try lia).
Qed.
Lemma dec_long : forall n, (10 <= n)%N -> (2 <= String.length (dec n))%nat.
Proof.
  intros n H. unfold dec. pose proof (DecimalN.Unsigned.of_to n) as E. destruct (N.to_uint n) as [|u|u|u|u|u|u|u|u|u|u] eqn:F;
    [exfalso; now apply (to_uint_nn n)|..];
    (destruct u; [exfalso; cbv in E; lia|..]; simpl; lia).
Qed.

(* one number *)
Definition stop (s : string) : Prop := match s with "" => True | String c _ => is_digit c = false /\ c <> "."%char end.
Lemma stop_head : forall s, stop s -> head_not is_digit s.
Proof. intros [|c s]; simpl; tauto. Qed.
Lemma number1_whole : forall n r, (10 <= n)%N -> stop r -> number1 (dec n ++ r) = Some (dec n, r).
Proof.
  intros n r Hn Hr. unfold number1. rewrite span_app by (try apply dec_digits; now apply stop_head).
  assert (L : Nat.leb 2 (String.length (dec n)) = true) by (apply Nat.leb_le, dec_long, Hn). rewrite L.
  destruct r as [|c r]; [reflexivity|]. destruct Hr as [_ Hc].
  destruct c as [[] [] [] [] [] [] [] []]; try reflexivity. now elim Hc.
Qed.
Lemma number1_short : forall n r, (n < 10)%N -> stop r -> number1 (dec n ++ r) = None.
Proof.
  intros n r Hn Hr. unfold number1. rewrite span_app by (try apply dec_digits; now apply stop_head).
  rewrite (dec_short n Hn). simpl.
  destruct r as [|c r]; [reflexivity|]. destruct Hr as [_ Hc].
  destruct c as [[] [] [] [] [] [] [] []]; try reflexivity. now elim Hc.
Qed.
Lemma dec_one : forall d, (d < 10)%N -> exists c, dec d = String c "" /\ is_digit c = true.
Proof.
  intros d H. pose proof (dec_short d H) as L. destruct (dec_cons d) as (c & t & E & D). rewrite E in L. simpl in L.
  destruct t; [|simpl in L; lia]. exists c. now rewrite E.
Qed.
Lemma number1_decimal : forall n d r, (d < 10)%N -> number1 ((dec n ++ "." ++ dec d) ++ r) = Some (dec n ++ "." ++ dec d, r).
Proof.
  intros n d r Hd. destruct (dec_one d Hd) as (c & E & D). rewrite E. rewrite app_assoc_s. unfold number1.
  rewrite span_app by (try apply dec_digits; reflexivity). simpl. rewrite D.
  destruct (dec n) eqn:F; [now elim (dec_nil n)|]. reflexivity.
Qed.
Lemma number1_none : forall s, head_not is_digit s -> number1 s = None.
Proof.
  intros [|c s] H; [reflexivity|]. simpl in H. unfold number1. simpl. rewrite H.
  destruct s as [|d s].
  - destruct c as [[] [] [] [] [] [] [] []]; reflexivity.
  - rewrite andb_false_r. destruct c as [[] [] [] [] [] [] [] []]; reflexivity.
Qed.
Lemma numbers_none : forall n s, head_not is_digit s -> numbers n s = None.
Proof. intros [|n] s H; simpl; [reflexivity|]. now rewrite number1_none. Qed.
Lemma numbers_one : forall n s m r, number1 s = Some (m, r) -> head_not is_digit r -> (1 <= n)%nat -> numbers n s = Some (m, r).
Proof. intros [|n] s m r H Hr Hn; [lia|]. simpl. now rewrite H, numbers_none. Qed.

(* findall *)
Lemma findall_skip1 : forall n c t, (String.length (String c t) <= n)%nat -> numbers (String.length (String c t)) (String c t) = None ->
  exists m, (String.length t <= m)%nat /\ findall n (String c t) = findall m t.
Proof. intros [|n] c t Hn H; simpl in Hn; [lia|]. exists n. split; [lia|]. cbn [findall]. now rewrite H. Qed.
Lemma findall_text : forall s t n, all (fun c => negb (is_digit c)) s = true -> (String.length (s ++ t) <= n)%nat ->
  exists m, (String.length t <= m)%nat /\ findall n (s ++ t) = findall m t.
Proof.
  induction s as [|c s IH]; intros t n Hs Hn.
  - exists n. split; [exact Hn|reflexivity].
  - simpl in Hs. apply andb_prop in Hs as [Hc Hs]. simpl ((String c s) ++ t).
    destruct (findall_skip1 n c (s ++ t)) as (m & Hm & E).
    { exact Hn. }
    { apply numbers_none. simpl. now apply negb_true_iff in Hc. }
    destruct (IH t m Hs Hm) as (m' & Hm' & E'). exists m'. split; [exact Hm'|]. now rewrite E.
Qed.
Lemma findall_one : forall n s m r, numbers (String.length s) s = Some (m, r) -> (String.length s <= n)%nat -> (String.length r < String.length s)%nat ->
  exists k, (String.length r <= k)%nat /\ findall n s = m :: findall k r.
Proof.
  intros [|n] s m r H Hn Hr; [lia|]. exists n. split; [lia|]. destruct s as [|c s]; [simpl in Hr; lia|]. cbn [findall]. now rewrite H.
Qed.

(* tokens *)
Lemma tenths_whole : forall n, tenths (dec n) = Some (10 * Z.of_N n)%Z.
Proof.
  intro n. unfold tenths. pose proof (span_app is_digit (dec n) "" (dec_digits n) Logic.I) as E. rewrite app_nil_s in E. rewrite E, int_dec. reflexivity.
Qed.
Lemma tenths_decimal : forall n d, tenths (dec n ++ "." ++ dec d) = Some (10 * Z.of_N n + Z.of_N d)%Z.
Proof.
  intros n d. unfold tenths. rewrite span_app by (try apply dec_digits; reflexivity). rewrite int_dec. simpl. now rewrite int_dec.
Qed.
Lemma spells_tenths : forall s v, spells s v -> tenths s = Some v.
Proof. intros s v [n H|n d H]; [apply tenths_whole|apply tenths_decimal]. Qed.
Lemma spells_number : forall s v r, spells s v -> stop r -> number1 (s ++ r) = Some (s, r).
Proof. intros s v r [n H|n d H] Hr; [now apply number1_whole|now apply number1_decimal]. Qed.
Lemma spells_cons : forall s v, spells s v -> exists c t, s = String c t.
Proof. intros s v [n H|n d H]; destruct (dec_cons n) as (c & t & E & _); rewrite E; simpl; eauto. Qed.
Lemma spells_find : forall s v r n, spells s v -> stop r -> (String.length (s ++ r) <= n)%nat ->
  exists k, (String.length r <= k)%nat /\ findall n (s ++ r) = s :: findall k r.
Proof.
  intros s v r n Hs Hr Hn. destruct (spells_cons s v Hs) as (c & t & E).
  apply findall_one; [|exact Hn|rewrite length_app_s, E; simpl; lia].
  apply numbers_one; [now apply (spells_number s v)|now apply stop_head|rewrite length_app_s, E; simpl; lia].
Qed.

Lemma between_stop : forall s t, between_text s -> stop (s ++ t).
Proof.
  intros [|c s] t [Hn H]; [congruence|]. simpl. destruct (H c (or_introl eq_refl)) as (H1 & H2 & _). split; [|exact H2].
  destruct (is_digit c) eqn:E; [|reflexivity]. elim H1. now apply digit_figures.
Qed.
Lemma between_all : forall s, between_text s -> all (fun c => negb (is_digit c)) s = true.
Proof.
  intros s [_ H]. apply all_in. intros c Hc. destruct (H c Hc) as (H1 & _). apply negb_true_iff.
  destruct (is_digit c) eqn:E; [|reflexivity]. elim H1. now apply digit_figures.
Qed.
Lemma between_nospace : forall s, between_text s -> all (fun c => negb (is_space c)) s = true.
Proof.
  intros s [_ H]. apply all_in. intros c Hc. destruct (H c Hc) as (_ & _ & H1). apply negb_true_iff.
  destruct (is_space c) eqn:E; [|reflexivity]. elim H1. now apply space_blanks.
Qed.
Lemma digits_nospace : forall s, all is_digit s = true -> all (fun c => negb (is_space c)) s = true.
Proof.
  induction s as [|c s IH]; simpl; intros H; [reflexivity|]. apply andb_prop in H as [H1 H2]. rewrite (digit_not_space c H1), IH by exact H2. reflexivity.
Qed.
Lemma dec_nospace : forall n, all (fun c => negb (is_space c)) (dec n) = true.
Proof. intro n. apply digits_nospace, dec_digits. Qed.
Lemma spells_nospace : forall s v, spells s v -> all (fun c => negb (is_space c)) s = true.
Proof. intros s v [n H|n d H]; rewrite ?all_app, ?dec_nospace; reflexivity. Qed.

(* words *)
Lemma words_blank : forall b t n, all is_space b = true -> (String.length (b ++ t) <= n)%nat ->
  exists m, (String.length t <= m)%nat /\ words n (b ++ t) = words m t.
Proof.
  induction b as [|c b IH]; intros t n Hb Hn; [exists n; now split|].
  simpl in Hb. apply andb_prop in Hb as [H1 H2]. destruct n as [|n]; [simpl in Hn; lia|]. simpl. rewrite H1. apply IH; [exact H2|simpl in Hn; lia].
Qed.
Lemma words_word : forall w t n, w <> "" -> all (fun c => negb (is_space c)) w = true -> head_not (fun c => negb (is_space c)) t ->
  (String.length (w ++ t) <= n)%nat -> exists m, (String.length t <= m)%nat /\ words n (w ++ t) = w :: words m t.
Proof.
  intros w t n Hw H Ht Hn. destruct w as [|c w]; [congruence|]. destruct n as [|n]; [simpl in Hn; lia|].
  exists n. split; [simpl in Hn; rewrite length_app_s in Hn; lia|]. simpl ((String c w) ++ t). cbn [words].
  assert (Hc : is_space c = false) by (simpl in H; apply andb_prop in H as [H _]; now apply negb_true_iff).
  rewrite Hc. change (String c (w ++ t)) with ((String c w) ++ t). rewrite span_app by assumption. reflexivity.
Qed.
Lemma words_last : forall w n, w <> "" -> all (fun c => negb (is_space c)) w = true -> (String.length w <= n)%nat -> words n w = [w].
Proof.
  intros w n Hw H Hn. destruct (words_word w "" n Hw H Logic.I) as (m & _ & E); [now rewrite app_nil_s|].
  rewrite app_nil_s in E. rewrite E. now destruct m.
Qed.
Lemma blank_all : forall s, blank_text s -> all is_space s = true.
Proof. intros s [_ H]. apply all_in. intros c Hc. now apply space_blanks, H. Qed.
Lemma blank_head : forall s t, blank_text s -> head_not (fun c => negb (is_space c)) (s ++ t).
Proof. intros [|c s] t [Hn H]; [congruence|]. simpl. apply negb_false_iff, space_blanks, H. now left. Qed.
Lemma word_all : forall s, word s -> all (fun c => negb (is_space c)) s = true.
Proof.
  intros s [_ H]. apply all_in. intros c Hc. apply negb_true_iff. destruct (is_space c) eqn:E; [|reflexivity]. elim (H c Hc). now apply space_blanks.
Qed.
Lemma words_two : forall w b v, word w -> blank_text b -> word v -> words (String.length (w ++ b ++ v)) (w ++ b ++ v) = [w; v].
Proof.
  intros w b v Hw Hb Hv. destruct (words_word w (b ++ v) _ (proj1 Hw) (word_all _ Hw) (blank_head b v Hb) (le_n _)) as (m & Hm & E). rewrite E.
  destruct (words_blank b v m (blank_all _ Hb) Hm) as (k & Hk & E'). rewrite E'. now rewrite words_last by (try apply Hv; try exact Hk; now apply word_all).
Qed.
Lemma words_three : forall w b v c u, word w -> blank_text b -> word v -> blank_text c -> word u ->
  words (String.length (w ++ b ++ v ++ c ++ u)) (w ++ b ++ v ++ c ++ u) = [w; v; u].
Proof.
  intros w b v c u Hw Hb Hv Hc Hu.
  destruct (words_word w (b ++ v ++ c ++ u) _ (proj1 Hw) (word_all _ Hw) (blank_head b _ Hb) (le_n _)) as (m & Hm & E). rewrite E.
  destruct (words_blank b (v ++ c ++ u) m (blank_all _ Hb) Hm) as (k & Hk & E'). rewrite E'.
  destruct (words_word v (c ++ u) k (proj1 Hv) (word_all _ Hv) (blank_head c _ Hc) Hk) as (k2 & Hk2 & E2). rewrite E2.
  destruct (words_blank c u k2 (blank_all _ Hc) Hk2) as (k3 & Hk3 & E3). rewrite E3.
  now rewrite words_last by (try apply Hu; try exact Hk3; now apply word_all).
Qed.
Lemma nospace_word : forall s, s <> "" -> all (fun c => negb (is_space c)) s = true -> word s.
Proof.
  intros s Hn H. split; [exact Hn|]. clear Hn. induction s as [|x s IH]; intros c Hc; [destruct Hc|]. simpl in H. apply andb_prop in H as [H1 H2].
  destruct Hc as [<-|Hc]; [|now apply IH]. intro K. apply space_blanks in K. now rewrite K in H1.
Qed.
Lemma dec_word : forall n, word (dec n).
Proof. intro n. apply nospace_word; [apply dec_nil|apply dec_nospace]. Qed.

(* C305 *)
Lemma findall_three : forall a b c va vb vc s1 s2, spells a va -> spells b vb -> spells c vc -> between_text s1 -> between_text s2 ->
  forall n, (String.length (a ++ s1 ++ b ++ s2 ++ c) <= n)%nat -> findall n (a ++ s1 ++ b ++ s2 ++ c) = [a; b; c].
Proof.
  intros a b c va vb vc s1 s2 Ha Hb Hc H1 H2 n Hn.
  destruct (spells_find a va (s1 ++ b ++ s2 ++ c) n Ha (between_stop _ _ H1) Hn) as (k1 & L1 & E1). rewrite E1.
  destruct (findall_text s1 (b ++ s2 ++ c) k1 (between_all _ H1) L1) as (k2 & L2 & E2). rewrite E2.
  destruct (spells_find b vb (s2 ++ c) k2 Hb (between_stop _ _ H2) L2) as (k3 & L3 & E3). rewrite E3.
  destruct (findall_text s2 c k3 (between_all _ H2) L3) as (k4 & L4 & E4). rewrite E4.
  destruct (spells_find c vc "" k4 Hc Logic.I) as (k5 & L5 & E5); [now rewrite app_nil_s|]. rewrite app_nil_s in E5. rewrite E5. now destruct k5.
Qed.
Lemma rhs_words : forall bl t, blank_text bl -> word t -> make_section ("RHS" ++ bl ++ t) = make_rhs t.
Proof.
  intros bl t Hb Ht. unfold make_section. rewrite words_two; [reflexivity| |exact Hb|exact Ht].
  apply nospace_word; [discriminate|reflexivity].
Qed.
Lemma rhs_name_lemma : forall bl a s1 b s2 c va vb vc, blank_text bl -> spells a va -> spells b vb -> spells c vc -> between_text s1 -> between_text s2 ->
  make_section (rhs_name bl a s1 b s2 c) = Some (MR va vb vc).
Proof.
  intros bl a s1 b s2 c va vb vc Hbl Ha Hb Hc H1 H2. unfold rhs_name.
  rewrite rhs_words; [|exact Hbl|].
  - unfold make_rhs. rewrite (findall_three a b c va vb vc s1 s2 Ha Hb Hc H1 H2 _ (le_n _)). simpl.
    now rewrite (spells_tenths _ _ Ha), (spells_tenths _ _ Hb), (spells_tenths _ _ Hc).
  - apply nospace_word.
    + destruct (spells_cons a va Ha) as (x & t & E). rewrite E. discriminate.
    + rewrite !all_app, (spells_nospace _ _ Ha), (spells_nospace _ _ Hb), (spells_nospace _ _ Hc), (between_nospace _ H1), (between_nospace _ H2). reflexivity.
Qed.
Lemma two_then : forall a b va vb s1 s2, spells a va -> spells b vb -> between_text s1 -> between_text s2 ->
  forall c n, (String.length (a ++ s1 ++ b ++ s2 ++ c) <= n)%nat ->
  exists k, (String.length c <= k)%nat /\ findall n (a ++ s1 ++ b ++ s2 ++ c) = a :: b :: findall k c.
Proof.
  intros a b va vb s1 s2 Ha Hb H1 H2 c n Hn.
  destruct (spells_find a va (s1 ++ b ++ s2 ++ c) n Ha (between_stop _ _ H1) Hn) as (k1 & L1 & E1). rewrite E1.
  destruct (findall_text s1 (b ++ s2 ++ c) k1 (between_all _ H1) L1) as (k2 & L2 & E2). rewrite E2.
  destruct (spells_find b vb (s2 ++ c) k2 Hb (between_stop _ _ H2) L2) as (k3 & L3 & E3). rewrite E3.
  destruct (findall_text s2 c k3 (between_all _ H2) L3) as (k4 & L4 & E4). rewrite E4. now exists k4.
Qed.
Lemma rhs_tail : forall bl a s1 b s2 c va vb, blank_text bl -> spells a va -> spells b vb -> between_text s1 -> between_text s2 ->
  all (fun c => negb (is_space c)) c = true ->
  exists k, (String.length c <= k)%nat /\
    make_section (rhs_name bl a s1 b s2 c) = match map tenths (findall k c) with Some vc :: _ => Some (MR va vb vc) | _ => None end.
Proof.
  intros bl a s1 b s2 c va vb Hbl Ha Hb H1 H2 Hc. unfold rhs_name. rewrite rhs_words; [|exact Hbl|].
  - unfold make_rhs. destruct (two_then a b va vb s1 s2 Ha Hb H1 H2 c _ (le_n _)) as (k & L & E). exists k. split; [exact L|].
    rewrite E. cbn [map]. rewrite (spells_tenths _ _ Ha), (spells_tenths _ _ Hb). reflexivity.
  - apply nospace_word.
    + destruct (spells_cons a va Ha) as (x & t & E). rewrite E. discriminate.
    + rewrite !all_app, (spells_nospace _ _ Ha), (spells_nospace _ _ Hb), Hc, (between_nospace _ H1), (between_nospace _ H2). reflexivity.
Qed.
Lemma rhs_single_digit_lemma : forall bl a s1 b s2 n va vb, blank_text bl -> spells a va -> spells b vb -> between_text s1 -> between_text s2 -> (n < 10)%N ->
  make_section (rhs_name bl a s1 b s2 (dec n)) = None.
Proof.
  intros bl a s1 b s2 n va vb Hbl Ha Hb H1 H2 Hn. destruct (rhs_tail bl a s1 b s2 (dec n) va vb Hbl Ha Hb H1 H2 (dec_nospace n)) as (k & L & E).
  rewrite E. destruct (dec_one n Hn) as (c & F & D). pose proof (number1_short n "" Hn Logic.I) as G. rewrite app_nil_s, F in G.
  rewrite F in L |- *. destruct (findall_skip1 k c "" L) as (m & _ & E2).
  - change (String.length (String c "")) with 1%nat. cbn [numbers]. now rewrite G.
  - rewrite E2. now destruct m.
Qed.
(* two decimals: the second is lost; three or more decimals: the decimals from the second on are the thickness *)
Lemma rhs_two_decimals_lemma : forall bl a s1 b s2 n d e va vb, blank_text bl -> spells a va -> spells b vb -> between_text s1 -> between_text s2 ->
  (d < 10)%N -> (e < 10)%N ->
  make_section (rhs_name bl a s1 b s2 ((dec n ++ "." ++ dec d) ++ dec e)) = Some (MR va vb (10 * Z.of_N n + Z.of_N d)).
Proof.
  intros bl a s1 b s2 n d e va vb Hbl Ha Hb H1 H2 Hd He.
  destruct (rhs_tail bl a s1 b s2 ((dec n ++ "." ++ dec d) ++ dec e) va vb Hbl Ha Hb H1 H2) as (k & L & E).
  { rewrite !all_app, !dec_nospace. reflexivity. }
  rewrite E. pose proof (number1_decimal n d (dec e) Hd) as G.
  assert (N2 : number1 (dec e) = None) by (pose proof (number1_short e "" He Logic.I) as K; now rewrite app_nil_s in K).
  assert (P : (1 <= String.length (dec n))%nat) by (destruct (dec_cons n) as (x & t & F & _); rewrite F; simpl; lia).
  destruct (findall_one k ((dec n ++ "." ++ dec d) ++ dec e) (dec n ++ "." ++ dec d) (dec e)) as (m & _ & E2); [|exact L|rewrite length_app_s, length_app_s; lia|].
  - destruct (String.length ((dec n ++ "." ++ dec d) ++ dec e)) as [|j] eqn:J; [rewrite !length_app_s in J; lia|]. cbn [numbers]. rewrite G.
    destruct j as [|j]; cbn [numbers]; [reflexivity|]. now rewrite N2.
  - rewrite E2. cbn [map]. now rewrite tenths_decimal.
Qed.
Lemma rhs_three_decimals_lemma : forall bl a s1 b s2 n d e va vb, blank_text bl -> spells a va -> spells b vb -> between_text s1 -> between_text s2 ->
  (d < 10)%N -> (10 <= e)%N ->
  make_section (rhs_name bl a s1 b s2 ((dec n ++ "." ++ dec d) ++ dec e)) = Some (MR va vb (10 * Z.of_N e)).
Proof.
  intros bl a s1 b s2 n d e va vb Hbl Ha Hb H1 H2 Hd He.
  destruct (rhs_tail bl a s1 b s2 ((dec n ++ "." ++ dec d) ++ dec e) va vb Hbl Ha Hb H1 H2) as (k & L & E).
  { rewrite !all_app, !dec_nospace. reflexivity. }
  rewrite E. pose proof (number1_decimal n d (dec e) Hd) as G.
  assert (N2 : number1 (dec e) = Some (dec e, "")) by (pose proof (number1_whole e "" He Logic.I) as K; now rewrite app_nil_s in K).
  assert (P : (1 <= String.length (dec n))%nat) by (destruct (dec_cons n) as (x & t & F & _); rewrite F; simpl; lia).
  destruct (findall_one k ((dec n ++ "." ++ dec d) ++ dec e) (dec e) "") as (m & _ & E2); [|exact L|rewrite length_app_s, length_app_s; simpl; lia|].
  - destruct (String.length ((dec n ++ "." ++ dec d) ++ dec e)) as [|[|j]] eqn:J; try (rewrite !length_app_s in J; simpl in J; lia). cbn [numbers]. rewrite G, N2.
    destruct j; reflexivity.
  - rewrite E2. cbn [map]. rewrite tenths_whole. now destruct m.
Qed.

(* C306 *)
Lemma first_dec : forall n, first_digits (dec n) = Some (dec n).
Proof.
  intro n. pose proof (span_app is_digit (dec n) "" (dec_digits n) Logic.I) as E. rewrite app_nil_s in E.
  destruct (dec_cons n) as (c & t & F & D). rewrite F in *. unfold first_digits. rewrite D, E. reflexivity.
Qed.
Lemma lit_word : forall s, all (fun c => negb (is_space c)) s = true -> s <> "" -> word s.
Proof. intros. now apply nospace_word. Qed.
Lemma blank1 : blank_text " ".
Proof. split; [discriminate|]. intros c [<-|[]]. vm_compute. tauto. Qed.
Lemma iname_long : forall f n, iname f n = long_name f n.
Proof. now intros []. Qed.
Lemma ipe_name_lemma : forall bl n, blank_text bl -> make_section ("IPE" ++ bl ++ dec n) = option_map (MI FIPE) (look profile_t (long_name FIPE n)).
Proof.
  intros bl n Hb. unfold make_section. rewrite words_two; [|now apply lit_word|exact Hb|apply dec_word]. simpl (String.eqb "IPE" "IPE"). cbv iota.
  unfold make_I. rewrite first_dec, int_dec, iname_long. now destruct (look _ _).
Qed.
Lemma hea_name_lemma : forall bl bm n, blank_text bl -> blank_text bm ->
  make_section ("HE" ++ bl ++ dec n ++ bm ++ "A") = option_map (MI FHEA) (look profile_t (long_name FHEA n)).
Proof.
  intros bl bm n Hb Hm. unfold make_section. rewrite words_three; [|now apply lit_word|exact Hb|apply dec_word|exact Hm|now apply lit_word].
  simpl (String.eqb "HE" _). cbv iota. simpl (String.eqb "A" _). cbv iota.
  unfold make_I. rewrite first_dec, int_dec, iname_long. now destruct (look _ _).
Qed.
Lemma heb_name_lemma : forall bl bm n, blank_text bl -> blank_text bm ->
  make_section ("HE" ++ bl ++ dec n ++ bm ++ "B") =
  Some (match look profile_t (long_name FHEB n) with Some e => MI FHEB e | None => MOwn FHEB n end).
Proof.
  intros bl bm n Hb Hm. unfold make_section. rewrite words_three; [|now apply lit_word|exact Hb|apply dec_word|exact Hm|now apply lit_word].
  simpl (String.eqb "HE" _). cbv iota. simpl (String.eqb "B" _). cbv iota.
  unfold make_I. rewrite first_dec, int_dec, iname_long. now destruct (look _ _).
Qed.
Lemma h_other_lemma : forall bl bm n l, blank_text bl -> blank_text bm -> word n -> word l -> l <> "A" -> l <> "B" ->
  make_section ("HE" ++ bl ++ n ++ bm ++ l) = None.
Proof.
  intros bl bm n l Hb Hm Hn Hl HA HB. unfold make_section. rewrite words_three; [|now apply lit_word|exact Hb|exact Hn|exact Hm|exact Hl].
  simpl (String.eqb "HE" _). cbv iota. apply String.eqb_neq in HA, HB. now rewrite HA, HB.
Qed.
Lemma family_other_lemma : forall w bl rest, word w -> blank_text bl -> w <> "IPE" -> w <> "RHS" -> w <> "HE" -> make_section (w ++ bl ++ rest) = None.
Proof.
  intros w bl rest Hw Hb H1 H2 H3. unfold make_section.
  destruct (words_word w (bl ++ rest) _ (proj1 Hw) (word_all _ Hw) (blank_head bl rest Hb) (le_n _)) as (m & _ & E). rewrite E.
  apply String.eqb_neq in H1, H2, H3. now rewrite H1, H2, H3.
Qed.

(* tables *)
Definition made_eqb (x : option made) (h b tw tf r : Z) (f : family) : bool :=
  match x with
  | Some (MI g (h', b', tw', tf', r')) =>
    (match f, g with FIPE, FIPE | FHEA, FHEA | FHEB, FHEB => true | _, _ => false end &&
     Z.eqb h h' && Z.eqb b b' && Z.eqb tw tw' && Z.eqb tf tf' && Z.eqb r r')%bool
  | _ => false
  end.
Lemma made_eqb_ok : forall x h b tw tf r f, made_eqb x h b tw tf r f = true -> x = Some (MI f (h, b, tw, tf, r)).
Proof.
  intros x h b tw tf r f H. destruct x as [[g [[[[h' b'] tw'] tf'] r']| |]|]; try discriminate H. simpl in H.
  repeat (apply andb_prop in H as [H ?]). apply Z.eqb_eq in H0, H1, H2, H3, H4. subst. destruct f, g; try discriminate H; reflexivity.
Qed.
Definition made_all (d : table idims) (f : family) : bool :=
  forallb (fun e => let '(k, (h, b, tw, tf, r)) := e in made_eqb (make_section k) h b tw tf r f) d.
Lemma made_all_ok : forall d f, made_all d f = true -> forall k e, In (k, e) d -> make_section k = Some (MI f e).
Proof.
  intros d f H k [[[[h b] tw] tf] r] Hi. unfold made_all in H. rewrite forallb_forall in H. specialize (H _ Hi). simpl in H. now apply made_eqb_ok.
Qed.
Lemma ipe_made : forall k e, In (k, e) ipe_t -> make_section k = Some (MI FIPE e).
Proof. apply made_all_ok. vm_compute. reflexivity. Qed.
Lemma hea_made : forall k e, In (k, e) hea_t -> make_section k = Some (MI FHEA e).
Proof. apply made_all_ok. vm_compute. reflexivity. Qed.
Lemma heb_made : forall k e, In (k, e) heb_t -> make_section k = Some (MI FHEB e).
Proof. apply made_all_ok. vm_compute. reflexivity. Qed.
Lemma rhs_made : forall k h b t r, In (k, (h, b, t, r)) rhs_t -> make_section k = Some (MR h b t).
Proof.
  assert (H : forallb (fun e => let '(k, (h, b, t, r)) := e in match make_section k with Some (MR h' b' t') => Z.eqb h h' && Z.eqb b b' && Z.eqb t t' | _ => false end)%bool rhs_t = true) by (vm_compute; reflexivity).
  intros k h b t r Hi. rewrite forallb_forall in H. specialize (H _ Hi). simpl in H.
  destruct (make_section k) as [[| |h' b' t']|]; try discriminate H. repeat (apply andb_prop in H as [H ?]). apply Z.eqb_eq in H, H0, H1. now subst.
Qed.
Lemma none_all : forall {X} (d : table X), forallb (fun e => match make_section (fst e) with None => true | _ => false end) d = true ->
  forall k e, In (k, e) d -> make_section k = None.
Proof. intros X d H k e Hi. rewrite forallb_forall in H. specialize (H _ Hi). simpl in H. now destruct (make_section k). Qed.
Lemma shs_made : forall k e, In (k, e) shs_t -> make_section k = None.
Proof. apply none_all. vm_compute. reflexivity. Qed.
Lemma chs_made : forall k e, In (k, e) chs_t -> make_section k = None.
Proof. apply none_all. vm_compute. reflexivity. Qed.
Lemma h_made : forall k e, In (k, e) h_t -> make_section k <> None <-> In k (map fst hea_t) \/ In k (map fst heb_t).
Proof.
  assert (H : forallb (fun e => Bool.eqb (match make_section (fst e) with None => false | _ => true end)
      (existsb (String.eqb (fst e)) (map fst hea_t) || existsb (String.eqb (fst e)) (map fst heb_t))) h_t = true) by (vm_compute; reflexivity).
  intros k e Hi. rewrite forallb_forall in H. specialize (H _ Hi). simpl fst in H. apply eqb_prop in H.
  assert (X : forall l, existsb (String.eqb k) l = true <-> In k l).
  { intro l. rewrite existsb_exists. split; [intros (x & Hx & E); apply String.eqb_eq in E; now subst|intro; exists k; split; [assumption|apply String.eqb_refl]]. }
  rewrite <- !X, <- orb_true_iff, <- H. destruct (make_section k); split; intro; congruence.
Qed.
Lemma made_lists_lemma : forall t keys k, profile_list t = Some keys -> In k keys ->
  (make_section k <> None <-> t = "IPE" \/ t = "HEA" \/ t = "HEB" \/ t = "RHS" \/ (t = "H" /\ (In k (map fst hea_t) \/ In k (map fst heb_t)))).
Proof.
  intros t keys k H Hk. unfold profile_list in H.
  assert (X : forall {Y} (d : table Y), Some (map fst d) = Some keys -> exists e, In (k, e) d).
  { intros Y d E. injection E as E. rewrite <- E in Hk. apply in_map_iff in Hk as ([k' e] & E2 & Hi). simpl in E2. subst. eauto. }
  repeat match type of H with
  | (if String.eqb ?a ?b then _ else _) = _ => let E := fresh in destruct (String.eqb a b) eqn:E; [apply String.eqb_eq in E; subst; apply X in H; destruct H as (e & H)|]
  end; [..|discriminate H].
  - rewrite (ipe_made k e H). split; [tauto|discriminate].
  - rewrite (h_made k e H). split; [tauto|]. intros [E|[E|[E|[E|[_ E]]]]]; try discriminate E; exact E.
  - rewrite (hea_made k e H). split; [tauto|discriminate].
  - rewrite (heb_made k e H). split; [tauto|discriminate].
  - destruct e as [[[h b] tt] r]. rewrite (rhs_made k h b tt r H). split; [tauto|discriminate].
  - rewrite (chs_made k e H). split; [congruence|]. intros [E|[E|[E|[E|[E _]]]]]; discriminate E.
  - rewrite (shs_made k e H). split; [congruence|]. intros [E|[E|[E|[E|[E _]]]]]; discriminate E.
Qed.
