(** Proofs about end plate joints: any groups and rows. *)
From Verif Require Import Base EC3_model Bool_tac EC3_proofs Plate_proofs Sections_proofs Cold_proofs Joint_model Joint_proofs.
From Verif Require Import Epj_model Epj_spec Epj_proofs.
Require Import Reals List Bool Lra Lia Psatz PeanoNat.
Import ListNotations.
Local Open Scope R_scope.

(** Same row up to the stored force. *)
Definition same (a b : erow) : Prop := set_F 0 a = set_F 0 b.
Lemma same_refl a : same a a. Proof. reflexivity. Qed.
Lemma same_trans a b c : same a b -> same b c -> same a c. Proof. unfold same; congruence. Qed.
Lemma same_set v a : same (set_F v a) a. Proof. reflexivity. Qed.
Lemma same_fields a b : same a b -> er_shear a = er_shear b /\ er_h a = er_h b /\ er_res a = er_res b /\ er_k a = er_k b /\ er_Fv a = er_Fv b /\ er_bear a = er_bear b.
Proof. destruct a, b; cbn; intros H; injection H; intros; subst; auto 10. Qed.
Lemma same_eq a b : same a b -> er_F a = er_F b -> a = b.
Proof. destruct a, b; cbn; intros H; injection H; intros; subst; auto. Qed.

Lemma upd_same i v : forall l, Forall2 same (upd_row i (set_F v) l) l.
Proof. revert i; intros i l; revert i; induction l; intros [|i]; cbn; constructor; auto using same_refl, same_set; clear; induction l; constructor; auto using same_refl. Qed.
Lemma f2_same_refl l : Forall2 same l l. Proof. induction l; constructor; auto using same_refl. Qed.
Lemma f2_same_trans a b c : Forall2 same a b -> Forall2 same b c -> Forall2 same a c.
Proof. intros H; revert c; induction H; intros c Hc; inversion Hc; subst; constructor; eauto using same_trans. Qed.
Lemma upd_nth i f : forall l j, nth_error (upd_row i f l) j = if Nat.eqb i j then option_map f (nth_error l j) else nth_error l j.
Proof.
  intros l; revert i; induction l; intros [|i] [|j]; cbn; auto.
  - destruct (Nat.eqb i j); reflexivity.
Qed.
Lemma F_upd i v l j : (i < length l)%nat -> F_at (upd_row i (set_F v) l) j = if Nat.eqb i j then v else F_at l j.
Proof.
  intros Hi; unfold F_at; rewrite upd_nth; destruct (Nat.eqb_spec i j); auto; subst.
  destruct (nth_error l j) eqn:E; auto; apply nth_error_None in E; lia.
Qed.
Lemma upd_len i f : forall l, length (upd_row i f l) = length l.
Proof. intros l; revert i; induction l; intros [|i]; cbn; auto. Qed.

Lemma group_same Fg : forall idx tot l, Forall2 same (group_loop idx Fg tot l) l.
Proof.
  induction idx; intros tot l; cbn; [apply f2_same_refl|].
  eapply f2_same_trans; [apply IHidx|apply upd_same].
Qed.
Lemma group_len Fg idx tot l : length (group_loop idx Fg tot l) = length l.
Proof. exact (f2_len (group_same Fg idx tot l)). Qed.
Lemma group_le Fg : forall idx tot l j, Forall (fun i => (i < length l)%nat) idx -> F_at (group_loop idx Fg tot l) j <= F_at l j.
Proof.
  induction idx; intros tot l j H; cbn; [lra|]; inversion H; subst.
  eapply Rle_trans; [apply IHidx; rewrite upd_len; auto|].
  rewrite F_upd by auto; destruct (Nat.eqb_spec a j); subst; [apply Rmin_l|lra].
Qed.
Lemma group_out Fg : forall idx tot l j, Forall (fun i => (i < length l)%nat) idx -> ~ In j idx -> F_at (group_loop idx Fg tot l) j = F_at l j.
Proof.
  induction idx; intros tot l j H Hn; cbn; auto; inversion H; subst.
  rewrite IHidx; [|rewrite upd_len; auto|intros Q; apply Hn; right; auto].
  rewrite F_upd by auto; destruct (Nat.eqb_spec a j); auto; subst; destruct Hn; left; auto.
Qed.
Lemma group_sum_ext l l' idx : (forall j, In j idx -> F_at l j = F_at l' j) -> group_sum l idx = group_sum l' idx.
Proof. unfold group_sum; intros H; f_equal; apply map_ext_in; auto. Qed.
Lemma group_bound Fg : forall idx tot l, Forall (fun i => (i < length l)%nat) idx -> NoDup idx -> idx <> [] ->
  tot + group_sum (group_loop idx Fg tot l) idx <= Fg.
Proof.
  induction idx as [|i t IH]; intros tot l H Hd Hne; [congruence|]; inversion H; subst; inversion Hd; subst.
  cbn [group_loop]; set (F := Rmin (F_at l i) (Fg - tot)).
  unfold group_sum; cbn [map]; rewrite Rsum_cons.
  assert (E : F_at (group_loop t Fg (tot + F) (upd_row i (set_F F) l)) i = F).
  { rewrite group_out; [|rewrite upd_len; auto|auto]; rewrite F_upd, Nat.eqb_refl by auto; reflexivity. }
  rewrite E; fold (group_sum (group_loop t Fg (tot + F) (upd_row i (set_F F) l)) t).
  destruct t as [|j t].
  - cbn; pose proof (Rmin_r (F_at l i) (Fg - tot)); fold F in H0; unfold group_sum; cbn; lra.
  - specialize (IH (tot + F) (upd_row i (set_F F) l) ltac:(rewrite upd_len; auto) H5 ltac:(discriminate)); lra.
Qed.
Lemma group_exact Fg : forall idx tot l, Forall (fun i => (i < length l)%nat) idx -> NoDup idx -> tot <= Fg ->
  Forall (fun i => 0 <= F_at l i) idx -> 
  tot + group_sum (group_loop idx Fg tot l) idx = Rmin (tot + group_sum l idx) Fg /\ Forall (fun i => 0 <= F_at (group_loop idx Fg tot l) i) idx.
Proof.
  induction idx as [|i t IH]; intros tot l H Hd Ht Hp.
  - unfold group_sum; cbn; rewrite Rmin_left by lra; split; [lra|constructor].
  - inversion H; subst; inversion Hd; subst; inversion Hp; subst.
    cbn [group_loop]; set (F := Rmin (F_at l i) (Fg - tot)).
    assert (HF : F <= Fg - tot) by apply Rmin_r.
    assert (HF0 : 0 <= F) by (apply Rmin_glb; lra).
    assert (E : F_at (group_loop t Fg (tot + F) (upd_row i (set_F F) l)) i = F).
    { rewrite group_out; [|rewrite upd_len; auto|auto]; rewrite F_upd, Nat.eqb_refl by auto; reflexivity. }
    assert (Ex : forall j, In j t -> F_at (upd_row i (set_F F) l) j = F_at l j).
    { intros j Hj; rewrite F_upd by auto; destruct (Nat.eqb_spec i j); auto; subst; contradiction. }
    destruct (IH (tot + F) (upd_row i (set_F F) l) ltac:(rewrite upd_len; auto) H5 ltac:(lra)) as [A B].
    { apply Forall_forall; intros j Hj; rewrite Ex by auto; rewrite Forall_forall in H7; auto. }
    split; [|constructor; [rewrite E; auto|exact B]].
    unfold group_sum; cbn [map]; rewrite !Rsum_cons, E.
    fold (group_sum (group_loop t Fg (tot + F) (upd_row i (set_F F) l)) t); fold (group_sum l t).
    rewrite (group_sum_ext _ l t Ex) in A.
    assert (P : 0 <= group_sum l t).
    { unfold group_sum; clear - H7; induction H7; cbn; try lra; change (fold_right Rplus 0 (map (F_at l) l0)) with (Rsum (map (F_at l) l0)); lra. }
    assert (Q : Rmin (tot + F + group_sum l t) Fg = Rmin (tot + (F_at l i + group_sum l t)) Fg).
    { unfold F; destruct (Rle_dec (F_at l i) (Fg - tot)).
      - rewrite (Rmin_left (F_at l i)) by lra; f_equal; lra.
      - rewrite (Rmin_right (F_at l i)) by lra; rewrite !Rmin_right by lra; reflexivity. }
    lra.
Qed.

(** The three loops. *)
Definition keeps (l' l : list erow) : Prop := Forall2 (fun a b => same a b /\ (er_shear b = true -> a = b)) l' l.
Lemma keeps_refl l : keeps l l. Proof. induction l; constructor; auto using same_refl. Qed.
Lemma keeps_trans a b c : keeps a b -> keeps b c -> keeps a c.
Proof.
  intros H; revert c; induction H as [|x y la lb [H1 H2] H IH]; intros c Hc; [inversion Hc; constructor|].
  inversion Hc as [|? z ? lc [H3 H4] H5]; subst; constructor; [|apply IH; exact H5].
  split; [exact (same_trans _ _ _ H1 H3)|]; intros Hz; destruct (same_fields _ _ H3) as (Es & _).
  rewrite H2 by congruence; apply H4; exact Hz.
Qed.
Lemma row_loop_keeps : forall l l1, row_loop l = Some l1 -> keeps l1 l.
Proof.
  induction l as [|r t IH]; cbn; intros l1 H; [injection H as <-; constructor|].
  destruct (er_shear r) eqn:E.
  - destruct (row_loop t); cbn in H; [injection H as <-|discriminate]; constructor; [split; auto using same_refl|apply IH; auto].
  - destruct (er_res r); cbn in H; [|discriminate]; destruct (row_loop t); cbn in H; [injection H as <-|discriminate].
    constructor; [split; [apply same_set|congruence]|apply IH; auto].
Qed.
Lemma row_loop_F : forall l l1, row_loop l = Some l1 -> forall i r, nth_error l i = Some r -> er_shear r = false -> er_res r = Some (F_at l1 i).
Proof.
  induction l as [|r t IH]; cbn; intros l1 H i r0 Hi Hs; [destruct i; discriminate|].
  destruct (er_shear r) eqn:E.
  - destruct (row_loop t) eqn:Et; cbn in H; [injection H as <-|discriminate].
    destruct i; cbn in Hi; [injection Hi as <-; congruence|]; exact (IH _ eq_refl i r0 Hi Hs).
  - destruct (er_res r) eqn:Er; cbn in H; [|discriminate]; destruct (row_loop t) eqn:Et; cbn in H; [injection H as <-|discriminate].
    destruct i; cbn in Hi; [injection Hi as <-; rewrite Er; reflexivity|]; exact (IH _ eq_refl i r0 Hi Hs).
Qed.
Lemma row_loop_ext : forall l l', keeps l' l -> row_loop l' = row_loop l.
Proof.
  induction 1 as [|a b la lb [H1 H2] H IH]; cbn; auto.
  destruct (same_fields _ _ H1) as (Es & _ & Er & _).
  destruct (er_shear b) eqn:Eb; rewrite Es, IH.
  - rewrite H2; auto.
  - rewrite Er; destruct (er_res b); cbn; auto.
    replace (set_F r a) with (set_F r b); auto; destruct a, b; cbn in *; injection H1; intros; subst; reflexivity.
Qed.
Lemma keeps_nth l' l : keeps l' l -> forall i r, nth_error l i = Some r -> exists r', nth_error l' i = Some r' /\ same r' r /\ (er_shear r = true -> r' = r).
Proof.
  induction 1 as [|a b la lb [H1 H2] H IH]; intros [|i] r Hi; try discriminate; cbn in *.
  - injection Hi as <-; eauto.
  - apply IH; auto.
Qed.
Lemma keeps_same l' l : keeps l' l -> Forall2 same l' l.
Proof. induction 1 as [|a b la lb [H1 H2] H IH]; constructor; auto. Qed.
Lemma keeps_len l' l : keeps l' l -> length l' = length l. Proof. exact f2_len. Qed.

Definition in_range (gs : list (list nat * option R)) (n : nat) : Prop := Forall (fun g => Forall (fun i => (i < n)%nat) (fst g)) gs.
Lemma keeps_group Fg idx tot l : Forall (fun i => (i < length l)%nat) idx ->
  Forall (fun i => forall r, nth_error l i = Some r -> er_shear r = false) idx -> keeps (group_loop idx Fg tot l) l.
Proof.
  intros Hr Hs; pose proof (group_same Fg idx tot l) as Hsame; pose proof (group_out Fg idx tot l) as Ho.
  revert Hsame Ho; generalize (group_loop idx Fg tot l) as l'; intros l' Hsame Ho.
  assert (K : forall i a b, nth_error l' i = Some a -> nth_error l i = Some b -> er_shear b = true -> er_F a = er_F b).
  { intros i a b Ha Hb Hb'; specialize (Ho i Hr); unfold F_at in Ho; rewrite Ha, Hb in Ho; apply Ho.
    intros Hin; rewrite Forall_forall in Hs; specialize (Hs i Hin b Hb); congruence. }
  clear Ho Hr Hs; induction Hsame; constructor.
  - split; auto; intros Hy; apply same_eq; auto; apply (K 0%nat x y); auto.
  - apply IHHsame; intros i a b Ha Hb; apply (K (S i) a b); auto.
Qed.
Lemma groups_tension_keeps gs l l' : keeps l' l -> groups_tension gs l -> groups_tension gs l'.
Proof.
  intros K; unfold groups_tension; apply Forall_impl; intros g; apply Forall_impl; intros i H r' Hr'.
  assert (Hl : (i < length l)%nat) by (rewrite <- (keeps_len _ _ K); apply nth_error_Some; congruence).
  destruct (nth_error l i) as [r|] eqn:E; [|apply nth_error_None in E; lia].
  destruct (keeps_nth _ _ K i r E) as (r1 & A & B & _); rewrite Hr' in A; injection A as <-.
  destruct (same_fields _ _ B); rewrite H0; auto.
Qed.
Lemma groups_loop_facts : forall gs l l2, groups_loop gs l = Some l2 -> in_range gs (length l) ->
  Forall2 same l2 l /\ (forall j, F_at l2 j <= F_at l j) /\
  (forall idx Fg, In (idx, Fg) gs -> NoDup idx -> idx <> [] -> exists c, Fg = Some c /\ group_sum l2 idx <= c) /\
  (groups_tension gs l -> keeps l2 l).
Proof.
  induction gs as [|[idx Fg] t IH]; intros l l2 H Hr.
  - cbn in H; injection H as <-; split; [apply f2_same_refl|split; [intros; lra|split; [intros ? ? []|intros; apply keeps_refl]]].
  - cbn in H; destruct Fg as [c|]; [|discriminate]; cbn [bind] in H.
    inversion Hr as [|? ? Hi Ht]; subst; cbn [fst] in Hi.
    destruct (IH _ _ H) as (A & B & D & E); [unfold in_range; rewrite group_len; exact Ht|].
    repeat split.
    + eapply f2_same_trans; [exact A|apply group_same].
    + intros j; eapply Rle_trans; [apply B|apply group_le; auto].
    + intros idx' Fg' [Heq|Hin] Hd Hne.
      * injection Heq as <- <-; exists c; split; auto.
        pose proof (group_bound c idx 0 l Hi Hd Hne) as Q.
        assert (Q2 : group_sum l2 idx <= group_sum (group_loop idx c 0 l) idx) by (unfold group_sum; apply Rsum_map_le; intros; apply B).
        lra.
      * apply D; auto.
    + intros Hg; inversion Hg as [|? ? Hg1 Hg2]; subst; cbn [fst] in Hg1.
      assert (K : keeps (group_loop idx c 0 l) l) by (apply keeps_group; auto).
      eapply keeps_trans; [apply E|exact K].
      eapply groups_tension_keeps; [exact K|exact Hg2].
Qed.
Lemma comp_keeps C : forall l tot, keeps (comp_loop C tot l) l.
Proof.
  induction l; intros tot; cbn; [constructor|]; destruct (er_shear a) eqn:E; constructor.
  - split; auto using same_refl.
  - apply IHl.
  - split; [apply same_set|congruence].
  - apply IHl.
Qed.
Lemma comp_le C : forall l tot j, F_at (comp_loop C tot l) j <= F_at l j.
Proof.
  induction l; intros tot [|j]; unfold F_at; cbn; try lra; destruct (er_shear a) eqn:E; cbn; try lra; try apply Rmin_l;
  [apply (IHl tot j)|apply (IHl _ j)].
Qed.
Definition tension_sum (l : list erow) : R := Rsum (map er_F (tension_part l)).
Lemma tension_sum_cons r l : tension_sum (r :: l) = (if er_shear r then 0 else er_F r) + tension_sum l.
Proof. unfold tension_sum, tension_part; cbn [filter]; destruct (er_shear r); cbn [negb map]; rewrite ?Rsum_cons; lra. Qed.
Lemma comp_exact C : forall l tot, tot <= C -> Forall (fun r => er_shear r = false -> 0 <= er_F r) l ->
  tot + tension_sum (comp_loop C tot l) = Rmin (tot + tension_sum l) C /\
  Forall (fun r => er_shear r = false -> 0 <= er_F r) (comp_loop C tot l) /\ 0 <= tension_sum l.
Proof.
  induction l as [|r t IH]; intros tot Ht H.
  - unfold tension_sum; cbn; rewrite Rmin_left by lra; split; [lra|split; [constructor|lra]].
  - inversion H; subst; cbn [comp_loop]; destruct (er_shear r) eqn:E.
    + destruct (IH tot Ht H3) as (A & B & D); rewrite !tension_sum_cons, E; split; [|split]; [|constructor; auto; congruence|lra].
      rewrite !Rplus_0_l; exact A.
    + set (F := Rmin (er_F r) (C - tot)).
      assert (HF : F <= C - tot) by apply Rmin_r.
      assert (HF0 : 0 <= F) by (apply Rmin_glb; [auto|lra]).
      destruct (IH (tot + F) ltac:(lra) H3) as (A & B & D); rewrite !tension_sum_cons; cbn [set_F er_shear er_F]; rewrite E.
      split; [|split]; [|constructor; auto|specialize (H2 eq_refl); lra].
      assert (Q : Rmin (tot + F + tension_sum t) C = Rmin (tot + (er_F r + tension_sum t)) C).
      { unfold F; destruct (Rle_dec (er_F r) (C - tot)).
        - rewrite (Rmin_left (er_F r)) by lra; f_equal; lra.
        - rewrite (Rmin_right (er_F r)) by lra; rewrite !Rmin_right by lra; reflexivity. }
      lra.
Qed.
Lemma comp_bound C : forall l tot, (exists r, In r l /\ er_shear r = false) -> tot + tension_sum (comp_loop C tot l) <= C.
Proof.
  induction l as [|r t IH]; intros tot (x & Hx & Hs); [destruct Hx|].
  cbn [comp_loop]; destruct (er_shear r) eqn:E; rewrite tension_sum_cons; cbn [set_F er_shear er_F]; rewrite E.
  - destruct Hx as [->|Hx]; [congruence|]; specialize (IH tot (ex_intro _ x (conj Hx Hs))); lra.
  - pose proof (Rmin_r (er_F r) (C - tot)) as M; set (F := Rmin (er_F r) (C - tot)) in *.
    destruct (in_dec Bool.bool_dec false (map er_shear t)) as [Hin|Hn].
    + apply in_map_iff in Hin; destruct Hin as (y & Hy & Hiny); specialize (IH (tot + F) (ex_intro _ y (conj Hiny Hy))); lra.
    + assert (Z : forall tot, tension_sum (comp_loop C tot t) = 0).
      { clear -Hn; induction t as [|y t IH]; intros tot; [reflexivity|]; cbn [comp_loop].
        cbn in Hn; destruct (er_shear y) eqn:E; [|tauto]; rewrite tension_sum_cons, E, IH by tauto; lra. }
      rewrite Z; lra.
Qed.
Lemma groups_nonneg : forall gs l l2, groups_loop gs l = Some l2 -> in_range gs (length l) -> groups_tension gs l ->
  Forall (fun g => NoDup (fst g) /\ forall c, snd g = Some c -> 0 <= c) gs ->
  Forall (fun r => er_shear r = false -> 0 <= er_F r) l -> Forall (fun r => er_shear r = false -> 0 <= er_F r) l2.
Proof.
  induction gs as [|[idx Fg] t IH]; intros l l2 H Hr Hg Hp Hl; cbn in H; [injection H as <-; auto|].
  destruct Fg as [c|]; [|discriminate]; cbn [bind] in H.
  inversion Hr as [|? ? Hi Ht]; subst; inversion Hg as [|? ? Hg1 Hg2]; subst; inversion Hp as [|? ? [Hp1 Hp2] Hp3]; subst; cbn [fst snd] in *.
  assert (K : keeps (group_loop idx c 0 l) l) by (apply keeps_group; auto).
  apply (IH _ _ H); [unfold in_range; rewrite group_len; exact Ht|eapply groups_tension_keeps; [exact K|exact Hg2]|exact Hp3|].
  assert (Pidx : Forall (fun i => 0 <= F_at l i) idx).
  { apply Forall_forall; intros i Hii; rewrite Forall_forall in Hi, Hg1; unfold F_at.
    destruct (nth_error l i) as [r|] eqn:E; [|lra].
    rewrite Forall_forall in Hl; apply Hl; [eapply nth_error_In; eauto|exact (Hg1 i Hii r E)]. }
  destruct (group_exact c idx 0 l Hi Hp1 (Hp2 c eq_refl) Pidx) as [_ Q].
  apply Forall_forall; intros r' Hin Hs'; apply In_nth_error in Hin; destruct Hin as [i Hii].
  assert (Ei : er_F r' = F_at (group_loop idx c 0 l) i) by (unfold F_at; rewrite Hii; reflexivity).
  rewrite Ei; destruct (in_dec Nat.eq_dec i idx) as [Hin|Hn].
  - rewrite Forall_forall in Q; auto.
  - rewrite group_out by auto; unfold F_at; destruct (nth_error l i) as [r|] eqn:E; [|lra].
    destruct (keeps_nth _ _ K i r E) as (r1 & A & B & _); rewrite Hii in A; injection A as <-.
    rewrite Forall_forall in Hl; apply Hl; [eapply nth_error_In; eauto|].
    destruct (same_fields _ _ B); congruence.
Qed.

Lemma bend_inv Fcom gs l l' M : bend Fcom gs l = Some (l', M) -> exists l1 l2, row_loop l = Some l1 /\ groups_loop gs l1 = Some l2 /\ l' = comp_loop Fcom 0 l2 /\ M = row_moment l'.
Proof.
  unfold bend; intros H; destruct (row_loop l) as [l1|] eqn:A; cbn in H; [|discriminate].
  destruct (groups_loop gs l1) as [l2|] eqn:B; cbn in H; [|discriminate].
  injection H as <- <-; eauto 10.
Qed.
Lemma keeps_h l' l : keeps l' l -> map er_h l' = map er_h l.
Proof. induction 1 as [|a b la lb [H1 H2] H IH]; cbn; auto; destruct (same_fields _ _ H1) as (_ & -> & _); rewrite IH; auto. Qed.

Lemma bend_adm_lemma Fcom gs l l' M :
  bend Fcom gs l = Some (l', M) -> Forall (fun g => Forall (fun i => (i < length l)%nat) (fst g)) gs ->
  map er_h l' = map er_h l /\ map er_shear l' = map er_shear l /\
  (forall i r, nth_error l i = Some r -> er_shear r = false -> exists F, er_res r = Some F /\ F_at l' i <= F) /\
  (forall idx Fg, In (idx, Fg) gs -> NoDup idx -> idx <> [] -> exists c, Fg = Some c /\ group_sum l' idx <= c) /\
  ((exists r, In r l /\ er_shear r = false) -> Rsum (map er_F (tension_part l')) <= Fcom).
Proof.
  intros H Hr; destruct (bend_inv _ _ _ _ _ H) as (l1 & l2 & A & B & E & EM).
  pose proof (row_loop_keeps _ _ A) as K1.
  assert (Hr1 : in_range gs (length l1)) by (unfold in_range; rewrite (keeps_len _ _ K1); exact Hr).
  destruct (groups_loop_facts gs l1 l2 B Hr1) as (S2 & Le2 & G2 & K2).
  pose proof (comp_keeps Fcom l2 0) as K3; rewrite <- E in K3.
  assert (Same : Forall2 same l' l).
  { eapply f2_same_trans; [|eapply f2_same_trans; [exact S2|]].
    - exact (keeps_same _ _ K3).
    - exact (keeps_same _ _ K1). }
  assert (Le3 : forall j, F_at l' j <= F_at l2 j) by (intros; rewrite E; apply comp_le).
  repeat split.
  - clear -Same; induction Same; cbn; auto; destruct (same_fields _ _ H) as (_ & -> & _); rewrite IHSame; auto.
  - clear -Same; induction Same; cbn; auto; destruct (same_fields _ _ H) as (-> & _); rewrite IHSame; auto.
  - intros i r Hi Hs; exists (F_at l1 i); split; [exact (row_loop_F _ _ A i r Hi Hs)|].
    pose proof (Le2 i); pose proof (Le3 i); lra.
  - intros idx Fg Hin Hd Hne; destruct (G2 idx Fg Hin Hd Hne) as (c & -> & Q); exists c; split; auto.
    eapply Rle_trans; [|exact Q]; unfold group_sum; apply Rsum_map_le; intros; apply Le3.
  - intros (r & Hin & Hs); rewrite E; fold (tension_sum (comp_loop Fcom 0 l2)).
    pose proof (comp_bound Fcom l2 0) as Q; rewrite Rplus_0_l in Q; apply Q.
    assert (S' : Forall2 same l2 l) by (eapply f2_same_trans; [exact S2|exact (keeps_same _ _ K1)]).
    clear -S' Hin Hs; induction S'; [destruct Hin|]; destruct Hin as [->|Hin].
    + exists x; split; [left; auto|]; destruct (same_fields _ _ H); congruence.
    + destruct (IHS' Hin) as (z & Hz & Hz'); exists z; split; [right; auto|auto].
Qed.

Lemma tension_keeps_nonneg l l1 : row_loop l = Some l1 -> Forall (fun r => er_shear r = false -> exists F, er_res r = Some F /\ 0 <= F) l -> Forall (fun r => er_shear r = false -> 0 <= er_F r) l1.
Proof.
  revert l1; induction l as [|r t IH]; cbn; intros l1 H Hp; [injection H as <-; constructor|]; inversion Hp; subst.
  destruct (er_shear r) eqn:E.
  - destruct (row_loop t) eqn:Et; cbn in H; [injection H as <-|discriminate]; constructor; [congruence|auto].
  - destruct (H2 eq_refl) as (F & HF & HF0); rewrite HF in H; cbn in H; destruct (row_loop t) eqn:Et; cbn in H; [injection H as <-|discriminate].
    constructor; [intros; exact HF0|auto].
Qed.
Lemma bend_full_lemma Fcom gs l l' M :
  bend Fcom gs l = Some (l', M) -> Forall (fun g => Forall (fun i => (i < length l)%nat) (fst g)) gs ->
  groups_tension gs l -> Forall (fun g => NoDup (fst g) /\ forall c, snd g = Some c -> 0 <= c) gs ->
  Forall (fun r => er_shear r = false -> exists F, er_res r = Some F /\ 0 <= F) l -> 0 <= Fcom ->
  Forall (fun r => er_shear r = false -> 0 <= er_F r) l' /\ 0 <= Rsum (map er_F (tension_part l')) <= Fcom /\
  shear_part l' = shear_part l /\
  M = Rsum (map (fun r => er_F r * er_h r) (tension_part l')) + Rsum (map (fun r => er_F r * er_h r) (shear_part l)) /\
  (forall H, Forall (fun r => er_shear r = false -> er_h r <= H) l -> 0 <= H ->
     Rsum (map (fun r => er_F r * er_h r) (tension_part l')) <= Fcom * H) /\
  bend Fcom gs l' = Some (l', M).
Proof.
  intros H Hr Hg Hgp Hp HF; destruct (bend_inv _ _ _ _ _ H) as (l1 & l2 & A & B & E & EM).
  pose proof (row_loop_keeps _ _ A) as K1.
  assert (Hr1 : in_range gs (length l1)) by (unfold in_range; rewrite (keeps_len _ _ K1); exact Hr).
  destruct (groups_loop_facts gs l1 l2 B Hr1) as (S2 & Le2 & G2 & K2).
  specialize (K2 (groups_tension_keeps gs l l1 K1 Hg)).
  pose proof (comp_keeps Fcom l2 0) as K3; rewrite <- E in K3.
  assert (K : keeps l' l) by (eapply keeps_trans; [exact K3|eapply keeps_trans; [exact K2|exact K1]]).
  pose proof (tension_keeps_nonneg l l1 A Hp) as N1.
  pose proof (groups_nonneg gs l1 l2 B Hr1 (groups_tension_keeps gs l l1 K1 Hg) Hgp N1) as N2.
  destruct (comp_exact Fcom l2 0 HF N2) as (C1 & C2 & C3); rewrite <- E in C1, C2; rewrite !Rplus_0_l in C1.
  assert (N3 : 0 <= tension_sum l' <= Fcom).
  { rewrite C1; split; [apply Rmin_glb; auto|apply Rmin_r]. }
  split; [exact C2|split; [exact N3|split]].
  { clear -K; induction K as [|a b la lb [H1 H2] H IH]; cbn; auto; destruct (same_fields _ _ H1) as (Es & _).
    unfold shear_part in *; cbn [filter]; rewrite Es; destruct (er_shear b) eqn:Eb; rewrite IH; auto; rewrite H2; auto. }
  assert (Sp : shear_part l' = shear_part l).
  { clear -K; induction K as [|a b la lb [H1 H2] H IH]; cbn; auto; destruct (same_fields _ _ H1) as (Es & _).
    unfold shear_part in *; cbn [filter]; rewrite Es; destruct (er_shear b) eqn:Eb; rewrite IH; auto; rewrite H2; auto. }
  split; [|split].
  - rewrite EM, <- Sp; unfold row_moment, tension_part, shear_part; clear; induction l' as [|r t IH]; cbn [filter map]; [cbn; lra|].
    rewrite Rsum_cons, IH; destruct (er_shear r); cbn [negb map]; rewrite Rsum_cons; lra.
  - intros Hm HH Hm0.
    assert (Q : Rsum (map (fun r => er_F r * er_h r) (tension_part l')) <= tension_sum l' * Hm).
    { assert (HH' : Forall (fun r => er_shear r = false -> er_h r <= Hm) l').
      { clear -K HH; induction K as [|a b la lb [H1 H2] H IH]; constructor; inversion HH; subst; auto.
        destruct (same_fields _ _ H1) as (-> & -> & _); auto. }
      clear -C2 HH' Hm0; unfold tension_sum, tension_part; induction C2 as [|r t Hr Ht IH]; cbn [filter map]; [cbn; lra|].
      inversion HH'; subst; destruct (er_shear r) eqn:Es; cbn [negb map]; [auto|]; rewrite !Rsum_cons.
      specialize (IH H2); specialize (Hr eq_refl); specialize (H1 eq_refl).
      assert (er_F r * er_h r <= er_F r * Hm) by (apply Rmult_le_compat_l; auto); lra. }
    nra.
  - unfold bend; rewrite (row_loop_ext l l' K), A; cbn [bind]; rewrite B; cbn [bind]; rewrite <- E, <- EM; reflexivity.
Qed.
Lemma unused_lemma Fcom gs l l' M :
  bend Fcom gs l = Some (l', M) -> Forall (fun g => Forall (fun i => (i < length l)%nat) (fst g)) gs ->
  groups_tension gs l -> Forall (fun g => NoDup (fst g) /\ forall c, snd g = Some c -> 0 <= c) gs ->
  Forall (fun r => er_shear r = false -> exists F, er_res r = Some F /\ 0 <= F) l -> 0 <= Fcom -> unused l ->
  M = Rsum (map (fun r => er_F r * er_h r) (tension_part l')) - Rsum (map er_h (shear_part l)).
Proof.
  intros H H1 H2 H3 H4 H5 Hu; destruct (bend_full_lemma _ _ _ _ _ H H1 H2 H3 H4 H5) as (_ & _ & _ & E & _).
  rewrite E; replace (Rsum (map (fun r => er_F r * er_h r) (shear_part l))) with (- Rsum (map er_h (shear_part l))); [lra|].
  clear -Hu; induction Hu; unfold shear_part in *; cbn [filter map]; [cbn; lra|].
  destruct (er_shear x); cbn [map]; rewrite ?Rsum_cons, <- ?IHHu, ?H; lra.
Qed.
