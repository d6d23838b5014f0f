From Verif Require Import Sections_proofs Plate_proofs Joint4_proofs Rhs3_proofs Loads_spec Loads_proofs Loads2_proofs.
From Verif Require Import Timber_model Timber_spec.
Require Import Psatz.

(* ------------------------------------------------------------ charring *)
Lemma depth_mono2 tch tf ta beta t t' : 0 <= beta -> tf <= ta -> tch <= t -> t <= t' -> (tch < tf -> t <> tf) -> (tch < tf -> t' <> tf) ->
  0 <= depth tch tf ta beta t <= depth tch tf ta beta t'.
Proof.
  intros B TA T T' N N'. destruct (Rlt_le_dec tch tf) as [L|L].
  - apply depth_mono; auto.
  - unfold depth. destruct (Rltb tch tf) eqn:E0; [apply Rltb_true in E0; lra|].
    destruct (Rltb t ta) eqn:D; [apply Rltb_true in D|apply Rltb_false in D];
    (destruct (Rltb t' ta) eqn:D'; [apply Rltb_true in D'|apply Rltb_false in D']); try (exfalso; lra); nra.
Qed.
Lemma side_mono fp beta t t' : 0 <= beta -> 0 <= t -> t <= t' -> side_ok fp t -> side_ok fp t' ->
  exists x x', d_char_n fp t beta = Some x /\ d_char_n fp t' beta = Some x' /\ 0 <= x <= x'.
Proof.
  intros B T T' K K'. destruct fp as [p|]; [|apply char_unprotected_lemma; auto].
  destruct K as (tf & ta & F & A & C & FA & N). destruct K' as (tf' & ta' & F' & A' & _ & _ & N').
  assert (tf' = tf) by congruence. subst tf'. assert (ta' = ta) by congruence. subst ta'.
  assert (P : prot_ok p tf ta) by (repeat split; auto; lra).
  destruct (k0_mono (Some p) t t' T T') as (K1 & K2 & K3).
  destruct (Rlt_le_dec t (t_ch p)) as [L|L].
  - rewrite (char_before_lemma p t beta L). destruct (Rlt_le_dec t' (t_ch p)) as [L'|L'].
    + rewrite (char_before_lemma p t' beta L'). do 2 eexists. repeat split; lra.
    + rewrite (d_char_eq p t' beta tf ta P) by lra. do 2 eexists. split; [reflexivity|split; [reflexivity|]].
      destruct (depth_mono2 (t_ch p) tf ta beta t' t') as [D _]; try lra; auto.
  - rewrite (d_char_eq p t beta tf ta P), (d_char_eq p t' beta tf ta P) by lra. do 2 eexists. split; [reflexivity|split; [reflexivity|]].
    destruct (depth_mono2 (t_ch p) tf ta beta t t') as [D D']; try lra; auto.
Qed.
Lemma side_zero fp beta : side_ok fp 0 -> d_char_n fp 0 beta = Some 0.
Proof.
  destruct fp as [p|]; cbn.
  - intros (tf & ta & F & A & C & _). apply char_before_lemma, C.
  - intros _. unfold d_char_n, k0. destruct (Rltb 0 20) eqn:E; [|apply Rltb_false in E; lra]. f_equal. lra.
Qed.
Lemma floor_pos x : 0 < floor_dim x.
Proof. unfold floor_dim. destruct (Rleb x 0) eqn:E; [lra|apply Rleb_false in E; lra]. Qed.
Lemma floor_mono x y : 1/100000 <= y \/ x <= y -> x <= y -> floor_dim x <= floor_dim y \/ (0 < y < 1/100000).
Proof.
  intros _ H. unfold floor_dim. destruct (Rleb x 0) eqn:E; destruct (Rleb y 0) eqn:F;
  [apply Rleb_true in E|apply Rleb_true in E|apply Rleb_false in E|apply Rleb_false in E];
  [apply Rleb_true in F|apply Rleb_false in F|apply Rleb_true in F|apply Rleb_false in F]; lra.
Qed.
Lemma dims_positive_lemma s : (forall h, sec_H s = Some h -> 0 < h) /\ (forall b, sec_B s = Some b -> 0 < b) /\
  (forall A, sec_A s = Some A -> 0 < A) /\ (forall I, sec_I s = Some I -> 0 < fst I /\ 0 < snd I) /\
  (forall W, sec_W s = Some W -> 0 < fst W /\ 0 < snd W).
Proof.
  assert (HH : forall h, sec_H s = Some h -> 0 < h).
  { intros h. unfold sec_H, char_H. destruct (d_char_n (ts_bottom s) (ts_R s) (ts_beta s)) as [d|]; [|discriminate]. cbn [bind].
    destruct (ts_four s); [destruct (d_char_n (ts_top s) (ts_R s) (ts_beta s)) as [d'|]; [|discriminate]|]; cbn [bind]; intros E; injection E as <-; apply floor_pos. }
  assert (HB : forall b, sec_B s = Some b -> 0 < b).
  { intros b. unfold sec_B. destruct (d_char_n (ts_right s) (ts_R s) (ts_beta s)) as [d|]; [|discriminate]. cbn [bind].
    destruct (d_char_n (ts_left s) (ts_R s) (ts_beta s)) as [d'|]; [|discriminate]. cbn [bind]. intros E; injection E as <-; apply floor_pos. }
  split; [exact HH|]. split; [exact HB|].
  unfold sec_A, sec_I, sec_W. destruct (sec_B s) as [b|]; cbn [bind]; [|repeat split; discriminate].
  destruct (sec_H s) as [h|]; cbn [bind]; [|repeat split; discriminate].
  specialize (HH h eq_refl). specialize (HB b eq_refl).
  assert (0 < b ^ 2 /\ 0 < h ^ 2 /\ 0 < b ^ 3 /\ 0 < h ^ 3) as (P1 & P2 & P3 & P4) by (repeat split; apply pow_lt; auto).
  repeat split; intros; match goal with H : Some _ = Some _ |- _ => apply some_inj in H; subst end; cbn [fst snd]; nra.
Qed.
Lemma fire_start_lemma s : ts_R s = 0 -> sides_ok s 0 -> 0 < ts_H s -> 0 < ts_B s ->
  sec_H s = Some (ts_H s) /\ sec_B s = Some (ts_B s) /\ sec_A s = Some (ts_B s * ts_H s).
Proof.
  intros Z (K1 & K2 & K3 & K4) PH PB.
  assert (E : sec_H s = Some (ts_H s)).
  { unfold sec_H, char_H. rewrite Z, (side_zero _ _ K3), (side_zero _ _ K4). cbn [bind].
    unfold floor_dim. destruct (ts_four s); f_equal.
    - destruct (Rleb (ts_H s - 0 - 0) 0) eqn:E; [apply Rleb_true in E; lra|lra].
    - destruct (Rleb (ts_H s - 0) 0) eqn:E; [apply Rleb_true in E; lra|lra]. }
  assert (E' : sec_B s = Some (ts_B s)).
  { unfold sec_B. rewrite Z, (side_zero _ _ K1), (side_zero _ _ K2). cbn [bind].
    unfold floor_dim. f_equal. destruct (Rleb (ts_B s - 0 - 0) 0) eqn:F; [apply Rleb_true in F; lra|lra]. }
  split; [exact E|]. split; [exact E'|]. unfold sec_A. rewrite E, E'. reflexivity.
Qed.
(** Floor of the dimensions: monotone up to the replacement value. *)
Lemma floor_le x y : x <= y -> floor_dim x <= Rmax (floor_dim y) (1/100000).
Proof.
  intros H. destruct (floor_mono x y (or_intror H) H) as [L|L].
  - apply Rle_trans with (1 := L). apply Rmax_l.
  - unfold floor_dim. destruct (Rleb x 0) eqn:E; [apply Rmax_r|]. apply Rleb_false in E. apply Rle_trans with (1/100000); [lra|apply Rmax_r].
Qed.
Lemma fire_mono_lemma s t t' h : 0 <= ts_beta s -> 0 <= t -> t <= t' -> sides_ok s t -> sides_ok s t' ->
  exists x x' b b', char_H (at_time s t) h = Some x /\ char_H (at_time s t') h = Some x' /\
    sec_B (at_time s t) = Some b /\ sec_B (at_time s t') = Some b' /\
    x' <= Rmax x (1/100000) /\ b' <= Rmax b (1/100000) /\
    (1/100000 <= h -> x <= h) /\ (1/100000 <= ts_B s -> b <= ts_B s).
Proof.
  intros B T T' (K1 & K2 & K3 & K4) (K1' & K2' & K3' & K4').
  destruct (side_mono _ _ t t' B T T' K1 K1') as (r & r' & R1 & R2 & R3).
  destruct (side_mono _ _ t t' B T T' K2 K2') as (l & l' & L1 & L2 & L3).
  destruct (side_mono _ _ t t' B T T' K3 K3') as (d & d' & D1 & D2 & D3).
  destruct (side_mono _ _ t t' B T T' K4 K4') as (u & u' & U1 & U2 & U3).
  unfold char_H, sec_B. cbn [at_time ts_H ts_B ts_beta ts_R ts_right ts_left ts_bottom ts_top ts_four].
  rewrite R1, R2, L1, L2, D1, D2, U1, U2. cbn [bind].
  destruct (ts_four s); do 4 eexists; (split; [reflexivity|split; [reflexivity|split; [reflexivity|split; [reflexivity|]]]]);
  (split; [apply floor_le; lra|split; [apply floor_le; lra|]]); split; intros Q; unfold floor_dim;
  match goal with |- (if ?c then _ else _) <= _ => destruct c; lra end.
Qed.
Lemma four_sides_lemma s h x y : (exists u, d_char_n (ts_top s) (ts_R s) (ts_beta s) = Some u /\ 0 <= u) ->
  ts_four s = true -> char_H s h = Some x ->
  char_H (mkTS (ts_H s) (ts_B s) (ts_beta s) (ts_R s) (ts_right s) (ts_left s) (ts_bottom s) (ts_top s) false) h = Some y ->
  x <= Rmax y (1/100000).
Proof.
  intros (u & U & P) F. unfold char_H. rewrite F. cbn. destruct (d_char_n (ts_bottom s) (ts_R s) (ts_beta s)) as [d|]; [|discriminate]. cbn [bind].
  rewrite U. cbn [bind]. intros E E'. apply some_inj in E. apply some_inj in E'. subst. apply floor_le. lra.
Qed.

(* ------------------------------------------------------------ protections *)
Ltac rleb := repeat match goal with
  | |- context [Rleb ?a ?b] => let E := fresh in destruct (Rleb a b) eqn:E; [apply Rleb_true in E|apply Rleb_false in E]; try (exfalso; lra)
  | |- context [Rltb ?a ?b] => let E := fresh in destruct (Rltb a b) eqn:E; [apply Rltb_true in E|apply Rltb_false in E]; try (exfalso; lra) end.
Lemma grade_charring g hp : 0 < hp -> exists b0 bn, charring_speed (td_rhok (gdata g)) (gtype g) true hp = Some (b0, bn) /\ 0 < b0 /\
  bn = match gtype g with solid => 8/10 | glt => 7/10 | lvl => if Rle_dec 480 (td_rhok (gdata g)) then 7/10 else 75/100 end.
Proof.
  intros P.
  assert (K : forall b0 bn rhok : R, 0 < b0 -> 0 < rhok -> exists b0' : R, bind (Some (b0, bn)) (fun b => if Rltb hp 20 then
    bind (psqrt (450 / rhok)) (fun krho => bind (pdiv 20 hp) (fun q => bind (psqrt q) (fun kh => Some (krho * kh * fst b, snd b))))
    else Some b) = Some (b0', bn) /\ 0 < b0').
  { intros b0 bn rhok P0 PR. cbn [bind]. destruct (Rltb hp 20); [|exists b0; auto].
    assert (0 < 450 / rhok) by (apply Rdiv_lt_0_compat; lra). assert (0 < 20 / hp) by (apply Rdiv_lt_0_compat; lra).
    unfold psqrt at 1. destruct (Rltb (450 / rhok) 0) eqn:E; [apply Rltb_true in E; lra|]. cbn [bind].
    rewrite pdiv_ok by lra. cbn [bind]. unfold psqrt. destruct (Rltb (20 / hp) 0) eqn:E2; [apply Rltb_true in E2; lra|]. cbn [bind fst snd].
    eexists. split; [reflexivity|]. repeat apply Rmult_lt_0_compat; try apply sqrt_lt_R0; auto. }
  unfold charring_speed. destruct g; cbn [gtype gdata td_rhok];
  repeat match goal with |- context [Rleb ?a ?b] => let E := fresh in destruct (Rleb a b) eqn:E; [apply Rleb_true in E|apply Rleb_false in E]; try (exfalso; lra) end;
  match goal with |- exists _ _, bind (Some (?x, ?y)) (fun b => if _ then bind (psqrt (450 / ?r)) _ else _) = _ /\ _ => destruct (K x y r) as (b0' & E & Q); [lra|lra|];
    exists b0', y; split; [exact E|]; split; [exact Q|] end; try reflexivity; destruct Rle_dec; lra.
Qed.
Lemma gypsum_lemma k gap g : exists p tf ta, prepare (td_rhok (gdata g)) (gtype g) true (gypsum_board k gap) = Some p /\
  t_f p = Some tf /\ t_a p = Some ta /\ 0 < t_ch p <= tf /\ tf < ta <= 2 * tf /\ t_ch p = bd_tch (gypsum_board k gap).
Proof.
  assert (HP : 0 < bd_hp (gypsum_board k gap)) by (destruct k; cbn; destruct (Rltb gap 2); cbn; lra).
  destruct (grade_charring g _ HP) as (b0 & bn & E & _ & BN).
  assert (PB : 7/10 <= bn <= 8/10) by (rewrite BN; destruct (gtype g); try lra; destruct Rle_dec; lra).
  unfold prepare. rewrite E. cbn [bind snd].
  assert (TF : exists tf, (if bd_F (gypsum_board k gap) then set_tf bn (bd_tch (gypsum_board k gap)) else bd_tf (gypsum_board k gap)) = Some tf /\ bd_tch (gypsum_board k gap) <= tf).
  { destruct (bd_F (gypsum_board k gap)) eqn:F.
    - unfold set_tf. rewrite pdiv_ok by lra. cbn [bind]. eexists. split; [reflexivity|].
      assert (0 < 125 / 10 / (73 / 100 * bn)) by (apply Rdiv_lt_0_compat; lra). lra.
    - destruct k; cbn in *; destruct (Rltb gap 2); cbn in *; try discriminate; eexists; split; try reflexivity; lra. }
  destruct TF as (tf & TF & LE). rewrite TF. cbn [bind]. unfold set_ta. rewrite pdiv_ok by lra. cbn [bind].
  assert (0 < 25 / (2 * bn)) by (apply Rdiv_lt_0_compat; lra).
  assert (0 < bd_tch (gypsum_board k gap)) by (destruct k; cbn; destruct (Rltb gap 2); cbn; lra).
  do 3 eexists. split; [reflexivity|]. cbn. split; [reflexivity|]. split; [reflexivity|]. split; [lra|]. split; [|reflexivity]. split; [|apply Rmin_l].
  apply Rmin_glb_lt; lra.
Qed.
Lemma gypsum_gap_lemma k gap gap' : gap < 2 -> 2 <= gap' -> bd_tch (gypsum_board k gap') + 9 = bd_tch (gypsum_board k gap) /\
  bd_hp (gypsum_board k gap') = bd_hp (gypsum_board k gap) /\ bd_F (gypsum_board k gap') = bd_F (gypsum_board k gap).
Proof.
  intros A B. unfold gypsum_board. destruct (Rltb gap 2) eqn:E; [|apply Rltb_false in E; lra].
  destruct (Rltb gap' 2) eqn:F; [apply Rltb_true in F; lra|]. destruct k; cbn; repeat split; lra.
Qed.
Lemma assign_lemma {A} (r l t b g : option A) sides :
  assign_protection r l t b g sides =
  (match r with Some _ => r | None => g end, match l with Some _ => l | None => g end, match b with Some _ => b | None => g end,
   if Nat.eqb sides 3 then t else match t with Some _ => t | None => g end).
Proof. unfold assign_protection, pick. destruct (Nat.eqb sides 3), r, l, t, b; reflexivity. Qed.
Lemma late_generic_lemma s k gap h : bd_tch (gypsum_board k gap) <= ts_R s ->
  ts_bottom s = Some (unprepared (gypsum_board k gap)) -> char_H s h = None.
Proof.
  intros T E. unfold char_H. rewrite E. unfold d_char_n, unprepared. cbn [t_ch t_f t_a].
  destruct (Rltb (ts_R s) (bd_tch (gypsum_board k gap))) eqn:L; [apply Rltb_true in L; lra|].
  destruct (bd_tf (gypsum_board k gap)) as [tf|] eqn:F; [|reflexivity]. cbn [bind].
  assert (Q : tf = bd_tch (gypsum_board k gap)) by (destruct k; cbn in *; destruct (Rltb gap 2); cbn in *; congruence).
  destruct (Rltb (bd_tch (gypsum_board k gap)) tf) eqn:C; [apply Rltb_true in C; lra|]. reflexivity.
Qed.
