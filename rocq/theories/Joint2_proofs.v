From Coq Require Import Rpower.
From Verif Require Import Joint_model.
From Verif Require Import Sections_proofs Sections3_proofs Plate_proofs Loads2_proofs Joint_proofs.
From Verif Require Import Joint_model Joint_spec.

(* ------------------------------------------------------------- T-stubs *)
Lemma n_pos : forall t, stub_ok t -> 0 < ts_n t.
Proof. intros t [A [B [C [D _]]]]. unfold ts_n, Rmin. destruct Rle_dec; lra. Qed.
Lemma F1_form : forall t, stub_ok t -> F_T_1 t = Some (ts_fy t * ts_tf t ^ 2 * Rmin (ts_cp t) (ts_nc t) / ts_m t).
Proof. intros t [A [B [C [D E]]]]. unfold F_T_1. rewrite pdiv_ok by lra. f_equal. unfold Mpl, leff_1, gammaM0. field. lra. Qed.
Lemma F2_form : forall t, stub_ok t -> F_T_2 t = Some ((ts_fy t * ts_tf t ^ 2 / 2 * ts_nc t + ts_n t * ts_F3 t) / (ts_m t + ts_n t)).
Proof.
  intros t H. pose proof (n_pos t H). destruct H as [A [B [C [D E]]]]. unfold F_T_2. rewrite pdiv_ok by lra. f_equal.
  unfold Mpl, leff_2, gammaM0. field. lra.
Qed.
Lemma tstub_lemma : forall t, stub_ok t -> exists F i F1 F2, FT_Rd t = Some (F, i) /\
  F1 = ts_fy t * ts_tf t ^ 2 * Rmin (ts_cp t) (ts_nc t) / ts_m t /\
  F2 = (ts_fy t * ts_tf t ^ 2 / 2 * ts_nc t + ts_n t * ts_F3 t) / (ts_m t + ts_n t) /\
  F = Rmin F1 (Rmin F2 (ts_F3 t)) /\ 0 < F /\ (i <= 2)%nat /\ nth i [F1; F2; ts_F3 t] 0 = F /\
  (forall k, (k < i)%nat -> F < nth k [F1; F2; ts_F3 t] 0).
Proof.
  intros t H. pose proof (n_pos t H) as N. unfold FT_Rd. rewrite (F1_form t H), (F2_form t H). cbn [bind].
  destruct H as [A [B [C [D [E1 [E2 E3]]]]]].
  assert (G : 0 < ts_fy t * ts_tf t ^ 2) by (assert (0 < ts_tf t ^ 2) by (simpl; nra); nra).
  assert (P1 : 0 < ts_fy t * ts_tf t ^ 2 * Rmin (ts_cp t) (ts_nc t) / ts_m t).
  { apply Rdiv_lt_0_compat; auto. apply Rmult_lt_0_compat; auto. unfold Rmin; destruct Rle_dec; auto. }
  assert (P2 : 0 < (ts_fy t * ts_tf t ^ 2 / 2 * ts_nc t + ts_n t * ts_F3 t) / (ts_m t + ts_n t)).
  { apply Rdiv_lt_0_compat; [|lra]. assert (0 < ts_n t * ts_F3 t) by nra. nra. }
  set (F1 := ts_fy t * ts_tf t ^ 2 * Rmin (ts_cp t) (ts_nc t) / ts_m t) in *.
  set (F2 := (ts_fy t * ts_tf t ^ 2 / 2 * ts_nc t + ts_n t * ts_F3 t) / (ts_m t + ts_n t)) in *.
  set (F3 := ts_F3 t) in *.
  eexists _, _, F1, F2. split; [reflexivity|]. split; [reflexivity|]. split; [reflexivity|].
  unfold argmin3.
  destruct (Rleb F1 F2) eqn:X1; cbn [andb]; [apply Rleb_true in X1|apply Rleb_false in X1].
  - destruct (Rleb F1 F3) eqn:X2; [apply Rleb_true in X2|apply Rleb_false in X2].
    + repeat split; try lia; auto. unfold Rmin; repeat destruct Rle_dec; lra.
    + destruct (Rleb F2 F3) eqn:X3; [apply Rleb_true in X3; lra|apply Rleb_false in X3].
      repeat split; auto. unfold Rmin; repeat destruct Rle_dec; lra.
      intros k K. destruct k as [|[|k]]; [simpl; lra|simpl; lra|lia].
  - destruct (Rleb F2 F3) eqn:X3; [apply Rleb_true in X3|apply Rleb_false in X3].
    + repeat split; auto; try lia. unfold Rmin; repeat destruct Rle_dec; lra.
      intros k K. destruct k as [|k]; [simpl; lra|lia].
    + repeat split; auto. unfold Rmin; repeat destruct Rle_dec; lra.
      intros k K. destruct k as [|[|k]]; [simpl; lra|simpl; lra|lia].
Qed.
Lemma resistance_form : forall t, stub_ok t -> resistance t = Some (Rmin (ts_fy t * ts_tf t ^ 2 * Rmin (ts_cp t) (ts_nc t) / ts_m t)
   (Rmin ((ts_fy t * ts_tf t ^ 2 / 2 * ts_nc t + ts_n t * ts_F3 t) / (ts_m t + ts_n t)) (ts_F3 t))).
Proof.
  intros t H. destruct (tstub_lemma t H) as [F [i [F1 [F2 [A [B [C [D _]]]]]]]]. unfold resistance. rewrite A. cbn. subst. reflexivity.
Qed.
Lemma tstub_mono_lemma : forall t t' F F', stub_ok t -> stub_ok t' -> ts_m t' = ts_m t -> ts_emin t' = ts_emin t ->
  ts_tf t <= ts_tf t' -> ts_fy t <= ts_fy t' -> ts_cp t <= ts_cp t' -> ts_nc t <= ts_nc t' -> ts_F3 t <= ts_F3 t' ->
  resistance t = Some F -> resistance t' = Some F' -> F <= F' /\ F <= ts_F3 t.
Proof.
  intros t t' F F' H H' M E T Y CP NC F3 R R'. rewrite (resistance_form t H) in R. rewrite (resistance_form t' H') in R'.
  apply some_inj in R. apply some_inj in R'. subst F F'.
  assert (N : ts_n t' = ts_n t) by (unfold ts_n; rewrite M, E; auto). rewrite N, M. pose proof (n_pos t H) as NP.
  destruct H as [A [B [C [D [G1 [G2 G3]]]]]].
  assert (Q : ts_fy t * ts_tf t ^ 2 <= ts_fy t' * ts_tf t' ^ 2).
  { assert (0 < ts_tf t ^ 2) by (simpl; nra). assert (ts_tf t ^ 2 <= ts_tf t' ^ 2) by (simpl; nra). nra. }
  assert (Q0 : 0 < ts_fy t * ts_tf t ^ 2) by (assert (0 < ts_tf t ^ 2) by (simpl; nra); nra).
  set (q := ts_fy t * ts_tf t ^ 2) in *. set (q' := ts_fy t' * ts_tf t' ^ 2) in *.
  assert (L : Rmin (ts_cp t) (ts_nc t) <= Rmin (ts_cp t') (ts_nc t')) by (unfold Rmin; repeat destruct Rle_dec; lra).
  assert (L0 : 0 < Rmin (ts_cp t) (ts_nc t)) by (unfold Rmin; repeat destruct Rle_dec; lra).
  set (l := Rmin (ts_cp t) (ts_nc t)) in *. set (l' := Rmin (ts_cp t') (ts_nc t')) in *.
  assert (X1 : q * l / ts_m t <= q' * l' / ts_m t) by (apply div_le; [lra|nra]).
  assert (X2 : (q / 2 * ts_nc t + ts_n t * ts_F3 t) / (ts_m t + ts_n t) <= (q' / 2 * ts_nc t' + ts_n t * ts_F3 t') / (ts_m t + ts_n t)).
  { apply div_le; [lra|]. assert (q * ts_nc t <= q' * ts_nc t') by nra. assert (ts_n t * ts_F3 t <= ts_n t * ts_F3 t') by nra. lra. }
  split. { unfold Rmin; repeat destruct Rle_dec; lra. }
  { unfold Rmin; repeat destruct Rle_dec; lra. }
Qed.

Lemma inner_stub_ok : forall tf fy emin e F m, 0 < tf -> 0 < fy -> 0 < emin -> 0 < e -> 0 < F -> 0 < m -> stub_ok (inner_stub tf fy emin e F m).
Proof. intros. pose proof PI_lo. unfold stub_ok, inner_stub; cbn. repeat split; auto; nra. Qed.
Lemma inner_mono_lemma : forall tf fy emin e F m m', 0 < tf -> 0 < fy -> 0 < emin -> 0 < e -> 0 < F -> 0 < m -> m <= m' ->
  exists R R', resistance (inner_stub tf fy emin e F m) = Some R /\ resistance (inner_stub tf fy emin e F m') = Some R' /\ R' <= R.
Proof.
  intros tf fy emin e F m m' T Y EM E HF M MM.
  assert (OK : stub_ok (inner_stub tf fy emin e F m)) by (apply inner_stub_ok; auto).
  assert (OK' : stub_ok (inner_stub tf fy emin e F m')) by (apply inner_stub_ok; auto; lra).
  rewrite (resistance_form _ OK), (resistance_form _ OK').
  pose proof (n_pos _ OK) as NP. pose proof (n_pos _ OK') as NP'.
  eexists _, _. split; [reflexivity|]. split; [reflexivity|].
  unfold inner_stub, ts_n in *. cbn [ts_fy ts_tf ts_cp ts_nc ts_m ts_emin ts_F3] in *.
  set (n := Rmin emin (125/100 * m)) in *. set (n' := Rmin emin (125/100 * m')) in *.
  assert (NN : n <= n') by (unfold n, n', Rmin; repeat destruct Rle_dec; lra).
  assert (K : n' * m <= n * m') by (unfold n, n', Rmin; repeat destruct Rle_dec; nra).
  assert (Q0 : 0 < fy * tf ^ 2) by (assert (0 < tf ^ 2) by (simpl; nra); nra).
  set (q := fy * tf ^ 2) in *.
  pose proof PI_lo.
  assert (X1 : q * Rmin (2 * PI * m') (4 * m' + 125/100 * e) / m' <= q * Rmin (2 * PI * m) (4 * m + 125/100 * e) / m).
  { apply (proj2 (div_le_iff _ m' _ ltac:(lra))).
    replace (q * Rmin (2 * PI * m) (4 * m + 125/100 * e) / m * m') with (q * (Rmin (2 * PI * m) (4 * m + 125/100 * e) * m' / m)) by (field; lra).
    apply Rmult_le_compat_l; [lra|]. apply (proj2 (le_div_iff _ m _ M)).
    destruct (Rle_dec (2 * PI * m) (4 * m + 125/100 * e)) as [W|W].
    - rewrite (Rmin_left (2 * PI * m)) by auto. apply Rle_trans with (2 * PI * m' * m); [|nra].
      apply Rmult_le_compat_r; [lra|]. apply Rmin_l.
    - rewrite (Rmin_right (2 * PI * m)) by lra. apply Rle_trans with ((4 * m' + 125/100 * e) * m); [|nra].
      apply Rmult_le_compat_r; [lra|]. apply Rmin_r. }
  set (A1 := q * Rmin (2 * PI * m) (4 * m + 125/100 * e) / m) in *.
  set (A1' := q * Rmin (2 * PI * m') (4 * m' + 125/100 * e) / m') in *.
  set (B := (q / 2 * (4 * m + 125/100 * e) + n * F) / (m + n)).
  set (B' := (q / 2 * (4 * m' + 125/100 * e) + n' * F) / (m' + n')).
  destruct (Rle_dec F B) as [W|W].
  - unfold Rmin; repeat destruct Rle_dec; lra.
  - assert (W1 : B < F) by lra.
    assert (F4 : q / 2 * 4 <= F).
    { unfold B in W1. assert (Z := proj1 (le_div_iff (q / 2 * (4 * m + 125/100 * e) + n * F) (m + n) B ltac:(lra)) (Rle_refl _)).
      destruct (Rle_dec (q / 2 * 4) F); auto. exfalso. apply W.
      apply (proj2 (le_div_iff _ (m + n) _ ltac:(lra))). assert (0 < q * e) by nra. nra. }
    assert (X2 : B' <= B).
    { unfold B, B'. apply (proj2 (div_le_iff _ (m' + n') _ ltac:(lra))).
      replace ((q / 2 * (4 * m + 125/100 * e) + n * F) / (m + n) * (m' + n')) with ((q / 2 * (4 * m + 125/100 * e) + n * F) * (m' + n') / (m + n)) by (field; lra).
      apply (proj2 (le_div_iff _ (m + n) _ ltac:(lra))).
      assert (Z1 : 0 <= (F - q / 2 * 4) * (n * m' - n' * m)) by (apply Rmult_le_pos; lra).
      assert (Z2 : 0 <= q / 2 * (125/100 * e) * (m' - m + (n' - n))).
      { apply Rmult_le_pos; [|lra]. apply Rmult_le_pos; lra. }
      lra. }
    unfold Rmin; repeat destruct Rle_dec; lra.
Qed.

(* ------------------------------------------------------------- remembered effective length *)
Lemma leff_order_lemma : forall t, leff_1 t <= leff_2 t /\ leff_1 t <= ts_cp t.
Proof. intros. unfold leff_1, leff_2. split; [apply Rmin_r|apply Rmin_l]. Qed.
Lemma run_FT_get : forall t s F s', run_FT t s = Some (F, s') -> exists i, FT_Rd t = Some (F, i) /\
  forall t', get_leff t' s' = Some (if Nat.eqb i 0 then leff_1 t else leff_2 t, s').
Proof.
  intros t s F s' H. unfold run_FT in H. destruct (FT_Rd t) as [[r i]|]; [|discriminate]. injection H as <- <-.
  exists i. split; auto. intros t'. unfold get_leff. cbn. destruct i; reflexivity.
Qed.
Lemma leff_fresh_lemma : forall t, stub_ok t -> exists F i, FT_Rd t = Some (F, i) /\
  let l := if Nat.eqb i 0 then leff_1 t else leff_2 t in
  (exists s, get_leff t new_mem = Some (l, s)) /\
  (forall s F' s', run_FT t s = Some (F', s') -> F' = F /\ get_leff t s' = Some (l, s')).
Proof.
  intros t H. destruct (tstub_lemma t H) as [F [i [_ [_ [A _]]]]]. exists F, i. split; auto. cbv zeta. split.
  - unfold get_leff, run_FT. cbn [new_mem mem_mode]. rewrite A. cbn. eexists. destruct i; reflexivity.
  - intros s F' s' R. destruct (run_FT_get _ _ _ _ R) as [i' [B C]]. rewrite A in B. injection B as <- <-. auto.
Qed.
Lemma leff_stale_lemma : exists t t' s F l l', stub_ok t /\ stub_ok t' /\ run_FT t new_mem = Some (F, s) /\
  option_map fst (get_leff t' s) = Some l /\ option_map fst (get_leff t' new_mem) = Some l' /\ l <> l'.
Proof.
  pose (t := mkT 1 1 1 1 2 3 100). pose (t' := mkT 1 1 1 1 1 3 100).
  assert (A : stub_ok t) by (unfold stub_ok, t; cbn; lra). assert (A' : stub_ok t') by (unfold stub_ok, t'; cbn; lra).
  destruct (leff_fresh_lemma t A) as [F [i [E1 [_ E2]]]]. destruct (leff_fresh_lemma t' A') as [F' [i' [E1' [[s' E2'] _]]]].
  destruct (run_FT t new_mem) as [[F0 s]|] eqn:R; [|unfold run_FT in R; rewrite E1 in R; discriminate].
  destruct (run_FT_get _ _ _ _ R) as [i0 [B C]].
  assert (Z : forall u F i, stub_ok u -> ts_tf u = 1 -> ts_fy u = 1 -> ts_emin u = 1 -> ts_m u = 1 -> Rmin (ts_cp u) (ts_nc u) <= 2 -> ts_nc u = 3 -> ts_F3 u = 100 -> FT_Rd u = Some (F, i) -> i = 0%nat).
  { intros u Fu iu Ou U1 U2 U3 U4 U5 U6 U7 U8. destruct (tstub_lemma u Ou) as [F'' [i'' [F1 [F2 [G1 [G2 [G3 [G4 [_ [G6 [G7 G8]]]]]]]]]]].
    rewrite G1 in U8. injection U8 as <- <-. unfold ts_n in G3. rewrite U1, U2, U3, U4, U6, U7 in *.
    assert (F1 = Rmin (ts_cp u) 3) by (rewrite G2; field).
    assert (N1 : Rmin 1 (125/100 * 1) = 1) by (apply Rmin_left; lra). rewrite N1 in G3.
    assert (F2 = 103/2 - 1 + 1/4) by lra.
    destruct i'' as [|k]; auto. exfalso. specialize (G8 0%nat ltac:(lia)). cbn [nth] in G8.
    destruct k as [|[|k]]; [| |lia]; cbn [nth] in G7; lra. }
  assert (i0 = 0%nat) by (eapply (Z t); eauto; unfold t; cbn; rewrite ?Rmin_left; lra).
  assert (i' = 0%nat) by (eapply (Z t'); eauto; unfold t'; cbn; rewrite ?Rmin_left; lra).
  subst i0 i'. exists t, t', s, F0, (leff_1 t), (leff_1 t'). split; [exact A|]. split; [exact A'|]. split; [exact R|]. split; [|split].
  - rewrite C. reflexivity.
  - rewrite E2'. reflexivity.
  - unfold leff_1, t, t'. cbn. rewrite !Rmin_left by lra. lra.
Qed.

(* ------------------------------------------------------------- effective lengths of rows *)
Lemma flange_lengths_lemma : forall fa e m e1 m2 l, 0 < m -> 0 < e -> flange_loc l -> (forall x, e1 = Some x -> 0 < x) ->
  exists cp nc, flange_cp m e1 l = Some cp /\ flange_nc fa e m e1 m2 l = Some nc /\ 0 < cp <= 2 * PI * m /\ 0 < nc <= 4 * m + 125/100 * e /\
  ((l = Inner \/ l = OtherInner \/ e1 = None) -> cp = 2 * PI * m /\ nc = 4 * m + 125/100 * e).
Proof.
  intros fa e m e1 m2 l M E L E1. pose proof PI_lo.
  destruct L as [->|[->|[->| ->]]]; cbn [flange_cp flange_nc];
  destruct e1 as [x|]; cbn [option_map min_inf]; try (pose proof (E1 x eq_refl));
  (eexists _, _; split; [reflexivity|]; split; [reflexivity|]);
  (repeat split; try (unfold Rmin; repeat destruct Rle_dec); try nra);
  try (intros [W|[W|W]]; try discriminate; split; reflexivity).
  all: match goal with HH : _ \/ _ |- _ => destruct HH as [W|[W|W]]; try discriminate; try nra end.
Qed.
