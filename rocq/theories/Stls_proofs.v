(** Proofs on the stress-strain relation of stainless steel. *)
Require Import Reals List Lra Lia Psatz PeanoNat.
Import ListNotations.
From Verif Require Import Base EC3_model Bool_tac EC3_proofs Plate_proofs.
From Verif Require Import Fire_model Stls_model Stls_spec.
Local Open Scope R_scope.

(** Upper branch. *)
Lemma upper_form : forall eps f Ec ec eu fu, 0 < Ec -> f <= fu -> ec < eu -> 2 * (fu - f) < (eu - ec) * Ec ->
  let D := eu - ec in let e := (fu - f) ^ 2 / (D * Ec - 2 * (fu - f)) in
  0 <= e /\ ss_upper eps f Ec ec eu fu = (if Rltb (D ^ 2 + D * e / Ec) ((eu - eps) ^ 2) then None else Some (f - e + sqrt (e * Ec / D) * sqrt (D ^ 2 + D * e / Ec - (eu - eps) ^ 2))).
Proof.
  intros eps f Ec ec eu fu PE F L H D e. assert (PD : 0 < D) by (unfold D; lra). fold D in H.
  assert (P : 0 <= e). { apply Rmult_le_pos. apply pow2_ge_0. left; apply Rinv_0_lt_compat; lra. } split; auto.
  unfold ss_upper. fold D. cbv zeta. unfold pdiv. rewrite (proj2 (Reqb_false (D * Ec - 2 * (fu - f)) 0)) by lra. cbn [bind]. fold e.
  assert (He : 0 <= e / Ec) by (apply Rmult_le_pos; [auto|left; apply Rinv_0_lt_compat; auto]).
  assert (A : 0 <= e * D * Ec + e ^ 2) by nra. assert (B : 0 < D * (D + e / Ec)) by nra.
  unfold psqrt. rewrite (proj2 (Rltb_false _ _) A). cbn [bind]. rewrite (proj2 (Reqb_false Ec 0)) by lra. cbn [bind]. rewrite (proj2 (Rltb_false (D * (D + e / Ec)) 0)) by lra. cbn [bind].
  pose proof (sqrt_lt_R0 _ B) as SB. rewrite (proj2 (Reqb_false (sqrt (D * (D + e / Ec))) 0)) by lra. cbn [bind].
  rewrite pow2_sqrt by lra. replace (D * (D + e / Ec)) with (D ^ 2 + D * e / Ec) by (field; lra).
  assert (Q : sqrt (e * D * Ec + e ^ 2) / sqrt (D ^ 2 + D * e / Ec) = sqrt (e * Ec / D)).
  { rewrite <- sqrt_div_alt by (replace (D ^ 2 + D * e / Ec) with (D * (D + e / Ec)) by (field; lra); auto). f_equal. field. repeat split; try lra. nra. }
  destruct (Rltb (D ^ 2 + D * e / Ec - (eu - eps) ^ 2) 0) eqn:G; [apply Rltb_true in G|apply Rltb_false in G]; cbn [bind].
  - rewrite (proj2 (Rltb_true _ _)) by lra. reflexivity.
  - rewrite (proj2 (Rltb_false _ _)) by lra. rewrite Q. reflexivity.
Qed.
Lemma upper_lemma : forall eps f Ec ec eu fu, 0 < Ec -> f <= fu -> 2 * (fu - f) < (eu - ec) * Ec -> ec <= eps <= eu -> ec < eu ->
  exists s, ss_upper eps f Ec ec eu fu = Some s /\ f <= s <= fu /\ s <= f + Ec * (eps - ec) /\ (eps = eu -> s = fu).
Proof.
  intros eps f Ec ec eu fu PE F H (L1&L2) L. destruct (upper_form eps f Ec ec eu fu PE F L H) as (P&E). cbv zeta in *. rewrite E. clear E.
  set (D := eu - ec) in *. set (e := (fu - f) ^ 2 / (D * Ec - 2 * (fu - f))) in *. assert (PD : 0 < D) by (unfold D; lra).
  set (y := eu - eps). assert (Y : 0 <= y <= D) by (unfold y, D; lra). replace (eps - ec) with (D - y) by (unfold D, y; ring).
  assert (He : 0 <= D * e / Ec) by (apply Rmult_le_pos; [nra|left; apply Rinv_0_lt_compat; auto]).
  assert (Y2 : y ^ 2 <= D ^ 2) by nra. rewrite (proj2 (Rltb_false _ _)) by lra.
  assert (Hq : 0 <= e * Ec / D) by (apply Rmult_le_pos; [nra|left; apply Rinv_0_lt_compat; auto]).
  rewrite <- sqrt_mult by lra. set (V := e * Ec / D * (D ^ 2 + D * e / Ec - y ^ 2)).
  assert (EV : V = e ^ 2 + e * Ec * D - e * Ec * y ^ 2 / D) by (unfold V; field; lra).
  assert (K : e * (D * Ec - 2 * (fu - f)) = (fu - f) ^ 2) by (unfold e; field; lra).
  assert (Z : 0 <= e * Ec * y ^ 2 / D) by (apply Rmult_le_pos; [apply Rmult_le_pos; [nra|apply pow2_ge_0]|left; apply Rinv_0_lt_compat; auto]).
  assert (Z2 : e * Ec * y ^ 2 / D <= e * Ec * D). { apply (Rmult_le_reg_r D); auto. unfold Rdiv. rewrite Rmult_assoc, Rinv_l, Rmult_1_r by lra. replace (e * Ec * D * D) with (e * Ec * D ^ 2) by ring. apply Rmult_le_compat_l; [nra|auto]. }
  assert (PV : 0 <= V) by nra.
  exists (f - e + sqrt V). split; auto. split; [split|split].
  - assert (e <= sqrt V). { rewrite <- (sqrt_pow2 e) by auto. apply sqrt_le_1_alt. lra. } lra.
  - assert (sqrt V <= fu - f + e). { rewrite <- (sqrt_pow2 (fu - f + e)) by lra. apply sqrt_le_1_alt. nra. } lra.
  - assert (sqrt V <= e + Ec * (D - y)). { rewrite <- (sqrt_pow2 (e + Ec * (D - y))) by nra. apply sqrt_le_1_alt.
      assert (W : (e + Ec * (D - y)) ^ 2 - V = e * Ec * (D - y) ^ 2 / D + Ec ^ 2 * (D - y) ^ 2) by (rewrite EV; field; lra).
      assert (0 <= e * Ec * (D - y) ^ 2 / D) by (apply Rmult_le_pos; [apply Rmult_le_pos; [nra|apply pow2_ge_0]|left; apply Rinv_0_lt_compat; auto]). assert (0 <= Ec ^ 2 * (D - y) ^ 2) by (apply Rmult_le_pos; apply pow2_ge_0). lra. } lra.
  - intro Q. assert (y = 0) by (unfold y; lra). assert (V = (fu - f + e) ^ 2) by (assert (Z0 : e * Ec * y ^ 2 / D = 0) by (rewrite H0; field; lra); nra). rewrite H1, sqrt_pow2 by lra. ring.
Qed.
Lemma upper_grows_lemma : forall x y f Ec ec eu fu s s', 0 < Ec -> f <= fu -> 2 * (fu - f) < (eu - ec) * Ec -> ec < eu -> ec <= x -> x <= y -> y <= eu ->
  ss_upper x f Ec ec eu fu = Some s -> ss_upper y f Ec ec eu fu = Some s' -> s <= s'.
Proof.
  intros x y f Ec ec eu fu s s' PE F H L X XY Y E E'. destruct (upper_form x f Ec ec eu fu PE F L H) as (P&G). destruct (upper_form y f Ec ec eu fu PE F L H) as (_&G'). cbv zeta in *.
  rewrite G in E. rewrite G' in E'. destruct (Rltb _ _); [discriminate|]. destruct (Rltb _ _); [discriminate|]. injection E as <-. injection E' as <-.
  apply Rplus_le_compat_l. apply Rmult_le_compat_l. apply sqrt_pos. apply sqrt_le_1_alt. nra.
Qed.
Lemma upper_mirror_lemma : forall z f Ec ec eu fu, ss_upper (eu + z) f Ec ec eu fu = ss_upper (eu - z) f Ec ec eu fu.
Proof.
  intros. unfold ss_upper. cbv zeta. replace ((eu - (eu + z)) ^ 2) with ((eu - (eu - z)) ^ 2) by ring. reflexivity.
Qed.

(** Lower branch. *)
Lemma lower_form : forall eps f E Ec, 0 < f -> 0 < E -> 0 <= eps -> let ec := f / E + 2/1000 in ec * Ec < f ->
  exists a b, 0 < a /\ 0 < b /\ a * Rpower ec b = E * ec / f - 1 /\ b * (E * ec / f - 1) = (1 - ec * Ec / f) * (E * ec / f) /\
  ss_lower eps f E Ec ec = Some (if Reqb eps 0 then 0 else E * eps / (1 + a * Rpower eps b)).
Proof.
  intros eps f E Ec F PE H ec L. assert (Pec : 0 < ec) by (unfold ec; assert (0 < f / E) by (apply Rdiv_lt_0_compat; auto); lra).
  assert (M : E * ec / f - 1 = 2/1000 * E / f) by (unfold ec; field; lra). assert (PM : 0 < E * ec / f - 1) by (rewrite M; apply Rdiv_lt_0_compat; lra).
  set (m := E * ec / f) in *. set (b := (1 - ec * Ec / f) * E * ec / (m - 1) / f). set (a := (E * ec - f) / f / Rpower ec b).
  assert (R1 : ec * Ec / f < 1). { apply (Rmult_lt_reg_r f); auto. unfold Rdiv. rewrite Rmult_assoc, Rinv_l by lra. lra. }
  assert (Pb : 0 < b). { unfold b. apply Rdiv_lt_0_compat; auto. apply Rdiv_lt_0_compat; auto. apply Rmult_lt_0_compat; auto. apply Rmult_lt_0_compat; lra. }
  assert (Pp : forall x, 0 < Rpower x b) by (intro; apply exp_pos).
  assert (W : (E * ec - f) / f = m - 1) by (unfold m; field; lra).
  assert (Pa : 0 < a) by (unfold a; rewrite W; apply Rdiv_lt_0_compat; auto).
  exists a, b. split; auto. split; auto. split. unfold a. rewrite W. field. specialize (Pp ec). lra. split. unfold b. unfold m. field. unfold m in PM. assert (E * ec - f <> 0). { intro Z. assert (E * ec / f = 1) by (replace (E * ec) with f by lra; field; lra). lra. } lra.
  unfold ss_lower, pdiv. rewrite (proj2 (Reqb_false f 0)) by lra. cbn [bind]. fold m. rewrite (proj2 (Reqb_false (m - 1) 0)) by lra. cbn [bind]. fold b.
  unfold ppow. rewrite (proj2 (Reqb_false ec 0)) by lra. cbn [bind]. pose proof (Pp ec). rewrite (proj2 (Reqb_false (Rpower ec b) 0)) by lra. cbn [bind]. fold a.
  destruct (Reqb eps 0) eqn:Z.
  - rewrite (proj2 (Rltb_true 0 b)) by auto. cbn [bind]. rewrite (proj2 (Reqb_false (1 + a * 0) 0)) by lra. apply Reqb_true in Z. subst. f_equal. field.
  - cbn [bind]. pose proof (Pp eps). rewrite (proj2 (Reqb_false (1 + a * Rpower eps b) 0)) by nra. reflexivity.
Qed.
Lemma lower_grows : forall a b m c, 0 < a -> 0 < b -> 0 < c -> a * Rpower c b = m - 1 -> b * (m - 1) < m ->
  forall x y, 0 < x -> x < y -> y <= c -> x / (1 + a * Rpower x b) < y / (1 + a * Rpower y b).
Proof.
  intros a b m c A B C K Q x y X XY Y.
  assert (G : forall z, 0 < z <= c -> derivable_pt_lim (fun z => z * / (1 + a * Rpower z b)) z ((1 + a * Rpower z b - b * (a * Rpower z b)) * / ((1 + a * Rpower z b) * (1 + a * Rpower z b)))).
  { intros z (Z1&Z2). assert (P : 0 < Rpower z b) by apply exp_pos.
    assert (D : derivable_pt_lim (fun z => z / (1 + a * Rpower z b)) z ((1 * (1 + a * Rpower z b) - (0 + a * (b * Rpower z (b - 1))) * z) / Rsqr (1 + a * Rpower z b))).
    { apply (derivable_pt_lim_div (fun z => z) (fun z => 1 + a * Rpower z b)). apply derivable_pt_lim_id. 2: nra.
      apply (derivable_pt_lim_plus (fun _ => 1) (fun z => a * Rpower z b)). apply derivable_pt_lim_const. apply (derivable_pt_lim_scal (fun z => Rpower z b)). apply derivable_pt_lim_power; auto. }
    assert (E : Rpower z (b - 1) * z = Rpower z b). { rewrite <- (Rpower_1 z) at 2 by auto. rewrite <- Rpower_plus. f_equal. ring. }
    replace ((1 + a * Rpower z b - b * (a * Rpower z b)) * / ((1 + a * Rpower z b) * (1 + a * Rpower z b))) with ((1 * (1 + a * Rpower z b) - (0 + a * (b * Rpower z (b - 1))) * z) / Rsqr (1 + a * Rpower z b)).
    exact D. unfold Rsqr, Rdiv. f_equal. rewrite <- E. ring. }
  destruct (MVT_cor2 (fun z => z * / (1 + a * Rpower z b)) (fun z => (1 + a * Rpower z b - b * (a * Rpower z b)) * / ((1 + a * Rpower z b) * (1 + a * Rpower z b))) x y XY) as (w&E&W1&W2).
  intros z (Z1&Z2). apply G. lra. cbv beta in E. unfold Rdiv.
  assert (P : 0 < Rpower w b) by apply exp_pos.
  assert (N : 0 < 1 + a * Rpower w b - b * (a * Rpower w b)).
  { assert (L : Rpower w b <= Rpower c b) by (apply Rle_Rpower_l; lra). assert (a * Rpower w b <= m - 1) by (rewrite <- K; apply Rmult_le_compat_l; lra). set (u := a * Rpower w b) in *. assert (0 < u) by (apply Rmult_lt_0_compat; auto). destruct (Rle_dec b 1); nra. }
  assert (0 < (1 + a * Rpower w b - b * (a * Rpower w b)) * / ((1 + a * Rpower w b) * (1 + a * Rpower w b)) * (y - x)).
  { apply Rmult_lt_0_compat; [|lra]. apply Rmult_lt_0_compat; auto. apply Rinv_0_lt_compat. assert (0 < 1 + a * Rpower w b) by nra. apply Rmult_lt_0_compat; auto. }
  lra.
Qed.
Lemma lower_lemma : forall f E Ec, 0 < f -> 0 < E -> 0 < Ec -> let ec := f / E + 2/1000 in ec * Ec < f ->
  ss_lower 0 f E Ec ec = Some 0 /\ ss_lower ec f E Ec ec = Some f /\
  forall x y, 0 <= x -> x < y -> y <= ec -> exists s s', ss_lower x f E Ec ec = Some s /\ ss_lower y f E Ec ec = Some s' /\ 0 <= s < s' /\ s' <= f /\ s' <= E * y.
Proof.
  intros f E Ec F PE PC ec L. assert (Pec : 0 < ec) by (unfold ec; assert (0 < f / E) by (apply Rdiv_lt_0_compat; auto); lra).
  assert (Zero : ss_lower 0 f E Ec ec = Some 0). { destruct (lower_form 0 f E Ec F PE (Rle_refl 0) L) as (a&b&_&_&_&_&G). fold ec in G. rewrite G, (proj2 (Reqb_true 0 0) eq_refl). reflexivity. }
  assert (Top : ss_lower ec f E Ec ec = Some f).
  { destruct (lower_form ec f E Ec F PE ltac:(lra) L) as (a&b&_&_&K&_&G). fold ec in G, K. rewrite G, (proj2 (Reqb_false ec 0)) by lra. f_equal. rewrite K. field. assert (0 < E * ec) by nra. split; lra. }
  split; auto. split; auto. intros x y X XY Y.
  destruct (lower_form 0 f E Ec F PE (Rle_refl 0) L) as (a&b&A&B&K&Q&_). fold ec in K, Q.
  assert (G : forall t, 0 <= t -> ss_lower t f E Ec ec = Some (if Reqb t 0 then 0 else E * t / (1 + a * Rpower t b))).
  { intros t T. destruct (lower_form t f E Ec F PE T L) as (a'&b'&A'&B'&K'&Q'&G'). fold ec in K', Q', G'.
    assert (PM : 0 < E * ec / f - 1). { replace (E * ec / f - 1) with (2/1000 * E / f) by (unfold ec; field; lra). apply Rdiv_lt_0_compat; lra. }
    assert (b' = b) by (apply (Rmult_eq_reg_r (E * ec / f - 1)); lra). subst b'. assert (a' = a). { apply (Rmult_eq_reg_r (Rpower ec b)); [lra|]. apply Rgt_not_eq, exp_pos. } subst a'. exact G'. }
  assert (Q2 : b * (E * ec / f - 1) < E * ec / f). { rewrite Q. assert (0 < ec * Ec / f) by (apply Rdiv_lt_0_compat; nra). assert (0 < E * ec / f) by (apply Rdiv_lt_0_compat; nra). nra. }
  pose proof (lower_grows a b (E * ec / f) ec A B Pec K Q2) as M.
  assert (Fin : forall t, 0 < t -> t <= ec -> 0 < E * t / (1 + a * Rpower t b) <= f /\ E * t / (1 + a * Rpower t b) <= E * t).
  { intros t T T2. assert (P : 0 < Rpower t b) by apply exp_pos. assert (0 < 1 + a * Rpower t b) by nra. split; [split|].
    - apply Rdiv_lt_0_compat; nra.
    - assert (Tf : E * ec / (1 + a * Rpower ec b) = f) by (rewrite K; field; assert (0 < E * ec) by nra; split; lra). rewrite <- Tf.
      destruct (Req_dec t ec) as [Te|Te]. rewrite Te; lra. pose proof (M t ec T ltac:(lra) (Rle_refl _)) as N. unfold Rdiv in *. rewrite !(Rmult_assoc E). left. apply Rmult_lt_compat_l; auto.
    - apply div_le_iff; auto. assert (PT : 0 < E * t) by nra. assert (PU : 0 < a * Rpower t b) by nra. pose proof (Rmult_lt_0_compat _ _ PT PU). lra. }
  rewrite (G x X), (G y) by lra. rewrite (proj2 (Reqb_false y 0)) by lra. destruct (Fin y ltac:(lra) Y) as ((F1&F2)&F3).
  destruct (Reqb x 0) eqn:Z.
  - eexists _, _. split; [reflexivity|]. split; [reflexivity|]. lra.
  - apply Reqb_false in Z. eexists _, _. split; [reflexivity|]. split; [reflexivity|]. pose proof (M x y ltac:(lra) XY Y) as N. destruct (Fin x ltac:(lra) ltac:(lra)) as ((F4&_)&_).
    split; [|auto]. split; [lra|]. unfold Rdiv in *. rewrite !(Rmult_assoc E). apply Rmult_lt_compat_l; auto.
Qed.
Lemma lower_raises_lemma : forall f E Ec eu fu, 0 < f -> 0 < E -> f < (f / E + 2/1000) * Ec -> ss_law 0 f E Ec eu fu = None.
Proof.
  intros f E Ec eu fu F PE L. unfold ss_law. unfold pdiv at 1. rewrite (proj2 (Reqb_false E 0)) by lra. cbn [bind]. cbv zeta. assert (Pq : 0 < f / E) by (apply Rdiv_lt_0_compat; auto).
  rewrite (proj2 (Rleb_true _ _)) by lra. set (ec := f / E + 2/1000) in *. unfold ss_lower, pdiv. rewrite (proj2 (Reqb_false f 0)) by lra. cbn [bind].
  assert (M : E * ec / f - 1 = 2/1000 * E / f) by (unfold ec; field; lra). assert (PM : 0 < E * ec / f - 1) by (rewrite M; apply Rdiv_lt_0_compat; lra).
  rewrite (proj2 (Reqb_false _ 0)) by lra. cbn [bind]. set (b := (1 - ec * Ec / f) * E * ec / (E * ec / f - 1) / f).
  assert (B : b < 0). { unfold b. assert (1 < ec * Ec / f). { apply (Rmult_lt_reg_r f); auto. unfold Rdiv. rewrite Rmult_assoc, Rinv_l by lra. lra. }
    assert (0 < E * ec / (E * ec / f - 1) / f). { apply Rdiv_lt_0_compat; auto. apply Rdiv_lt_0_compat; auto. apply Rmult_lt_0_compat; auto. unfold ec; lra. }
    replace ((1 - ec * Ec / f) * E * ec / (E * ec / f - 1) / f) with ((1 - ec * Ec / f) * (E * ec / (E * ec / f - 1) / f)) by (unfold Rdiv; ring). nra. }
  unfold ppow. rewrite (proj2 (Reqb_false ec 0)) by (unfold ec; lra). cbn [bind]. rewrite (proj2 (Reqb_false (Rpower ec b) 0)) by (apply Rgt_not_eq, exp_pos). cbn [bind].
  rewrite (proj2 (Reqb_true 0 0) eq_refl), (proj2 (Rltb_false 0 b)), (proj2 (Reqb_false b 0)) by lra. reflexivity.
Qed.

Lemma law_form : forall t f E Ec eu fu, 0 < E -> ss_law t f E Ec eu fu = if Rleb t (f / E + 2/1000) then ss_lower t f E Ec (f / E + 2/1000) else ss_upper t f Ec (f / E + 2/1000) eu fu.
Proof. intros. unfold ss_law. unfold pdiv at 1. rewrite (proj2 (Reqb_false E 0)) by lra. reflexivity. Qed.
Lemma law_values : forall f E Ec eu fu, ss_ok f E Ec eu fu -> (f / E + 2/1000) * Ec < f ->
  ss_law 0 f E Ec eu fu = Some 0 /\ ss_law (f / E + 2/1000) f E Ec eu fu = Some f /\ ss_law eu f E Ec eu fu = Some fu.
Proof.
  intros f E Ec eu fu (F&PE&PC&FU&LU&UP) L. assert (0 < f / E) by (apply Rdiv_lt_0_compat; auto). destruct (lower_lemma f E Ec F PE PC L) as (Z&T&_).
  rewrite !law_form by auto. rewrite !(proj2 (Rleb_true _ _)) by lra. split; auto. split; auto.
  rewrite (proj2 (Rleb_false _ _)) by lra. destruct (upper_lemma eu f Ec _ eu fu PC FU UP ltac:(lra) LU) as (s&G&_&_&V). rewrite G, V; auto.
Qed.
Lemma law_lemma : forall f E Ec eu fu, ss_ok f E Ec eu fu -> (f / E + 2/1000) * Ec < f ->
  forall x y, 0 <= x -> x <= y -> y <= eu -> exists s s', ss_law x f E Ec eu fu = Some s /\ ss_law y f E Ec eu fu = Some s' /\ 0 <= s <= s' /\ s' <= fu /\
    (y <= f / E + 2/1000 -> s' <= Rmin f (E * y)) /\ (f / E + 2/1000 <= y -> f <= s' <= f + Ec * (y - (f / E + 2/1000))).
Proof.
  intros f E Ec eu fu (F&PE&PC&FU&LU&UP) L x y X XY Y. assert (Pq : 0 < f / E) by (apply Rdiv_lt_0_compat; auto). destruct (lower_lemma f E Ec F PE PC L) as (Z&T&M).
  set (ec := f / E + 2/1000) in *.
  assert (V : forall t, ss_law t f E Ec eu fu = if Rleb t ec then ss_lower t f E Ec ec else ss_upper t f Ec ec eu fu).
  { intro t. apply law_form; auto. }
  assert (Lo : forall t, 0 <= t <= ec -> exists s, ss_lower t f E Ec ec = Some s /\ 0 <= s <= f /\ s <= E * t).
  { intros t (A&B). destruct (Req_dec t 0) as [->|N]. exists 0. split; auto. lra. destruct (M 0 t ltac:(lra) ltac:(lra) B) as (s&s'&_&G&H1&H2&H3). exists s'. split; auto. lra. }
  rewrite !V. destruct (Rleb y ec) eqn:By; [apply Rleb_true in By|apply Rleb_false in By].
  - rewrite (proj2 (Rleb_true x ec)) by lra. destruct (Lo y ltac:(lra)) as (s'&G'&B1&B2). 
    assert (Q : y = ec -> s' = f) by (intro Q; rewrite Q, T in G'; congruence).
    destruct (Req_dec x y) as [->|N].
    + exists s', s'. split; auto. split; auto. split; [lra|]. split; [lra|]. split; [intros _; apply Rmin_glb; lra|]. intro W. rewrite Q by lra. assert (y = ec) by lra. subst y. lra.
    + destruct (M x y X ltac:(lra) By) as (s&t&G&Gt&H1&H2&H3). rewrite Gt in G'. injection G' as <-. exists s, t. split; auto. split; auto. split; [lra|]. split; [lra|]. split; [intros _; apply Rmin_glb; lra|]. intro W. rewrite Q by lra. assert (y = ec) by lra. subst y. lra.
  - destruct (upper_lemma y f Ec ec eu fu PC FU UP ltac:(lra) LU) as (s'&G'&B1&B2&_). destruct (Rleb x ec) eqn:Bx; [apply Rleb_true in Bx|apply Rleb_false in Bx].
    + destruct (Lo x ltac:(lra)) as (s&G&A1&A2). exists s, s'. split; auto. split; auto. split; [lra|]. split; [lra|]. split; intro; lra.
    + destruct (upper_lemma x f Ec ec eu fu PC FU UP ltac:(lra) LU) as (s&G&A1&A2&_). pose proof (upper_grows_lemma x y f Ec ec eu fu s s' PC FU UP LU ltac:(lra) XY Y G G'). exists s, s'. split; auto. split; auto. split; [lra|]. split; [lra|]. split; intro; lra.
Qed.
Lemma law_beyond_lemma : forall f E Ec eu fu z, ss_ok f E Ec eu fu -> 0 <= z -> z < eu - (f / E + 2/1000) ->
  ss_law (eu + z) f E Ec eu fu = ss_law (eu - z) f E Ec eu fu.
Proof.
  intros f E Ec eu fu z (F&PE&PC&FU&LU&UP) Z L. rewrite !law_form by auto. rewrite !(proj2 (Rleb_false _ _)) by lra. apply upper_mirror_lemma.
Qed.
Lemma law_raise_lemma : forall f E Ec eu fu, ss_ok f E Ec eu fu -> exists x, eu < x /\ forall y, x < y -> ss_law y f E Ec eu fu = None.
Proof.
  intros f E Ec eu fu (F&PE&PC&FU&LU&UP). assert (Pq : 0 < f / E) by (apply Rdiv_lt_0_compat; auto). set (ec := f / E + 2/1000) in *.
  destruct (upper_form eu f Ec ec eu fu PC FU LU UP) as (P&_). cbv zeta in P. set (e := (fu - f) ^ 2 / ((eu - ec) * Ec - 2 * (fu - f))) in P.
  set (Q := (eu - ec) ^ 2 + (eu - ec) * e / Ec). assert (He : 0 <= (eu - ec) * e / Ec) by (apply Rmult_le_pos; [nra|left; apply Rinv_0_lt_compat; auto]).
  assert (PQ : 0 < Q) by (unfold Q; nra). exists (eu + sqrt Q). pose proof (sqrt_lt_R0 _ PQ). split; [lra|]. intros y Y. rewrite law_form by auto. fold ec. rewrite (proj2 (Rleb_false _ _)) by lra.
  destruct (upper_form y f Ec ec eu fu PC FU LU UP) as (_&G). cbv zeta in G. rewrite G. fold e. fold Q. rewrite (proj2 (Rltb_true _ _)); auto. rewrite <- (pow2_sqrt Q) by lra. nra.
Qed.
Lemma stress_lemma : forall x t Ea fya fua k k' ke ep u, reduce_property t k02 s14301 = Some k -> reduce_property t kE s14301 = Some k' ->
  reduce_property t kEct s14301 = Some ke -> reduce_property t epsU s14301 = Some ep -> reduce_property t ku s14301 = Some u ->
  stress_stainless x t Ea fya fua s14301 = ss_law x (k * fya) (k' * Ea) (ke * Ea) ep (u * fua).
Proof.
  intros x t Ea fya fua k k' ke ep u H1 H2 H3 H4 H5. unfold stress_stainless, f02pT, EaT, fuT_stainless. rewrite H1, H2, H3, H4, H5. reflexivity.
Qed.
