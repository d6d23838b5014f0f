(** The stress-strain relation of stainless steel at the temperatures of the table. *)
Require Import Reals ZArith List Lra Lia Psatz PeanoNat.
Import ListNotations.
From Verif Require Import Base EC3_model Bool_tac EC3_proofs Plate_proofs Fire_spec Fire_proofs Stls_proofs.
From Verif Require Import Fire_model Stls_model Stls_spec.
Local Open Scope R_scope.

Lemma ss_seg : forall t a b p ya yb, In (a, b) (combine SPECIAL_TEMPS (tl SPECIAL_TEMPS)) -> IZR a < IZR b -> IZR a <= t <= IZR b -> lookup a p SS = Some ya -> lookup b p SS = Some yb ->
  reduce_property t p s14301 = Some (ya + (yb - ya) * ((t - IZR a) / (IZR b - IZR a))).
Proof.
  intros t a b p ya yb H N (L1&L2) Ha Hb.
  assert (Ia : In a SPECIAL_TEMPS) by (apply in_combine_l in H; auto). assert (Ib : In b SPECIAL_TEMPS) by (apply in_combine_r in H; right; exact H).
  destruct (Req_dec t (IZR a)) as [->|Na]. rewrite (reduce_at a p s14301 SS Ia eq_refl), Ha. f_equal. field. lra.
  destruct (Req_dec t (IZR b)) as [->|Nb]. rewrite (reduce_at b p s14301 SS Ib eq_refl), Hb. f_equal. field. lra.
  rewrite (reduce_between t a b p s14301 SS ya yb H ltac:(lra) eq_refl Ha Hb). f_equal. unfold Rdiv. ring.
Qed.
Lemma ok_bounds : forall f E Ec eu fu fmin fmax Emin Cmin Cmax umin G, 0 < fmin -> fmin <= f <= fmax -> 0 < Emin -> Emin <= E -> 0 < Cmin -> Cmin <= Ec <= Cmax -> umin <= eu -> f <= fu -> fu - f <= G ->
  fmax + 2/1000 * Emin < umin * Emin -> 2 * G * Emin < (umin * Emin - (fmax + 2/1000 * Emin)) * Cmin -> Cmax * 2/1000 * Emin < fmin * (Emin - Cmax) -> ss_ok f E Ec eu fu /\ (f / E + 2/1000) * Ec < f.
Proof.
  intros f E Ec eu fu fmin fmax Emin Cmin Cmax umin G F0 (F1&F2) E0 E1 C0 (C1&C2) U FU GG H1 H2 H3.
  assert (Pi : 0 < / Emin) by (apply Rinv_0_lt_compat; auto).
  assert (Q : f / E <= fmax / Emin). { apply Rle_trans with (fmax / E). apply Rmult_le_compat_r; [left; apply Rinv_0_lt_compat; lra|lra]. apply Rmult_le_compat_l; [lra|]. apply Rinv_le_contravar; lra. }
  assert (Q0 : 0 < f / E) by (apply Rdiv_lt_0_compat; lra).
  assert (U1 : fmax / Emin + 2/1000 < umin). { apply (Rmult_lt_reg_r Emin); auto. replace ((fmax / Emin + 2/1000) * Emin) with (fmax + 2/1000 * Emin) by (field; lra). lra. }
  assert (U2 : 2 * G < (umin - (fmax / Emin + 2/1000)) * Cmin). { apply (Rmult_lt_reg_r Emin); auto. replace ((umin - (fmax / Emin + 2/1000)) * Cmin * Emin) with ((umin * Emin - (fmax + 2/1000 * Emin)) * Cmin) by (field; lra). lra. }
  assert (U3 : Cmax * 2/1000 < f * (1 - Cmax / Emin)). { apply (Rmult_lt_reg_r Emin); auto. replace (f * (1 - Cmax / Emin) * Emin) with (f * (Emin - Cmax)) by (field; lra). assert (0 < Emin - Cmax) by nra. nra. }
  split. unfold ss_ok. split; [lra|]. split; [lra|]. split; [lra|]. split; [lra|]. split; [lra|]. nra.
  assert (W : f / E * Ec <= f * (Cmax / Emin)). { unfold Rdiv. rewrite Rmult_assoc. apply Rmult_le_compat_l; [lra|]. rewrite (Rmult_comm (/ E)). apply Rmult_le_compat; try lra. left; apply Rinv_0_lt_compat; lra. apply Rinv_le_contravar; lra. }
  lra.
Qed.
Ltac sg t L := match type of L with IZR ?a <= _ <= IZR ?b => eapply (ss_seg t a b); [cbn; tauto|lra|exact L|reflexivity|reflexivity] end.
(** A temperature of the table's range, 100 to 200 left out. *)
Lemma table_lemma : forall t, (20 <= t <= 100 \/ 200 <= t <= 1000) -> exists k k' ke ep u,
  reduce_property t k02 s14301 = Some k /\ reduce_property t kE s14301 = Some k' /\ reduce_property t kEct s14301 = Some ke /\ reduce_property t epsU s14301 = Some ep /\ reduce_property t ku s14301 = Some u /\
  ss_ok (k * 230) (k' * 200000) (ke * 200000) ep (u * 540) /\ (k * 230 / (k' * 200000) + 2/1000) * (ke * 200000) < k * 230.
Proof.
  intros t T.
  assert (S : exists a b, In (a, b) [(20, 100); (200, 300); (300, 400); (400, 500); (500, 600); (600, 700); (700, 800); (800, 900); (900, 1000)]%Z /\ IZR a <= t <= IZR b).
  { destruct (Rle_dec t 100). exists 20%Z, 100%Z. cbn; split; [tauto|lra]. destruct (Rle_dec t 300). exists 200%Z, 300%Z. cbn; split; [tauto|lra]. destruct (Rle_dec t 400). exists 300%Z, 400%Z. cbn; split; [tauto|lra].
    destruct (Rle_dec t 500). exists 400%Z, 500%Z. cbn; split; [tauto|lra]. destruct (Rle_dec t 600). exists 500%Z, 600%Z. cbn; split; [tauto|lra]. destruct (Rle_dec t 700). exists 600%Z, 700%Z. cbn; split; [tauto|lra].
    destruct (Rle_dec t 800). exists 700%Z, 800%Z. cbn; split; [tauto|lra]. destruct (Rle_dec t 900). exists 800%Z, 900%Z. cbn; split; [tauto|lra]. exists 900%Z, 1000%Z. cbn; split; [tauto|lra]. }
  destruct S as (a&b&I&L). cbn [In] in I.
  destruct I as [I|[I|[I|[I|[I|[I|[I|[I|[I|[]]]]]]]]]]; injection I as <- <-;
  (do 5 eexists; split; [sg t L|]; split; [sg t L|];
   split; [sg t L|]; split; [sg t L|]; split; [sg t L|];
   match goal with |- context [(t - ?x) / ?y] => set (l := (t - x) / y); assert (Hl : 0 <= l <= 1) by (unfold l; split; [apply Rmult_le_pos; [lra|left; apply Rinv_0_lt_compat; lra]|apply div_le_iff; lra]) end).
  apply (ok_bounds _ _ _ _ _ (188) 230 192000 10000 22000 (40/100) 320); lra.
  all: apply (ok_bounds _ _ _ _ _ (138/10) (157) 40000 4000 4000 (20/100) 260); lra.
Qed.
Lemma stainless_lemma : forall t, (20 <= t <= 100 \/ 200 <= t <= 1000) -> exists f E fu eu, f02pT t 230 s14301 = Some f /\ EaT t 200000 s14301 = Some E /\ fuT_stainless t 540 s14301 = Some fu /\ reduce_property t epsU s14301 = Some eu /\
  0 < f /\ f <= fu /\ f / E + 2/1000 < eu /\
  stress_stainless 0 t 200000 230 540 s14301 = Some 0 /\ stress_stainless (f / E + 2/1000) t 200000 230 540 s14301 = Some f /\ stress_stainless eu t 200000 230 540 s14301 = Some fu /\
  (forall x y, 0 <= x -> x <= y -> y <= eu -> exists s s', stress_stainless x t 200000 230 540 s14301 = Some s /\ stress_stainless y t 200000 230 540 s14301 = Some s' /\ 0 <= s <= s' /\ s' <= fu).
Proof.
  intros t T. destruct (table_lemma t T) as (k&k'&ke&ep&u&H1&H2&H3&H4&H5&O&L). exists (k * 230), (k' * 200000), (u * 540), ep.
  assert (G : forall x, stress_stainless x t 200000 230 540 s14301 = ss_law x (k * 230) (k' * 200000) (ke * 200000) ep (u * 540)) by (intro; apply stress_lemma; auto).
  unfold f02pT, EaT, fuT_stainless. rewrite H1, H2, H5. cbn [bind]. do 4 (split; [auto|]). destruct (law_values _ _ _ _ _ O L) as (V1&V2&V3). pose proof (law_lemma _ _ _ _ _ O L) as M.
  destruct O as (O1&_&_&O2&O3&_). do 3 (split; [assumption|]). rewrite !G. do 3 (split; [auto|]). intros x y X XY Y. rewrite !G. destruct (M x y X XY Y) as (s&s'&A&B&C&D&_). exists s, s'. auto.
Qed.
Lemma hot_lemma : forall fua, stress_stainless 0 1100 200000 230 fua s14301 = None.
Proof.
  intro fua. rewrite (stress_lemma 0 1100 200000 230 fua (3/100) (1/10) (2/100) (20/100) (3/100)); [apply lower_raises_lemma; lra|..]; (rewrite (reduce_at 1100%Z _ s14301 SS); [reflexivity|cbn; tauto|reflexivity]).
Qed.
(** Tangents. *)
Lemma lower_tangent_lemma : forall f E Ec eu fu, ss_ok f E Ec eu fu -> (f / E + 2/1000) * Ec < f ->
  exists g, (forall x, 0 < x <= f / E + 2/1000 -> ss_law x f E Ec eu fu = Some (g x)) /\ derivable_pt_lim g (f / E + 2/1000) Ec.
Proof.
  intros f E Ec eu fu (F&PE&PC&FU&LU&UP) L. assert (Pq : 0 < f / E) by (apply Rdiv_lt_0_compat; auto).
  destruct (lower_form 0 f E Ec F PE (Rle_refl 0) L) as (a&b&A&B&K&Q&_). set (ec := f / E + 2/1000) in *. assert (Pec : 0 < ec) by (unfold ec; lra).
  assert (PM : 0 < E * ec / f - 1). { replace (E * ec / f - 1) with (2/1000 * E / f) by (unfold ec; field; lra). apply Rdiv_lt_0_compat; lra. }
  exists (fun z => E * (z / (1 + a * Rpower z b))). split.
  - intros x (X1&X2). rewrite law_form by auto. fold ec. rewrite (proj2 (Rleb_true _ _)) by auto.
    destruct (lower_form x f E Ec F PE ltac:(lra) L) as (a'&b'&A'&B'&K'&Q'&G'). fold ec in K', Q', G'.
    assert (b' = b) by (apply (Rmult_eq_reg_r (E * ec / f - 1)); lra). subst b'. assert (a' = a). { apply (Rmult_eq_reg_r (Rpower ec b)); [lra|]. apply Rgt_not_eq, exp_pos. } subst a'.
    rewrite G', (proj2 (Reqb_false x 0)) by lra. f_equal. unfold Rdiv. ring.
  - assert (P : 0 < Rpower ec b) by apply exp_pos.
    assert (D : derivable_pt_lim (fun z => z / (1 + a * Rpower z b)) ec ((1 * (1 + a * Rpower ec b) - (0 + a * (b * Rpower ec (b - 1))) * ec) / Rsqr (1 + a * Rpower ec b))).
    { apply (derivable_pt_lim_div (fun z => z) (fun z => 1 + a * Rpower z b)). apply derivable_pt_lim_id. 2: nra.
      apply (derivable_pt_lim_plus (fun _ => 1) (fun z => a * Rpower z b)). apply derivable_pt_lim_const. apply (derivable_pt_lim_scal (fun z => Rpower z b)). apply derivable_pt_lim_power; auto. }
    apply (derivable_pt_lim_scal _ E) in D. unfold mult_real_fct in D.
    assert (X : Rpower ec (b - 1) * ec = Rpower ec b). { rewrite <- (Rpower_1 ec) at 2 by auto. rewrite <- Rpower_plus. f_equal. ring. }
    replace (E * ((1 * (1 + a * Rpower ec b) - (0 + a * (b * Rpower ec (b - 1))) * ec) / Rsqr (1 + a * Rpower ec b))) with Ec in D. exact D.
    replace (1 * (1 + a * Rpower ec b) - (0 + a * (b * Rpower ec (b - 1))) * ec) with (1 + a * Rpower ec b - b * (a * Rpower ec b)) by (rewrite <- X; ring).
    rewrite K, Q. unfold Rsqr. field. assert (0 < E * ec) by nra. repeat split; lra.
Qed.
Lemma upper_tangent_lemma : forall f E Ec eu fu, ss_ok f E Ec eu fu -> f < fu ->
  exists g, (forall x, f / E + 2/1000 < x <= eu -> ss_law x f E Ec eu fu = Some (g x)) /\ g (f / E + 2/1000) = f /\ derivable_pt_lim g (f / E + 2/1000) Ec /\ derivable_pt_lim g eu 0.
Proof.
  intros f E Ec eu fu (F&PE&PC&FU&LU&UP) SF. assert (Pq : 0 < f / E) by (apply Rdiv_lt_0_compat; auto). set (ec := f / E + 2/1000) in *.
  destruct (upper_form eu f Ec ec eu fu PC FU LU UP) as (P&_). cbv zeta in P. set (D := eu - ec) in *. set (e := (fu - f) ^ 2 / (D * Ec - 2 * (fu - f))) in *. assert (PD : 0 < D) by (unfold D; lra).
  assert (Pe : 0 < e) by (apply Rdiv_lt_0_compat; [nra|lra]).
  assert (He : 0 < D * e / Ec) by (apply Rdiv_lt_0_compat; nra). assert (Hq : 0 < e * Ec / D) by (apply Rdiv_lt_0_compat; nra).
  set (c2 := D ^ 2 + D * e / Ec). set (q := sqrt (e * Ec / D)). set (g := fun x => f - e + q * sqrt (c2 - (eu - x) ^ 2)).
  assert (Dg : forall x, 0 < c2 - (eu - x) ^ 2 -> derivable_pt_lim g x (0 + q * (/ (2 * sqrt (c2 - (eu - x) ^ 2)) * (0 - 2 * (eu - x) * (0 - 1))))).
  { intros x X. unfold g. apply (derivable_pt_lim_plus (fun _ => f - e) (fun x => q * sqrt (c2 - (eu - x) ^ 2))). apply derivable_pt_lim_const.
    apply (derivable_pt_lim_scal (fun x => sqrt (c2 - (eu - x) ^ 2))). apply (derivable_pt_lim_comp (fun x => c2 - (eu - x) ^ 2) sqrt).
    2: apply derivable_pt_lim_sqrt; exact X. apply (derivable_pt_lim_minus (fun _ => c2) (fun x => (eu - x) ^ 2)). apply derivable_pt_lim_const.
    replace (2 * (eu - x)) with (INR 2 * (eu - x) ^ Nat.pred 2) by (cbn; ring). apply (derivable_pt_lim_comp (fun x => eu - x) (fun y => y ^ 2)). 2: apply (derivable_pt_lim_pow (eu - x) 2).
    apply (derivable_pt_lim_minus (fun _ => eu) (fun x => x)). apply derivable_pt_lim_const. apply derivable_pt_lim_id. }
  exists g. split; [|split; [|split]].
  - intros x (X1&X2). rewrite law_form by auto. fold ec. rewrite (proj2 (Rleb_false _ _)) by lra. destruct (upper_form x f Ec ec eu fu PC FU LU UP) as (_&G). cbv zeta in G. fold D in G. fold e in G. rewrite G. fold c2.
    rewrite (proj2 (Rltb_false _ _)). reflexivity. unfold c2. assert ((eu - x) ^ 2 <= D ^ 2) by (unfold D; nra). lra.
  - unfold g, q. fold D. rewrite <- sqrt_mult; [|lra|unfold c2; lra]. replace (e * Ec / D * (c2 - D ^ 2)) with (e ^ 2) by (unfold c2; field; lra). rewrite sqrt_pow2 by lra. ring.
  - specialize (Dg ec). fold D in Dg. assert (X : 0 < c2 - D ^ 2) by (unfold c2; lra). specialize (Dg X).
    enough (Ed : 0 + q * (/ (2 * sqrt (c2 - D ^ 2)) * (0 - 2 * D * (0 - 1))) = Ec) by (rewrite Ed in Dg; exact Dg).
    assert (Sc : 0 < sqrt (c2 - D ^ 2)) by (apply sqrt_lt_R0; auto). assert (QQ : q = sqrt (c2 - D ^ 2) * (Ec / D)).
    { unfold q. rewrite <- (sqrt_pow2 (Ec / D)) by (left; apply Rdiv_lt_0_compat; auto). rewrite <- sqrt_mult; [|lra|apply pow2_ge_0]. f_equal. unfold c2. field. lra. }
    rewrite QQ. field. lra.
  - specialize (Dg eu). replace (eu - eu) with 0 in Dg by ring. assert (X : 0 < c2 - 0 ^ 2) by (unfold c2; nra). specialize (Dg X). assert (Ed : 0 + q * (/ (2 * sqrt (c2 - 0 ^ 2)) * (0 - 2 * 0 * (0 - 1))) = 0) by ring. rewrite Ed in Dg. exact Dg.
Qed.
