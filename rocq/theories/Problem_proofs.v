(** Proofs about Problem_model. *)
From Verif Require Export Problem_spec.

(** ---------- feasibility (C06) ---------- *)

Lemma feasible_iff_lemma tol gs : feasible tol gs = true <-> Forall (holds_within tol) gs.
Proof.
  induction gs as [|[ty g] gs IH]; simpl; [split; auto|].
  assert (K : forall c, (feasible tol gs = true <-> Forall (holds_within tol) gs) -> holds_within tol c ->
     (feasible tol gs = true <-> Forall (holds_within tol) (c :: gs))).
  { intros c [H1 H2] Hc. split; intros H; [constructor; auto|inversion H; auto]. }
  assert (D : forall c, ~ holds_within tol c -> (false = true <-> Forall (holds_within tol) (c :: gs))).
  { intros c Hc. split; [discriminate|]. intros H; inversion H; contradiction. }
  destruct ty; (match goal with |- context [Rlt_dec ?a ?b] => destruct (Rlt_dec a b) as [C|C] end);
    (apply K || apply D); auto; simpl; try lra.
  - unfold Rabs in C; destruct (Rcase_abs g); lra.
  - unfold Rabs in C; destruct (Rcase_abs g); lra.
Qed.

Lemma feasible_perm_lemma tol gs gs' : Permutation gs gs' -> feasible tol gs = feasible tol gs'.
Proof.
  intros P. apply eq_true_iff_eq. rewrite !feasible_iff_lemma. split; apply Permutation_Forall; auto.
  now apply Permutation_sym.
Qed.

Lemma feasible_mono_lemma tol tol' gs : tol <= tol' -> feasible tol gs = true -> feasible tol' gs = true.
Proof.
  intros H. rewrite !feasible_iff_lemma. apply Forall_impl. intros [[] g]; simpl; lra.
Qed.

(** ---------- exterior penalty (C08) ---------- *)

Lemma Rmax0_pow p val : (1 <= p)%nat -> 0 <= (Rmax 0 val) ^ p /\ ((Rmax 0 val) ^ p = 0 <-> val <= 0).
Proof.
  intros Hp. assert (0 <= Rmax 0 val) by apply Rmax_l. split; [apply pow_le; auto|]. split.
  - intros E. destruct (Rle_dec val 0); auto. exfalso. rewrite Rmax_right in E by lra.
    assert (0 < val ^ p) by (apply pow_lt; lra). lra.
  - intros Hv. rewrite Rmax_left by lra. destruct p; [lia|]. simpl; ring.
Qed.

Lemma even_pow p val : Nat.Even p -> (1 <= p)%nat -> 0 <= val ^ p /\ (val ^ p = 0 <-> val = 0).
Proof.
  intros [q Hq] Hp. subst p. rewrite pow_mult. assert (H : 0 <= val ^ 2) by apply pow2_ge_0.
  split; [apply pow_le; auto|]. split.
  - intros E. destruct (Req_dec val 0); auto. exfalso.
    assert (0 < val ^ 2) by (simpl; nra). assert (0 < (val ^ 2) ^ q) by (apply pow_lt; auto). lra.
  - intros ->. destruct q; [lia|]. simpl; ring.
Qed.

(** A fold of non-negative increments. *)
Lemma fold_incr {A} (f : R -> A -> R) (t : A -> R) (l : list A) F :
  (forall F a, In a l -> f F a = F + t a) -> fold_left f l F = F + Rsum (map t l).
Proof.
  revert F; induction l as [|a l IH]; intros F H; simpl; [lra|].
  rewrite IH by (intros; apply H; simpl; auto). rewrite H by (simpl; auto). lra.
Qed.

Lemma sum_zero {A} (t : A -> R) (P : A -> Prop) l :
  (forall a, 0 <= t a) -> (forall a, t a = 0 <-> P a) ->
  0 <= Rsum (map t l) /\ (Rsum (map t l) = 0 <-> Forall P l).
Proof.
  intros H0 HP. induction l as [|a l [IH1 IH2]]; simpl; [split; [lra|split; auto]|].
  pose proof (H0 a). split; [lra|]. split.
  - intros E. assert (t a = 0) by lra. assert (Rsum (map t l) = 0) by lra. constructor; [apply HP|apply IH2]; auto.
  - intros F; inversion F; subst. apply HP in H3. apply IH2 in H4. lra.
Qed.

Definition ext_con_t Rw p (c : ctype * R) : R := ext_con Rw p 0 c.
Definition ext_var_t Rw (v : bvar) : R := ext_var Rw 0 v.

Lemma ext_con_nn Rw p : 0 < Rw -> Nat.Even p -> (1 <= p)%nat ->
  forall c, 0 <= ext_con_t Rw p c /\ (ext_con_t Rw p c = 0 <-> holds c).
Proof.
  intros HR HE Hp [[] g]; unfold ext_con_t, ext_con, holds.
  - destruct (Rmax0_pow p g Hp) as [A B]. split; [nra|]. rewrite <- B. split; intros; nra.
  - assert (A := pow2_ge_0 (Rmin 0 g)). split; [nra|]. split.
    + intros E. assert (Rmin 0 g ^ 2 = 0) by nra. unfold Rmin in *. destruct (Rle_dec 0 g); auto. simpl in *; nra.
    + intros. rewrite Rmin_left by lra. ring.
  - destruct (even_pow p g HE Hp) as [A B]. split; [lra|]. rewrite <- B. split; intros; lra.
Qed.

Lemma ext_var_nn Rw : 0 < Rw -> forall v, 0 <= ext_var_t Rw v /\ (ext_var_t Rw v = 0 <-> bounds_hold v).
Proof.
  intros HR [[x lb] ub]. unfold ext_var_t, ext_var, bounds_hold.
  destruct (Rmax0_pow 2 (-x+lb) ltac:(lia)) as [A B]. destruct (Rmax0_pow 2 (x-ub) ltac:(lia)) as [A' B'].
  destruct (Rlt_dec XLB lb), (Rlt_dec ub XUB).
  - split; [nra|]. split.
    + intros E. assert (Rmax 0 (-x+lb) ^ 2 = 0) by nra. assert (Rmax 0 (x-ub) ^ 2 = 0) by nra.
      apply B in H; apply B' in H0. lra.
    + intros [H1 H2]. assert (E1 : Rmax 0 (-x+lb) ^ 2 = 0) by (apply B; lra).
      assert (E2 : Rmax 0 (x-ub) ^ 2 = 0) by (apply B'; lra). rewrite E1, E2. ring.
  - split; [nra|]. split.
    + intros E. assert (Rmax 0 (-x+lb) ^ 2 = 0) by nra. apply B in H. lra.
    + intros [H1 H2]. assert (E1 : Rmax 0 (-x+lb) ^ 2 = 0) by (apply B; lra). rewrite E1. ring.
  - split; [nra|]. split.
    + intros E. assert (Rmax 0 (x-ub) ^ 2 = 0) by nra. apply B' in H. lra.
    + intros [H1 H2]. assert (E1 : Rmax 0 (x-ub) ^ 2 = 0) by (apply B'; lra). rewrite E1. ring.
  - split; [lra|]. split; auto. intros _; split; intros; contradiction.
Qed.

Lemma exterior_sum Rw p obj gs vs :
  exterior_penalty Rw p obj gs vs = obj + Rsum (map (ext_con_t Rw p) gs) + Rsum (map (ext_var_t Rw) vs).
Proof.
  unfold exterior_penalty. rewrite (fold_incr (ext_var Rw) (ext_var_t Rw)).
  - rewrite (fold_incr (ext_con Rw p) (ext_con_t Rw p)); auto. intros F [[] g] _; unfold ext_con_t, ext_con; lra.
  - intros F [[x lb] ub] _. unfold ext_var_t, ext_var. destruct (Rlt_dec XLB lb), (Rlt_dec ub XUB); lra.
Qed.

Lemma exterior_penalty_lemma Rw p obj gs vs :
  0 < Rw -> Nat.Even p -> (1 <= p)%nat ->
  obj <= exterior_penalty Rw p obj gs vs /\
  (exterior_penalty Rw p obj gs vs = obj <-> Forall holds gs /\ Forall bounds_hold vs).
Proof.
  intros HR HE Hp. rewrite exterior_sum.
  destruct (sum_zero (ext_con_t Rw p) holds gs) as [A1 A2]; [intros; apply ext_con_nn; auto|intros; apply ext_con_nn; auto|].
  destruct (sum_zero (ext_var_t Rw) bounds_hold vs) as [B1 B2]; [intros; apply ext_var_nn; auto|intros; apply ext_var_nn; auto|].
  split; [lra|]. rewrite <- A2, <- B2. split; intros; lra.
Qed.

Lemma exterior_weight_mono_lemma Rw Rw' p obj gs vs :
  0 < Rw <= Rw' -> Nat.Even p -> (1 <= p)%nat ->
  exterior_penalty Rw p obj gs vs <= exterior_penalty Rw' p obj gs vs.
Proof.
  intros HR HE Hp. rewrite !exterior_sum.
  assert (M1 : Rsum (map (ext_con_t Rw p) gs) <= Rsum (map (ext_con_t Rw' p) gs)).
  { apply Rsum_map_le. intros [[] g] _; unfold ext_con_t, ext_con.
    - destruct (Rmax0_pow p g Hp). nra.
    - pose proof (pow2_ge_0 (Rmin 0 g)). nra.
    - lra. }
  assert (M2 : Rsum (map (ext_var_t Rw) vs) <= Rsum (map (ext_var_t Rw') vs)).
  { apply Rsum_map_le. intros [[x lb] ub] _; unfold ext_var_t, ext_var.
    pose proof (pow2_ge_0 (Rmax 0 (-x+lb))). pose proof (pow2_ge_0 (Rmax 0 (x-ub))).
    destruct (Rlt_dec XLB lb), (Rlt_dec ub XUB); nra. }
  lra.
Qed.

Lemma exterior_odd_refuted_lemma :
  exists Rw obj gs, 0 < Rw /\ ~ Forall holds gs /\ exterior_penalty Rw 3 obj gs [] < obj.
Proof.
  exists 10, 0, [(CEq, -1)]. split; [lra|]. split; [intros F; inversion F; subst; simpl in *; lra|].
  unfold exterior_penalty; simpl. lra.
Qed.

(** ---------- exact penalty (C09) ---------- *)

Definition exact_con_t Rw (c : ctype * R) : R := exact_con Rw 0 c.
Definition exact_var_t Rw (v : bvar) : R := exact_var Rw 0 v.

Lemma exact_sum Rw gs vs :
  exact_penalty Rw gs vs = Rsum (map (exact_con_t Rw) gs) + Rsum (map (exact_var_t Rw) vs).
Proof.
  unfold exact_penalty. rewrite (fold_incr (exact_var Rw) (exact_var_t Rw)).
  - rewrite (fold_incr (exact_con Rw) (exact_con_t Rw)); [lra|]. intros F [[] g] _; unfold exact_con_t, exact_con; lra.
  - intros F [[x lb] ub] _. unfold exact_var_t, exact_var. destruct (Rlt_dec XLB lb), (Rlt_dec ub XUB); lra.
Qed.

Lemma Rmax0_zero v : 0 <= Rmax 0 v /\ (Rmax 0 v = 0 <-> v <= 0).
Proof. unfold Rmax; destruct (Rle_dec 0 v); split; try lra; split; intros; lra. Qed.

Lemma exact_var_nn Rw : 0 < Rw -> forall v, 0 <= exact_var_t Rw v /\ (exact_var_t Rw v = 0 <-> bounds_hold v).
Proof.
  intros HR [[x lb] ub]. unfold exact_var_t, exact_var, bounds_hold.
  destruct (Rmax0_zero (-x+lb)) as [A B]. destruct (Rmax0_zero (x-ub)) as [A' B'].
  destruct (Rlt_dec XLB lb), (Rlt_dec ub XUB).
  - split; [nra|]. split.
    + intros E. assert (Rmax 0 (-x+lb) = 0) by nra. assert (Rmax 0 (x-ub) = 0) by nra.
      apply B in H; apply B' in H0. lra.
    + intros [H1 H2]. assert (E1 : Rmax 0 (-x+lb) = 0) by (apply B; lra).
      assert (E2 : Rmax 0 (x-ub) = 0) by (apply B'; lra). rewrite E1, E2. ring.
  - split; [nra|]. split.
    + intros E. assert (Rmax 0 (-x+lb) = 0) by nra. apply B in H. lra.
    + intros [H1 H2]. assert (E1 : Rmax 0 (-x+lb) = 0) by (apply B; lra). rewrite E1. ring.
  - split; [nra|]. split.
    + intros E. assert (Rmax 0 (x-ub) = 0) by nra. apply B' in H. lra.
    + intros [H1 H2]. assert (E1 : Rmax 0 (x-ub) = 0) by (apply B'; lra). rewrite E1. ring.
  - split; [lra|]. split; auto. intros _; split; intros; contradiction.
Qed.

Lemma exact_penalty_partial_lemma Rw gs vs :
  0 < Rw -> Forall (fun c => fst c <> CGt) gs ->
  0 <= exact_penalty Rw gs vs /\
  (exact_penalty Rw gs vs = 0 <-> Forall holds gs /\ Forall bounds_hold vs).
Proof.
  intros HR NG. rewrite exact_sum.
  assert (A : 0 <= Rsum (map (exact_con_t Rw) gs) /\ (Rsum (map (exact_con_t Rw) gs) = 0 <-> Forall holds gs)).
  { induction NG as [|[ty g] gs Hty NG [IH1 IH2]]; [simpl; split; [lra|split; auto]|].
    rewrite map_cons, Rsum_cons.
    assert (T : 0 <= exact_con_t Rw (ty, g) /\ (exact_con_t Rw (ty, g) = 0 <-> holds (ty, g))).
    { unfold exact_con_t, exact_con, holds. destruct ty; simpl in Hty; try congruence.
      - destruct (Rmax0_zero g) as [A B]. split; [nra|]. rewrite <- B. split; intros; nra.
      - pose proof (Rabs_pos g). split; [lra|]. split; intros E.
        + destruct (Req_dec g 0); auto. apply Rabs_no_R0 in H0. lra.
        + subst. rewrite Rabs_R0. ring. }
    destruct T as [T1 T2]. split; [lra|]. split.
    - intros E. constructor; [apply T2; lra|apply IH2; lra].
    - intros F; inversion F as [|? ? F1 F2]; subst. apply T2 in F1. apply IH2 in F2. lra. }
  destruct A as [A1 A2].
  destruct (sum_zero (exact_var_t Rw) bounds_hold vs) as [B1 B2]; [intros; apply exact_var_nn; auto|intros; apply exact_var_nn; auto|].
  split; [lra|]. rewrite <- A2, <- B2. split; intros; lra.
Qed.

(** A violated '>' constraint is rewarded, and can hide another violation. *)
Lemma exact_penalty_refuted_lemma :
  exists Rw gs gs', 0 < Rw /\ ~ Forall holds gs /\ exact_penalty Rw gs [] < 0 /\
    (forall c, In c gs' -> ~ holds c) /\ gs' <> [] /\ exact_penalty Rw gs' [] = 0.
Proof.
  exists 1, [(CGt, -1)], [(CGt, -1); (CLt, 1)]. split; [lra|].
  split; [intros F; inversion F; subst; simpl in *; lra|].
  unfold exact_penalty; simpl. rewrite Rmin_right, Rmax_right by lra. split; [lra|].
  split; [intros c [<-|[<-|[]]]; simpl; lra|]. split; [discriminate|lra].
Qed.

(** ---------- inverse barrier (C87) ---------- *)

Definition inv_con_t Rw (c : ctype * R) : R := inv_con Rw 0 c.
Definition inv_var_t Rw (v : bvar) : R := inv_var Rw 0 v.

Lemma inverse_sum Rw obj gs vs :
  inverse_barrier Rw obj gs vs = obj + Rsum (map (inv_con_t Rw) gs) + Rsum (map (inv_var_t Rw) vs).
Proof.
  unfold inverse_barrier. rewrite (fold_incr (inv_var Rw) (inv_var_t Rw)).
  - rewrite (fold_incr (inv_con Rw) (inv_con_t Rw)); auto. intros F [[] g] _; unfold inv_con_t, inv_con; lra.
  - intros F [[x lb] ub] _. unfold inv_var_t, inv_var. destruct (Rlt_dec XLB lb), (Rlt_dec ub XUB); lra.
Qed.

Lemma inv_neg R' g : 0 < R' -> g < 0 -> 0 < - (1 / R' / g).
Proof.
  intros. replace (- (1 / R' / g)) with (/ (R' * - g)) by (field; lra). apply Rinv_0_lt_compat. nra.
Qed.
Lemma inv_pos R' g : 0 < R' -> 0 < g -> 0 < 1 / R' / g.
Proof.
  intros. replace (1 / R' / g) with (/ (R' * g)) by (field; lra). apply Rinv_0_lt_compat. nra.
Qed.

Lemma inv_con_pos Rw c : 0 < Rw -> holds_strictly c -> 0 <= inv_con_t Rw c.
Proof.
  intros HR. destruct c as [[] g]; unfold inv_con_t, inv_con; simpl; intros H; try lra.
  - pose proof (inv_neg Rw g HR H). lra.
  - pose proof (inv_pos Rw g HR H). lra.
Qed.
Lemma inv_var_pos Rw v : 0 < Rw -> bounds_hold_strictly v -> 0 <= inv_var_t Rw v.
Proof.
  intros HR. destruct v as [[x lb] ub]; unfold inv_var_t, inv_var, bounds_hold_strictly; intros [H1 H2].
  destruct (Rlt_dec XLB lb) as [C|C], (Rlt_dec ub XUB) as [D|D]; try lra.
  - pose proof (inv_neg Rw (-x+lb) HR ltac:(specialize (H1 C); lra)). pose proof (inv_neg Rw (x-ub) HR ltac:(specialize (H2 D); lra)). lra.
  - pose proof (inv_neg Rw (-x+lb) HR ltac:(specialize (H1 C); lra)). lra.
  - pose proof (inv_neg Rw (x-ub) HR ltac:(specialize (H2 D); lra)). lra.
Qed.

Lemma Rsum_map_nonneg {A} (t : A -> R) l : (forall a, In a l -> 0 <= t a) -> 0 <= Rsum (map t l).
Proof. induction l as [|a l IH]; intros H; simpl; [lra|]. pose proof (H a (or_introl eq_refl)). specialize (IH (fun b Hb => H b (or_intror Hb))). lra. Qed.
Lemma Rsum_map_ge {A} (t : A -> R) l a : (forall a, In a l -> 0 <= t a) -> In a l -> t a <= Rsum (map t l).
Proof.
  induction l as [|b l IH]; intros H Ha; simpl; [destruct Ha|].
  pose proof (H b (or_introl eq_refl)). pose proof (Rsum_map_nonneg t l (fun b Hb => H b (or_intror Hb))).
  destruct Ha as [->|Ha]; [lra|]. specialize (IH (fun b Hb => H b (or_intror Hb)) Ha). lra.
Qed.

(** At interior points the barrier is at least the objective, and it exceeds
    every bound M near the boundary of an inequality. *)
Lemma inverse_barrier_lemma Rw obj gs vs :
  0 < Rw -> Forall holds_strictly gs -> Forall bounds_hold_strictly vs ->
  obj <= inverse_barrier Rw obj gs vs /\
  (forall ty g M, In (ty, g) gs -> ty <> CEq -> 0 < M -> Rabs g <= 1 / (Rw * M) ->
     obj + M <= inverse_barrier Rw obj gs vs).
Proof.
  intros HR HG HV. rewrite inverse_sum. rewrite Forall_forall in HG, HV.
  assert (P1 : forall c, In c gs -> 0 <= inv_con_t Rw c) by (intros; apply inv_con_pos; auto).
  assert (P2 : forall v, In v vs -> 0 <= inv_var_t Rw v) by (intros; apply inv_var_pos; auto).
  pose proof (Rsum_map_nonneg _ _ P1). pose proof (Rsum_map_nonneg _ _ P2). split; [lra|].
  intros ty g M Hin Hty HM Hg.
  assert (M <= inv_con_t Rw (ty, g)).
  { specialize (HG _ Hin). unfold inv_con_t, inv_con. destruct ty; simpl in HG; try congruence.
    - rewrite Rabs_left in Hg by lra.
      replace (0 - 1 / Rw / g) with (1 / (Rw * - g)) by (field; lra).
      apply Rmult_le_reg_r with (Rw * - g); [nra|].
      replace (1 / (Rw * - g) * (Rw * - g)) with 1 by (field; lra).
      apply Rmult_le_compat_r with (r := Rw * M) in Hg; [|nra].
      replace (1 / (Rw * M) * (Rw * M)) with 1 in Hg by (field; lra). nra.
    - rewrite Rabs_pos_eq in Hg by lra.
      replace (0 + 1 / Rw / g) with (1 / (Rw * g)) by (field; lra).
      apply Rmult_le_reg_r with (Rw * g); [nra|].
      replace (1 / (Rw * g) * (Rw * g)) with 1 by (field; lra).
      apply Rmult_le_compat_r with (r := Rw * M) in Hg; [|nra].
      replace (1 / (Rw * M) * (Rw * M)) with 1 in Hg by (field; lra). nra. }
  pose proof (Rsum_map_ge _ _ _ P1 Hin). lra.
Qed.

(** ---------- multipliers (C10) ---------- *)

Lemma upd_mult_nonneg ty Rineq Req mult val : ty <> CEq -> 0 <= upd_mult ty Rineq Req mult val.
Proof. destruct ty; simpl; intros; try congruence; apply Rmax_r. Qed.

Lemma update_nonneg_lemma Rineq Req cs vs ms vs' :
  update_lag_mult Rineq Req cs vs = (ms, vs') ->
  Forall2 (fun c m => fst (fst c) <> CEq -> 0 <= m) cs ms /\
  Forall2 (fun v v' => (XLB < m_lb v -> 0 <= m_lbm v') /\ (m_ub v < XUB -> 0 <= m_ubm v') /\
                       m_x v' = m_x v /\ m_lb v' = m_lb v /\ m_ub v' = m_ub v) vs vs'.
Proof.
  intros E; injection E as <- <-. split.
  - induction cs as [|[[ty m] g] cs IH]; simpl; constructor; auto. simpl. apply upd_mult_nonneg.
  - induction vs as [|v vs IH]; simpl; constructor; auto. unfold upd_bounds; simpl.
    destruct (Rlt_dec XLB (m_lb v)), (Rlt_dec (m_ub v) XUB); repeat split; intros; try contradiction; apply Rmax_r.
Qed.

(** The updated multiplier is the slope of the augmented term: first-order
    expansion with a quadratic remainder. *)
Lemma sq_plus_expand a h :
  0 <= (Rmax (a + h) 0) ^ 2 - (Rmax a 0) ^ 2 - 2 * Rmax a 0 * h <= h ^ 2.
Proof.
  unfold Rmax. destruct (Rle_dec (a + h) 0), (Rle_dec a 0); simpl; split; nra.
Qed.
Lemma Rmax_scale R' a : 0 < R' -> Rmax (2 * R' * a) 0 = 2 * R' * Rmax a 0.
Proof. intros H. unfold Rmax. destruct (Rle_dec (2 * R' * a) 0), (Rle_dec a 0); nra. Qed.

Lemma update_is_slope_lemma ty Rineq Req mult val h :
  0 < Rineq -> 0 <= Req ->
  let s := match ty with CLt => 1 | CGt => -1 | CEq => -1 end in
  0 <= aug_term ty Rineq Req mult (val + h) - aug_term ty Rineq Req mult val
       - s * upd_mult ty Rineq Req mult val * h <= (Rineq + Req) * h ^ 2.
Proof.
  intros HR HQ. pose proof (pow2_ge_0 h) as Hh. destruct ty; unfold aug_term, upd_mult; cbv zeta.
  - set (a := 5/10 * mult / Rineq + val).
    replace (5/10 * mult / Rineq + (val + h)) with (a + h) by (unfold a; ring).
    replace (mult + 2 * Rineq * val) with (2 * Rineq * a) by (unfold a; field; lra).
    rewrite Rmax_scale by auto. destruct (sq_plus_expand a h) as [A B].
    replace (Rineq * Rmax (a + h) 0 ^ 2 - Rineq * Rmax a 0 ^ 2 - 1 * (2 * Rineq * Rmax a 0) * h)
      with (Rineq * (Rmax (a + h) 0 ^ 2 - Rmax a 0 ^ 2 - 2 * Rmax a 0 * h)) by ring.
    split; nra.
  - set (a := 5/10 * mult / Rineq - val).
    replace (5/10 * mult / Rineq - (val + h)) with (a + (- h)) by (unfold a; ring).
    replace (mult - 2 * Rineq * val) with (2 * Rineq * a) by (unfold a; field; lra).
    rewrite Rmax_scale by auto. destruct (sq_plus_expand a (-h)) as [A B].
    replace (Rineq * Rmax (a + - h) 0 ^ 2 - Rineq * Rmax a 0 ^ 2 - -1 * (2 * Rineq * Rmax a 0) * h)
      with (Rineq * (Rmax (a + - h) 0 ^ 2 - Rmax a 0 ^ 2 - 2 * Rmax a 0 * - h)) by ring.
    replace ((- h) ^ 2) with (h ^ 2) in B by ring. split; nra.
  - split; simpl; nra.
Qed.

Lemma lower_bound_own_lemma Rineq v : XLB < m_lb v ->
  m_lbm (upd_bounds Rineq v) = Rmax (m_lbm v + 2 * Rineq * (m_lb v - m_x v)) 0.
Proof. intros H. unfold upd_bounds; simpl. destruct (Rlt_dec XLB (m_lb v)); [|contradiction]. f_equal; ring. Qed.

Lemma upper_bound_refuted_lemma :
  exists Rineq v, 0 < Rineq /\ XLB < m_lb v /\ m_ub v < XUB /\ m_lb v <= m_x v <= m_ub v /\
    0 <= m_lbm v /\ 0 <= m_ubm v /\
    m_ubm (upd_bounds Rineq v) <> Rmax (m_ubm v + 2 * Rineq * (m_x v - m_ub v)) 0.
Proof.
  exists 1, (mkMvar 1 0 1 0 5). unfold XLB, XUB; simpl. repeat split; try lra.
  unfold upd_bounds; simpl. unfold XLB, XUB. destruct (Rlt_dec _ 0); [|lra]. destruct (Rlt_dec 1 _); [|lra].
  unfold Rmax. repeat destruct (Rle_dec _ _); lra.
Qed.

(** The upper multiplier is right exactly when both agree after the lower update. *)
Lemma upper_bound_partial_lemma Rineq v : m_ub v < XUB ->
  m_lbm (upd_bounds Rineq v) = m_ubm v ->
  m_ubm (upd_bounds Rineq v) = Rmax (m_ubm v + 2 * Rineq * (m_x v - m_ub v)) 0.
Proof. intros H E. unfold upd_bounds in *; simpl in *. destruct (Rlt_dec (m_ub v) XUB); [|contradiction]. rewrite E. reflexivity. Qed.

(** ---------- potentially active set (C14) ---------- *)

Lemma pot_active_spec gs i n : In n (pot_active_from i gs) <->
  exists ty g, (i <= n)%nat /\ nth_error gs (n - i) = Some (ty, g) /\
    match ty with CEq => True | CLt => - (25/100) < g | CGt => g < 25/100 end.
Proof.
  revert i; induction gs as [|[ty g] gs IH]; intros i; simpl.
  - split; [intros []|]. intros (t & g & H1 & H2 & _). destruct (n - i)%nat; discriminate.
  - assert (STEP : In n (pot_active_from (S i) gs) <->
       exists ty' g', (i < n)%nat /\ nth_error ((ty, g) :: gs) (n - i) = Some (ty', g') /\
         match ty' with CEq => True | CLt => - (25/100) < g' | CGt => g' < 25/100 end).
    { rewrite IH. split; intros (t & g' & A & B & C); exists t, g'.
      - split; [lia|]. split; auto. replace (n - i)%nat with (S (n - S i)) by lia. exact B.
      - split; [lia|]. split; auto. replace (n - i)%nat with (S (n - S i)) in B by lia. exact B. }
    assert (KEEP : match ty with CEq => True | CLt => - (25/100) < g | CGt => g < 25/100 end ->
       (In n (i :: pot_active_from (S i) gs) <-> exists ty' g', (i <= n)%nat /\ nth_error ((ty, g) :: gs) (n - i) = Some (ty', g') /\
         match ty' with CEq => True | CLt => - (25/100) < g' | CGt => g' < 25/100 end)).
    { intros HK. simpl In. rewrite STEP. split.
      - intros [<-|(t & g' & A & B & C)]; [exists ty, g; rewrite Nat.sub_diag; auto|exists t, g'; split; [lia|auto]].
      - intros (t & g' & A & B & C). destruct (Nat.eq_dec i n) as [->|D]; [left; auto|right; exists t, g'; split; [lia|auto]]. }
    assert (DROP : ~ match ty with CEq => True | CLt => - (25/100) < g | CGt => g < 25/100 end ->
       (In n (pot_active_from (S i) gs) <-> exists ty' g', (i <= n)%nat /\ nth_error ((ty, g) :: gs) (n - i) = Some (ty', g') /\
         match ty' with CEq => True | CLt => - (25/100) < g' | CGt => g' < 25/100 end)).
    { intros HK. rewrite STEP. split.
      - intros (t & g' & A & B & C). exists t, g'; split; [lia|auto].
      - intros (t & g' & A & B & C). exists t, g'. destruct (Nat.eq_dec i n) as [->|D].
        + rewrite Nat.sub_diag in B; simpl in B. injection B as <- <-. contradiction.
        + split; [lia|auto]. }
    destruct ty.
    + destruct (Rlt_dec (- (25/100)) g); [apply KEEP; auto|apply DROP; auto].
    + destruct (Rlt_dec g (25/100)); [apply KEEP; auto|apply DROP; auto].
    + apply KEEP; auto.
Qed.

Lemma pot_active_lemma gs n : In n (potentially_active gs) <->
  exists c, nth_error gs n = Some c /\
    match c with (CEq, _) => True | (CLt, g) => - (25/100) < g | (CGt, g) => g < 25/100 end.
Proof.
  unfold potentially_active. rewrite pot_active_spec. rewrite Nat.sub_0_r. split.
  - intros (ty & g & _ & A & B). exists (ty, g). split; [exact A|exact B].
  - intros ([ty g] & A & B). exists ty, g. split; [lia|]. split; [exact A|exact B].
Qed.

(** ---------- discrete variables (C11, C12) ---------- *)

Lemma smaller_lemma values x v : smaller_value values x = Some v <->
  In v values /\ v < x /\ (forall w, In w values -> ~ (v < w < x)).
Proof.
  unfold smaller_value. rewrite list_max_spec, filter_In, Rltb_true. split.
  - intros [[A B] C]. split; [auto|]. split; [lra|]. intros w Hw [H1 H2].
    assert (w <= v) by (apply C, filter_In; split; [auto|apply Rltb_true; lra]). lra.
  - intros (A & B & C). split; [split; [auto|lra]|]. intros w Hw. apply filter_In in Hw. destruct Hw as [Hw H1].
    apply Rltb_true in H1. apply Rnot_lt_le. intros H2. apply (C w Hw). lra.
Qed.
Lemma larger_lemma values x v : larger_value values x = Some v <->
  In v values /\ x < v /\ (forall w, In w values -> ~ (x < w < v)).
Proof.
  unfold larger_value. rewrite list_min_spec, filter_In, Rltb_true. split.
  - intros [[A B] C]. split; [auto|]. split; [lra|]. intros w Hw [H1 H2].
    assert (v <= w) by (apply C, filter_In; split; [auto|apply Rltb_true; lra]). lra.
  - intros (A & B & C). split; [split; [auto|lra]|]. intros w Hw. apply filter_In in Hw. destruct Hw as [Hw H1].
    apply Rltb_true in H1. apply Rnot_lt_le. intros H2. apply (C w Hw). lra.
Qed.
Lemma filter_nil {A} (f : A -> bool) l : filter f l = [] <-> forall a, In a l -> f a = false.
Proof.
  induction l as [|a l IH]; simpl; [split; [intros _ b []|auto]|].
  destruct (f a) eqn:E; split.
  - discriminate.
  - intros H. rewrite (H a (or_introl eq_refl)) in E. discriminate.
  - intros H b [<-|Hb]; auto. apply IH; auto.
  - intros H. apply IH; auto.
Qed.
Lemma smaller_none_lemma values x : smaller_value values x = None <-> forall v, In v values -> x <= v.
Proof.
  unfold smaller_value. rewrite list_max_none, filter_nil. setoid_rewrite Rltb_false.
  split; intros H v Hv; specialize (H v Hv); lra.
Qed.
Lemma larger_none_lemma values x : larger_value values x = None <-> forall v, In v values -> v <= x.
Proof.
  unfold larger_value. rewrite list_min_none, filter_nil. setoid_rewrite Rltb_false.
  split; intros H v Hv; specialize (H v Hv); lra.
Qed.

Lemma min_dist_spec values x d : list_min (map (fun v => Rabs (v - x)) values) = Some d <-> is_distance values x d.
Proof.
  rewrite list_min_spec. unfold is_distance. split.
  - intros [A B]. apply in_map_iff in A. destruct A as (v & E & Hv). split; [exists v; auto|].
    intros w Hw. apply B. apply in_map_iff; exists w; auto.
  - intros [(v & Hv & E) B]. split; [apply in_map_iff; exists v; auto|].
    intros y Hy. apply in_map_iff in Hy. destruct Hy as (w & <- & Hw). auto.
Qed.

Lemma disc_violation_lemma values x viol : disc_violation values x = Some viol ->
  exists d, is_distance values x d /\ 0 <= viol /\ (viol = d \/ viol = 0 /\ d <= DISC_TOL) /\ (d > DISC_TOL -> viol = d).
Proof.
  unfold disc_violation. destruct (list_min _) as [d|] eqn:E; [|discriminate]. intros H; injection H as <-.
  apply min_dist_spec in E. exists d. split; auto.
  assert (0 <= d) by (destruct E as [(v & _ & ->) _]; apply Rabs_pos).
  destruct (Rle_dec d DISC_TOL); repeat split; auto; lra.
Qed.

Lemma disc_allowed_lemma values x : disc_allowed values x = Some true -> disc_violation values x = Some 0.
Proof.
  unfold disc_allowed, disc_violation. destruct (list_min values); [|discriminate]. destruct (list_max values); [|discriminate].
  destruct (list_min (map _ values)) as [d|]; [|discriminate].
  destruct (Rle_dec r x); [|discriminate]. destruct (Rle_dec x r0); [|discriminate].
  intros H; injection H as H. apply Rltb_true in H. destruct (Rle_dec d DISC_TOL) as [|C]; auto.
  exfalso. unfold INT_TOL, DISC_TOL in *. lra.
Qed.

(** The converse fails between the two tolerances. *)
Lemma disc_converse_refuted_lemma :
  exists values x, disc_violation values x = Some 0 /\ disc_allowed values x = Some false.
Proof.
  exists [0; 1], (1/2000). unfold disc_violation, disc_allowed, list_min, list_max; simpl.
  assert (E : Rmin (Rabs (0 - 1/2000)) (Rabs (1 - 1/2000)) = 1/2000).
  { rewrite (Rabs_left (0 - 1/2000)), (Rabs_right (1 - 1/2000)) by lra. rewrite Rmin_left; lra. }
  rewrite E. rewrite Rmin_left, Rmax_right by lra. split; f_equal; rdec; unfold DISC_TOL, INT_TOL in *; try lra.
  apply Rltb_false. lra.
Qed.

Lemma int_violation_lemma x : 0 <= int_violation x /\
  (int_violation x = 0 <-> exists z, Rabs (x - IZR z) <= INT_TOL) /\
  (int_violation x <> 0 -> forall z, int_violation x <= Rabs (x - IZR z)).
Proof.
  unfold int_violation. pose proof (Rabs_pos (x - IZR (roundZ x))).
  destruct (Rle_dec (Rabs (x - IZR (roundZ x))) INT_TOL) as [C|C].
  - split; [lra|]. split; [split; [intros; exists (roundZ x); auto|auto]|]. intros; congruence.
  - split; [lra|]. split.
    + split; [intros E; unfold INT_TOL in C; lra|]. intros (z & Hz). pose proof (roundZ_nearest x z). lra.
    + intros _ z. apply roundZ_nearest.
Qed.

Lemma int_allowed_lemma lb ub x : -100000 <= lb -> ub <= 100000 ->
  (int_allowed lb ub x = true <-> lb <= x <= ub /\ int_violation x = 0).
Proof.
  intros HL HU. unfold int_allowed, int_violation, isclose.
  destruct (Rle_dec lb x); [|split; [discriminate|lra]]. destruct (Rle_dec x ub); [|split; [discriminate|lra]].
  rewrite Rleb_true.
  assert (A : Rabs x <= 100000) by (unfold Rabs; destruct (Rcase_abs x); lra).
  assert (B : Rabs (IZR (roundZ x)) <= 100000).
  { assert (H1 := roundZ_nearest x (-100000)). assert (H2 := roundZ_nearest x 100000).
    unfold Rabs in *. repeat destruct (Rcase_abs _); lra. }
  rewrite (Rmax_right (1 / 1000000000 * _) INT_TOL).
  2:{ unfold INT_TOL. assert (Rmax (Rabs x) (Rabs (IZR (roundZ x))) <= 100000) by (apply Rmax_lub; auto). lra. }
  destruct (Rle_dec (Rabs (x - IZR (roundZ x))) INT_TOL) as [C|C].
  - split; auto.
  - split; [contradiction|]. intros [_ E]. exfalso. unfold INT_TOL in C. lra.
Qed.

(** Above 1e5 the default relative tolerance of isclose takes over. *)
Lemma int_allowed_refuted_lemma :
  exists lb ub x, lb <= x <= ub /\ int_allowed lb ub x = true /\ int_violation x <> 0.
Proof.
  exists 0, 2000000, (1000000 + 1/2000). split; [lra|].
  assert (Rd : roundZ (1000000 + 1/2000) = 1000000%Z).
  { unfold roundZ. rewrite (floorZ_unique _ 1000000) by lra. destruct (Rlt_dec _ _) as [|C]; auto. exfalso; apply C; lra. }
  assert (E : Rabs (1000000 + 1/2000 - IZR (roundZ (1000000 + 1/2000))) = 1/2000).
  { rewrite Rd. rewrite Rabs_right; lra. }
  split.
  - unfold int_allowed, isclose. destruct (Rle_dec 0 _); [|lra]. destruct (Rle_dec _ 2000000); [|lra].
    rewrite E. apply Rleb_true. eapply Rle_trans; [|apply Rmax_l].
    eapply Rle_trans; [|apply Rmult_le_compat_l; [lra|apply Rmax_l]]. rewrite Rabs_right; lra.
  - unfold int_violation. rewrite E. unfold INT_TOL. destruct (Rle_dec _ _); lra.
Qed.

(** ---------- index2binary (C13) ---------- *)

Lemma tag_eqb_eq a b : tag_eqb a b = true <-> a = b.
Proof.
  destruct a, b; simpl; try (split; [discriminate|intros E; discriminate E]);
    rewrite ?andb_true_iff, ?Nat.eqb_eq; split; intros; intuition congruence.
Qed.

Lemma index_of_some t l : In t l -> exists n, index_of t l = Some n /\ (n < length l)%nat /\ forall d, nth n l d = t.
Proof.
  induction l as [|u l IH]; simpl; [intros []|]. destruct (tag_eqb t u) eqn:E.
  - apply tag_eqb_eq in E; subst. intros _; exists 0%nat; repeat split; auto; lia.
  - intros [->|H]; [rewrite (proj2 (tag_eqb_eq t t) eq_refl) in E; discriminate|].
    destruct (IH H) as (n & -> & L & N). exists (S n); repeat split; auto; lia.
Qed.

Lemma dot_set_nth n c a x : (n < length a)%nat -> length a = length x ->
  dot (set_nth n c a) x = dot a x + (c - nth n a 0) * nth n x 0.
Proof.
  revert n x; induction a as [|u a IH]; intros n x H L; simpl in H; [lia|].
  destruct x as [|v x]; [discriminate|]. destruct n as [|n]; simpl; [lra|].
  rewrite IH; simpl in L; try lia. lra.
Qed.

Lemma fold_assign l sigma tcs a :
  NoDup (map fst tcs) -> (forall t, In t (map fst tcs) -> In t l) -> length a = length l ->
  (forall t n, In t (map fst tcs) -> index_of t l = Some n -> nth n a 0 = 0) ->
  dot (fold_left (assign l) tcs a) (map sigma l) =
  dot a (map sigma l) + Rsum (map (fun tc => snd tc * sigma (fst tc)) tcs).
Proof.
  revert a; induction tcs as [|[t c] tcs IH]; intros a ND IN LA Z; simpl; [lra|].
  simpl in ND, IN, Z. inversion ND as [|? ? NI ND']; subst.
  destruct (index_of_some t l (IN t (or_introl eq_refl))) as (n & E & Ln & Nn).
  unfold assign at 2; simpl. rewrite E. rewrite IH; auto.
  - rewrite dot_set_nth by (rewrite ?map_length; lia). rewrite (Z t n (or_introl eq_refl) E).
    rewrite (nth_indep _ 0 (sigma t)) by (rewrite map_length; lia). rewrite map_nth, Nn. lra.
  - rewrite set_nth_length; auto.
  - intros t' n' Ht' E'. rewrite nth_set_nth by lia. destruct (Nat.eqb n' n) eqn:Q.
    + apply Nat.eqb_eq in Q; subst n'. exfalso. apply NI.
      destruct (index_of_some t' l (IN t' (or_intror Ht'))) as (m & Em & _ & Nm).
      assert (m = n) by congruence; subst m. rewrite <- (Nn t), (Nm t). exact Ht'.
    + eauto.
Qed.

Lemma dot_zeros n x : dot (repeat 0 n) x = 0.
Proof. revert x; induction n; intros [|v x]; simpl; auto. rewrite IHn. lra. Qed.
Lemma nth_zeros n m : nth m (repeat 0 n) 0 = 0.
Proof. revert m; induction n; intros [|m]; simpl; auto. Qed.

Lemma convert_keeps K vars i cur t : In t cur -> (forall j, t <> TOther j) -> In t (convert K i vars cur).
Proof.
  revert i cur; induction vars as [|[profs|] vars IH]; intros i cur H NT; simpl; auto.
  apply IH; auto. unfold del_var. apply filter_In. split; [apply in_or_app; auto|].
  apply negb_true_iff. destruct (tag_eqb (TOther i) t) eqn:E; auto. apply tag_eqb_eq in E. congruence.
Qed.

Lemma convert_adds K vars i cur g profs : nth_error vars g = Some (Some profs) ->
  (forall k, (k < K)%nat -> In (TProp (i + g) k) (convert K i vars cur)) /\
  (forall j, (j < length profs)%nat -> In (TBin (i + g) j) (convert K i vars cur)).
Proof.
  revert i cur g; induction vars as [|v vars IH]; intros i cur [|g] N; simpl in N; try discriminate.
  - injection N as ->. simpl. rewrite Nat.add_0_r. split; intros m Hm; apply convert_keeps; try discriminate;
      unfold del_var; apply filter_In; (split; [|reflexivity]); apply in_or_app; right; apply in_or_app;
      [left|right]; apply in_map, in_seq; lia.
  - replace (i + S g)%nat with (S i + g)%nat by lia. destruct v as [p|]; cbn [convert]; apply (IH (S i)); auto.
Qed.

Lemma final_has K vars g profs : nth_error vars g = Some (Some profs) ->
  (forall k, (k < K)%nat -> In (TProp g k) (final_vars K vars)) /\
  (forall j, (j < length profs)%nat -> In (TBin g j) (final_vars K vars)).
Proof. intros H. exact (convert_adds K vars 0 _ g profs H). Qed.

Lemma map_fst_pair {A B C} (f : A -> B) (h : A -> C) l : map fst (map (fun j => (f j, h j)) l) = map f l.
Proof. rewrite map_map. reflexivity. Qed.

Lemma NoDup_tbin g n : NoDup (map (TBin g) (seq 0 n)).
Proof. apply FinFun.Injective_map_NoDup; [intros a b E; congruence|apply seq_NoDup]. Qed.

Lemma sum_row_value K vars sigma g profs : nth_error vars g = Some (Some profs) ->
  dot (sum_row (final_vars K vars) g profs) (map sigma (final_vars K vars)) =
  Rsum (map (fun j => sigma (TBin g j)) (seq 0 (length profs))).
Proof.
  intros H. destruct (final_has K vars g profs H) as [HP HB]. unfold sum_row. rewrite fold_assign.
  - rewrite dot_zeros, map_map. simpl. rewrite Rplus_0_l. f_equal. apply map_ext. intros; lra.
  - rewrite map_fst_pair. apply NoDup_tbin.
  - rewrite map_fst_pair. intros t Ht. apply in_map_iff in Ht. destruct Ht as (j & <- & Hj). apply in_seq in Hj. apply HB; lia.
  - apply repeat_length.
  - intros; apply nth_zeros.
Qed.

Lemma prop_row_value K vars sigma g k profs : nth_error vars g = Some (Some profs) -> (k < K)%nat ->
  dot (prop_row (final_vars K vars) g k profs) (map sigma (final_vars K vars)) =
  sigma (TProp g k) - Rsum (map (fun j => roundn 3 (nth k (nth j profs []) 0) * sigma (TBin g j)) (seq 0 (length profs))).
Proof.
  intros H Hk. destruct (final_has K vars g profs H) as [HP HB]. unfold prop_row. rewrite fold_assign.
  - rewrite dot_zeros. rewrite map_cons, map_map. simpl fst. simpl snd. rewrite Rsum_cons.
    assert (E : forall l, Rsum (map (fun x => - roundn 3 (nth k (nth x profs []) 0) * sigma (TBin g x)) l) =
              - Rsum (map (fun j => roundn 3 (nth k (nth j profs []) 0) * sigma (TBin g j)) l)).
    { induction l as [|a l IH]; simpl; [lra|]. rewrite IH. lra. }
    rewrite E. lra.
  - rewrite map_cons, map_fst_pair. simpl. constructor; [|apply NoDup_tbin].
    intros Hin. apply in_map_iff in Hin. destruct Hin as (j & E & _). discriminate.
  - rewrite map_cons, map_fst_pair. intros t [<-|Ht]; [simpl; auto|].
    apply in_map_iff in Ht. destruct Ht as (j & <- & Hj). apply in_seq in Hj. apply HB; lia.
  - apply repeat_length.
  - intros; apply nth_zeros.
Qed.

(** 0/1 lists with sum one. *)
Lemma sum01 (f : nat -> R) a n :
  (forall j, (a <= j < a + n)%nat -> f j = 0 \/ f j = 1) ->
  0 <= Rsum (map f (seq a n)) /\
  (Rsum (map f (seq a n)) = 0 -> forall j, (a <= j < a + n)%nat -> f j = 0) /\
  (Rsum (map f (seq a n)) = 1 ->
     exists j, (a <= j < a + n)%nat /\ f j = 1 /\ forall j', (a <= j' < a + n)%nat -> j' <> j -> f j' = 0).
Proof.
  revert a; induction n as [|n IH]; intros a H; simpl.
  - split; [lra|]. split; [intros _ j Hj; lia|intros; lra].
  - destruct (IH (S a)) as (A & B & C); [intros j Hj; apply H; lia|].
    destruct (H a ltac:(lia)) as [E|E]; rewrite E.
    + split; [lra|]. split.
      * intros S0 j Hj. destruct (Nat.eq_dec j a) as [->|D]; auto. apply B; [lra|lia].
      * intros S1. destruct C as (j & Hj & E1 & U); [lra|]. exists j; split; [lia|]. split; auto.
        intros j' Hj' D. destruct (Nat.eq_dec j' a) as [->|D']; auto. apply U; auto; lia.
    + split; [lra|]. split; [intros; lra|]. intros S1. exists a; split; [lia|]. split; auto.
      intros j' Hj' D. apply B; [lra|lia].
Qed.

Lemma sum_select (f w : nat -> R) a n j : (a <= j < a + n)%nat -> f j = 1 ->
  (forall j', (a <= j' < a + n)%nat -> j' <> j -> f j' = 0) ->
  Rsum (map (fun i => w i * f i) (seq a n)) = w j.
Proof.
  revert a; induction n as [|n IH]; intros a Hj E U; [lia|]. simpl.
  destruct (Nat.eq_dec j a) as [->|D].
  - rewrite E. assert (Z : Rsum (map (fun i => w i * f i) (seq (S a) n)) = 0).
    { assert (U2 : forall i, (S a <= i < S a + n)%nat -> f i = 0) by (intros; apply U; lia).
      clear -U2. revert U2. generalize (S a). induction n as [|n IH]; intros b U2; simpl; [lra|].
      rewrite IH by (intros; apply U2; lia). rewrite U2 by lia. lra. }
    rewrite Z. lra.
  - rewrite IH; [|lia|auto|intros; apply U; lia]. rewrite (U a) by lia. lra.
Qed.

Lemma gen_cons_spec K l g vars c :
  In c (gen_cons K l g vars) <->
  exists i profs, nth_error vars i = Some (Some profs) /\
    ((exists k, (k < K)%nat /\ c = (prop_row l (g + i) k profs, 0)) \/ c = (sum_row l (g + i) profs, 1)).
Proof.
  revert g; induction vars as [|v vars IH]; intros g; simpl.
  - split; [intros []|]. intros (i & p & N & _). destruct i; discriminate.
  - destruct v as [profs|].
    + rewrite in_app_iff. simpl In. rewrite IH. rewrite in_map_iff. split.
      * intros [(k & <- & Hk)|[<-|(i & p & N & D)]].
        { exists 0%nat, profs. rewrite Nat.add_0_r. apply in_seq in Hk. split; auto. left; exists k; split; [lia|auto]. }
        { exists 0%nat, profs. rewrite Nat.add_0_r. auto. }
        { exists (S i), p. replace (g + S i)%nat with (S g + i)%nat by lia. auto. }
      * intros ([|i] & p & N & D); simpl in N.
        { injection N as <-. rewrite Nat.add_0_r in D. destruct D as [(k & Hk & ->)| ->]; auto.
          left. exists k. split; auto. apply in_seq; lia. }
        { right; right. exists i, p. replace (S g + i)%nat with (g + S i)%nat by lia. auto. }
    + rewrite IH. split.
      * intros (i & p & N & D). exists (S i), p. replace (g + S i)%nat with (S g + i)%nat by lia. auto.
      * intros ([|i] & p & N & D); simpl in N; [discriminate|].
        exists i, p. replace (S g + i)%nat with (g + S i)%nat by lia. auto.
Qed.

Lemma index2binary_lemma K vars sigma :
  binaries_01 vars sigma ->
  ((forall c, In c (gen_cons K (final_vars K vars) 0 vars) -> satisfies (final_vars K vars) sigma c) <->
   (forall g profs, nth_error vars g = Some (Some profs) -> exists j, selects K sigma g profs j)).
Proof.
  intros B01. split.
  - intros H g profs N.
    assert (S1 : satisfies (final_vars K vars) sigma (sum_row (final_vars K vars) g profs, 1)).
    { apply H, gen_cons_spec. exists g, profs. auto. }
    unfold satisfies in S1; simpl in S1. rewrite (sum_row_value K vars sigma g profs N) in S1.
    destruct (sum01 (fun j => sigma (TBin g j)) 0 (length profs)) as (_ & _ & U).
    { intros j Hj. apply (B01 g profs j N). lia. }
    destruct U as (j & Hj & E1 & U); [lra|]. exists j. split; [lia|]. split; auto. split.
    + intros j' Hj' D. apply U; auto; lia.
    + intros k Hk.
      assert (S2 : satisfies (final_vars K vars) sigma (prop_row (final_vars K vars) g k profs, 0)).
      { apply H, gen_cons_spec. exists g, profs. split; auto. left. exists k; auto. }
      unfold satisfies in S2; simpl in S2. rewrite (prop_row_value K vars sigma g k profs N Hk) in S2.
      rewrite (sum_select (fun j => sigma (TBin g j)) (fun j => roundn 3 (nth k (nth j profs []) 0)) 0 (length profs) j) in S2; auto.
      lra.
  - intros H c Hc. apply gen_cons_spec in Hc. destruct Hc as (g & profs & N & D). simpl in D.
    destruct (H g profs N) as (j & Lj & E1 & U & PR). unfold satisfies. destruct D as [(k & Hk & ->)| ->]; simpl.
    + rewrite (prop_row_value K vars sigma g k profs N Hk).
      rewrite (sum_select (fun j => sigma (TBin g j)) (fun j => roundn 3 (nth k (nth j profs []) 0)) 0 (length profs) j); auto; [|lia|intros; apply U; auto; lia].
      rewrite PR by auto. lra.
    + rewrite (sum_row_value K vars sigma g profs N).
      rewrite (map_ext _ (fun i => 1 * sigma (TBin g i))) by (intros; lra).
      rewrite (sum_select (fun j => sigma (TBin g j)) (fun _ => 1) 0 (length profs) j); auto; [lra|lia|intros; apply U; auto; lia].
Qed.

(** The selected profile is unique. *)
Lemma selects_unique K sigma g profs j j' : selects K sigma g profs j -> selects K sigma g profs j' -> j = j'.
Proof.
  intros (L1 & E1 & U1 & _) (L2 & E2 & U2 & _). destruct (Nat.eq_dec j j'); auto.
  assert (sigma (TBin g j') = 0) by (apply U1; auto). lra.
Qed.

Lemma pot_active_violated_lemma gs n c :
  nth_error gs n = Some c -> ~ holds_strictly c -> In n (potentially_active gs).
Proof.
  intros N H. apply pot_active_lemma. exists c; split; auto. destruct c as [[] g]; simpl in *; auto; lra.
Qed.
