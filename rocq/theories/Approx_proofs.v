From Verif Require Import Tac Approx_spec.
Local Arguments Rsum : simpl never.

(** Separable functions. *)
Fixpoint sep (ph : list (R -> R)) (x : list R) : R :=
  match ph, x with
  | p :: ph', a :: x' => p a + sep ph' x'
  | _, _ => 0
  end.

Lemma derivable_const_lim c x : derivable_pt_lim (fun _ => c) x 0.
Proof. apply derivable_pt_lim_const. Qed.

Lemma dlim_ext f g x d : (forall t, f t = g t) -> derivable_pt_lim f x d -> derivable_pt_lim g x d.
Proof. intros E H eps He. destruct (H eps He) as [del Hd]. exists del; intros h h0 hl. rewrite <- !E. apply Hd; auto. Qed.
Lemma dlim_val f x d d' : d' = d -> derivable_pt_lim f x d' -> derivable_pt_lim f x d.
Proof. intros <-; auto. Qed.
Lemma dlim_loc f g x d : (exists del, 0 < del /\ forall t, Rabs (t - x) < del -> f t = g t) ->
  derivable_pt_lim f x d -> derivable_pt_lim g x d.
Proof.
  intros (del & dp & E) H eps He. destruct (H eps He) as [del2 Hd].
  assert (P : 0 < Rmin del del2) by (apply Rmin_pos; auto; apply cond_pos).
  exists (mkposreal _ P); intros h h0 hl; simpl in hl.
  assert (Rabs h < del) by (eapply Rlt_le_trans; [exact hl|apply Rmin_l]).
  assert (Rabs h < del2) by (eapply Rlt_le_trans; [exact hl|apply Rmin_r]).
  rewrite <- !E. apply Hd; auto.
  - replace (x - x) with 0 by ring. rewrite Rabs_R0; auto.
  - replace (x + h - x) with h by ring; auto.
Qed.

Lemma sep_partial : forall ph x i d, length ph = length x -> (i < length x)%nat ->
  derivable_pt_lim (nth i ph (fun _ => 0)) (nth i x 0) d -> partial_deriv (sep ph) x i d.
Proof.
  unfold partial_deriv. induction ph as [|p ph IH]; intros [|a x] [|i] d HL Hi H; simpl in *; try lia.
  - eapply (dlim_ext (fun t => p t + sep ph x)); [reflexivity|].
    replace d with (d + 0) by ring.
    apply (derivable_pt_lim_plus p (fun _ => sep ph x)); auto using derivable_const_lim.
  - eapply (dlim_ext (fun t => p a + sep ph (set_nth i t x))); [reflexivity|].
    replace d with (0 + d) by ring.
    apply (derivable_pt_lim_plus (fun _ => p a) (fun t => sep ph (set_nth i t x)));
      auto using derivable_const_lim. apply IH; auto; lia.
Qed.

Definition convex1 (S : R -> Prop) (f : R -> R) : Prop :=
  forall x y t, S x -> S y -> 0 <= t <= 1 -> f (t * x + (1 - t) * y) <= t * f x + (1 - t) * f y.

Lemma sep_convex : forall ph (Ss : list (R -> Prop)) x y t,
  length x = length ph -> length y = length ph ->
  Forall2 convex1 Ss ph -> Forall2 (fun S a => S a) Ss x -> Forall2 (fun S a => S a) Ss y ->
  0 <= t <= 1 ->
  sep ph (vmap2 (fun a b => t * a + (1 - t) * b) x y) <= t * sep ph x + (1 - t) * sep ph y.
Proof.
  induction ph as [|p ph IH]; intros Ss [|a x] [|b y] t HL1 HL2 HC Hx Hy Ht; simpl in *; try lia; try lra.
  inversion HC; subst; inversion Hx; subst; inversion Hy; subst.
  pose proof (H2 a b t H4 H5 Ht).
  specialize (IH l x y t ltac:(lia) ltac:(lia) H3 H6 H8 Ht). lra.
Qed.

(** Plumbing: constant + separable. *)
Lemma partial_const_plus c f x i d : partial_deriv f x i d -> partial_deriv (fun y => c + f y) x i d.
Proof.
  unfold partial_deriv; intros H. replace d with (0 + d) by ring.
  apply (derivable_pt_lim_plus (fun _ => c) (fun t => f (set_nth i t x))); auto using derivable_const_lim.
Qed.

(** ---- CONLIN ---- *)
Definition cterm (X d y : R) : R := (if Rle_dec 0 d then 1 else X / y) * d * (y - X).
Fixpoint cterms (xk dfk : list R) : list (R -> R) :=
  match xk, dfk with X :: xk', d :: dfk' => cterm X d :: cterms xk' dfk' | _, _ => [] end.

Lemma cterms_len xk dfk : length dfk = length xk -> length (cterms xk dfk) = length xk.
Proof. revert dfk; induction xk; intros [|d dfk]; simpl; intros; try lia. f_equal; auto. Qed.

Lemma conlin_sep xk fk dfk x : length dfk = length xk -> length x = length xk ->
  conlin xk fk dfk x = fk + sep (cterms xk dfk) x.
Proof.
  unfold conlin, conlin_a; intros H1 H2; f_equal.
  revert dfk x H1 H2; induction xk as [|X xk IH]; intros [|d dfk] [|y x] H1 H2; simpl in *; try lia; auto.
  rewrite IH by lia. unfold cterm. destruct (Rle_dec 0 d); ring.
Qed.

Lemma conlin_partial_ext xk fk dfk x i d : length dfk = length xk -> length x = length xk ->
  partial_deriv (fun y => fk + sep (cterms xk dfk) y) x i d -> partial_deriv (conlin xk fk dfk) x i d.
Proof.
  intros H1 H2 H; unfold partial_deriv in *. eapply dlim_ext; [|exact H].
  intros t; simpl; rewrite conlin_sep; auto. rewrite set_nth_length; auto.
Qed.

Lemma cterm_id X d : 0 < X -> cterm X d X = 0.
Proof. unfold cterm; intros; ring. Qed.

Lemma cterm_deriv X d : 0 < X -> derivable_pt_lim (cterm X d) X d.
Proof.
  intros P. unfold cterm. destruct (Rle_dec 0 d).
  - apply (dlim_val _ _ _ (0 * (X - X) + (1 * d) * (1 - 0))); [ring|].
    apply (derivable_pt_lim_mult (fun _ => 1 * d) (fun y => y - X)); auto using derivable_const_lim.
    apply (derivable_pt_lim_minus id (fun _ => X)); auto using derivable_const_lim.
    apply derivable_pt_lim_id.
  - apply (dlim_ext (fun y => (X * d) * ((1 - X * / y) * 1) + (X*d) * (X * / y * (1 - y * / y)) + 0*y + ((X * / y) * d * (y - X) - (X * d) * ((1 - X * / y) * 1) - (X*d) * (X * / y * (1 - y * / y))))).
    { intros t; unfold Rdiv; ring. }
    apply (dlim_loc (fun y => (X * d) * (1 - X * / y))).
    { exists X; split; auto. intros t Ht.
      assert (0 < t) by (unfold Rabs in Ht; destruct (Rcase_abs _); lra). field; lra. }
    apply (dlim_val _ _ _ (0 * (1 - X * / X) + (X * d) * (0 - (0 * / X + X * (- (1 / X^2)))))); [field; lra|].
    apply (derivable_pt_lim_mult (fun _ => X * d) (fun y => 1 - X * / y)); auto using derivable_const_lim.
    apply (derivable_pt_lim_minus (fun _ => 1) (fun y => X * / y)); auto using derivable_const_lim.
    apply (derivable_pt_lim_mult (fun _ => X) (fun y => / y)); auto using derivable_const_lim.
    apply (dlim_ext (fun y => 1 / y)); [intros; unfold Rdiv; ring|].
    replace (- (1 / X ^ 2)) with ((0 * X - 1 * 1) / (X²)) by (unfold Rsqr; field; lra).
    apply (derivable_pt_lim_div (fun _ => 1) id); auto using derivable_const_lim; try apply derivable_pt_lim_id.
    unfold id; lra.
Qed.

Lemma cterms_nth : forall xk dfk i, (i < length xk)%nat -> length dfk = length xk ->
  nth i (cterms xk dfk) (fun _ => 0) = cterm (nth i xk 0) (nth i dfk 0).
Proof. induction xk as [|X xk IH]; intros [|d dfk] [|i] Hi HL; simpl in *; try lia; auto. apply IH; lia. Qed.

Lemma nth_pos x i : positive x -> (i < length x)%nat -> 0 < nth i x 0.
Proof. unfold positive; intros H Hi. rewrite Forall_forall in H. apply H, nth_In; auto. Qed.

Lemma conlin_interpolates_lemma xk fk dfk : positive xk -> length dfk = length xk ->
  conlin xk fk dfk xk = fk /\
  forall i, (i < length xk)%nat -> partial_deriv (conlin xk fk dfk) xk i (nth i dfk 0).
Proof.
  intros HP HL; split.
  - rewrite conlin_sep by auto. enough (sep (cterms xk dfk) xk = 0) by lra.
    revert dfk HL; induction HP as [|X xk P HP IH]; intros [|d dfk] HL; simpl in *; try lia; auto.
    rewrite cterm_id, IH by (auto; lia). ring.
  - intros i Hi. apply conlin_partial_ext; auto. apply partial_const_plus, sep_partial; auto.
    + rewrite cterms_len; auto.
    + rewrite cterms_nth by auto. apply cterm_deriv, nth_pos; auto.
Qed.

Lemma cterm_lin X d y : 0 < X -> 0 < y -> d * (y - X) <= cterm X d y.
Proof.
  intros P PY. apply Rminus_le. unfold cterm; destruct (Rle_dec 0 d).
  - right; ring.
  - replace (d * (y - X) - X / y * d * (y - X)) with (- ((- d) * ((y - X)^2 * / y))) by (field; lra).
    apply Ropp_le_cancel. rewrite Ropp_0, Ropp_involutive.
    apply Rmult_le_pos; [lra|]. apply Rmult_le_pos; [apply pow2_ge_0|left; apply Rinv_0_lt_compat; auto].
Qed.
Lemma cterm_rec X d y : 0 < X -> 0 < y -> - d * X ^ 2 * (/ y - / X) <= cterm X d y.
Proof.
  intros P PY. apply Rminus_le. unfold cterm; destruct (Rle_dec 0 d).
  - replace (- d * X ^ 2 * (/ y - / X) - 1 * d * (y - X)) with (- (d * ((y - X)^2 * / y))) by (field; lra).
    apply Ropp_le_cancel. rewrite Ropp_0, Ropp_involutive.
    apply Rmult_le_pos; [lra|]. apply Rmult_le_pos; [apply pow2_ge_0|left; apply Rinv_0_lt_compat; auto].
  - right; field; lra.
Qed.

Lemma conlin_conservative_lemma xk fk dfk x :
  positive xk -> positive x -> length dfk = length xk -> length x = length xk ->
  first_order xk fk dfk x <= conlin xk fk dfk x /\
  reciprocal xk fk dfk x <= conlin xk fk dfk x.
Proof.
  intros HP HX H1 H2. rewrite conlin_sep by auto. unfold first_order, reciprocal.
  enough (E : Rsum (vmap3 (fun X d y => d * (y - X)) xk dfk x) <= sep (cterms xk dfk) x /\
          Rsum (vmap3 (fun X d y => - d * X ^ 2 * (/ y - / X)) xk dfk x) <= sep (cterms xk dfk) x)
    by (destruct E; split; apply Rplus_le_compat_l; auto).
  revert dfk x HX H1 H2; induction HP as [|X xk P HP IH]; intros [|d dfk] [|y x] HX H1 H2; cbn [length] in *; try lia.
  - simpl; split; apply Rle_refl.
  - inversion HX as [|? ? PY HX']; subst. destruct (IH dfk x HX' ltac:(lia) ltac:(lia)) as [I1 I2].
    cbn [vmap3 cterms sep]. rewrite !Rsum_cons. split; apply Rplus_le_compat; auto using cterm_lin, cterm_rec.
Qed.

(** convexity of 1/y *)
Lemma inv_convex a b t : 0 < a -> 0 < b -> 0 <= t <= 1 ->
  / (t * a + (1 - t) * b) <= t * / a + (1 - t) * / b.
Proof.
  intros A B T.
  assert (M : 0 < t * a + (1 - t) * b) by (destruct (Req_dec t 0); [subst; lra|]; assert (0 < t * a) by (apply Rmult_lt_0_compat; lra); assert (0 <= (1-t) * b) by (apply Rmult_le_pos; lra); lra).
  apply (Rmult_le_reg_r ((t * a + (1 - t) * b) * (a * b))).
  { apply Rmult_lt_0_compat; auto. apply Rmult_lt_0_compat; auto. }
  replace (/ (t * a + (1 - t) * b) * ((t * a + (1 - t) * b) * (a * b))) with (a * b) by (field; lra).
  replace ((t * / a + (1 - t) * / b) * ((t * a + (1 - t) * b) * (a * b)))
    with ((t * b + (1 - t) * a) * (t * a + (1 - t) * b)) by (field; lra).
  assert (0 <= t * (1 - t) * (a - b)^2) by (apply Rmult_le_pos; [apply Rmult_le_pos; lra|apply pow2_ge_0]).
  lra.
Qed.

Lemma cterm_convex X d : 0 < X -> convex1 (fun y => 0 < y) (cterm X d).
Proof.
  intros P a b t A B T. unfold cterm. destruct (Rle_dec 0 d); [lra|].
  assert (M : 0 < t * a + (1 - t) * b) by (destruct (Req_dec t 0); [subst; lra|]; assert (0 < t * a) by (apply Rmult_lt_0_compat; lra); assert (0 <= (1-t) * b) by (apply Rmult_le_pos; lra); lra).
  pose proof (inv_convex a b t A B T) as C.
  assert (R : forall y, 0 < y -> X / y * d * (y - X) = X * d + (- d * X ^ 2) * / y) by (intros; field; lra).
  rewrite !R by auto.
  assert (K : 0 <= - d * X ^ 2) by (apply Rmult_le_pos; [lra|apply pow2_ge_0]).
  pose proof (Rmult_le_compat_l _ _ _ K C). lra.
Qed.

Lemma conlin_convex_lemma xk fk dfk : positive xk -> length dfk = length xk ->
  convex_on (length xk) positive (conlin xk fk dfk).
Proof.
  intros HP HL x y t Lx Ly Sx Sy Ht.
  assert (LZ : length (vmap2 (fun a b => t * a + (1 - t) * b) x y) = length xk).
  { clear -Lx Ly. revert x y Lx Ly; induction xk; intros [|a' x] [|b y] Lx Ly; simpl in *; try lia; f_equal; auto. }
  rewrite !conlin_sep by auto.
  assert (sep (cterms xk dfk) (vmap2 (fun a b => t * a + (1 - t) * b) x y)
    <= t * sep (cterms xk dfk) x + (1 - t) * sep (cterms xk dfk) y); [|lra].
  apply (sep_convex _ (map (fun _ => fun y => 0 < y) xk)); auto; try (rewrite cterms_len; auto).
  - clear -HP HL. revert dfk HL; induction HP; intros [|d dfk] HL; simpl in *; try lia; constructor; auto using cterm_convex.
  - clear -Sx Lx. revert xk Lx; induction Sx; intros [|X xk] Lx; simpl in *; try lia; constructor; auto.
  - clear -Sy Ly. revert xk Ly; induction Sy; intros [|X xk] Ly; simpl in *; try lia; constructor; auto.
Qed.

(** ---- MMA ---- *)
Definition mterm (X d l u y : R) : R :=
  (if Rle_dec 0 d then (u - X) ^ 2 * d else 0) / (u - y) + (if Rle_dec 0 d then 0 else - (X - l) ^ 2 * d) / (y - l).
Fixpoint mterms (xk dfk L U : list R) : list (R -> R) :=
  match xk, dfk, L, U with
  | X :: xk', d :: dfk', l :: L', u :: U' => mterm X d l u :: mterms xk' dfk' L' U'
  | _, _, _, _ => [] end.


Lemma mterms_len xk dfk L U : same_len xk dfk L U -> length (mterms xk dfk L U) = length xk.
Proof.
  unfold same_len. revert dfk L U; induction xk; intros [|d dfk] [|l L] [|u U]; simpl; intros (H1&H2&H3); try lia.
  f_equal; apply IHxk; repeat split; lia.
Qed.

Lemma mma_sum_sep xk dfk L U x : same_len xk dfk L U -> length x = length xk ->
  mma_sum (mma_p xk dfk U) (mma_q xk dfk L) L U x = sep (mterms xk dfk L U) x.
Proof.
  unfold same_len, mma_sum, mma_p, mma_q. revert dfk L U x.
  induction xk as [|X xk IH]; intros [|d dfk] [|l L] [|u U] [|y x]; simpl; intros (H1&H2&H3) H4; try lia; auto.
  rewrite Rsum_cons. rewrite IH by (repeat split; lia). unfold mterm; simpl. reflexivity.
Qed.

Lemma mma_sep xk fk dfk L U x : same_len xk dfk L U -> length x = length xk ->
  mma xk fk dfk L U x = (fk - sep (mterms xk dfk L U) xk) + sep (mterms xk dfk L U) x.
Proof. intros; unfold mma; rewrite !mma_sum_sep; auto. Qed.

Lemma mma_value_lemma xk fk dfk L U : same_len xk dfk L U -> mma xk fk dfk L U xk = fk.
Proof. intros; rewrite mma_sep by auto; ring. Qed.

Definition mtermd (X d l u y : R) : R :=
  (if Rle_dec 0 d then (u - X) ^ 2 * d else 0) / (u - y) ^ 2 - (if Rle_dec 0 d then 0 else - (X - l) ^ 2 * d) / (y - l) ^ 2.

Lemma mterm_deriv X d l u y : y <> l -> y <> u -> derivable_pt_lim (mterm X d l u) y (mtermd X d l u y).
Proof.
  intros HL HU. unfold mterm, mtermd.
  generalize (if Rle_dec 0 d then (u - X) ^ 2 * d else 0).
  generalize (if Rle_dec 0 d then 0 else - (X - l) ^ 2 * d). intros q p.
  replace (p / (u - y) ^ 2 - q / (y - l) ^ 2)
    with ((0 * (u - y) - (0 - 1) * p) / (u - y)² + (0 * (y - l) - (1 - 0) * q) / (y - l)²) by (unfold Rsqr; field; lra).
  apply (derivable_pt_lim_plus (fun y => p / (u - y)) (fun y => q / (y - l))).
  - apply (derivable_pt_lim_div (fun _ => p) (fun y => u - y)); auto using derivable_const_lim; [|lra].
    apply (derivable_pt_lim_minus (fun _ => u) id); auto using derivable_const_lim, derivable_pt_lim_id.
  - apply (derivable_pt_lim_div (fun _ => q) (fun y => y - l)); auto using derivable_const_lim; [|lra].
    apply (derivable_pt_lim_minus id (fun _ => l)); auto using derivable_const_lim, derivable_pt_lim_id.
Qed.

Lemma mtermd_at X d l u : l < X < u -> mtermd X d l u X = d.
Proof. intros; unfold mtermd; destruct (Rle_dec 0 d); field; lra. Qed.

Lemma mterms_nth : forall xk dfk L U i, same_len xk dfk L U -> (i < length xk)%nat ->
  nth i (mterms xk dfk L U) (fun _ => 0) = mterm (nth i xk 0) (nth i dfk 0) (nth i L 0) (nth i U 0).
Proof.
  unfold same_len. induction xk as [|X xk IH]; intros [|d dfk] [|l L] [|u U] [|i] (H1&H2&H3) Hi; simpl in *; try lia; auto.
  apply IH; [repeat split|]; lia.
Qed.

Lemma grad_nth : forall xk dfk L U x i, same_len xk dfk L U -> length x = length xk -> (i < length xk)%nat ->
  nth i (mma_grad xk dfk L U x) 0 = mtermd (nth i xk 0) (nth i dfk 0) (nth i L 0) (nth i U 0) (nth i x 0).
Proof.
  unfold same_len, mma_grad, mma_p, mma_q.
  induction xk as [|X xk IH]; intros [|d dfk] [|l L] [|u U] [|y x] [|i] (H1&H2&H3) H4 Hi; simpl in *; try lia; auto.
  apply IH; [repeat split|..]; lia.
Qed.

Lemma forall2_nth (P : R -> R -> Prop) a b i : Forall2 P a b -> (i < length a)%nat -> P (nth i a 0) (nth i b 0).
Proof. intros F; revert i; induction F; intros [|i] Hi; simpl in *; try lia; auto. apply IHF; lia. Qed.

Lemma mma_grad_lemma xk fk dfk L U x : same_len xk dfk L U -> length x = length xk -> between L x U ->
  forall i, (i < length xk)%nat ->
  partial_deriv (mma xk fk dfk L U) x i (nth i (mma_grad xk dfk L U x) 0).
Proof.
  intros HS HX [BL BU] i Hi. pose proof HS as (H1 & H2 & H3).
  unfold partial_deriv. eapply (dlim_ext (fun t => (fk - sep (mterms xk dfk L U) xk) + sep (mterms xk dfk L U) (set_nth i t x))).
  { intros t; rewrite mma_sep; auto. rewrite set_nth_length; auto. }
  apply (partial_const_plus (fk - sep (mterms xk dfk L U) xk) (sep (mterms xk dfk L U))).
  apply sep_partial; try lia. { rewrite mterms_len; auto. }
  rewrite mterms_nth, grad_nth by auto.
  pose proof (forall2_nth _ _ _ i BL ltac:(lia)). pose proof (forall2_nth _ _ _ i BU ltac:(lia)).
  apply mterm_deriv; lra.
Qed.

Lemma mma_grad_at_lemma xk dfk L U : same_len xk dfk L U -> between L xk U -> mma_grad xk dfk L U xk = dfk.
Proof.
  intros HS B. pose proof HS as (H1 & H2 & H3). destruct B as [BL BU].
  apply (nth_ext _ _ 0 0).
  - clear -HS. unfold same_len, mma_grad, mma_p, mma_q in *. revert dfk L U HS.
    induction xk; intros [|d dfk] [|l L] [|u U] (H1&H2&H3); simpl in *; try lia.
    f_equal; apply IHxk; repeat split; lia.
  - intros i Hi. assert ((i < length xk)%nat).
    { revert Hi. clear -HS. unfold same_len, mma_grad, mma_p, mma_q in *. revert dfk L U i HS.
      induction xk; intros [|d dfk] [|l L] [|u U] i (H1&H2&H3) Hi; simpl in *; try lia.
      destruct i; [lia|]. apply -> Nat.succ_lt_mono. eapply IHxk with (L:=L); [|apply Nat.succ_lt_mono; exact Hi]. repeat split; lia. }
    rewrite grad_nth by auto. apply mtermd_at.
    pose proof (forall2_nth _ _ _ i BL ltac:(lia)). pose proof (forall2_nth _ _ _ i BU ltac:(lia)). lra.
Qed.

Lemma mterm_convex X d l u : l < X < u -> convex1 (fun y => l < y < u) (mterm X d l u).
Proof.
  intros P a b t A B T. unfold mterm.
  assert (I1 : / (u - (t * a + (1 - t) * b)) <= t * / (u - a) + (1 - t) * / (u - b)).
  { replace (u - (t * a + (1 - t) * b)) with (t * (u - a) + (1 - t) * (u - b)) by ring. apply inv_convex; lra. }
  assert (I2 : / ((t * a + (1 - t) * b) - l) <= t * / (a - l) + (1 - t) * / (b - l)).
  { replace ((t * a + (1 - t) * b) - l) with (t * (a - l) + (1 - t) * (b - l)) by ring. apply inv_convex; lra. }
  unfold Rdiv. destruct (Rle_dec 0 d).
  - assert (K : 0 <= (u - X)^2 * d) by (apply Rmult_le_pos; [apply pow2_ge_0|lra]).
    pose proof (Rmult_le_compat_l _ _ _ K I1). lra.
  - assert (K : 0 <= - (X - l)^2 * d).
    { replace (- (X - l)^2 * d) with ((X - l)^2 * - d) by ring. apply Rmult_le_pos; [apply pow2_ge_0|lra]. }
    pose proof (Rmult_le_compat_l _ _ _ K I2). lra.
Qed.

Lemma mma_convex_lemma xk fk dfk L U : same_len xk dfk L U -> between L xk U ->
  convex_on (length xk) (fun x => between L x U) (mma xk fk dfk L U).
Proof.
  intros HS HB x y t Lx Ly Sx Sy Ht.
  assert (LZ : length (vmap2 (fun a b => t * a + (1 - t) * b) x y) = length xk).
  { clear -Lx Ly. revert x y Lx Ly; induction xk; intros [|a' x] [|b y] Lx Ly; simpl in *; try lia; f_equal; auto. }
  rewrite !mma_sep by auto.
  assert (sep (mterms xk dfk L U) (vmap2 (fun a b => t * a + (1 - t) * b) x y)
    <= t * sep (mterms xk dfk L U) x + (1 - t) * sep (mterms xk dfk L U) y); [|lra].
  set (Ss := map (fun p y => fst p < y < snd p) (combine L U)).
  assert (IN : forall z, length z = length xk -> between L z U -> Forall2 (fun (S : R -> Prop) a => S a) Ss z).
  { intros z Lz [BL BU]. unfold Ss. clear -BL BU. revert U BU; induction BL; intros U BU; inversion BU; subst; simpl; constructor; simpl; auto. }
  apply (sep_convex _ Ss); auto; try (rewrite mterms_len; auto).
  unfold Ss. clear -HS HB. destruct HB as [BL BU]. unfold same_len in HS. revert dfk U HS BU.
  induction BL; intros [|d dfk] U (H1&H2&H3) BU; inversion BU; subst; simpl in *; try lia; constructor.
  - apply mterm_convex; simpl; auto.
  - apply IHBL; auto; repeat split; try lia. 
Qed.

(** ---- asymptotes ---- *)
Lemma vmap2_len f a b : length b = length a -> length (vmap2 f a b) = length a.
Proof. revert b; induction a; intros [|y b]; simpl; intros; try lia; f_equal; auto. Qed.
Lemma vmap3_len f a b c : length b = length a -> length c = length a -> length (vmap3 f a b c) = length a.
Proof. revert b c; induction a; intros [|y b] [|z c]; simpl; intros; try lia; f_equal; auto. Qed.
Lemma vmap3_nth f : forall a b c i, length b = length a -> length c = length a -> (i < length a)%nat ->
  nth i (vmap3 f a b c) 0 = f (nth i a 0) (nth i b 0) (nth i c 0).
Proof. induction a; intros [|y b] [|z c] [|i] H1 H2 Hi; simpl in *; try lia; auto. apply IHa; lia. Qed.

Lemma clip_encloses Dx x l u : length Dx = length x -> length l = length x -> length u = length x ->
  Forall (fun d => 0 < d) Dx -> encloses Dx x (clipL x Dx l) (clipU x Dx u).
Proof.
  intros H1 H2 H3 HD. unfold encloses, clipL, clipU. rewrite !vmap3_len by auto.
  repeat split; auto; rewrite ?vmap3_nth by auto;
  assert (0 < nth i Dx 0) by (apply nth_pos; auto; lia); rmx; lra.
Qed.

Definition good (n : nat) (s : mma_state) : Prop :=
  s_xvals s <> [] /\ Forall (fun x => length x = n) (s_xvals s) /\
  Forall (fun x => length x = n) (s_L s) /\ Forall (fun x => length x = n) (s_U s) /\
  length (s_L s) = (length (s_xvals s) - 1)%nat /\ length (s_U s) = (length (s_xvals s) - 1)%nat.

Lemma asymptotes_ok n Dx s : good n s -> length Dx = n -> Forall (fun d => 0 < d) Dx ->
  exists L U, asymptotes Dx s = Some (L, U) /\ encloses Dx (hd [] (s_xvals s)) L U.
Proof.
  intros (G0 & Gx & GL & GU & N1 & N2) HD HP. unfold asymptotes.
  destruct s as [xv Ls Us]; simpl in *. destruct xv as [|xk older]; [congruence|].
  inversion Gx as [|? ? Hk Ho]; subst. simpl hd.
  destruct (Nat.leb (length (xk :: older) - 1) 1) eqn:E.
  - do 2 eexists; split; [reflexivity|]. apply clip_encloses; auto; unfold L_init, U_init; apply vmap2_len; auto.
  - apply Nat.leb_gt in E. simpl in E, N1, N2. destruct older as [|xk1 [|xk2 o]]; simpl in E; try lia.
    destruct Ls as [|L1 Ls]; simpl in N1; try lia. destruct Us as [|U1 Us]; simpl in N2; try lia.
    inversion Ho as [|? ? Hk1 Ho1]; subst. inversion Ho1 as [|? ? Hk2 _]; subst. inversion GL; subst; inversion GU; subst.
    do 2 eexists; split; [reflexivity|].
    assert (LG : length (gamma xk xk1 xk2) = length xk) by (unfold gamma; apply vmap3_len; congruence).
    apply clip_encloses; auto; unfold L_next, U_next; apply vmap2_len; rewrite vmap3_len; congruence.
Qed.

Lemma mma_run_lemma n Dx : length Dx = n -> Forall (fun d => 0 < d) Dx ->
  forall xs s, good n s -> Forall (fun x => length x = n) xs ->
  exists recs, mma_run Dx xs s = Some recs /\
    map (fun r => fst (fst r)) recs = firstn (length xs) (hd [] (s_xvals s) :: xs) /\
    Forall (fun r => encloses Dx (fst (fst r)) (snd (fst r)) (snd r)) recs.
Proof.
  intros HD HP. induction xs as [|x xs IH]; intros s G F; simpl.
  - exists []; auto.
  - inversion F as [|? ? Lx F']; subst. destruct (asymptotes_ok _ Dx s G eq_refl HP) as (L & U & E & EN).
    unfold mma_iter; rewrite E.
    destruct (IH (mkMMA (x :: s_xvals s) (L :: s_L s) (U :: s_U s))) as (recs & R1 & R2 & R3); auto.
    { destruct G as (G0 & Gx & GL & GU & N1 & N2). unfold good; simpl. destruct EN as (E1 & E2 & _).
      assert (length (hd [] (s_xvals s)) = length Dx).
      { destruct (s_xvals s); [congruence|]. inversion Gx; auto. }
      repeat split; auto; try congruence; try (constructor; auto; congruence).
      - rewrite N1. destruct (s_xvals s); simpl; [congruence|lia].
      - rewrite N2. destruct (s_xvals s); simpl; [congruence|lia]. }
    rewrite R1. eexists; split; [reflexivity|]. simpl. split.
    + f_equal. rewrite R2; simpl. reflexivity.
    + constructor; auto.
Qed.

Lemma mma_start_lemma Dx x0 xs : length x0 = length Dx -> Forall (fun d => 0 < d) Dx ->
  Forall (fun x => length x = length Dx) xs ->
  exists recs, mma_run Dx xs (mma_start x0) = Some recs /\
    map (fun r => fst (fst r)) recs = firstn (length xs) (x0 :: xs) /\
    Forall (fun r => encloses Dx (fst (fst r)) (snd (fst r)) (snd r)) recs.
Proof.
  intros H1 HP HX. destruct (mma_run_lemma (length Dx) Dx eq_refl HP xs (mma_start x0)) as (recs & R); auto.
  - unfold good, mma_start; simpl. repeat split; auto; congruence.
  - exists recs; auto.
Qed.

(** ---- sub-problem bounds ---- *)
Lemma sub_bounds_lemma vlb vub L U x : L < x < U -> Rabs L < x -> vlb <= x <= vub -> vlb < vub ->
  vlb <= sub_lb vlb vub L x /\ sub_ub vlb vub U x <= vub /\
  L < sub_lb vlb vub L x <= x /\ x <= sub_ub vlb vub U x < U.
Proof.
  intros H1 H2 H3 H4. unfold sub_lb, sub_ub. pose proof (Rle_abs L).
  rmx; lra.
Qed.
Lemma sub_upper_lemma vlb vub U x : x < U -> vlb <= x <= vub -> vlb < vub ->
  x <= sub_ub vlb vub U x < U /\ sub_ub vlb vub U x <= vub.
Proof. intros; unfold sub_ub; rmx; lra. Qed.
Lemma sub_bounds'_lemma mu vlb vub L U x : 0 < mu <= 1 -> L < x < U -> vlb <= x <= vub ->
  vlb <= sub_lb' mu vlb L x /\ sub_ub' mu vub U x <= vub /\
  L < sub_lb' mu vlb L x <= x /\ x <= sub_ub' mu vub U x < U.
Proof.
  intros M H1 H2. unfold sub_lb', sub_ub'.
  assert (0 < mu * (x - L)) by (apply Rmult_lt_0_compat; lra).
  assert (0 < mu * (U - x)) by (apply Rmult_lt_0_compat; lra).
  assert (mu * (x - L) <= 1 * (x - L)) by (apply Rmult_le_compat_r; lra).
  assert (mu * (U - x) <= 1 * (U - x)) by (apply Rmult_le_compat_r; lra).
  rmx; lra.
Qed.

Lemma clipL1 x d l r : Rmin (Rmax (x - 10 * d) l) (x - 1 / 10 * d) = r -> clipL [x] [d] [l] = [r].
Proof. intros <-; reflexivity. Qed.
Lemma clipU1 x d u r : Rmin (Rmax (x + 1 / 100 * d) u) (x + 10 * d) = r -> clipU [x] [d] [u] = [r].
Proof. intros <-; reflexivity. Qed.
Lemma gamma_neg a b c : (a - b) * (b - c) < - (1/1000000) -> gamma1 a b c = 7 / 10.
Proof. intros H; unfold gamma1; destruct (Rlt_dec _ _); auto; contradiction. Qed.

Lemma asy0 : asymptotes [10 - -10] (mkMMA [[-5]] [] []) = Some ([-15],[5]).
Proof.
  unfold asymptotes. cbn [s_xvals length Nat.sub Nat.leb s_L s_U hd]. unfold L_init, U_init; cbn [vmap2].
  erewrite (clipL1 (-5)) with (r := -15) by (rmx; lra). erewrite (clipU1 (-5)) with (r := 5) by (rmx; lra). reflexivity.
Qed.
Lemma asy1 : asymptotes [10 - -10] (mkMMA [[-4];[-5]] [[-15]] [[5]]) = Some ([-14],[6]).
Proof.
  unfold asymptotes. cbn [s_xvals length Nat.sub Nat.leb s_L s_U hd]. unfold L_init, U_init; cbn [vmap2].
  erewrite (clipL1 (-4)) with (r := -14) by (rmx; lra). erewrite (clipU1 (-4)) with (r := 6) by (rmx; lra). reflexivity.
Qed.
Lemma asy2 : asymptotes [10 - -10] (mkMMA [[-5];[-4];[-5]] [[-14];[-15]] [[6];[5]]) = Some ([-12],[2]).
Proof.
  unfold asymptotes. cbn [s_xvals length Nat.sub Nat.leb s_L s_U hd]. unfold L_next, U_next, gamma; cbn [vmap2 vmap3]. rewrite gamma_neg by lra.
  erewrite (clipL1 (-5)) with (r := -12) by (rmx; lra). erewrite (clipU1 (-5)) with (r := 2) by (rmx; lra). reflexivity.
Qed.
Lemma asy3 : asymptotes [10 - -10] (mkMMA [[-4];[-5];[-4];[-5]] [[-12];[-14];[-15]] [[2];[6];[5]]) = Some ([-89/10],[9/10]).
Proof.
  unfold asymptotes. cbn [s_xvals length Nat.sub Nat.leb s_L s_U hd]. unfold L_next, U_next, gamma; cbn [vmap2 vmap3]. rewrite gamma_neg by lra.
  erewrite (clipL1 (-4)) with (r := -89/10) by (rmx; lra). erewrite (clipU1 (-4)) with (r := 9/10) by (rmx; lra). reflexivity.
Qed.
Lemma refuted_run : mma_run [10 - -10] [[-4]; [-5]; [-4]; [-4]] (mma_start [-5]) =
  Some [([-5],[-15],[5]); ([-4],[-14],[6]); ([-5],[-12],[2]); ([-4],[-89/10],[9/10])].
Proof.
  unfold mma_start. cbn [mma_run]. unfold mma_iter.
  rewrite asy0; cbn [s_xvals s_L s_U hd].
  rewrite asy1; cbn [s_xvals s_L s_U hd].
  rewrite asy2; cbn [s_xvals s_L s_U hd].
  rewrite asy3; cbn [s_xvals s_L s_U hd]. reflexivity.
Qed.

Lemma sub_lb_refuted_lemma :
  exists vlb vub x0 xs recs x L U,
    vlb < vub /\ Forall (fun v => vlb <= hd 0 v <= vub) (x0 :: xs) /\
    mma_run [vub - vlb] xs (mma_start x0) = Some recs /\ In ([x], [L], [U]) recs /\
    vlb <= sub_lb vlb vub L x /\ sub_lb vlb vub L x < L < sub_ub vlb vub U x.
Proof.
  exists (-10), 10, [-5], [[-4]; [-5]; [-4]; [-4]]. eexists; exists (-4), (-89/10), (9/10).
  split; [lra|]. split; [repeat constructor; simpl; lra|]. split; [apply refuted_run|].
  split; [right; right; right; left; reflexivity|].
  unfold sub_lb, sub_ub. split; rmx; lra.
Qed.
