(** Node coordinates of symmetric trusses: tools. *)
From Verif Require Import Base EC3_model Sections_proofs Rhs_model Bool_tac.
From Verif Require Import Truss_proofs Truss3_proofs Truss4_proofs Truss_model Truss_spec.
Require Import Reals Lra List Bool Arith Lia Psatz.
Import ListNotations.
Local Open Scope R_scope.

Lemma vlen_pos : forall v, 0 < fst v -> 0 < vlen v.
Proof.
  intros [a b] H. unfold vlen, vdot; cbn [fst snd] in *. apply sqrt_lt_R0.
  assert (0 < a * a) by nra. pose proof (Rle_0_sqr b) as B. unfold Rsqr in B. lra.
Qed.

Lemma unit_above : forall v, 0 < fst v -> exists w, unit_vec v = Some w /\
  forall p x, above (line_pv p w) x = Some (fst x, snd p + (fst x - fst p) * (snd v / fst v)).
Proof.
  intros v H. pose proof (vlen_pos v H) as P. unfold unit_vec. rewrite !pdiv_ok by lra. cbn [bind].
  eexists; split; [reflexivity|]. intros p x. unfold above, intersect, line_pv, vadd, vscale, vminus. cbn [l_p l_v fst snd].
  assert (Q : 0 < fst v / vlen v) by (apply Rdiv_lt_0_compat; lra).
  rewrite !pdiv_ok by lra. cbn [bind snd]. f_equal. apply f_equal2; field; split; lra.
Qed.
Lemma all_above_map : forall l f, (forall x, above l x = Some (f x)) -> forall xs, all_above l xs = Some (map f xs).
Proof. intros l f H; induction xs as [|x xs IH]; [reflexivity|]. cbn [all_above map]. rewrite H, IH. reflexivity. Qed.

Lemma roof_left : forall L h x, x <= L -> roof L h x = h / L * x.
Proof. intros. unfold roof. rewrite Rmin_left by lra. reflexivity. Qed.
Lemma roof_right : forall L h x, L <= x -> roof L h x = h / L * (2 * L - x).
Proof. intros. unfold roof. rewrite Rmin_right by lra. reflexivity. Qed.
Lemma roof_nonneg : forall L h x, 0 < L -> 0 <= h -> 0 <= x <= 2 * L -> 0 <= roof L h x.
Proof.
  intros L h x HL Hh Hx. unfold roof. apply Rmult_le_pos.
  - apply Rmult_le_pos; [lra|]. left. now apply Rinv_0_lt_compat.
  - apply Rmin_glb; lra.
Qed.
Lemma roof_mirror : forall L h x, roof L h (2 * L - x) = roof L h x.
Proof. intros. unfold roof. rewrite Rmin_comm. replace (2 * L - (2 * L - x)) with x by ring. reflexivity. Qed.

Lemma last_cons : forall {A} (l : list A) p d, (1 <= length l)%nat -> last (p :: l) d = nth (length l - 1) l d.
Proof.
  intros A; induction l as [|x l IH]; intros p d H; [simpl in H; lia|]. destruct l as [|y l]; [reflexivity|].
  change (last (p :: x :: y :: l) d) with (last (x :: y :: l) d). rewrite IH by (simpl; lia). simpl length.
  replace (S (S (length l)) - 1)%nat with (S (S (length l) - 1))%nat by lia. reflexivity.
Qed.

(** Top chord by intersections. *)
Lemma top_lines_sym : forall L h (a b : list pt) xt, 0 < L -> (1 <= length a)%nat -> xt 0%nat = 0 ->
  (forall i, (i < length a)%nat -> fst (nth i a (0, 0)) = xt (S i)) ->
  (forall i, (i < length b)%nat -> fst (nth i b (0, 0)) = xt (S (length a + i))) ->
  xt (S (length a + length b)) = 2 * L -> xt (length a) = L ->
  (forall i, (i <= length a)%nat -> xt i <= L) ->
  (forall i, (length a < i <= length a + length b + 1)%nat -> L <= xt i) ->
  exists Xt, top_by_lines (0, 0) (L, h) (2 * L, 0) a b = Some Xt /\ length Xt = (length a + length b + 2)%nat /\
    forall i, (i < length a + length b + 2)%nat -> nth i Xt (0, 0) = (xt i, roof L h (xt i)).
Proof.
  intros L h a b xt HL Ha X0 Xa Xb X2 XL Le Ge. unfold top_by_lines.
  destruct (unit_above (vminus (L, h) (0, 0))) as (w1 & U1 & A1); [cbn; lra|].
  destruct (unit_above (vminus (2 * L, 0) (L, h))) as (w2 & U2 & A2); [cbn; lra|].
  rewrite U1. cbn [bind].
  rewrite (all_above_map _ (fun x => (fst x, 0 + (fst x - 0) * ((h - 0) / (L - 0))))) by (intros x; apply A1). cbn [bind].
  rewrite U2. cbn [bind].
  set (ta := @map pt pt (fun x : pt => (fst x, 0 + (fst x - 0) * ((h - 0) / (L - 0)))) a).
  assert (La : length ta = length a) by apply map_length.
  assert (Ta : forall i, (i < length a)%nat -> @nth pt i ta (0, 0) = (xt (S i), roof L h (xt (S i)))).
  { intros i Hi. unfold ta. rewrite nth_map_in with (d' := (0, 0)) by exact Hi. rewrite Xa by exact Hi.
    rewrite roof_left by (apply Le; lia). f_equal. field. lra. }
  assert (El : @last pt (@cons pt (0, 0) ta) (0, 0) = (L, h)).
  { rewrite last_cons by lia. rewrite La.
    rewrite Ta by lia. replace (S (length a - 1)) with (length a) by lia. rewrite XL. rewrite roof_left by lra. f_equal. field. lra. }
  rewrite El.
  rewrite (all_above_map _ (fun x => (fst x, h + (fst x - L) * ((0 - h) / (2 * L - L))))) by (intros x; apply A2). cbn [bind].
  set (tb := @map pt pt (fun x : pt => (fst x, h + (fst x - L) * ((0 - h) / (2 * L - L)))) b).
  assert (Lb : length tb = length b) by apply map_length.
  eexists; split; [reflexivity|]. split; [simpl; rewrite !app_length; simpl; lia|].
  intros i Hi. destruct i as [|i]; cbn [nth].
  - rewrite X0, roof_left by lra. f_equal. ring.
  - destruct (lt_dec i (length a)) as [C|C].
    + rewrite app_nth1 by lia. now apply Ta.
    + rewrite app_nth2 by lia. rewrite La. destruct (lt_dec (i - length a) (length b)) as [D|D].
      * rewrite app_nth1 by lia. unfold tb. rewrite nth_map_in with (d' := (0, 0)) by exact D. rewrite Xb by exact D.
        replace (S (length a + (i - length a))) with (S i) by lia. rewrite roof_right by (apply Ge; lia). f_equal. field. lra.
      * rewrite app_nth2 by lia. replace (i - length a - length tb)%nat with 0%nat by lia. cbn [nth].
        replace (S i) with (S (length a + length b)) by lia. rewrite X2. rewrite roof_right by lra. f_equal. field. lra.
Qed.

Lemma frac_mul : forall j k e, (j < k)%nat -> INR j / INR (k - 1) * (INR (k - 1) * e) = INR j * e.
Proof.
  intros j k e H. destruct (Nat.eq_dec k 1) as [->|N].
  - assert (j = 0%nat) by lia; subst. simpl. unfold Rdiv. ring.
  - field. apply not_0_INR. lia.
Qed.
Lemma along_lin : forall x y x' k e j, x' - x = INR (k - 1) * e -> (j < k)%nat ->
  nth j (along (x, y) (x', y) (linspace k)) (0, 0) = (x + INR j * e, y).
Proof.
  intros x y x' k e j E H. rewrite along_nth by (now rewrite linspace_length). rewrite linspace_nth by exact H.
  unfold vadd, vscale, vminus; cbn [fst snd]. rewrite E, frac_mul by exact H. f_equal. ring.
Qed.
Lemma nth_tl : forall (l : list R) i d, nth i (tl l) d = nth (S i) l d.
Proof. intros [|x l] i d; [destruct i; reflexivity|reflexivity]. Qed.
Lemma along_lin_tl : forall x y x' k e j, x' - x = INR (k - 1) * e -> (S j < k)%nat ->
  nth j (along (x, y) (x', y) (tl (linspace k))) (0, 0) = (x + INR (S j) * e, y).
Proof.
  intros x y x' k e j E H. rewrite along_nth by (rewrite tl_length, linspace_length; lia). rewrite nth_tl, linspace_nth by exact H.
  unfold vadd, vscale, vminus; cbn [fst snd]. rewrite E, frac_mul by exact H. f_equal. ring.
Qed.

(** Top chord by division. *)
Lemma top_division_sym : forall L h m, 0 < L -> (1 <= m)%nat ->
  length (top_by_division (0, 0) (L, h) (2 * L, 0) (m + 1)) = (2 * m + 1)%nat /\
  forall i, (i <= 2 * m)%nat -> nth i (top_by_division (0, 0) (L, h) (2 * L, 0) (m + 1)) (0, 0) =
    (INR i * (L / INR m), roof L h (INR i * (L / INR m))).
Proof.
  intros L h m HL Hm. unfold top_by_division. assert (Pm : 0 < INR m) by (apply lt_0_INR; lia). split.
  - rewrite app_length, !along_length, tl_length, linspace_length. lia.
  - intros i Hi. assert (EL : INR m * (L / INR m) = L) by (field; lra).
    assert (Pe : 0 < L / INR m) by (apply Rdiv_lt_0_compat; lra).
    destruct (le_dec i m) as [C|C].
    + rewrite app_nth1 by (rewrite along_length, linspace_length; lia).
      rewrite along_nth by (rewrite linspace_length; lia). rewrite linspace_nth by lia. replace (m + 1 - 1)%nat with m by lia.
      unfold vadd, vscale, vminus; cbn [fst snd]. rewrite roof_left.
      * f_equal; field; lra.
      * apply Rle_trans with (INR m * (L / INR m)); [|lra]. apply Rmult_le_compat_r; [lra|]. now apply le_INR.
    + rewrite app_nth2 by (rewrite along_length, linspace_length; lia). rewrite along_length, linspace_length.
      rewrite along_nth by (rewrite tl_length, linspace_length; lia). rewrite nth_tl, linspace_nth by lia. replace (m + 1 - 1)%nat with m by lia.
      replace (S (i - (m + 1))) with (i - m)%nat by lia. rewrite minus_INR by lia.
      unfold vadd, vscale, vminus; cbn [fst snd]. rewrite roof_right.
      * f_equal; field; lra.
      * apply Rle_trans with (INR m * (L / INR m)); [lra|]. apply Rmult_le_compat_r; [lra|]. apply le_INR. lia.
Qed.

Lemma nth_slice : forall {A} a b (l : list A) i d, (i < b - a)%nat -> nth i (slice a b l) d = nth (a + i) l d.
Proof.
  intros A a b l i d H. unfold slice.
  assert (E : forall (l : list A) k i, (i < k)%nat -> nth i (firstn k l) d = nth i l d).
  { induction l0 as [|x l0 IH]; intros k j Hj; [now rewrite firstn_nil|]. destruct k; [lia|]. destruct j; [reflexivity|]. simpl. apply IH. lia. }
  rewrite E by exact H. clear E H b. revert l; induction a as [|a IH]; intros l; [reflexivity|]. destruct l as [|x l]; [destruct i; reflexivity|]. apply IH.
Qed.
Lemma nth_skip : forall {A} a (l : list A) i d, nth i (skipn a l) d = nth (a + i) l d.
Proof. intros A; induction a as [|a IH]; intros l i d; [reflexivity|]. destruct l as [|x l]; [destruct i; reflexivity|]. apply IH. Qed.
Lemma nth_mids : forall a b i, (i < length a)%nat -> (i < length b)%nat ->
  nth i (mids a b) (0, 0) = (/2 * (fst (nth i a (0, 0)) + fst (nth i b (0, 0))), snd (nth i a (0, 0))).
Proof.
  induction a as [|x a IH]; intros b i Ha Hb; simpl in Ha; [lia|]. destruct b as [|y b]; simpl in Hb; [lia|].
  destruct i as [|i]; [reflexivity|]. unfold mids. simpl. apply IH; lia.
Qed.

(** The shape of a generated symmetric truss. *)
Definition shape (t : truss) (nt nb : nat) (xt xb : nat -> R) (L h H0 : R) : Prop :=
  length (top_nodes t) = nt /\ length (bottom_nodes t) = nb /\
  (forall i, (i < nt)%nat -> nth i (top_nodes t) (0, 0) = (xt i, roof L h (xt i))) /\
  (forall j, (j < nb)%nat -> nth j (bottom_nodes t) (0, 0) = (xb j, - H0)).

Lemma shape_chords : forall t nt nb xt xb L h H0, shape t nt nb xt xb L h H0 -> 0 < L -> 0 <= h -> 0 < H0 ->
  (forall i, (i < nt)%nat -> 0 <= xt i <= 2 * L) ->
  (forall i, (S i < nt)%nat -> xt i < xt (S i)) -> (forall j, (S j < nb)%nat -> xb j < xb (S j)) -> chords_ok t (- H0).
Proof.
  intros t nt nb xt xb L h H0 (A & B & C & D) HL Hh HH X T Bo. unfold chords_ok, x_increasing. rewrite A, B.
  split; [intros j Hj; now rewrite D|]. split; [intros i Hi; rewrite C by auto; cbn [snd]; pose proof (roof_nonneg L h (xt i) HL Hh (X i Hi)); lra|].
  split; intros i Hi; [rewrite !C by lia|rewrite !D by lia]; cbn [fst]; auto.
Qed.
Lemma shape_between : forall t nt nb xt xb L h H0 i j, shape t nt nb xt xb L h H0 -> (S i < nt)%nat -> (j < nb)%nat ->
  xt i <= xb j <= xt (S i) -> betw t i j.
Proof. intros t nt nb xt xb L h H0 i j (A & B & C & D) Hi Hj H. unfold betw. rewrite !C, D by lia. exact H. Qed.
