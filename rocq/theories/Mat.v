(** Finite sums and matrices as functions of two indices. *)
From Verif Require Export Base.

Fixpoint sumn (n : nat) (f : nat -> R) : R :=
  match n with O => 0 | S n' => sumn n' f + f n' end.

Definition mat := nat -> nat -> R.
Definition vec := nat -> R.
Definition mzero : mat := fun _ _ => 0.
(** numpy: A.dot(B) with inner dimension n, A.transpose(), A.dot(x). *)
Definition mmul (n : nat) (A B : mat) : mat := fun i j => sumn n (fun k => A i k * B k j).
Definition mtr (A : mat) : mat := fun i j => A j i.
Definition mvec (n : nat) (A : mat) (u : vec) : vec := fun i => sumn n (fun j => A i j * u j).
(** numpy: M[[r0, r1, ...], [c0, c1, ...]] = v with a number v. *)
Definition put (ps : list (nat * nat)) (v : R) (M : mat) : mat :=
  fun i j => if existsb (fun p => andb (fst p =? i)%nat (snd p =? j)%nat) ps then v else M i j.
(** numpy.array of rows. *)
Definition mrows (rows : list (list R)) : mat := fun i j => nth j (nth i rows []) 0.
Definition vlist (l : list R) : vec := fun i => nth i l 0.
(** Energy of a displacement vector: u' A u. *)
Definition quad (n : nat) (A : mat) (u : vec) : R := sumn n (fun i => u i * sumn n (fun j => A i j * u j)).
Definition vdot (n : nat) (u v : vec) : R := sumn n (fun i => u i * v i).

Lemma sumn_ext n f g : (forall i, (i < n)%nat -> f i = g i) -> sumn n f = sumn n g.
Proof. induction n; simpl; intros H; auto. rewrite IHn by (intros; apply H; lia). rewrite H by lia. reflexivity. Qed.
Lemma sumn_0 n : sumn n (fun _ => 0) = 0.
Proof. induction n; simpl; lra. Qed.
Lemma sumn_zero n f : (forall i, (i < n)%nat -> f i = 0) -> sumn n f = 0.
Proof. intros H. rewrite (sumn_ext n f (fun _ => 0)); auto. apply sumn_0. Qed.
Lemma sumn_plus n f g : sumn n (fun i => f i + g i) = sumn n f + sumn n g.
Proof. induction n; simpl; lra. Qed.
Lemma sumn_scale n c f : sumn n (fun i => c * f i) = c * sumn n f.
Proof. induction n; simpl; lra. Qed.
Lemma sumn_scale_r n c f : sumn n (fun i => f i * c) = sumn n f * c.
Proof. induction n; simpl; lra. Qed.
Lemma sumn_opp n f : sumn n (fun i => - f i) = - sumn n f.
Proof. induction n; simpl; lra. Qed.
Lemma sumn_minus n f g : sumn n (fun i => f i - g i) = sumn n f - sumn n g.
Proof. induction n; simpl; lra. Qed.
Lemma sumn_swap n m f : sumn n (fun i => sumn m (fun j => f i j)) = sumn m (fun j => sumn n (fun i => f i j)).
Proof.
  induction n; simpl; [rewrite sumn_0; auto|]. rewrite IHn. rewrite <- sumn_plus. reflexivity.
Qed.
Lemma sumn_nonneg n f : (forall i, (i < n)%nat -> 0 <= f i) -> 0 <= sumn n f.
Proof. induction n; simpl; intros H; [lra|]. pose proof (H n ltac:(lia)). specialize (IHn ltac:(intros; apply H; lia)). lra. Qed.
Lemma sumn_delta n k f : (k < n)%nat -> sumn n (fun i => if (i =? k)%nat then f i else 0) = f k.
Proof.
  induction n; intros H; [lia|]. simpl. destruct (Nat.eq_dec n k) as [->|D].
  - rewrite Nat.eqb_refl. rewrite sumn_zero; [lra|]. intros i Hi.
    destruct (Nat.eqb_spec i k); auto; lia.
  - rewrite IHn by lia. destruct (Nat.eqb_spec n k); [contradiction|]. lra.
Qed.
Lemma sumn_app n m f : sumn (n + m) f = sumn n f + sumn m (fun i => f (n + i)%nat).
Proof.
  induction m; simpl; [rewrite Nat.add_0_r; lra|]. rewrite Nat.add_succ_r. simpl. rewrite IHm. lra.
Qed.
Lemma sumn_Rsum n f : sumn n f = Rsum (map f (seq 0 n)).
Proof.
  induction n; auto. rewrite seq_S, map_app, Rsum_app. rewrite <- IHn. simpl. lra.
Qed.

Lemma quad_double n A u : quad n A u = sumn n (fun i => sumn n (fun j => u i * A i j * u j)).
Proof.
  unfold quad. apply sumn_ext. intros i _. rewrite <- sumn_scale. apply sumn_ext. intros; ring.
Qed.
(** The energy of T' K T at u is the energy of K at T u. *)
Lemma quad_congruence m n T K u :
  quad n (mmul m (mtr T) (mmul m K T)) u = quad m K (mvec n T u).
Proof.
  rewrite !quad_double. unfold mmul, mtr, mvec.
  rewrite (sumn_ext n _ (fun i => sumn n (fun j => sumn m (fun a => sumn m (fun b => u i * T a i * K a b * (T b j * u j)))))).
  2:{ intros i _. apply sumn_ext. intros j _. rewrite <- sumn_scale, <- sumn_scale_r. apply sumn_ext. intros a _.
      replace (u i * (T a i * sumn m (fun b => K a b * T b j)) * u j) with ((u i * T a i * u j) * sumn m (fun b => K a b * T b j)) by ring.
      rewrite <- sumn_scale. apply sumn_ext. intros b _. ring. }
  rewrite (sumn_ext n _ (fun i => sumn m (fun a => sumn n (fun j => sumn m (fun b => u i * T a i * K a b * (T b j * u j)))))).
  2:{ intros i _. apply sumn_swap. }
  rewrite sumn_swap. apply sumn_ext. intros a _.
  rewrite (sumn_ext n _ (fun i => sumn m (fun b => u i * T a i * K a b * sumn n (fun j => T b j * u j)))).
  2:{ intros i _. rewrite sumn_swap. apply sumn_ext. intros b _. rewrite sumn_scale. reflexivity. }
  rewrite sumn_swap. apply sumn_ext. intros b _.
  rewrite (sumn_ext n _ (fun i => (T a i * u i) * (K a b * sumn n (fun j => T b j * u j)))) by (intros; ring).
  rewrite sumn_scale_r. ring.
Qed.
Lemma congruence_sym m T K : (forall a b, K a b = K b a) ->
  forall i j, mmul m (mtr T) (mmul m K T) i j = mmul m (mtr T) (mmul m K T) j i.
Proof.
  intros H i j. unfold mmul, mtr.
  rewrite (sumn_ext m _ (fun a => sumn m (fun b => T a i * K a b * T b j))) by
    (intros; rewrite <- sumn_scale; apply sumn_ext; intros; ring).
  rewrite sumn_swap. apply sumn_ext. intros b _. rewrite <- sumn_scale. apply sumn_ext. intros a _. rewrite (H a b). ring.
Qed.
Lemma mvec_mmul m n A B u i : mvec n (mmul m A B) u i = mvec m A (mvec n B u) i.
Proof.
  unfold mvec, mmul.
  rewrite (sumn_ext n _ (fun j => sumn m (fun k => A i k * B k j * u j))) by
    (intros; rewrite <- sumn_scale_r; reflexivity).
  rewrite sumn_swap. apply sumn_ext. intros k _. rewrite <- sumn_scale. apply sumn_ext. intros; ring.
Qed.
Lemma mvec_ext n A u v i : (forall j, (j < n)%nat -> u j = v j) -> mvec n A u i = mvec n A v i.
Proof. intros H. unfold mvec. apply sumn_ext. intros j Hj. rewrite H; auto. Qed.
