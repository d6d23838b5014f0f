From Verif Require Import Bool_tac Mat.
From Verif Require Import Sizing_model Sizing_spec.
Require Import Psatz.
Open Scope R_scope.

(** sums *)
Lemma sz_sumn_block p f m : sumn (m * p) f = sumn m (fun i => sumn p (fun j => f (i * p + j)%nat)).
Proof.
  induction m; simpl; [reflexivity|].
  rewrite <- IHm. replace (p + m * p)%nat with (m * p + p)%nat by lia. apply sumn_app.
Qed.
Lemma sz_sumn_le n f g : (forall i, (i < n)%nat -> f i <= g i) -> sumn n f <= sumn n g.
Proof.
  induction n; simpl; intros H; [lra|]. assert (H1 := H n ltac:(lia)).
  assert (sumn n f <= sumn n g) by (apply IHn; intros; apply H; lia). lra.
Qed.
Lemma vdot_zeros n x : vdot n zeros x = 0.
Proof. unfold vdot, zeros. apply sumn_zero. intros; lra. Qed.
Lemma vdot_set_at n a k v x : (k < n)%nat -> vdot n (set_at a k v) x = vdot n a x + (v - a k) * x k.
Proof.
  intros H. unfold vdot, set_at.
  rewrite (sumn_ext n _ (fun i => a i * x i + (if (i =? k)%nat then (v - a k) * x k else 0))).
  - rewrite sumn_plus, sumn_delta by auto. reflexivity.
  - intros i Hi. destruct (Nat.eqb_spec i k); [subst; ring|lra].
Qed.
Lemma vdot_set_slice n a s m b x : (s + m <= n)%nat ->
  vdot n (set_slice a s (s + m) b) x = vdot n a x + sumn m (fun i => (b i - a (s + i)%nat) * x (s + i)%nat).
Proof.
  intros H. replace n with (s + m + (n - s - m))%nat by lia. remember (n - s - m)%nat as r.
  unfold vdot. rewrite !sumn_app. unfold set_slice.
  rewrite (sumn_ext s _ (fun i => a i * x i)).
  2:{ intros i Hi. destruct (Nat.leb_spec s i); simpl; [lia|reflexivity]. }
  rewrite (sumn_ext m _ (fun i => a (s + i)%nat * x (s + i)%nat + (b i - a (s + i)%nat) * x (s + i)%nat)).
  2:{ intros i Hi. destruct (Nat.leb_spec s (s + i)); [|lia]. destruct (Nat.ltb_spec (s + i) (s + m)); [|lia].
      simpl. replace (s + i - s)%nat with i by lia. ring. }
  rewrite (sumn_ext r _ (fun i => a (s + m + i)%nat * x (s + m + i)%nat)).
  2:{ intros i Hi. destruct (Nat.ltb_spec (s + m + i) (s + m)); [lia|]. rewrite Bool.andb_false_r. reflexivity. }
  rewrite sumn_plus. ring.
Qed.
Lemma vdot_neg_slice n a s m x : (s + m <= n)%nat ->
  vdot n (neg_slice a s (s + m)) x = vdot n a x - 2 * sumn m (fun i => a (s + i)%nat * x (s + i)%nat).
Proof.
  intros H.
  replace (vdot n (neg_slice a s (s + m)) x) with (vdot n (set_slice a s (s + m) (fun i => a (s + i)%nat * -1)) x).
  - rewrite vdot_set_slice by auto. rewrite (sumn_ext m _ (fun i => -2 * (a (s + i)%nat * x (s + i)%nat))) by (intros; ring).
    rewrite sumn_scale. ring.
  - unfold vdot. apply sumn_ext. intros i _. unfold neg_slice, set_slice.
    destruct (Nat.leb_spec s i); simpl; [|reflexivity]. destruct (Nat.ltb_spec i (s + m)); simpl; [|reflexivity].
    replace (s + (i - s))%nat with i by lia. reflexivity.
Qed.
Lemma set_at_same a k v : set_at a k v k = v.
Proof. unfold set_at. rewrite Nat.eqb_refl. reflexivity. Qed.
Lemma set_at_other a k v i : i <> k -> set_at a k v i = a i.
Proof. intros H. unfold set_at. destruct (Nat.eqb_spec i k); [contradiction|reflexivity]. Qed.
Lemma set_slice_in a s e b i : (s <= i < e)%nat -> set_slice a s e b i = b (i - s)%nat.
Proof. intros [H1 H2]. unfold set_slice. destruct (Nat.leb_spec s i); [|lia]. destruct (Nat.ltb_spec i e); [|lia]. reflexivity. Qed.
Lemma set_slice_out a s e b i : ~ (s <= i < e)%nat -> set_slice a s e b i = a i.
Proof.
  intros H. unfold set_slice. destruct (Nat.leb_spec s i); destruct (Nat.ltb_spec i e); simpl; try reflexivity. lia.
Qed.

Lemma Rabs_def2_le a b : Rabs a <= b -> - b <= a <= b.
Proof. intros H. unfold Rabs in H. destruct (Rcase_abs a); lra. Qed.
(** ---------------- LP ---------------- *)
Lemma Forall_flat_map_seq {A} (P : A -> Prop) f n :
  Forall P (flat_map f (seq 0 n)) <-> forall k, (k < n)%nat -> Forall P (f k).
Proof.
  rewrite Forall_flat_map, Forall_forall. split.
  - intros H k Hk. apply H. apply in_seq. lia.
  - intros H k Hk. apply H. apply in_seq in Hk. lia.
Qed.

Section LP.
Variable q : lp_data.
Let m := lp_nmem q.
Let c := lp_nlc q.

Lemma lp_eq_row_val j d x : (j < c)%nat ->
  vdot (lp_nvars q) (set_slice zeros ((j + 1) * m) ((j + 2) * m) (lp_B q d)) x
  = sumn m (fun i => lp_B q d i * x ((j + 1) * m + i)%nat).
Proof.
  intros Hj. replace ((j + 2) * m)%nat with ((j + 1) * m + m)%nat by lia.
  rewrite vdot_set_slice.
  - rewrite vdot_zeros. unfold zeros. rewrite Rplus_0_l. apply sumn_ext. intros; ring.
  - unfold lp_nvars. fold m c. nia.
Qed.
Lemma lp_str_rows_val j i x : (j < c)%nat -> (i < m)%nat ->
  Forall (lin_holds (lp_nvars q) x) (lp_str_rows q j i)
  <-> - (lp_slb q i * x i) <= x ((j + 1) * m + i)%nat <= lp_sub q i * x i.
Proof.
  intros Hj Hi.
  assert (Hn : ((j + 1) * m + i < lp_nvars q)%nat) by (unfold lp_nvars; fold m c; nia).
  assert (Hd : ((j + 1) * m + i)%nat <> i) by nia.
  assert (Hn2 : (i < lp_nvars q)%nat) by (unfold lp_nvars; fold m c; nia).
  unfold lp_str_rows. fold m.
  set (a := set_at (set_at zeros i (- lp_sub q i)) ((j + 1) * m + i) 1).
  assert (Ha : vdot (lp_nvars q) a x = x ((j + 1) * m + i)%nat - lp_sub q i * x i).
  { unfold a. rewrite !vdot_set_at by auto. rewrite vdot_zeros, set_at_other by auto. unfold zeros. ring. }
  assert (Ha2 : vdot (lp_nvars q) (set_at (set_at a i (- lp_slb q i)) ((j + 1) * m + i) (-1)) x
     = - x ((j + 1) * m + i)%nat - lp_slb q i * x i).
  { rewrite !vdot_set_at by auto. rewrite Ha, (set_at_other a) by auto. unfold a.
    rewrite set_at_same, set_at_other, set_at_same by auto. ring. }
  rewrite !Forall_cons_iff. unfold lin_holds; simpl l_a; simpl l_b; simpl l_eq; cbv iota zeta.
  rewrite Ha, Ha2. split.
  - intros [H1 [H2 _]]. lra.
  - intros H. repeat split; try lra. constructor.
Qed.

Lemma lp_feasible_lemma x :
  lp_feasible q x <-> plastic_ok q x (fun k i => x ((k + 1) * m + i)%nat).
Proof.
  unfold lp_feasible, lp_rows, plastic_ok. fold m c.
  rewrite Forall_app. split.
  - intros [Hb [He Hs]]. split.
    + intros i Hi. assert (Hn : (i < lp_nvars q)%nat) by (unfold lp_nvars; fold m c; lia).
      specialize (Hb i Hn). unfold lp_lb, lp_ub in Hb. fold m in Hb.
      destruct (Nat.ltb_spec i m); [auto|lia].
    + intros k Hk. assert (He' := proj1 (Forall_flat_map_seq _ _ _) He k Hk).
      assert (Hs' := proj1 (Forall_flat_map_seq _ _ _) Hs k Hk). simpl in Hs'.
      split.
      * intros d Hd. unfold lp_eq_rows in He'. rewrite Forall_map, Forall_forall in He'.
        specialize (He' d ltac:(apply in_seq; lia)). unfold lin_holds in He'. simpl in He'.
        fold m in He'. rewrite lp_eq_row_val in He' by auto. lra.
      * intros i Hi. assert (Hs2 := proj1 (Forall_flat_map_seq _ _ _) Hs' i Hi).
        rewrite lp_str_rows_val in Hs2 by auto. split; [|exact Hs2].
        assert (Hn : ((k + 1) * m + i < lp_nvars q)%nat) by (unfold lp_nvars; fold m c; nia).
        specialize (Hb _ Hn). unfold lp_lb, lp_ub in Hb. fold m in Hb.
        destruct (Nat.ltb_spec ((k + 1) * m + i) m); [nia|]. apply Rabs_le. lra.
  - intros [Ha Hk]. split; [|split].
    + intros v Hv. unfold lp_lb, lp_ub. fold m. destruct (Nat.ltb_spec v m); [auto|].
      assert (Hm : (0 < m)%nat) by (destruct (Nat.eq_dec m 0) as [E|E]; [unfold lp_nvars in Hv; fold m c in Hv; rewrite E in Hv; lia|lia]).
      assert (Hk1 : (v / m - 1 < c)%nat).
      { assert (v / m < c + 1)%nat; [|assert (1 <= v / m)%nat; [|lia]].
        - apply Nat.div_lt_upper_bound; [lia|]. unfold lp_nvars in Hv. fold m c in Hv. nia.
        - apply Nat.div_le_lower_bound; lia. }
      assert (H1 : (1 <= v / m)%nat) by (apply Nat.div_le_lower_bound; lia).
      destruct (Hk _ Hk1) as [_ Hx].
      destruct (Hx (v mod m)%nat) as [Hx1 _]; [apply Nat.mod_upper_bound; lia|].
      replace ((v / m - 1 + 1) * m + v mod m)%nat with v in Hx1.
      * apply Rabs_def2_le; exact Hx1.
      * assert (Hdm := Nat.div_mod v m ltac:(lia)). replace (v / m - 1 + 1)%nat with (v / m)%nat by lia. lia.
    + apply Forall_flat_map_seq. intros k Hkc. unfold lp_eq_rows. rewrite Forall_map, Forall_forall.
      intros d Hd. apply in_seq in Hd. unfold lin_holds; simpl. fold m. rewrite lp_eq_row_val by auto.
      destruct (Hk k Hkc) as [He _]. specialize (He d ltac:(lia)). simpl in He. lra.
    + apply Forall_flat_map_seq. intros k Hkc. apply Forall_flat_map_seq. intros i Hi.
      apply lp_str_rows_val; auto. destruct (Hk k Hkc) as [_ Hx]. apply (Hx i Hi).
Qed.
End LP.
