(** Proofs about the fire rules. *)
From Verif Require Export Fire_model Fire_spec Plate_proofs.

Ltac rw_cmp :=
  repeat match goal with
  | |- context [Rltb ?a ?b] => first [rewrite (proj2 (Rltb_true a b)) by lra | rewrite (proj2 (Rltb_false a b)) by lra]
  | |- context [Reqb ?a ?b] => first [rewrite (proj2 (Reqb_true a b)) by lra | rewrite (proj2 (Reqb_false a b)) by (intro; lra)]
  end.

Lemma filter_T {A} (f : A -> bool) a l : f a = true -> filter f (a :: l) = a :: filter f l.
Proof. intros H; simpl; rewrite H; auto. Qed.
Lemma filter_F {A} (f : A -> bool) a l : f a = false -> filter f (a :: l) = filter f l.
Proof. intros H; simpl; rewrite H; auto. Qed.
Lemma find_T {A} (f : A -> bool) a l : f a = true -> find f (a :: l) = Some a.
Proof. intros H; simpl; rewrite H; auto. Qed.
Lemma find_F {A} (f : A -> bool) a l : f a = false -> find f (a :: l) = find f l.
Proof. intros H; simpl; rewrite H; auto. Qed.
Ltac ff := repeat first [rewrite filter_T by (apply Rltb_true; lra) | rewrite filter_F by (apply Rltb_false; lra)
                        |rewrite find_F by (apply Reqb_false; intro; lra) | rewrite find_T by (apply Reqb_true; lra)].

Lemma temps_between t a b : In (a, b) (combine SPECIAL_TEMPS (tl SPECIAL_TEMPS)) -> IZR a < t < IZR b ->
  special t = None /\ t_smaller t = Some a /\ t_larger t = Some b.
Proof.
  intros H B. unfold SPECIAL_TEMPS in H. cbn [tl combine] in H.
  repeat (destruct H as [H|H]; [injection H as <- <-; unfold special, t_smaller, t_larger, SPECIAL_TEMPS;
    ff; repeat split; reflexivity|]). destruct H.
Qed.
Lemma temps_at z : In z SPECIAL_TEMPS -> special (IZR z) = Some z.
Proof.
  intros H. unfold SPECIAL_TEMPS in H. repeat (destruct H as [H|H]; [subst z; unfold special, SPECIAL_TEMPS; ff; reflexivity|]). destruct H.
Qed.
Lemma last_cons (l : list Z) a b : last (a :: l) b = last l a.
Proof. revert a b; induction l as [|c l IH]; intros a b; auto. change (last (a :: c :: l) b) with (last (c :: l) b). rewrite !IH. auto. Qed.
Lemma temps_cases t : 20 <= t <= 1200 -> (exists z, In z SPECIAL_TEMPS /\ t = IZR z) \/
  (exists a b, In (a, b) (combine SPECIAL_TEMPS (tl SPECIAL_TEMPS)) /\ IZR a < t < IZR b).
Proof.
  intros H.
  assert (S1 : forall l x0, IZR x0 <= t -> t <= IZR (last l x0) -> 
    (exists z, In z (x0 :: l) /\ t = IZR z) \/ (exists a b, In (a, b) (combine (x0 :: l) l) /\ IZR a < t < IZR b)).
  { induction l as [|x1 l IH]; intros x0 A B.
    - left. exists x0. simpl in B. split; [left; auto|lra].
    - destruct (Req_dec t (IZR x0)); [left; exists x0; split; [left; auto|auto]|].
      destruct (Rlt_dec t (IZR x1)).
      + right. exists x0, x1. split; [left; auto|lra].
      + destruct (IH x1) as [(z & I1 & E)|(a & b & I1 & E)]; [lra| |left; exists z; split; [right; auto|auto]|right; exists a, b; split; [right; auto|auto]].
        rewrite last_cons in B. exact B. }
  apply (S1 (tl SPECIAL_TEMPS) 20%Z); simpl; lra.
Qed.

Lemma pl_skip x0 y0 x1 y1 r x : x1 < x -> pl x0 y0 ((x1, y1) :: r) x = pl x1 y1 r x.
Proof. intros; simpl; destruct (Rle_dec x x1); [lra|auto]. Qed.
Lemma pl_here x0 y0 x1 y1 r x : x <= x1 -> pl x0 y0 ((x1, y1) :: r) x = y0 + (y1 - y0) * (x - x0) / (x1 - x0).
Proof. intros; simpl; destruct (Rle_dec x x1); [auto|lra]. Qed.
Lemma li_eq x1 y1 x2 y2 x : x1 < x2 -> linear_interpolation x1 y1 x2 y2 x = Some (y1 + (y2 - y1) * (x - x1) / (x2 - x1)).
Proof. intros. unfold linear_interpolation, pdiv, bind. rewrite (proj2 (Reqb_false _ _)) by lra. f_equal. field. lra. Qed.

Lemma reduce_at z p s d : In z SPECIAL_TEMPS -> table_of s = Some d -> reduce_property (IZR z) p s = lookup z p d.
Proof. intros H E. unfold reduce_property. rewrite temps_at by auto. rewrite E. auto. Qed.
Lemma reduce_between t a b p s d ya yb : In (a, b) (combine SPECIAL_TEMPS (tl SPECIAL_TEMPS)) -> IZR a < t < IZR b ->
  table_of s = Some d -> lookup a p d = Some ya -> lookup b p d = Some yb ->
  reduce_property t p s = Some (ya + (yb - ya) * (t - IZR a) / (IZR b - IZR a)).
Proof.
  intros H B E La Lb. unfold reduce_property. destruct (temps_between t a b H B) as (-> & -> & ->). rewrite E. cbn [bind].
  rewrite La, Lb. cbn [bind]. apply li_eq. lra.
Qed.
Lemma covered_range s t : covered s t -> 20 <= t <= 1200.
Proof. destruct s; simpl; intros; lra. Qed.

Ltac plgo := repeat first [rewrite pl_here by lra | rewrite pl_skip by lra].
Ltac bt I2 B := erewrite reduce_between; [cbn [CS SS BO cs ss bo knots interp]; plgo; reflexivity|exact I2|exact B|reflexivity|reflexivity|reflexivity].
Lemma reduce_interp_lemma s p t d : table_of s = Some d -> has_prop s p -> covered s t ->
  reduce_property t p s = interp (knots p d) t.
Proof.
  intros E HP C. destruct (temps_cases t (covered_range s t C)) as [(z & I1 & ->)|(a & b & I1 & B)].
  - rewrite (reduce_at z p s d I1 E). unfold SPECIAL_TEMPS in I1.
    destruct s; simpl in HP, C; try contradiction; injection E as <-;
    repeat (destruct I1 as [I1|I1]; [subst z; try (exfalso; destruct C; lra);
      repeat (destruct HP as [HP|HP]; [subst p; cbn [lookup Z.eqb Pos.eqb CS SS BO cs ss bo knots interp]; plgo; f_equal; cbn [pl]; try field; lra|]);
      subst p; cbn [lookup Z.eqb Pos.eqb CS SS BO cs ss bo knots interp]; plgo; f_equal; cbn [pl]; try field; lra|]); destruct I1.
  - pose proof I1 as I2. unfold SPECIAL_TEMPS in I1. cbn [tl combine] in I1.
    destruct s; simpl in HP, C; try contradiction; injection E as <-;
    repeat (destruct I1 as [I1|I1]; [injection I1 as <- <-; first [exfalso; destruct C; lra |
      repeat (destruct HP as [HP|HP]; [subst p; bt I2 B|]); subst p; bt I2 B]|]); destruct I1.
Qed.
