(** Proofs about OptVars_model. *)
From Verif Require Export OptVars_spec.

(** ---------- specification vocabulary ---------- *)





Lemma same_frame_refl v : same_frame v v.
Proof. repeat split. Qed.
Lemma same_frame_trans a b c : same_frame a b -> same_frame b c -> same_frame a c.
Proof. unfold same_frame; intuition congruence. Qed.
Lemma same_frame_wf a b : same_frame a b -> wf_var a -> wf_var b.
Proof. unfold same_frame, wf_var; intros (-> & -> & -> & _) H; exact H. Qed.

(** ---------- single substitutions ---------- *)

Lemma truncZ_nonneg x : 0 <= x -> IZR (truncZ x) <= x < IZR (truncZ x) + 1 /\ (0 <= truncZ x)%Z.
Proof.
  intros H; unfold truncZ; destruct (Rle_dec 0 x); [|lra].
  pose proof (floorZ_spec x) as S; unfold floorZ in S. split; [exact S|].
  assert (IZR (-1) < IZR (Int_part x)) by lra.
  apply lt_IZR in H0; lia.
Qed.

Lemma substitute_in_range v x :
  wf_var v -> v_locked v = false -> v_lb v <= x <= v_ub v ->
  exists v', substitute v x = Some v' /\ same_frame v v' /\
             v_value v' = Some (stored v x) /\ v_lb v <= stored v x <= v_ub v.
Proof.
  intros [Hb Hk] HL Hx. unfold substitute, stored, is_index.
  destruct (v_kind v) as [ | |n|vals] eqn:K; simpl;
    try (eexists; split; [reflexivity|]; unfold base_substitute; rewrite HL; repeat split; simpl; auto; lra).
  destruct Hk as (Hn & H0 & Hu).
  destruct (truncZ_nonneg x) as [[T1 T2] T3]; [lra|].
  assert (Hlt : (truncZ x < Z.of_nat n)%Z).
  { apply lt_IZR. rewrite <- INR_IZR_INZ. lra. }
  unfold index_substitute.
  assert (OK : py_index_ok n (truncZ x) = true).
  { unfold py_index_ok. apply andb_true_iff; split; [apply Z.leb_le|apply Z.ltb_lt]; lia. }
  rewrite OK. eexists; split; [reflexivity|]. repeat split; simpl; auto.
  - apply IZR_le in T3. lra.
  - lra.
Qed.

Lemma substitute_frame v x v' : substitute v x = Some v' -> same_frame v v'.
Proof.
  unfold substitute, index_substitute, base_substitute; intros H.
  destruct (v_kind v) eqn:K.
  1,2,4: injection H as <-; destruct (v_locked v) eqn:L; repeat split; simpl; auto.
  destruct (py_index_ok _ _); [injection H as <-|discriminate]; repeat split; simpl; auto.
Qed.

(** ---------- the whole vector ---------- *)

Fixpoint stored_list (fvs : list var) (xs : list R) : list (option R) :=
  match fvs, xs with
  | v :: fvs', x :: xs' => Some (stored v (clamp (v_lb v) (v_ub v) x)) :: stored_list fvs' xs'
  | v :: fvs', [] => v_value v :: stored_list fvs' []
  | [], _ => []
  end.

Lemma stored_list_nil fvs : stored_list fvs [] = map v_value fvs.
Proof. induction fvs as [|v r IH]; simpl; congruence. Qed.


Lemma Forall2_refl_gen {A} (P : A -> A -> Prop) l : (forall x, P x x) -> Forall2 P l l.
Proof. intros H; induction l; constructor; auto. Qed.

Lemma subst_vars_spec vs xs :
  Forall wf_var vs ->
  exists vs', subst_vars xs vs = Some vs' /\
    Forall2 untouched_if_locked vs vs' /\
    map v_value (free_vars vs') = stored_list (free_vars vs) xs /\
    (Forall within_bounds (free_vars vs) -> Forall within_bounds (free_vars vs')) /\
    ((length (free_vars vs) <= length xs)%nat -> Forall (fun v => v_value v <> None /\ within_bounds v) (free_vars vs')).
Proof.
  intros Hwf; revert xs; induction Hwf as [|v vs Hv Hvs IH]; intros xs; simpl.
  - exists []; repeat split; try constructor; auto.
  - destruct (v_locked v) eqn:L; simpl.
    + destruct (IH xs) as (vs' & E & F2 & M & B & C). rewrite E.
      exists (v :: vs'); split; [reflexivity|]; split.
      { constructor; auto; split; [apply same_frame_refl|auto]. }
      unfold free_vars in *; simpl; rewrite ?L; simpl. split; [exact M|]. split; auto.
    + destruct xs as [|x xs].
      * exists (v :: vs); split; [reflexivity|]; split.
        { constructor. split; [apply same_frame_refl|auto].
          apply Forall2_refl_gen; intros y; split; [apply same_frame_refl|auto]. }
        unfold free_vars in *; simpl; rewrite ?L; simpl.
        rewrite stored_list_nil. split; [reflexivity|]. split; [auto|]. simpl; lia.
      * destruct (substitute_in_range v (clamp (v_lb v) (v_ub v) x) Hv L) as (v' & E1 & SF & V & RG).
        { apply clamp_range, Hv. }
        rewrite E1. destruct (IH xs) as (vs' & E & F2 & M & B & C). rewrite E.
        exists (v' :: vs'); split; [reflexivity|]; split.
        { constructor; auto; split; [exact SF|congruence]. }
        assert (L' : v_locked v' = false) by (destruct SF as (_ & _ & _ & HH & _); congruence).
        assert (W : within_bounds v').
        { unfold within_bounds; rewrite V. destruct SF as (_ & -> & -> & _). exact RG. }
        unfold free_vars in *; simpl; rewrite ?L, ?L'; simpl. rewrite V, M.
        split; [reflexivity|]. split.
        { intros FA; inversion FA; subst; constructor; auto. }
        intros Hlen; constructor; [split; [congruence|auto]|apply C; lia].
Qed.

Lemma untouched_wf vs vs' : Forall2 untouched_if_locked vs vs' -> Forall wf_var vs -> Forall wf_var vs'.
Proof.
  intros F; induction F as [|v v' l l' [S _] F IH]; intros W; auto.
  inversion W; subst; constructor; eauto using same_frame_wf.
Qed.

Lemma untouched_locked vs vs' : Forall2 untouched_if_locked vs vs' -> locked_vars vs' = locked_vars vs.
Proof.
  intros F; induction F as [|v v' l l' [S U] F IH]; auto.
  unfold locked_vars in *; simpl. destruct S as (_ & _ & _ & E & _). rewrite E.
  destruct (v_locked v) eqn:L; [rewrite U, IH by auto|]; auto.
Qed.

(** C01: one call. *)
Lemma substitution_clamps_lemma vs xs :
  Forall wf_var vs -> length xs = length (free_vars vs) ->
  exists vs', subst_vars xs vs = Some vs' /\
    locked_vars vs' = locked_vars vs /\
    map v_value (free_vars vs') =
      map (fun vx => Some (stored (fst vx) (clamp (v_lb (fst vx)) (v_ub (fst vx)) (snd vx))))
          (combine (free_vars vs) xs) /\
    Forall (fun v => exists x, v_value v = Some x /\ v_lb v <= x <= v_ub v) (free_vars vs').
Proof.
  intros W HL. destruct (subst_vars_spec vs xs W) as (vs' & E & F2 & M & B & C).
  exists vs'; split; [exact E|]. split; [apply untouched_locked; auto|]. split.
  - rewrite M. clear -HL. revert xs HL; induction (free_vars vs) as [|v l IH]; intros [|x xs] HL; simpl in *; try discriminate; auto.
    rewrite IH by lia. reflexivity.
  - assert (HC := C ltac:(lia)). revert HC. apply Forall_impl. intros v [N Wb].
    unfold within_bounds in Wb. destruct (v_value v) as [x|]; [exists x; auto|congruence].
Qed.


Lemma Forall2_trans_gen {A} (P : A -> A -> Prop) :
  (forall a b c, P a b -> P b c -> P a c) ->
  forall l1 l2, Forall2 P l1 l2 -> forall l3, Forall2 P l2 l3 -> Forall2 P l1 l3.
Proof.
  intros T l1 l2 F; induction F as [|a b l l' H F IH]; intros l3 G; inversion G; subst; constructor; eauto.
Qed.

Lemma untouched_trans a b c : untouched_if_locked a b -> untouched_if_locked b c -> untouched_if_locked a c.
Proof.
  intros [S1 U1] [S2 U2]; split; [eapply same_frame_trans; eauto|].
  intros L. rewrite U2; auto. destruct S1 as (_ & _ & _ & E & _); congruence.
Qed.

Lemma free_len vs vs' : Forall2 untouched_if_locked vs vs' -> length (free_vars vs') = length (free_vars vs).
Proof.
  intros F; induction F as [|v v' l l' [S U] F IH]; auto.
  unfold free_vars in *; simpl. destruct S as (_ & _ & _ & E & _). rewrite E.
  destruct (v_locked v); simpl; auto.
Qed.

Lemma substitution_history_lemma vs xss :
  Forall wf_var vs -> Forall within_bounds (free_vars vs) ->
  exists vs', run_substs xss vs = Some vs' /\
    Forall2 untouched_if_locked vs vs' /\
    Forall within_bounds (free_vars vs').
Proof.
  revert vs; induction xss as [|xs r IH]; intros vs W B; simpl.
  - exists vs; split; auto; split; auto. apply Forall2_refl_gen; intros; split; auto using same_frame_refl.
  - destruct (subst_vars_spec vs xs W) as (v1 & E & F2 & M & B' & C). rewrite E.
    destruct (IH v1) as (v2 & E2 & F3 & B2); eauto using untouched_wf.
    exists v2; split; auto; split; auto. eapply Forall2_trans_gen; eauto using untouched_trans.
Qed.

(** ---------- locked variables (C02, C03) ---------- *)

Definition keeps (i : nat) (vs vs' : list var) : Prop :=
  forall v, nth_error vs i = Some v -> v_locked v = true -> is_index v = false ->
            nth_error vs' i = Some v.

Lemma subst_vars_keeps xs vs vs' i v :
  subst_vars xs vs = Some vs' -> nth_error vs i = Some v -> v_locked v = true ->
  nth_error vs' i = Some v.
Proof.
  revert xs vs' i; induction vs as [|w vs IH]; intros xs vs' i E N L; simpl in E.
  - destruct i; discriminate.
  - destruct (v_locked w) eqn:Lw.
    + destruct (subst_vars xs vs) eqn:E2; [injection E as <-|discriminate].
      destruct i; simpl in *; eauto.
    + destruct xs as [|x xs].
      * injection E as <-; auto.
      * destruct (substitute w _) eqn:E1; [|discriminate].
        destruct (subst_vars xs vs) eqn:E2; [injection E as <-|discriminate].
        destruct i; simpl in *; eauto. congruence.
Qed.

Lemma update_at_other i j f vs vs' : update_at j f vs = Some vs' -> i <> j -> nth_error vs' i = nth_error vs i.
Proof.
  revert i j vs'; induction vs as [|v vs IH]; intros i [|j] vs' E N; simpl in E.
  - injection E as <-; auto.
  - injection E as <-; auto.
  - destruct (f v); [injection E as <-|discriminate]. destruct i; simpl; auto; congruence.
  - destruct (update_at j f vs) eqn:E1; [injection E as <-|discriminate].
    destruct i; simpl; auto. eapply IH; eauto.
Qed.

Lemma update_at_same i f vs vs' v : update_at i f vs = Some vs' -> nth_error vs i = Some v ->
  exists v', f v = Some v' /\ nth_error vs' i = Some v'.
Proof.
  revert i vs'; induction vs as [|w vs IH]; intros [|i] vs' E N; simpl in *; try discriminate.
  - injection N as ->. destruct (f v); [injection E as <-|discriminate]. eauto.
  - destruct (update_at i f vs) eqn:E1; [injection E as <-|discriminate]. simpl; eauto.
Qed.

Lemma con_sync_cases vs x vs' : con_sync vs x = Some vs' -> vs' = vs \/ subst_vars x vs = Some vs'.
Proof.
  unfold con_sync. destruct (all_some _); [|discriminate]. destruct (Nat.eqb _ _); [|discriminate].
  destruct (Rlt_dec _ _); intros E; auto. injection E as <-; auto.
Qed.


Lemma vstep_keeps i vs o vs' : vstep vs o = Some vs' -> ~ unlocks i o -> keeps i vs vs'.
Proof.
  intros E NU v N L K. destruct o as [xs|j x|j val|j|xs|xs]; simpl in E.
  - eapply subst_vars_keeps; eauto.
  - destruct (Nat.eq_dec i j) as [<-|D]; [|erewrite update_at_other; eauto].
    destruct (update_at_same _ _ _ _ _ E N) as (v' & F & N'). rewrite N'. f_equal.
    unfold substitute, is_index, base_substitute in *. destruct (v_kind v); try discriminate; rewrite L in F; congruence.
  - destruct (Nat.eq_dec i j) as [<-|D]; [|erewrite update_at_other; eauto].
    destruct (update_at_same _ _ _ _ _ E N) as (v' & F & N'). rewrite N'. f_equal.
    assert (SL : set_locked v true = v) by (destruct v; simpl in *; subst; reflexivity).
    unfold lock in F. destruct val as [x|]; [|congruence].
    unfold substitute, is_index, base_substitute in *. destruct (v_kind v); try discriminate; rewrite L in F; congruence.
  - simpl in NU. assert (j <> i) by auto. erewrite update_at_other; eauto.
  - unfold objective_call in E. destruct (refill vs xs) as [fv|]; [|discriminate].
    destruct (all_some fv) as [full|]; [|discriminate].
    destruct (subst_vars full vs) eqn:E1; [injection E as <-|discriminate].
    eapply subst_vars_keeps; eauto.
  - destruct (con_sync_cases _ _ _ E) as [->|E1]; auto. eapply subst_vars_keeps; eauto.
Qed.

Lemma locked_never_moves_lemma ops i vs vs' v :
  nth_error vs i = Some v -> v_locked v = true -> is_index v = false ->
  Forall (fun o => ~ unlocks i o) ops ->
  vrun ops vs = Some vs' -> nth_error vs' i = Some v.
Proof.
  revert vs; induction ops as [|o ops IH]; intros vs N L K F E; simpl in E.
  - congruence.
  - inversion F as [|? ? NU F']; subst. destruct (vstep vs o) as [v1|] eqn:E1; [|discriminate].
    apply (IH v1); auto. apply (vstep_keeps i vs o v1 E1 NU v); auto.
Qed.


Lemma locked_never_moves_problem_lemma ops i vs vs' v :
  nth_error vs i = Some v -> v_locked v = true ->
  Forall problem_level ops ->
  vrun ops vs = Some vs' -> nth_error vs' i = Some v.
Proof.
  revert vs; induction ops as [|o ops IH]; intros vs N L F E; simpl in E.
  - congruence.
  - inversion F as [|? ? P F']; subst. destruct (vstep vs o) as [v1|] eqn:E1; [|discriminate].
    apply (IH v1); auto. destruct o; simpl in P; try contradiction; simpl in E1.
    + eapply subst_vars_keeps; eauto.
    + unfold objective_call in E1. destruct (refill vs xs) as [fv|]; [|discriminate].
      destruct (all_some fv) as [full|]; [|discriminate].
      destruct (subst_vars full vs) eqn:E2; [injection E1 as <-|discriminate].
      eapply subst_vars_keeps; eauto.
    + destruct (con_sync_cases _ _ _ E1) as [->|E2]; auto. eapply subst_vars_keeps; eauto.
Qed.

Definition demo_index (locked : bool) : var :=
  mkVar (KIndex 3) 0 2 (Some 1) locked 1 TSingle (Some 1).

Lemma truncZ_IZR_nonneg z : (0 <= z)%Z -> truncZ (IZR z) = z.
Proof.
  intros H. unfold truncZ. apply IZR_le in H. destruct (Rle_dec 0 (IZR z)); [|lra].
  apply floorZ_unique; lra.
Qed.

Lemma locked_index_refuted_lemma :
  exists (v v' : var) (x : R),
    wf_var v /\ v_locked v = true /\ substitute v x = Some v' /\ v_value v' <> v_value v /\
    v_written v' = v_written v.
Proof.
  exists (demo_index true), (mkVar (KIndex 3) 0 2 (Some 2) true 1 TSingle (Some 1)), 2.
  split; [unfold wf_var; simpl; split; [lra|split; [lia|lra]]|].
  split; [reflexivity|]. split; [|split; [simpl; intros E; injection E; lra|reflexivity]].
  unfold substitute, demo_index; simpl. unfold index_substitute.
  rewrite (truncZ_IZR_nonneg 2) by lia. reflexivity.
Qed.

(** ---------- refill (C04) ---------- *)

Fixpoint fill (fv : list (option R)) (xs : list R) : list (option R) :=
  match fv with
  | [] => []
  | Some w :: r => Some w :: fill r xs
  | None :: r => match xs with [] => None :: r | x :: xs' => Some x :: fill r xs' end
  end.

Definition holes (fv : list (option R)) : nat :=
  length (filter (fun o => match o with None => true | _ => false end) fv).

Lemma pop_rev_cons x l : pop (rev (x :: l)) = Some (x, rev l).
Proof. unfold pop. rewrite rev_involutive. reflexivity. Qed.

Lemma fill_no_holes fv xs : holes fv = 0%nat -> fill fv xs = fv.
Proof.
  induction fv as [|o r IH]; simpl; auto. unfold holes in *. destruct o; simpl; intros H; [rewrite IH; auto|discriminate].
Qed.

Lemma py_empty_rev {A} (l : list A) : py_empty (rev l) = py_empty l.
Proof. destruct l as [|a l]; simpl; auto. destruct (rev l ++ [a]) eqn:E; auto. destruct (rev l); discriminate. Qed.

Lemma refill_loop_fill fv xs : length xs = holes fv -> refill_loop fv (rev xs) = Some (fill fv xs).
Proof.
  revert xs; induction fv as [|o r IH]; intros xs H; simpl; auto.
  destruct o as [w|].
  - rewrite py_empty_rev. destruct xs as [|x xs]; simpl.
    + rewrite fill_no_holes by (symmetry; exact H). reflexivity.
    + change (rev xs ++ [x]) with (rev (x :: xs)). rewrite IH by exact H. reflexivity.
  - destruct xs as [|x xs]; [discriminate H|].
    rewrite pop_rev_cons, py_empty_rev. unfold holes in H; simpl in H. destruct xs as [|y xs]; simpl.
    + rewrite fill_no_holes by (unfold holes; simpl in H; lia). reflexivity.
    + change (rev xs ++ [y]) with (rev (y :: xs)). rewrite IH by (unfold holes; simpl in *; lia). reflexivity.
Qed.


Lemma holes_free vs : locks_have_values vs -> holes (fixed_vals vs) = length (free_vars vs).
Proof.
  unfold holes, fixed_vals, free_vars; induction vs as [|v r IH]; intros H; simpl; auto.
  assert (IHr := IH (fun w Hw => H w (or_intror Hw))).
  destruct (v_locked v) eqn:L; simpl.
  - destruct (v_value v) eqn:V; simpl; auto. exfalso. apply (H v); simpl; auto.
  - f_equal; auto.
Qed.


Lemma fill_completes vs xs : locks_have_values vs -> length xs = length (free_vars vs) ->
  completes vs xs (fill (fixed_vals vs) xs).
Proof.
  revert xs; induction vs as [|v vs IH]; intros xs H HL.
  - destruct xs; [|discriminate]. split; [reflexivity|]. split; [intros [|i] w E; discriminate|reflexivity].
  - assert (H' : locks_have_values vs) by (intros w Hw; apply H; simpl; auto).
    unfold fixed_vals in *; simpl in *. unfold free_vars in *; simpl in HL.
    destruct (v_locked v) eqn:L; simpl.
    + destruct (v_value v) as [w|] eqn:V; [|exfalso; apply (H v); simpl; auto].
      destruct (IH xs H' HL) as (A & B & C). simpl. split; [simpl; auto|]. split.
      * intros [|i] u E LU; simpl in *; [injection E as <-; congruence|eauto].
      * simpl. rewrite ?L; simpl. exact C.
    + destruct xs as [|x xs]; [discriminate|]. simpl in HL.
      destruct (IH xs H' ltac:(lia)) as (A & B & C). split; [simpl; auto|]. split.
      * intros [|i] u E LU; simpl in *; [congruence|eauto].
      * simpl. rewrite ?L; simpl. congruence.
Qed.

Lemma refill_completes_lemma vs xs :
  locks_have_values vs -> length xs = length (free_vars vs) ->
  exists r, refill vs xs = Some r /\ completes vs xs r /\ all_some r <> None.
Proof.
  intros H HL. exists (fill (fixed_vals vs) xs). split.
  - unfold refill. apply refill_loop_fill. rewrite holes_free; auto.
  - split; [apply fill_completes; auto|].
    revert xs HL; induction vs as [|v vs IH]; intros xs HL; simpl; [discriminate|].
    assert (H' : locks_have_values vs) by (intros w Hw; apply H; simpl; auto).
    unfold free_vars in *; simpl in HL. destruct (v_locked v) eqn:L; simpl in *.
    + destruct (v_value v) eqn:V; [|exfalso; apply (H v); simpl; auto]. simpl.
      specialize (IH H' xs HL). fold (fixed_vals vs).
      destruct (all_some (fill (fixed_vals vs) xs)); [discriminate|congruence].
    + destruct xs as [|x xs]; [discriminate|]. simpl. specialize (IH H' xs ltac:(simpl in HL; lia)).
      fold (fixed_vals vs). destruct (all_some (fill (fixed_vals vs) xs)); [discriminate|congruence].
Qed.

(** [completes] determines the vector. *)
Lemma completes_unique vs xs r1 r2 : completes vs xs r1 -> completes vs xs r2 -> r1 = r2.
Proof.
  revert xs r1 r2; induction vs as [|v vs IH]; intros xs r1 r2 (A1 & B1 & C1) (A2 & B2 & C2).
  - destruct r1; [|discriminate]; destruct r2; [reflexivity|discriminate].
  - destruct r1 as [|o1 r1]; [discriminate|]; destruct r2 as [|o2 r2]; [discriminate|].
    simpl in *. destruct (v_locked v) eqn:L; simpl in *.
    + pose proof (B1 0%nat v eq_refl L) as E1; pose proof (B2 0%nat v eq_refl L) as E2. simpl in *.
      f_equal; [congruence|]. apply (IH xs); (split; [lia|split; [|assumption]]).
      * intros i u N LU; exact (B1 (S i) u N LU).
      * intros i u N LU; exact (B2 (S i) u N LU).
    + destruct xs as [|x xs]; [discriminate|]. simpl in *. injection C1 as -> C1; injection C2 as -> C2.
      f_equal. apply (IH xs); (split; [lia|split; [|assumption]]).
      * intros i u N LU; exact (B1 (S i) u N LU).
      * intros i u N LU; exact (B2 (S i) u N LU).
Qed.

Lemma locks_have_values_untouched vs vs' :
  Forall2 untouched_if_locked vs vs' -> locks_have_values vs -> locks_have_values vs'.
Proof.
  intros F; induction F as [|v v' l l' [S U] F IH]; intros H w Hw L; simpl in Hw; [contradiction|].
  assert (H' : locks_have_values l) by (intros u Hu; apply H; simpl; auto).
  destruct Hw as [<-|Hw]; [|apply (IH H' w Hw L)].
  destruct S as (_ & _ & _ & E & _). rewrite U by congruence. apply H; simpl; auto; congruence.
Qed.

Lemma fixed_vals_untouched vs vs' : Forall2 untouched_if_locked vs vs' -> fixed_vals vs' = fixed_vals vs.
Proof.
  intros F; induction F as [|v v' l l' [S U] F IH]; auto. unfold fixed_vals in *; simpl. rewrite IH.
  destruct S as (_ & _ & _ & E & _). rewrite E. destruct (v_locked v) eqn:L; [rewrite U|]; auto.
Qed.

Lemma all_some_len l r : all_some l = Some r -> length r = length l.
Proof.
  revert r; induction l as [|o l IH]; intros r E; simpl in E; [injection E as <-; auto|].
  destruct o; [|discriminate]. destruct (all_some l) eqn:E1; [injection E as <-|discriminate]. simpl; f_equal; auto.
Qed.


Lemma all_some_ok vs : Forall (fun v => v_value v <> None) vs -> exists X, all_some (map v_value vs) = Some X.
Proof.
  intros H; induction H as [|v l Hv H (X & E)]; simpl; [eauto|].
  destruct (v_value v); [|congruence]. rewrite E; eauto.
Qed.

Lemma con_sync_ok vs x : Forall wf_var vs -> free_have_values vs -> length x = length (free_vars vs) ->
  exists vs', con_sync vs x = Some vs' /\ Forall2 untouched_if_locked vs vs'.
Proof.
  intros W FV HL. unfold con_sync. destruct (all_some_ok _ FV) as (X & E). rewrite E.
  rewrite (all_some_len _ _ E), map_length, <- HL, Nat.eqb_refl.
  destruct (Rlt_dec _ _).
  - destruct (subst_vars_spec vs x W) as (vs' & E1 & F2 & _). eauto.
  - exists vs; split; auto. apply Forall2_refl_gen; intros; split; auto using same_frame_refl.
Qed.

(** C04: what the constraint function receives. *)
Lemma constraint_sees_full_vector_lemma vs x :
  Forall wf_var vs -> free_have_values vs -> locks_have_values vs -> length x = length (free_vars vs) ->
  exists r vs', nonlin_call vs x = Some (r, vs') /\ completes vs x r.
Proof.
  intros W FV LV HL. destruct (con_sync_ok vs x W FV HL) as (vs' & E & F2).
  unfold nonlin_call; rewrite E.
  assert (LV' := locks_have_values_untouched _ _ F2 LV).
  assert (HL' : length x = length (free_vars vs')) by (rewrite (free_len _ _ F2); auto).
  destruct (refill_completes_lemma vs' x LV' HL') as (r & E2 & _ & _).
  rewrite E2. exists r, vs'; split; auto.
  destruct (refill_completes_lemma vs x LV HL) as (r0 & E3 & Cm & _).
  unfold refill in *. rewrite (fixed_vals_untouched _ _ F2) in E2. congruence.
Qed.

(** A variable that is locked before it has a value breaks the alignment. *)
Definition plainvar (lb ub : R) (val : option R) (locked : bool) : var :=
  mkVar KCont lb ub val locked 1 TNone None.

Lemma unvalued_lock_refuted_lemma :
  exists vs x r vs',
    Forall wf_var vs /\ free_have_values vs /\ length x = length (free_vars vs) /\
    nonlin_call vs x = Some (r, vs') /\ ~ completes vs x r.
Proof.
  exists [plainvar 0 10 None true; plainvar 0 10 (Some 1) false], [1],
         [Some 1; None], [plainvar 0 10 None true; plainvar 0 10 (Some 1) false].
  split; [repeat constructor; unfold wf_var; simpl; lra|].
  split; [repeat constructor; simpl; congruence|]. split; [reflexivity|]. split.
  - unfold nonlin_call, con_sync. simpl.
    destruct (Rlt_dec X_TOL (norm_diff [1] [1])) as [C|C].
    + exfalso. unfold norm_diff in C; simpl in C. replace ((1-1)*(1-1)+0) with 0 in C by ring.
      rewrite sqrt_0 in C. unfold X_TOL in C; lra.
    + reflexivity.
  - intros (_ & B & _). specialize (B 0%nat _ eq_refl eq_refl). discriminate.
Qed.

(** ---------- objective (C05) ---------- *)

(** The user function of the objective does get the completed vector. *)
Lemma objective_sees_full_vector_lemma vs x :
  Forall wf_var vs -> locks_have_values vs -> length x = length (free_vars vs) ->
  exists full vs', objective_call vs x = Some (full, vs') /\ completes vs x (map Some full).
Proof.
  intros W LV HL. unfold objective_call.
  destruct (refill_completes_lemma vs x LV HL) as (r & E & Cm & NS). rewrite E.
  destruct (all_some r) as [full|] eqn:EA; [|congruence].
  destruct (subst_vars_spec vs full W) as (vs' & E1 & _). rewrite E1.
  exists full, vs'; split; auto.
  assert (Hr : r = map Some full).
  { clear -EA. revert full EA; induction r as [|o r IH]; intros full EA; simpl in EA; [injection EA as <-; auto|].
    destruct o as [w|]; [|discriminate]. destruct (all_some r) as [t|]; [injection EA as <-|discriminate].
    simpl; f_equal; auto. }
  congruence.
Qed.

(** ... but the free variables may be given other variables' entries. *)
Lemma objective_misassigns_refuted_lemma :
  exists vs x full vs',
    Forall wf_var vs /\ locks_have_values vs /\ length x = length (free_vars vs) /\
    Forall2 (fun v y => v_lb v <= y <= v_ub v) (free_vars vs) x /\
    objective_call vs x = Some (full, vs') /\
    map v_value (free_vars vs') <> map Some x.
Proof.
  exists [plainvar 0 10 (Some 5) true; plainvar 0 10 (Some 2) false], [1], [5; 1],
         [plainvar 0 10 (Some 5) true; plainvar 0 10 (Some 5) false].
  split; [repeat constructor; unfold wf_var; simpl; lra|].
  split; [intros v [<-|[<-|[]]]; simpl; congruence|]. split; [reflexivity|].
  split; [repeat constructor; simpl; lra|]. split.
  - unfold objective_call; simpl. unfold substitute; simpl.
    rewrite clamp_id by lra. reflexivity.
  - simpl. intros E; injection E; lra.
Qed.

(** With the free variables declared before the locked ones each free variable
    does get its own entry. *)
Lemma completes_prefix vs1 vs2 x r :
  Forall (fun v => v_locked v = false) vs1 -> Forall (fun v => v_locked v = true) vs2 ->
  completes (vs1 ++ vs2) x r -> exists t, r = map Some x ++ t /\ length x = length vs1.
Proof.
  intros F1 F2; revert x r; induction F1 as [|v l L F1 IH]; intros x r (A & B & C); simpl in *.
  - exists r. assert (E : map snd (filter (fun vr => negb (v_locked (fst vr))) (combine vs2 r)) = []).
    { clear -F2. revert r; induction F2 as [|v l L F2 IH]; intros [|o r]; simpl; auto. rewrite ?L; simpl; auto. }
    rewrite E in C. destruct x; [|discriminate]. split; reflexivity.
  - destruct r as [|o r]; [discriminate|]. simpl in C. rewrite L in C; simpl in C.
    destruct x as [|y x]; [discriminate|]. simpl in C. injection C as -> C.
    destruct (IH x r) as (t & -> & HL).
    { split; [simpl in A; lia|]. split; auto. intros i u N LU; exact (B (S i) u N LU). }
    exists t; split; simpl; auto.
Qed.

Lemma free_app a b : free_vars (a ++ b) = free_vars a ++ free_vars b.
Proof. apply filter_app. Qed.
Lemma free_all vs : Forall (fun v => v_locked v = false) vs -> free_vars vs = vs.
Proof. intros F; induction F as [|v l L F IH]; auto. unfold free_vars in *; simpl; rewrite ?L; simpl; congruence. Qed.
Lemma free_none vs : Forall (fun v => v_locked v = true) vs -> free_vars vs = [].
Proof. intros F; induction F as [|v l L F IH]; auto. unfold free_vars in *; simpl; rewrite ?L; simpl; auto. Qed.

Lemma stored_list_prefix fvs x t : length x = length fvs -> stored_list fvs (x ++ t) = stored_list fvs x.
Proof.
  revert x; induction fvs as [|v l IH]; intros [|y x] H; simpl in *; try discriminate; auto.
  f_equal; apply IH; lia.
Qed.

Lemma objective_assigns_partial_lemma vs1 vs2 x :
  Forall wf_var (vs1 ++ vs2) -> locks_have_values (vs1 ++ vs2) ->
  Forall (fun v => v_locked v = false) vs1 -> Forall (fun v => v_locked v = true) vs2 ->
  length x = length vs1 ->
  exists full vs', objective_call (vs1 ++ vs2) x = Some (full, vs') /\
    map v_value (free_vars vs') =
    map (fun vx => Some (stored (fst vx) (clamp (v_lb (fst vx)) (v_ub (fst vx)) (snd vx)))) (combine vs1 x).
Proof.
  intros W LV F1 F2 HL.
  assert (FR : free_vars (vs1 ++ vs2) = vs1).
  { rewrite free_app, (free_all _ F1), (free_none _ F2). apply app_nil_r. }
  destruct (objective_sees_full_vector_lemma (vs1 ++ vs2) x W LV) as (full & vs' & E & Cm).
  { rewrite FR; auto. }
  exists full, vs'; split; auto.
  destruct (completes_prefix _ _ _ _ F1 F2 Cm) as (t & Ef & _).
  assert (Hs : subst_vars full (vs1 ++ vs2) = Some vs').
  { unfold objective_call in E. destruct (refill _ _) as [r|]; [|discriminate].
    destruct (all_some r) as [f|]; [|discriminate]. destruct (subst_vars f _) eqn:E1; [|discriminate].
    injection E as -> <-; auto. }
  destruct (subst_vars_spec (vs1 ++ vs2) full W) as (v2 & E2 & _ & M & _).
  assert (v2 = vs') by congruence; subst v2. rewrite M, FR.
  assert (Hf : exists t', full = x ++ t').
  { clear -Ef. revert full Ef; induction x as [|y x IH]; intros full Ef; [exists full; auto|].
    destruct full as [|z full]; simpl in Ef; [discriminate|]. injection Ef as -> Ef.
    destruct (IH _ Ef) as (t' & ->). exists t'; auto. }
  destruct Hf as (t' & ->). rewrite stored_list_prefix by auto.
  clear -HL. revert x HL; induction vs1 as [|v l IH]; intros [|y x] HL; simpl in *; try discriminate; auto.
  f_equal; apply IH; lia.
Qed.

(** ---------- linear constraints (C07) ---------- *)

Lemma sumsq_nonneg a b : 0 <= sumsq_diff a b.
Proof. revert b; induction a as [|u a IH]; intros [|v b]; simpl; try lra. specialize (IH b). pose proof (Rle_0_sqr (u-v)) as S; unfold Rsqr in S; lra. Qed.

Lemma coord_le_norm a b i u v : nth_error a i = Some u -> nth_error b i = Some v ->
  Rabs (u - v) <= norm_diff a b.
Proof.
  intros Na Nb. unfold norm_diff. rewrite <- sqrt_Rsqr_abs. apply sqrt_le_1_alt.
  revert b i Na Nb; induction a as [|u' a IH]; intros [|v' b] [|i] Na Nb; simpl in *; try discriminate.
  - injection Na as <-; injection Nb as <-. pose proof (sumsq_nonneg a b). unfold Rsqr; lra.
  - specialize (IH _ _ Na Nb). pose proof (Rle_0_sqr (u'-v')) as S; unfold Rsqr in *; lra.
Qed.

Lemma l1_nonneg a : 0 <= l1 a.
Proof. unfold l1; induction a; simpl; [lra|]. pose proof (Rabs_pos a). lra. Qed.

Lemma dot_lipschitz a x y d : length x = length y ->
  (forall i u v, nth_error x i = Some u -> nth_error y i = Some v -> Rabs (u - v) <= d) -> 0 <= d ->
  Rabs (dot a x - dot a y) <= l1 a * d.
Proof.
  revert x y; induction a as [|c a IH]; intros x y HL Hd H0; simpl.
  - unfold l1; simpl. rewrite Rminus_0_r, Rabs_R0. lra.
  - destruct x as [|u x], y as [|v y]; simpl in HL; try discriminate.
    + rewrite Rminus_0_r, Rabs_R0. pose proof (l1_nonneg (c :: a)). nra.
    + replace (c * u + dot a x - (c * v + dot a y)) with (c * (u - v) + (dot a x - dot a y)) by ring.
      eapply Rle_trans; [apply Rabs_triang|]. rewrite Rabs_mult.
      pose proof (Hd 0%nat u v eq_refl eq_refl) as H1.
      pose proof (IH x y ltac:(lia) (fun i => Hd (S i)) H0) as H2.
      unfold l1 in *; simpl. pose proof (Rabs_pos c). nra.
Qed.

Lemma dot_affine a x y t : length x = length y ->
  dot a (map (fun p => t * fst p + (1 - t) * snd p) (combine x y)) = t * dot a x + (1 - t) * dot a y.
Proof.
  revert x y; induction a as [|c a IH]; intros x y HL; simpl; [ring|].
  destruct x as [|u x], y as [|v y]; simpl in HL; try discriminate; simpl; [ring|].
  rewrite IH by lia. ring.
Qed.

Lemma completes_values vs vs' x :
  Forall2 untouched_if_locked vs vs' -> map v_value (free_vars vs') = map Some x ->
  completes vs x (map v_value vs').
Proof.
  intros F; revert x; induction F as [|v v' l l' [S U] F IH]; intros x M.
  - destruct x; [|discriminate]. repeat split; auto. intros [|i] w E; discriminate.
  - assert (E : v_locked v' = v_locked v) by (destruct S as (_ & _ & _ & E & _); auto).
    unfold free_vars in *; simpl in M. rewrite E in M. destruct (v_locked v) eqn:L; simpl in M.
    + destruct (IH x M) as (A & B & C). repeat split.
      * simpl; auto.
      * intros [|i] w N LW; simpl in *; [injection N as <-; rewrite U; auto|eauto].
      * simpl. rewrite ?L; simpl. exact C.
    + destruct x as [|y x]; [discriminate|]. simpl in M; injection M as M0 M.
      destruct (IH x M) as (A & B & C). repeat split.
      * simpl; auto.
      * intros [|i] w N LW; simpl in *; [congruence|eauto].
      * simpl. rewrite ?L; simpl. congruence.
Qed.

Lemma all_some_map_inv l X : all_some l = Some X -> l = map Some X.
Proof.
  revert X; induction l as [|o l IH]; intros X E; simpl in E; [injection E as <-; auto|].
  destruct o as [w|]; [|discriminate]. destruct (all_some l) as [t|]; [injection E as <-|discriminate].
  simpl; f_equal; auto.
Qed.
Lemma all_some_map X : all_some (map Some X) = Some X.
Proof. induction X; simpl; auto. rewrite IHX; auto. Qed.


Lemma no_index_existsb vs : no_index vs -> existsb is_index vs = false.
Proof. intros F; induction F as [|v l H F IH]; simpl; auto. rewrite H, IH; auto. Qed.
Lemma no_index_untouched vs vs' : Forall2 untouched_if_locked vs vs' -> no_index vs -> no_index vs'.
Proof.
  intros F; induction F as [|v v' l l' [S U] F IH]; intros N; inversion N; subst; constructor; auto; [|apply IH; auto].
  destruct S as (K & _). unfold is_index in *. rewrite K; auto.
Qed.


Lemma stored_list_in_box fvs x :
  Forall (fun v => is_index v = false) fvs -> Forall2 (fun v y => v_lb v <= y <= v_ub v) fvs x ->
  stored_list fvs x = map Some x.
Proof.
  intros N F; induction F as [|v y l t H F IH]; simpl; auto. inversion N; subst.
  rewrite IH by auto. unfold stored. rewrite H2, clamp_id by auto. reflexivity.
Qed.

Lemma no_index_free vs : no_index vs -> Forall (fun v => is_index v = false) (free_vars vs).
Proof. intros N. unfold free_vars. apply Forall_forall. intros v Hv. apply filter_In in Hv. unfold no_index in N. rewrite Forall_forall in N. apply N; tauto. Qed.

(** The value of a linear constraint at an in-box point, with the exact vector
    if the stored point is not within X_TOL of it, and up to l1(a)*X_TOL otherwise. *)
Lemma completes_dist vs x y r1 r2 d :
  0 <= d ->
  completes vs x (map Some r1) -> completes vs y (map Some r2) ->
  (forall i u v, nth_error x i = Some u -> nth_error y i = Some v -> Rabs (u - v) <= d) ->
  length x = length y ->
  forall i u v, nth_error r1 i = Some u -> nth_error r2 i = Some v -> Rabs (u - v) <= d.
Proof.
  intros H0; revert x y r1 r2; induction vs as [|w vs IH]; intros x y r1 r2 (A1 & B1 & C1) (A2 & B2 & C2) Hd HL i u v N1 N2.
  - rewrite map_length in A1. destruct r1; [destruct i; discriminate|discriminate].
  - destruct r1 as [|a r1]; [destruct i; discriminate|]. destruct r2 as [|b r2]; [destruct i; discriminate|].
    rewrite map_length in A1, A2. simpl in *. destruct (v_locked w) eqn:L; simpl in *.
    + destruct i as [|i].
      * pose proof (B1 0%nat w eq_refl L) as E1; pose proof (B2 0%nat w eq_refl L) as E2. simpl in *.
        assert (u = v) by congruence. subst. rewrite Rminus_diag_eq, Rabs_R0; auto.
      * simpl in N1, N2. eapply (IH x y r1 r2); eauto.
        { split; [rewrite map_length; lia|split; [intros j q N LQ; exact (B1 (S j) q N LQ)|auto]]. }
        { split; [rewrite map_length; lia|split; [intros j q N LQ; exact (B2 (S j) q N LQ)|auto]]. }
    + destruct x as [|x0 x]; [discriminate|]. destruct y as [|y0 y]; [discriminate|].
      simpl in *. injection C1 as <- C1. injection C2 as <- C2. destruct i as [|i].
      * simpl in *. injection N1 as <-. injection N2 as <-. apply (Hd 0%nat); auto.
      * simpl in N1, N2. eapply (IH x y r1 r2); eauto.
        { split; [rewrite map_length; lia|split; [intros j q N LQ; exact (B1 (S j) q N LQ)|auto]]. }
        { split; [rewrite map_length; lia|split; [intros j q N LQ; exact (B2 (S j) q N LQ)|auto]]. }
        intros j; exact (Hd (S j)).
Qed.

Lemma all_values vs : free_have_values vs -> locks_have_values vs -> Forall (fun v => v_value v <> None) vs.
Proof.
  intros F L. apply Forall_forall. intros v Hv. destruct (v_locked v) eqn:E; [apply L; auto|].
  unfold free_have_values in F. rewrite Forall_forall in F. apply F. apply filter_In; split; auto. rewrite E; auto.
Qed.

Lemma lin_value_lemma a b vs x :
  Forall wf_var vs -> no_index vs -> free_have_values vs -> locks_have_values vs ->
  in_box vs x -> length a = length vs ->
  exists g vs' full, lin_call a b vs x = Some (g, vs') /\
    completes vs x (map Some full) /\
    Rabs (g - (dot a full - b)) <= l1 a * X_TOL /\
    (forall X, map v_value (free_vars vs) = map Some X -> X_TOL < norm_diff X x -> g = dot a full - b).
Proof.
  intros W NI FV LV BX HA.
  assert (HL : length x = length (free_vars vs)) by (symmetry; eapply Forall2_length; eauto).
  destruct (refill_completes_lemma vs x LV HL) as (r & _ & Cm & NS).
  destruct (all_some r) as [full|] eqn:EA; [|congruence]. apply all_some_map_inv in EA; subst r.
  assert (HX : 0 <= X_TOL) by (unfold X_TOL; lra).
  destruct (all_some_ok _ FV) as (X & EX).
  unfold lin_call, con_sync. rewrite EX. rewrite (all_some_len _ _ EX), map_length, <- HL, Nat.eqb_refl.
  destruct (Rlt_dec X_TOL (norm_diff X x)) as [G|G].
  - destruct (subst_vars_spec vs x W) as (vs' & E1 & F2 & M & _ & _). rewrite E1.
    assert (NI' := no_index_untouched _ _ F2 NI).
    rewrite stored_list_in_box in M; [|apply no_index_free; auto|exact BX].
    assert (Cm' := completes_values _ _ _ F2 M).
    assert (EV : map v_value vs' = map Some full) by (eapply completes_unique; eauto).
    unfold lin_values. rewrite (no_index_existsb _ NI'), EV, all_some_map.
    assert (length full = length vs). { destruct Cm as (LL & _). rewrite map_length in LL; auto. }
    rewrite HA, <- H, Nat.eqb_refl. exists (dot a full - b), vs', full; repeat split; auto; try apply Cm.
    replace (dot a full - b - (dot a full - b)) with 0 by ring. rewrite Rabs_R0. pose proof (l1_nonneg a); nra.
  - assert (EXv := all_some_map_inv _ _ EX). destruct (all_some_ok vs (all_values vs FV LV)) as (Y & EY).
    unfold lin_values. rewrite (no_index_existsb _ NI), EY.
    rewrite HA, (all_some_len _ _ EY), map_length, Nat.eqb_refl.
    exists (dot a Y - b), vs, full; repeat split; auto; try apply Cm.
    2:{ intros X' HX' HG. exfalso. rewrite EXv in HX'.
        assert (X = X') by (clear -HX'; revert X' HX'; induction X as [|u X IH]; intros [|u' X'] HX'; simpl in HX'; try discriminate; auto; injection HX' as -> HX'; f_equal; auto).
        subst X'. contradiction. }
    replace (dot a Y - b - (dot a full - b)) with (dot a Y - dot a full) by ring.
    assert (CY : completes vs X (map Some Y)).
    { rewrite <- (all_some_map_inv _ _ EY). apply completes_values.
      - apply Forall2_refl_gen; intros; split; auto using same_frame_refl.
      - apply all_some_map_inv; auto. }
    apply dot_lipschitz; auto.
    + destruct CY as (L1 & _), Cm as (L2 & _). rewrite map_length in *; lia.
    + eapply (completes_dist vs X x); eauto.
      * intros i u v Nu Nv. eapply Rle_trans; [eapply coord_le_norm; eauto|]. lra.
      * rewrite (all_some_len _ _ EX), map_length; auto.
Qed.

(** Outside the bounds the linear constraint is evaluated at the clamped point. *)
Lemma lin_out_of_box_refuted_lemma :
  exists a b vs x g vs',
    Forall wf_var vs /\ no_index vs /\ free_have_values vs /\ length x = length vs /\
    Forall (fun v => v_locked v = false) vs /\
    lin_call a b vs x = Some (g, vs') /\ 1 <= Rabs (g - (dot a x - b)).
Proof.
  exists [1], 0, [plainvar 0 1 (Some 0) false], [2], 1, [plainvar 0 1 (Some 1) false].
  split; [repeat constructor; unfold wf_var; simpl; lra|].
  split; [repeat constructor|]. split; [repeat constructor; simpl; congruence|]. split; [reflexivity|].
  split; [repeat constructor|]. split.
  - unfold lin_call, con_sync; simpl.
    destruct (Rlt_dec X_TOL (norm_diff [0] [2])) as [C|C].
    + unfold substitute; simpl. rewrite clamp_high by lra. cbn. f_equal. f_equal. ring.
    + exfalso; apply C. unfold norm_diff; simpl. replace ((0-2)*(0-2)+0) with (2*2) by ring.
      rewrite sqrt_square by lra. unfold X_TOL; lra.
  - simpl. replace (1 - (1 * 2 + 0 - 0)) with (-(1)) by ring. rewrite Rabs_Ropp, Rabs_R1. lra.
Qed.

(** A linear constraint in a problem with an index variable can never be evaluated. *)
Lemma lin_index_always_fails_lemma a b vs x :
  existsb is_index vs = true -> lin_call a b vs x = None.
Proof.
  intros H. unfold lin_call. destruct (con_sync vs x) as [vs'|] eqn:E; auto.
  assert (existsb is_index vs' = true).
  { destruct (con_sync_cases _ _ _ E) as [->|E1]; auto.
    clear -H E1. revert x vs' E1; induction vs as [|v vs IH]; intros x vs' E1; simpl in *; [discriminate|].
    apply orb_true_iff in H. destruct (v_locked v).
    - destruct (subst_vars x vs) eqn:E2; [injection E1 as <-|discriminate]. simpl. apply orb_true_iff. destruct H; [auto|right; eauto].
    - destruct x as [|y x]; [injection E1 as <-; simpl; apply orb_true_iff; auto|].
      destruct (substitute v _) eqn:E3; [|discriminate].
      destruct (subst_vars x vs) eqn:E2; [injection E1 as <-|discriminate]. simpl. apply orb_true_iff.
      destruct H; [left|right; eauto]. apply substitute_frame in E3. destruct E3 as (K & _). unfold is_index in *. rewrite K; auto. }
  unfold lin_values. rewrite H0. reflexivity.
Qed.

(** ---------- scaling (C83) ---------- *)

Lemma scaled_write_lemma v s x :
  0 < s -> v_scaling v = 1 -> v_locked v = false -> is_index v = false ->
  (v_target v = TSingle \/ v_target v = TListFun) ->
  (v_lb v <= x <= v_ub v <-> v_lb (scale v s) <= x / s <= v_ub (scale v s)) /\
  exists v', substitute (scale v s) (x / s) = Some v' /\ v_written v' = Some x.
Proof.
  intros Hs S1 L K T. split.
  - simpl. assert (I : 0 < / s) by (apply Rinv_0_lt_compat; auto). unfold Rdiv. split; intros [A B]; split; try (apply Rmult_le_compat_r; lra).
    + apply Rmult_le_reg_r with (/ s); auto.
    + apply Rmult_le_reg_r with (/ s); auto.
  - unfold substitute, is_index in *. unfold scale; simpl. destruct (v_kind v); try discriminate;
    (eexists; split; [reflexivity|]; unfold base_substitute, written_by; simpl; rewrite ?L; simpl;
     destruct T as [->| ->]; f_equal; field; lra).
Qed.

Lemma scaled_write_refuted_lemma :
  exists v s x v', 0 < s /\ v_scaling v = 1 /\ v_locked v = false /\ v_target v = TList /\
    substitute (scale v s) (x / s) = Some v' /\ v_written v' <> Some x.
Proof.
  exists (mkVar KCont 0 10 None false 1 TList None), 2, 4,
         (mkVar KCont (0/2) (10/2) (Some (4/2)) false 2 TList (Some (4/2))).
  repeat split; try lra. simpl. intros E; injection E; lra.
Qed.

Lemma scale_twice_refuted_lemma :
  exists v s1 s2 x v', 0 < s1 /\ 0 < s2 /\ v_scaling v = 1 /\ v_locked v = false /\ v_target v = TSingle /\
    substitute (scale (scale v s1) s2) (x / s1 / s2) = Some v' /\ v_written v' <> Some x.
Proof.
  exists (mkVar KCont 0 10 None false 1 TSingle None), 2, 2, 4,
         (mkVar KCont (0/2/2) (10/2/2) (Some (4/2/2)) false 2 TSingle (Some (4/2/2*2))).
  repeat split; try lra. simpl. intros E; injection E; lra.
Qed.

(** ---------- analysis cache (C84, C85) ---------- *)

Definition coherent (p : prob) : Prop :=
  forall l s, lookup_done (p_done p) l = Some (true, s) -> s = snap (p_vars p).

Lemma lookup_set d l k v : lookup_done (set_done d l v) k = if Nat.eqb l k then Some v else lookup_done d k.
Proof.
  induction d as [|[j w] d IH]; simpl.
  - destruct (Nat.eqb l k); auto.
  - destruct (Nat.eqb j l) eqn:E.
    + simpl. apply Nat.eqb_eq in E; subst j. destruct (Nat.eqb l k); auto.
    + simpl. destruct (Nat.eqb j k) eqn:E2.
      * apply Nat.eqb_eq in E2; subst j. rewrite Nat.eqb_sym in E. rewrite E; auto.
      * rewrite IH. auto.
Qed.

Lemma fea_coherent p l : coherent p -> coherent (fea p l).
Proof.
  intros H k s. unfold fea; simpl. rewrite lookup_set. destruct (Nat.eqb l k); [intros E; injection E; auto|apply H].
Qed.

Lemma ensure_coherent p l : coherent p -> coherent (ensure_fea p l).
Proof.
  intros H. unfold ensure_fea. destruct (lookup_done _ l) as [[[|] s]|]; auto using fea_coherent.
Qed.

Lemma ensure_vars p l : p_vars (ensure_fea p l) = p_vars p.
Proof. unfold ensure_fea. destruct (lookup_done _ l) as [[[|] s]|]; auto. Qed.

Lemma fold_ensure_vars lids p : p_vars (fold_left ensure_fea lids p) = p_vars p.
Proof. revert p; induction lids as [|l r IH]; intros p; simpl; auto. rewrite IH. apply ensure_vars. Qed.

Lemma fold_ensure_coherent lids p : coherent p -> coherent (fold_left ensure_fea lids p).
Proof. revert p; induction lids as [|l r IH]; intros p H; simpl; auto using ensure_coherent. Qed.

Lemma ensure_marks p l : coherent p -> lookup_done (p_done (ensure_fea p l)) l = Some (true, snap (p_vars p)).
Proof.
  intros H. unfold ensure_fea. destruct (lookup_done (p_done p) l) as [[[|] s]|] eqn:E.
  - rewrite E, (H _ _ E); auto.
  - unfold fea; simpl. rewrite lookup_set, Nat.eqb_refl; auto.
  - unfold fea; simpl. rewrite lookup_set, Nat.eqb_refl; auto.
Qed.

Lemma ensure_mono p l k : coherent p -> lookup_done (p_done p) k = Some (true, snap (p_vars p)) ->
  lookup_done (p_done (ensure_fea p l)) k = Some (true, snap (p_vars p)).
Proof.
  intros H E. unfold ensure_fea. destruct (lookup_done (p_done p) l) as [[[|] s]|] eqn:E1; auto;
  unfold fea; simpl; rewrite lookup_set; destruct (Nat.eqb l k); auto.
Qed.

Lemma fold_ensure_marks lids p : coherent p -> forall l, In l lids ->
  lookup_done (p_done (fold_left ensure_fea lids p)) l = Some (true, snap (p_vars p)).
Proof.
  revert p; induction lids as [|k r IH]; intros p H l Hl; simpl in *; [contradiction|].
  assert (KEEP : forall q, coherent q -> forall m, lookup_done (p_done q) m = Some (true, snap (p_vars q)) ->
            lookup_done (p_done (fold_left ensure_fea r q)) m = Some (true, snap (p_vars q))).
  { clear. induction r as [|k r IH]; intros q H m E; simpl; auto.
    rewrite <- (ensure_vars q k). apply IH; auto using ensure_coherent.
    rewrite ensure_vars. apply ensure_mono; auto. }
  destruct Hl as [<-|Hl].
  - rewrite <- (ensure_vars p k). apply KEEP; auto using ensure_coherent. rewrite ensure_vars. apply ensure_marks; auto.
  - rewrite <- (ensure_vars p k). apply IH; auto using ensure_coherent.
Qed.

Lemma lookup_cleared d l b s : lookup_done (map (fun e : nat * (bool * snapshot) => (fst e, (false, snd (snd e)))) d) l = Some (b, s) -> b = false.
Proof.
  induction d as [|[j w] d IH]; simpl; [discriminate|]. destruct (Nat.eqb j l); auto. intros E; injection E; auto.
Qed.

Lemma prob_substitute_coherent p xs p' : prob_substitute p xs = Some p' -> coherent p'.
Proof.
  unfold prob_substitute. destruct (subst_vars xs (p_vars p)); [|discriminate].
  intros E; injection E as <-. intros k s H; simpl in H. apply lookup_cleared in H. discriminate.
Qed.

Lemma con_call_fresh_step p x lids p' : coherent p -> con_call p x lids = Some p' ->
  coherent p' /\ forall l, In l lids -> lookup_done (p_done p') l = Some (true, snap (p_vars p')).
Proof.
  intros H. unfold con_call. destruct (all_some _) as [l|]; [|discriminate]. destruct (Nat.eqb _ _); [|discriminate].
  destruct (if Rlt_dec X_TOL (norm_diff l x) then prob_substitute p x else Some p) as [q|] eqn:E; [|discriminate].
  intros E1; injection E1 as <-.
  assert (Cq : coherent q).
  { destruct (Rlt_dec _ _); [eapply prob_substitute_coherent; eauto|injection E as <-; auto]. }
  split; [apply fold_ensure_coherent; auto|]. intros k Hk. rewrite fold_ensure_vars. apply fold_ensure_marks; auto.
Qed.

Lemma pstep_coherent p o p' : coherent p -> pstep p o = Some p' -> coherent p'.
Proof.
  intros H; destruct o as [xs|xs lids|b xs]; simpl; intros E.
  - eapply prob_substitute_coherent; eauto.
  - eapply con_call_fresh_step; eauto.
  - unfold obj_call in E. destruct (refill _ _); [|discriminate]. destruct (all_some _); [|discriminate].
    eapply prob_substitute_coherent; eauto.
Qed.

Lemma prun_coherent ops p p' : coherent p -> prun ops p = Some p' -> coherent p'.
Proof.
  revert p; induction ops as [|o ops IH]; intros p H E; simpl in E; [injection E as <-; auto|].
  destruct (pstep p o) as [q|] eqn:E1; [|discriminate]. eauto using pstep_coherent.
Qed.


Lemma constraint_analysis_fresh_lemma vs ops p x lids p' :
  prun ops (fresh_prob vs) = Some p -> con_call p x lids = Some p' ->
  forall l, In l lids -> lookup_done (p_done p') l = Some (true, snap (p_vars p')).
Proof.
  intros R C. assert (H : coherent p).
  { eapply prun_coherent; eauto. intros l s E; discriminate. }
  apply (con_call_fresh_step p x lids p' H C).
Qed.

(** Linearisation: fresh when the objective gradient is computed numerically ... *)
Lemma linearize_fresh_lemma p i xi lids p' :
  linearize_probe false p i xi lids = Some p' ->
  forall l, In l lids -> lookup_done (p_done p') l = Some (true, snap (p_vars p')).
Proof.
  unfold linearize_probe. destruct (update_at _ _ _) as [vs1|]; [|discriminate].
  destruct (all_some _) as [xh|]; [|discriminate].
  destruct (obj_call false (set_vars p vs1) xh) as [p2|] eqn:E; [|discriminate].
  intros C. eapply con_call_fresh_step; eauto.
  unfold obj_call in E. destruct (refill _ _); [|discriminate]. destruct (all_some _); [|discriminate].
  eapply prob_substitute_coherent; eauto.
Qed.

(** ... and stale when a gradient is supplied. *)
Lemma norm_diff_self X : norm_diff X X = 0.
Proof.
  unfold norm_diff. replace (sumsq_diff X X) with 0; [apply sqrt_0|].
  induction X as [|x X IH]; simpl; auto. rewrite <- IH. ring.
Qed.

Lemma linearize_stale_refuted_lemma :
  exists vs p0 p x xi p',
    Forall wf_var vs /\
    con_call p0 x [1%nat] = Some p /\ p0 = fresh_prob vs /\
    linearize_probe true p 0 xi [1%nat] = Some p' /\
    lookup_done (p_done p') 1 <> Some (true, snap (p_vars p')).
Proof.
  set (vs := [plainvar 0 10 (Some 5) false]).
  set (p := mkProb vs None None [(1%nat, (true, [Some 5]))]).
  set (p' := mkProb [plainvar 0 10 (Some 6) false] None None [(1%nat, (true, [Some 5]))]).
  exists vs, (fresh_prob vs), p, [5], 6, p'.
  split; [repeat constructor; unfold wf_var; simpl; lra|]. split.
  - unfold con_call, fresh_prob, vs; simpl. rewrite norm_diff_self.
    destruct (Rlt_dec X_TOL 0) as [C|C]; [unfold X_TOL in C; lra|]. reflexivity.
  - split; [reflexivity|]. split.
    + unfold linearize_probe, p, vs; simpl. unfold con_call; simpl. rewrite norm_diff_self.
      destruct (Rlt_dec X_TOL 0) as [C|C]; [unfold X_TOL in C; lra|]. reflexivity.
    + simpl. intros E; injection E; lra.
Qed.

(** The objective's own analysis request is honoured only once. *)
Lemma objective_stale_refuted_lemma :
  exists vs p0 p p',
    Forall wf_var vs /\ p0 = fresh_prob vs /\
    obj_call true p0 [5] = Some p /\ obj_call true p [6] = Some p' /\
    (forall l b s, lookup_done (p_done p') l = Some (b, s) -> s <> snap (p_vars p')).
Proof.
  set (vs := [plainvar 0 10 (Some 1) false]).
  exists vs, (fresh_prob vs),
    (mkProb [plainvar 0 10 (Some 5) false] (Some [5]) (Some [5]) [(0%nat, (false, [Some 1]))]),
    (mkProb [plainvar 0 10 (Some 6) false] (Some [6]) (Some [5]) [(0%nat, (false, [Some 1]))]).
  split; [repeat constructor; unfold wf_var; simpl; lra|]. split; [reflexivity|]. split; [|split].
  - unfold obj_call, prob_substitute; simpl. unfold substitute; simpl. rewrite clamp_id by lra. reflexivity.
  - unfold obj_call, prob_substitute; simpl. unfold substitute; simpl. rewrite clamp_id by lra.
    unfold Reqb. destruct (Req_EM_T 5 0); [lra|]. reflexivity.
  - intros l b s. simpl. destruct l; [|discriminate]. intros E; injection E as <- <-. intros E; injection E; lra.
Qed.

(** ---------- starting point x0 (C86) ---------- *)



Lemma np_any_nonzero X : np_any (Some X) = true <-> nonzero X.
Proof.
  unfold np_any, nonzero. rewrite existsb_exists. split; intros (x & I & H); exists x; split; auto.
  - apply negb_true_iff, Reqb_false in H; auto.
  - apply negb_true_iff, Reqb_false; auto.
Qed.

Lemma x0_step p xs p' : prob_substitute p xs = Some p' ->
  p_X p' = Some (clamped xs (free_vars (p_vars p))) /\
  p_x0 p' = (if np_any (p_X p) then p_x0 p else p_X p').
Proof.
  unfold prob_substitute. destruct (subst_vars xs (p_vars p)); [|discriminate]. intros E; injection E as <-. simpl.
  split; auto.
Qed.


Lemma x0_kept xss p q : p_X p <> None -> np_any (p_X p) = true ->
  Forall (fun X => np_any X = true) (trace xss p) -> run_psubsts xss p = Some q -> p_x0 q = p_x0 p.
Proof.
  revert p; induction xss as [|xs r IH]; intros p N A F E; simpl in *; [congruence|].
  destruct (prob_substitute p xs) as [p1|] eqn:E1; [|discriminate]. inversion F; subst.
  destruct (x0_step _ _ _ E1) as [HX H0]. rewrite A in H0. rewrite <- H0. apply IH; auto. rewrite HX; discriminate.
Qed.

Lemma x0_first_lemma xs xss vs q p1 :
  prob_substitute (fresh_prob vs) xs = Some p1 ->
  Forall (fun X => exists Y, X = Some Y /\ nonzero Y) (trace (xs :: xss) (fresh_prob vs)) ->
  run_psubsts (xs :: xss) (fresh_prob vs) = Some q ->
  p_x0 q = Some (clamped xs (free_vars vs)).
Proof.
  intros E F R. simpl in F, R. rewrite E in F, R. inversion F as [|? ? (Y & HY & NY) F']; subst.
  destruct (x0_step _ _ _ E) as [HX H0]. simpl in H0, HX.
  rewrite (x0_kept xss p1 q); auto.
  - congruence.
  - rewrite HX; discriminate.
  - rewrite HY. apply np_any_nonzero; auto.
  - revert F'. apply Forall_impl. intros X (Z & -> & NZ). apply np_any_nonzero; auto.
Qed.

Lemma x0_zero_start_refuted_lemma :
  exists vs p1 p2, Forall wf_var vs /\
    prob_substitute (fresh_prob vs) [0] = Some p1 /\ prob_substitute p1 [3] = Some p2 /\
    p_x0 p1 = Some [0] /\ p_x0 p2 = Some [3].
Proof.
  exists [plainvar 0 10 (Some 1) false],
    (mkProb [plainvar 0 10 (Some 0) false] (Some [0]) (Some [0]) []),
    (mkProb [plainvar 0 10 (Some 3) false] (Some [3]) (Some [3]) []).
  split; [repeat constructor; unfold wf_var; simpl; lra|]. split; [|split; [|split; reflexivity]].
  - unfold prob_substitute; simpl. unfold substitute; simpl. rewrite clamp_id by lra. reflexivity.
  - unfold prob_substitute; simpl. unfold substitute; simpl. rewrite clamp_id by lra.
    unfold Reqb. destruct (Req_EM_T 0 0); [|lra]. reflexivity.
Qed.
