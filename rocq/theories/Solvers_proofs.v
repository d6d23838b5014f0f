From Verif Require Import Solvers_spec.

(** ---- steps ---- *)
Lemma vadd_length : forall x a y, vadd x a = Some y -> length y = length x.
Proof.
  induction x as [|xi x IH]; intros [|ai a] y H; simpl in H; try discriminate; [injection H as <-; auto|].
  destruct (vadd x a) eqn:E; [|discriminate]. injection H as <-. simpl. f_equal; eauto.
Qed.
Lemma vadd_total : forall x a, length a = length x -> exists y, vadd x a = Some y.
Proof.
  induction x as [|xi x IH]; intros [|ai a] H; simpl in *; try discriminate; eauto.
  destruct (IH a) as [y ->]; eauto.
Qed.
Lemma clip_in l u x : l <= u -> l <= np_clip l u x <= u.
Proof. unfold np_clip; intros; rmx; lra. Qed.
Lemma clip_all_ok : forall x bounds, length x = length bounds -> ordered bounds ->
  exists y, clip_all bounds x = Some y /\ inside bounds y.
Proof.
  induction x as [|xi x IH]; intros [|[l u] b] H O; simpl in *; try discriminate; [exists []; split; auto; constructor|].
  inversion O as [|? ? O1 O2]; subst. destruct (IH b) as (y & -> & I); [lia|auto|].
  eexists; split; [reflexivity|]. constructor; auto. simpl in *. apply clip_in; auto.
Qed.
Lemma step_inside_lemma bounds x a : length x = length bounds -> length a = length bounds -> ordered bounds ->
  exists y, ostep bounds x a = Some y /\ inside bounds y.
Proof.
  intros H1 H2 O. unfold ostep. destruct (vadd_total x a) as [y E]; [congruence|]. rewrite E.
  apply clip_all_ok; auto. rewrite (vadd_length _ _ _ E); auto.
Qed.
(** a step that stays inside is taken unchanged *)
Lemma clip_id l u x : l <= x <= u -> np_clip l u x = x.
Proof. unfold np_clip; intros; rmx; lra. Qed.
Lemma step_exact_lemma bounds x a y : vadd x a = Some y -> inside bounds y -> ostep bounds x a = Some y.
Proof.
  intros H I. unfold ostep; rewrite H. clear H. induction I as [|[l u] yi b y B I IH]; simpl; auto.
  rewrite IH, clip_id; auto.
Qed.
Lemma step_nearest_lemma bounds x a y : vadd x a = Some y -> length y = length bounds -> ordered bounds ->
  exists z, ostep bounds x a = Some z /\
    forall w, inside bounds w -> Forall2 Rle (map Rabs (vsub y z)) (map Rabs (vsub y w)).
Proof.
  intros H L O. unfold ostep; rewrite H. clear H. revert y L; induction O as [|[l u] b B O IH]; intros [|yi y] L; simpl in *; try discriminate.
  - exists []; split; auto.
  - destruct (IH y) as (z & -> & N); [lia|]. eexists; split; [reflexivity|]. intros w I; inversion I as [|? wi ? w' I1 I2]; subst.
    simpl in *. constructor; auto. unfold np_clip; rmx; lra.
Qed.

Lemma is_feasible_ok tol gs : is_feasible tol gs = true <-> Forall (holds_within tol) gs.
Proof.
  induction gs as [|[[| |] g] gs IH]; simpl; [split; auto| | |].
  - destruct (Rltb tol g) eqn:E; [apply Rltb_true in E|apply Rltb_false in E].
    + split; [discriminate|]. intros F; inversion F as [|? ? A _]; subst; simpl in A; lra.
    + rewrite IH. split; intros F; [constructor; auto; simpl; lra|inversion F; auto].
  - destruct (Rltb g (- tol)) eqn:E; [apply Rltb_true in E|apply Rltb_false in E].
    + split; [discriminate|]. intros F; inversion F as [|? ? A _]; subst; simpl in A; lra.
    + rewrite IH. split; intros F; [constructor; auto; simpl; lra|inversion F; auto].
  - destruct (Rltb tol (Rabs g)) eqn:E; [apply Rltb_true in E|apply Rltb_false in E].
    + split; [discriminate|]. intros F; inversion F as [|? ? A _]; subst; simpl in A; rmx; lra.
    + rewrite IH. split; intros F; [constructor; auto; simpl; rmx; lra|inversion F; auto].
Qed.
Lemma op_feasible_ok P x : op_feasible P x = true <-> ok_at P x.
Proof.
  unfold op_feasible, ok_at. rewrite is_feasible_ok. rewrite Forall_map. reflexivity.
Qed.

(** ---- solve ---- *)
Definition best_inv (P : oprob) (s : ostate) : Prop :=
  match o_bestx s with
  | None => o_bestf s = None /\ forall x, In x (o_states s) -> ~ ok_at P x
  | Some b => o_bestf s = Some (op_f P b) /\ In b (o_states s) /\ ok_at P b /\
              forall x, In x (o_states s) -> ok_at P x -> op_f P b <= op_f P x
  end.
Definition run_inv (P : oprob) (x0 : list R) (s : ostate) : Prop :=
  best_inv P s /\ o_X s = last (o_states s) x0 /\ (length (o_X s) = length (op_bounds P)) /\
  Forall (inside (op_bounds P)) (o_states s).

Lemma last_app_one {A} (l : list A) a d : last (l ++ [a]) d = a.
Proof. induction l as [|b l IH]; auto. simpl. destruct (l ++ [a]) eqn:E; [destruct l; discriminate|auto]. Qed.

Lemma oloop_inv P act late x0 : ordered (op_bounds P) ->
  forall fuel k s s', run_inv P x0 s -> oloop P act late fuel k s = Some s' -> run_inv P x0 s'.
Proof.
  intros OB. induction fuel as [|fuel IH]; intros k s s' I H; simpl in H; [congruence|].
  destruct (late k); [congruence|].
  destruct (ostep (op_bounds P) (o_X s) (act k)) as [x|] eqn:E; [|discriminate].
  set (feas := op_feasible P x) in *. set (better := andb (lt_inf (op_f P x) (o_bestf s)) feas) in *.
  set (s1 := mkOs x (if better then Some (op_f P x) else o_bestf s) (if better then Some x else o_bestx s) (o_states s ++ [x])) in *.
  assert (I1 : run_inv P x0 s1).
  { destruct I as (B & L & N & F).
    assert (XI : length x = length (op_bounds P) /\ inside (op_bounds P) x).
    { unfold ostep in E. destruct (vadd (o_X s) (act k)) as [y|] eqn:EV; [|discriminate].
      pose proof (vadd_length _ _ _ EV) as LV. destruct (clip_all_ok y (op_bounds P)) as (z & Z1 & Z2); [lia|auto|].
      rewrite Z1 in E; injection E as ->. split; auto. symmetry; apply (Forall2_length _ _ _ Z2). }
    split; [|split; [|split]].
    - unfold best_inv, s1; simpl. unfold better. destruct feas eqn:EF.
      + apply op_feasible_ok in EF. rewrite Bool.andb_true_r. destruct (lt_inf (op_f P x) (o_bestf s)) eqn:EL.
        * repeat split; auto.
          { apply in_or_app; right; simpl; auto. }
          { intros y Hy Fy. apply in_app_or in Hy. destruct Hy as [Hy|[<-|[]]]; [|lra].
            unfold best_inv in B. destruct (o_bestx s) as [b|].
            - destruct B as (B1 & B2 & B3 & B4). rewrite B1 in EL. simpl in EL. apply Rltb_true in EL. specialize (B4 y Hy Fy). lra.
            - exfalso. apply (proj2 B y Hy Fy). }
        * unfold best_inv in B. destruct (o_bestx s) as [b|].
          { destruct B as (B1 & B2 & B3 & B4). rewrite B1 in EL. simpl in EL. apply Rltb_false in EL. repeat split; auto.
            - apply in_or_app; auto.
            - intros y Hy Fy. apply in_app_or in Hy. destruct Hy as [Hy|[<-|[]]]; auto. }
          { destruct B as [B1 B2]. rewrite B1 in EL; discriminate. }
      + rewrite Bool.andb_false_r. assert (NF : ~ ok_at P x) by (intros A; apply op_feasible_ok in A; unfold feas in EF; congruence).
        unfold best_inv in B. destruct (o_bestx s) as [b|].
        * destruct B as (B1 & B2 & B3 & B4). repeat split; auto.
          { apply in_or_app; auto. }
          { intros y Hy Fy. apply in_app_or in Hy. destruct Hy as [Hy|[<-|[]]]; auto. contradiction. }
        * destruct B as [B1 B2]. split; auto. intros y Hy. apply in_app_or in Hy. destruct Hy as [Hy|[<-|[]]]; auto.
    - unfold s1; simpl. rewrite last_app_one; auto.
    - apply XI.
    - unfold s1; simpl. apply Forall_app; split; auto. constructor; [apply XI|auto]. }
  destruct (andb feas _).
  - injection H as <-; auto.
  - eapply IH; eauto.
Qed.

Lemma solve_best_lemma P act late maxiter x0 bf bx states :
  ordered (op_bounds P) -> length x0 = length (op_bounds P) ->
  osolve P act late maxiter None None x0 = Some (bf, bx, states) ->
  Forall (inside (op_bounds P)) states /\
  bf = Some (op_f P bx) /\
  ((exists x, In x states /\ ok_at P x) ->
     In bx states /\ ok_at P bx /\ forall x, In x states -> ok_at P x -> op_f P bx <= op_f P x) /\
  ((forall x, In x states -> ~ ok_at P x) -> bx = last states x0).
Proof.
  intros OB L H. unfold osolve in H.
  destruct (oloop P act late maxiter 0 (mkOs x0 None None [])) as [s|] eqn:E; [|discriminate].
  apply (oloop_inv P act late x0 OB) in E.
  2:{ split; [|split; [|split]]; simpl; auto. split; auto. }
  destruct E as (B & X & N & F). unfold best_inv in B. destruct (o_bestx s) as [b|].
  - injection H as <- <- <-. destruct B as (B1 & B2 & B3 & B4). repeat split; auto.
    intros NF. exfalso. apply (NF b); auto.
  - injection H as <- <- <-. destruct B as (B1 & B2). repeat split; auto.
    + exfalso. destruct H as (x & H1 & H2). apply (B2 x); auto.
    + exfalso. destruct H as (x & H1 & H2). apply (B2 x); auto.
    + intros. exfalso. apply (B2 x); auto.
Qed.

Lemma solve_total_lemma P act late maxiter x0 : ordered (op_bounds P) -> length x0 = length (op_bounds P) ->
  (forall k, length (act k) = length (op_bounds P)) ->
  exists r, osolve P act late maxiter None None x0 = Some r.
Proof.
  intros OB L A. unfold osolve.
  assert (T : forall fuel k s, length (o_X s) = length (op_bounds P) -> exists s', oloop P act late fuel k s = Some s').
  { induction fuel as [|fuel IH]; intros k s Ls; simpl; eauto. destruct (late k); eauto.
    destruct (step_inside_lemma (op_bounds P) (o_X s) (act k)) as (y & E & I); auto. rewrite E.
    destruct (andb _ _); eauto. apply IH. simpl. symmetry. apply (Forall2_length _ _ _ I). }
  destruct (T maxiter 0%nat (mkOs x0 None None [])) as [s' E]; auto. rewrite E. destruct (o_bestx s'); eauto.
Qed.

(** the starting point is never considered *)
Definition stP : oprob := mkOp (fun x => nth 0 x 0) [] (1/10000) [(0, 10)].
Lemma start_ignored_refuted : exists P act maxiter x0 bf bx states,
  ordered (op_bounds P) /\ inside (op_bounds P) x0 /\ ok_at P x0 /\
  osolve P act (fun _ => false) maxiter None None x0 = Some (bf, bx, states) /\ op_f P x0 < op_f P bx.
Proof.
  exists stP, (fun _ => [1]), 1%nat, [0], (Some 1), [1], [[1]].
  assert (C : np_clip 0 10 (0 + 1) = 1) by (unfold np_clip; rmx; lra).
  split; [repeat constructor; simpl; lra|]. split; [repeat constructor; simpl; lra|]. split; [constructor|].
  split; [|simpl; lra].
  unfold osolve. cbn [oloop stP op_bounds ostep vadd clip_all o_X]. rewrite C.
  cbn [op_feasible op_cons is_feasible map op_f nth andb lt_inf o_bestf o_bestx o_states app].
  destruct (orb _ _); reflexivity.
Qed.

(** a used solver answers with its old best point *)
Lemma reuse_refuted : exists P act maxiter bf0 bx0 x0 bf bx states,
  ordered (op_bounds P) /\ inside (op_bounds P) x0 /\ (exists x, In x states /\ ok_at P x) /\
  osolve P act (fun _ => false) maxiter (Some bf0) (Some bx0) x0 = Some (bf, bx, states) /\
  ~ In bx states /\ ~ inside (op_bounds P) bx /\ bf <> Some (op_f P bx).
Proof.
  exists stP, (fun _ => [1]), 1%nat, (-5), [-6], [0], (Some (-5)), [-6], [[1]].
  assert (C : np_clip 0 10 (0 + 1) = 1) by (unfold np_clip; rmx; lra).
  split; [repeat constructor; simpl; lra|]. split; [repeat constructor; simpl; lra|].
  split; [exists [1]; split; [simpl; auto|constructor]|]. split; [|split; [|split]].
  - unfold osolve. cbn [oloop stP op_bounds ostep vadd clip_all o_X]. rewrite C.
    cbn [op_feasible op_cons is_feasible map op_f nth andb lt_inf o_bestf o_bestx o_states app].
    replace (Rltb (op_f stP [1]) (-5)) with false by (symmetry; apply Rltb_false; simpl; lra). destruct (op_feasible stP [1] && _)%bool; reflexivity.
  - intros [A|[]]. injection A; lra.
  - intros A; inversion A; subst; simpl in *; lra.
  - simpl. intros A; injection A; lra.
Qed.

(** ---- history ---- *)
Lemma nth_app_l {A} (l l' : list A) i d : (i < length l)%nat -> nth i (l ++ l') d = nth i l d.
Proof. apply app_nth1. Qed.
Definition hist_ok (s : hstate) (past : list (list R)) (x : list R) (pre : list nat) : Prop :=
  (h_cur s < length (h_heap s))%nat /\ nth (h_cur s) (h_heap s) [] = x /\
  h_xvals s = pre ++ [h_cur s] /\ Forall (fun i => (i < h_cur s)%nat) pre /\
  map (fun i => nth i (h_heap s) []) pre = past.

Lemma last_irrel {A} (l : list A) a d d' : last (a :: l) d = last (a :: l) d'.
Proof. revert a; induction l as [|b l IH]; intros a; auto. apply IH. Qed.

Lemma hrun_hist bounds : forall acts s past x pre, hist_ok s past x pre ->
  forall s', hrun bounds acts s = Some s' ->
  exists l, iterates bounds x acts = Some l /\ h_states s' = h_states s ++ l /\
    read_xvals s' = past ++ (match l with [] => [x] | _ => l ++ [last l x] end) .
Proof.
  induction acts as [|a acts IH]; intros s past x pre (C & X & XV & F & M) s' H; simpl in H.
  - injection H as <-. exists []; simpl. rewrite app_nil_r. repeat split; auto.
    unfold read_xvals. rewrite XV, map_app, M. simpl. rewrite X; auto.
  - unfold hstep in H. rewrite X in H. simpl. destruct (ostep bounds x a) as [y|] eqn:E; [|discriminate].
    cbv zeta in H. rewrite set_nth_length in H.
    set (s1 := mkHs _ _ _ _) in H.
    assert (K : hist_ok s1 (past ++ [y]) y (pre ++ [h_cur s])).
    { unfold hist_ok, s1; simpl. rewrite app_length, set_nth_length; simpl. repeat split.
      - lia.
      - rewrite app_nth2; rewrite set_nth_length; [|lia]. rewrite Nat.sub_diag; reflexivity.
      - rewrite XV. rewrite <- !app_assoc; reflexivity.
      - apply Forall_app; split; [|constructor; auto]. eapply Forall_impl; [|exact F]. simpl; intros; lia.
      - rewrite map_app. f_equal.
        + rewrite <- M. apply map_ext_in. intros i Hi. rewrite Forall_forall in F. specialize (F i Hi).
          rewrite app_nth1 by (rewrite set_nth_length; lia). rewrite nth_set_nth by auto.
          destruct (Nat.eqb_spec i (h_cur s)); [lia|auto].
        + simpl. f_equal. rewrite app_nth1 by (rewrite set_nth_length; lia). rewrite nth_set_nth by auto.
          rewrite Nat.eqb_refl; auto. }
    destruct (IH _ _ _ _ K _ H) as (l & I1 & I2 & I3). rewrite I1. exists (y :: l). split; auto. split.
    + rewrite I2. unfold s1; simpl. rewrite <- app_assoc. reflexivity.
    + rewrite I3. rewrite <- app_assoc. f_equal. simpl. f_equal. destruct l; auto.
      simpl app. f_equal. f_equal. f_equal. exact (last_irrel l0 l y x).
Qed.

Lemma hrun_cell0 bounds : forall acts s s', (0 < h_cur s)%nat -> (h_cur s < length (h_heap s))%nat ->
  hrun bounds acts s = Some s' -> nth 0 (h_heap s') [] = nth 0 (h_heap s) [].
Proof.
  induction acts as [|a acts IH]; intros s s' P L H; simpl in H; [injection H as <-; auto|].
  unfold hstep in H. destruct (ostep bounds _ a) as [y|]; [|discriminate]. cbv zeta in H.
  apply IH in H; simpl in *; rewrite ?app_length, ?set_nth_length in *; simpl in *; try lia.
  rewrite H. rewrite app_nth1 by (rewrite set_nth_length; lia). rewrite nth_set_nth by auto.
  destruct (Nat.eqb_spec 0 (h_cur s)); [lia|auto].
Qed.

Lemma history_lemma bounds arr x0 a acts s' :
  hrun bounds (a :: acts) (hinit arr x0) = Some s' ->
  exists x1 l, iterates bounds x0 (a :: acts) = Some (x1 :: l) /\
    h_states s' = x1 :: l /\
    read_xvals s' = x0 :: (match l with [] => [x1] | _ => l ++ [last l x1] end) /\
    nth 0 (h_heap s') [] = if arr then x1 else x0.
Proof.
  intros H. simpl in H. unfold hstep in H.
  replace (nth (h_cur (hinit arr x0)) (h_heap (hinit arr x0)) []) with x0 in H by (destruct arr; reflexivity).
  simpl. destruct (ostep bounds x0 a) as [y|] eqn:E; [|discriminate]. cbv zeta in H. rewrite set_nth_length in H.
  set (s1 := mkHs _ _ _ _) in H.
  assert (K : hist_ok s1 [x0] y [1%nat]).
  { unfold hist_ok, s1. destruct arr; simpl; repeat split; auto; repeat constructor. }
  destruct (hrun_hist bounds acts s1 _ _ _ K _ H) as (l & I1 & I2 & I3). rewrite I1. exists y, l.
  split; auto. split; [rewrite I2; unfold s1; destruct arr; reflexivity|]. split; [rewrite I3; reflexivity|].
  rewrite (hrun_cell0 bounds acts s1 s'); auto; unfold s1; destruct arr; simpl; auto; lia.
Qed.

Lemma history_refuted : exists bounds x0 acts s' l,
  hrun bounds acts (hinit true x0) = Some s' /\ iterates bounds x0 acts = Some l /\
  read_xvals s' <> x0 :: l /\ nth 0 (h_heap s') [] <> x0.
Proof.
  assert (C1 : np_clip 0 10 (0 + 1) = 1) by (unfold np_clip; rmx; lra).
  assert (C2 : np_clip 0 10 (1 + 1) = 2) by (unfold np_clip; rmx; lra).
  exists [(0, 10)], [0], [[1]; [1]]. eexists; exists [[1]; [2]]. split; [|split; [|split]].
  - cbn [hrun hstep hinit h_cur h_heap nth ostep vadd clip_all set_nth app length h_xvals h_states]. rewrite C1.
    cbn [nth ostep vadd clip_all set_nth app length h_xvals h_states h_cur h_heap]. rewrite C2. reflexivity.
  - cbn [iterates ostep vadd clip_all]. rewrite C1, C2. reflexivity.
  - cbn. intros A; injection A; lra.
  - cbn. intros A; injection A; lra.
Qed.

(** ---- SLP ---- *)
Lemma move_box_lemma ty ml mu lb ub v : lb <= v <= ub -> 0 <= ml -> 0 <= mu ->
  (ty = MRelative -> 0 <= v) ->
  lb <= fst (move_box ty ml mu lb ub v) /\ snd (move_box ty ml mu lb ub v) <= ub /\
  fst (move_box ty ml mu lb ub v) <= v <= snd (move_box ty ml mu lb ub v).
Proof.
  intros B M1 M2 T. unfold move_box; simpl.
  set (d := match ty with MRange => ub - lb | MRelative => v end).
  assert (0 <= d) by (unfold d; destruct ty; [lra|auto]).
  assert (0 <= ml * d) by (apply Rmult_le_pos; auto). assert (0 <= mu * d) by (apply Rmult_le_pos; auto).
  rmx; lra.
Qed.
Lemma move_box_refuted : exists ml mu lb ub v, lb <= v <= ub /\ 0 < ml /\ 0 < mu /\
  ~ (fst (move_box MRelative ml mu lb ub v) <= v).
Proof.
  exists (1/20), (1/20), (-10), 10, (-4). repeat split; try lra.
  intros A. unfold move_box in A; simpl in A. rmx; lra.
Qed.
Lemma shrink_lemma gamma m k : 0 < gamma < 1 -> 0 < m ->
  0 < shrink_n gamma k m <= m /\ shrink_n gamma (S k) m < shrink_n gamma k m /\
  shrink_n gamma k m = m * (1 - gamma) ^ k.
Proof.
  intros G M. assert (E : forall j, shrink_n gamma j m = m * (1 - gamma) ^ j).
  { induction j; simpl; [lra|]. unfold shrink. rewrite IHj. ring. }
  assert (P : forall j, 0 < (1 - gamma) ^ j <= 1).
  { induction j; simpl; [lra|]. split; [apply Rmult_lt_0_compat; lra|].
    assert ((1 - gamma) * (1 - gamma) ^ j <= 1 * 1) by (apply Rmult_le_compat; lra). lra. }
  repeat split; auto; rewrite ?E.
  - apply Rmult_lt_0_compat; [auto|apply P].
  - pose proof (P k). assert (m * (1 - gamma) ^ k <= m * 1) by (apply Rmult_le_compat_l; lra). lra.
  - simpl. pose proof (P k). assert (0 < m * (1 - gamma) ^ k) by (apply Rmult_lt_0_compat; lra).
    assert (0 < m * (1 - gamma) ^ k * gamma) by (apply Rmult_lt_0_compat; lra). lra.
Qed.

(** ---- PSO ---- *)
Definition gb_inv (seen : list part) (g : gbest) : Prop :=
  match g_scv g with
  | None => forall p, In p seen -> ~ pfeas p
  | Some s => exists b, In b seen /\ pfeas b /\ s = p_scv b /\ g_f g = Some (p_fv b) /\ g_x g = Some (p_x b) /\
                forall p, In p seen -> pfeas p -> p_fv b <= p_fv p
  end.
Lemma visit_inv seen g p : gb_inv seen g -> gb_inv (seen ++ [p]) (visit g p).
Proof.
  unfold gb_inv, visit, pfeas. intros I. destruct (g_scv g) as [s|] eqn:ES.
  - destruct I as (b & I1 & I2 & -> & I4 & I5 & I6). unfold pfeas in *. simpl above_tol.
    rewrite (proj2 (Rltb_false G_TOL (p_scv b))) by lra.
    rewrite I4. cbn [lt_inf]. destruct (Rleb (p_scv p) G_TOL) eqn:E1; [apply Rleb_true in E1|apply Rleb_false in E1].
    + destruct (Rltb (p_fv p) (p_fv b)) eqn:E2; simpl; [apply Rltb_true in E2|apply Rltb_false in E2].
      * exists p. repeat split; auto; [apply in_or_app; right; simpl; auto|].
        intros q Hq Fq. apply in_app_or in Hq. destruct Hq as [Hq|[<-|[]]]; [|lra]. specialize (I6 q Hq Fq). lra.
      * rewrite ES. exists b. repeat split; auto; [apply in_or_app; auto|].
        intros q Hq Fq. apply in_app_or in Hq. destruct Hq as [Hq|[<-|[]]]; auto.
    + simpl. rewrite ES. exists b. repeat split; auto; [apply in_or_app; auto|].
      intros q Hq Fq. apply in_app_or in Hq. destruct Hq as [Hq|[<-|[]]]; auto. lra.
  - simpl above_tol. cbv iota. destruct (Rleb (p_scv p) G_TOL) eqn:E1; [apply Rleb_true in E1|apply Rleb_false in E1].
    + simpl. exists p. repeat split; auto; [apply in_or_app; right; simpl; auto|].
      intros q Hq Fq. apply in_app_or in Hq. destruct Hq as [Hq|[<-|[]]]; [|lra]. exfalso. apply (I q Hq Fq).
    + rewrite ES. intros q Hq. apply in_app_or in Hq. destruct Hq as [Hq|[<-|[]]]; auto. lra.
Qed.
Lemma fold_visit_inv : forall swarm seen g, gb_inv seen g -> gb_inv (seen ++ swarm) (fold_left visit swarm g).
Proof.
  induction swarm as [|p r IH]; intros seen g I; simpl; [rewrite app_nil_r; auto|].
  replace (seen ++ p :: r) with ((seen ++ [p]) ++ r) by (rewrite <- app_assoc; auto). apply IH, visit_inv; auto.
Qed.
Lemma update_best_inv swarm seen g g' : gb_inv seen g -> update_best swarm g = Some g' -> gb_inv (seen ++ swarm) g'.
Proof.
  intros I H. unfold update_best in H. pose proof (fold_visit_inv swarm seen g I) as J.
  set (h := fold_left visit swarm g) in *. clearbody h. destruct (g_x h) eqn:EX.
  - injection H as <-; auto.
  - destruct (least_scv swarm); [|discriminate]. injection H as <-. unfold gb_inv in *; simpl.
    destruct (g_scv h); auto. destruct J as (b & _ & _ & _ & _ & J & _). congruence.
Qed.
Lemma pso_run_inv : forall gens seen g g', gb_inv seen g -> pso_run gens g = Some g' -> gb_inv (seen ++ concat gens) g'.
Proof.
  induction gens as [|s r IH]; intros seen g g' I H; simpl in *; [rewrite app_nil_r; congruence|].
  destruct (update_best s g) as [g1|] eqn:E; [|discriminate]. rewrite app_assoc. eapply IH; eauto. eapply update_best_inv; eauto.
Qed.
Lemma pso_best_lemma bf gens g : pso_run gens (g_new bf) = Some g ->
  ((exists p, In p (concat gens) /\ pfeas p) -> exists b, In b (concat gens) /\ pfeas b /\
     g_f g = Some (p_fv b) /\ g_scv g = Some (p_scv b) /\ g_x g = Some (p_x b) /\
     forall p, In p (concat gens) -> pfeas p -> p_fv b <= p_fv p) /\
  ((forall p, In p (concat gens) -> ~ pfeas p) -> g_scv g = None).
Proof.
  intros H. pose proof (pso_run_inv gens [] (g_new bf) g) as I. simpl in I. specialize (I ltac:(unfold gb_inv; simpl; auto) H).
  unfold gb_inv in I. destruct (g_scv g) as [s|] eqn:ES.
  - destruct I as (b & I1 & I2 & -> & I4 & I5 & I6). split.
    + intros _. exists b. repeat split; auto.
    + intros N. exfalso; apply (N b); auto.
  - split; [|auto]. intros (p & P1 & P2). exfalso; apply (I p); auto.
Qed.
Lemma pso_run_app g0 : forall gens more g g2, pso_run gens g0 = Some g -> pso_run (gens ++ more) g0 = Some g2 -> pso_run more g = Some g2.
Proof.
  intros gens; revert g0; induction gens as [|s r IH]; intros g0 more g g2 H1 H2; simpl in *; [congruence|].
  destruct (update_best s g0); [|discriminate]. eauto.
Qed.
Lemma pso_monotone_lemma bf gens more g g2 f : pso_run gens (g_new bf) = Some g ->
  pso_run (gens ++ more) (g_new bf) = Some g2 -> (exists s, g_scv g = Some s /\ s <= G_TOL) -> g_f g = Some f ->
  exists f2 s2, g_f g2 = Some f2 /\ g_scv g2 = Some s2 /\ s2 <= G_TOL /\ f2 <= f.
Proof.
  intros H1 H2 (s & S1 & S2) F.
  pose proof (pso_run_inv gens [] (g_new bf) g ltac:(unfold gb_inv; simpl; auto) H1) as I1.
  pose proof (pso_run_inv (gens ++ more) [] (g_new bf) g2 ltac:(unfold gb_inv; simpl; auto) H2) as I2. simpl in *.
  unfold gb_inv in I1. rewrite S1 in I1. destruct I1 as (b & B1 & B2 & -> & B4 & B5 & B6).
  unfold gb_inv in I2. rewrite concat_app in I2. destruct (g_scv g2) as [s2|] eqn:E2.
  - destruct I2 as (c & C1 & C2 & -> & C4 & C5 & C6). exists (p_fv c), (p_scv c). repeat split; auto.
    assert (p_fv c <= p_fv b) by (apply C6; auto; apply in_or_app; auto). rewrite F in B4; injection B4 as ->; auto.
  - exfalso. apply (I2 b); auto. apply in_or_app; auto.
Qed.

(** personal best *)
Definition own_inv (seen : list part) (g : gbest) : Prop :=
  match g_scv g with
  | None => seen = []
  | Some s => exists b, In b seen /\ s = p_scv b /\ g_f g = Some (p_fv b) /\ g_x g = Some (p_x b) /\
      (pfeas b -> forall p, In p seen -> pfeas p -> p_fv b <= p_fv p) /\
      (~ pfeas b -> forall p, In p seen -> p_scv b <= p_scv p)
  end.
Ltac inap H := apply in_app_or in H; destruct H as [H|[<-|[]]].
Lemma visit_own_inv seen g p : own_inv seen g -> own_inv (seen ++ [p]) (visit_own g p).
Proof.
  unfold own_inv, visit_own. intros I. destruct (g_scv g) as [s|] eqn:ES; simpl above_tol; cbv iota zeta.
  - destruct I as (b & I1 & -> & I3 & I4 & I5 & I6). unfold pfeas in *.
    assert (IP : In p (seen ++ [p])) by (apply in_or_app; right; simpl; auto).
    assert (IB : In b (seen ++ [p])) by (apply in_or_app; auto).
    destruct (Rltb G_TOL (p_scv b)) eqn:E0; [apply Rltb_true in E0|apply Rltb_false in E0].
    + assert (I6' := I6 ltac:(lra)).
      destruct (Rleb (p_scv p) (p_scv b)) eqn:E1; [apply Rleb_true in E1|apply Rleb_false in E1]; simpl.
      * exists p. repeat split; auto.
        { intros _ q Hq Fq; inap Hq; [specialize (I6' q Hq)|]; lra. }
        { intros _ q Hq; inap Hq; [specialize (I6' q Hq)|]; lra. }
      * rewrite ES. exists b. repeat split; auto.
        { intros. exfalso; lra. }
        { intros _ q Hq; inap Hq; [specialize (I6' q Hq)|]; lra. }
    + assert (I5' := I5 ltac:(lra)). rewrite I3.
      destruct (Rleb (p_scv p) G_TOL) eqn:E1; [apply Rleb_true in E1|apply Rleb_false in E1]; cbn [andb].
      * destruct (Rleb (p_fv p) (p_fv b)) eqn:E2; [apply Rleb_true in E2|apply Rleb_false in E2]; simpl.
        { exists p. repeat split; auto.
          - intros _ q Hq Fq; inap Hq; [specialize (I5' q Hq Fq)|]; lra.
          - intros; exfalso; lra. }
        { rewrite ES. exists b. repeat split; auto.
          - intros _ q Hq Fq; inap Hq; [specialize (I5' q Hq Fq)|]; lra.
          - intros; exfalso; lra. }
      * rewrite ES. exists b. repeat split; auto.
        { intros _ q Hq Fq; inap Hq; [specialize (I5' q Hq Fq)|]; lra. }
        { intros; exfalso; lra. }
  - subst seen. simpl. exists p. repeat split; auto.
    + intros _ q [<-|[]] _; lra.
    + intros _ q [<-|[]]; lra.
Qed.
Lemma own_best_lemma evals : evals <> [] -> exists b,
  In b evals /\ fold_left visit_own evals (mkG None None None) = mkG (Some (p_fv b)) (Some (p_scv b)) (Some (p_x b)) /\
  (pfeas b -> forall p, In p evals -> pfeas p -> p_fv b <= p_fv p) /\
  (~ pfeas b -> forall p, In p evals -> p_scv b <= p_scv p).
Proof.
  intros NE.
  assert (K : forall l seen g, own_inv seen g -> own_inv (seen ++ l) (fold_left visit_own l g)).
  { induction l as [|p r IH]; intros seen g I; simpl; [rewrite app_nil_r; auto|].
    replace (seen ++ p :: r) with ((seen ++ [p]) ++ r) by (rewrite <- app_assoc; auto). apply IH, visit_own_inv; auto. }
  specialize (K evals [] (mkG None None None) eq_refl). simpl in K.
  destruct (fold_left visit_own evals (mkG None None None)) as [f s x]. unfold own_inv in K; simpl in K.
  destruct s as [s|]; [|congruence]. destruct K as (b & K1 & -> & -> & -> & K5 & K6). exists b; auto.
Qed.

(** no feasible particle: the point of the first generation is kept *)
Lemma pso_infeasible_refuted : exists gens g x,
  pso_run gens (g_new None) = Some g /\ g_x g = Some x /\
  exists p q, In p (concat gens) /\ In q (concat gens) /\ p_x p = x /\ p_x q <> x /\ p_scv q < p_scv p /\
  (forall r, In r (concat gens) -> ~ pfeas r).
Proof.
  exists [[mkPart [0] 0 2]; [mkPart [1] 0 1]], (mkG None None (Some [0])), [0].
  assert (G : 0 < G_TOL < 1) by (unfold G_TOL; lra).
  split; [|split; [reflexivity|]].
  - unfold pso_run, update_best, visit, g_new, fold_left.
    replace (Rleb (p_scv (mkPart [0] 0 2)) G_TOL) with false by (symmetry; apply Rleb_false; simpl; lra).
    cbn [g_x g_scv g_f above_tol least_scv p_x].
    replace (Rleb (p_scv (mkPart [1] 0 1)) G_TOL) with false by (symmetry; apply Rleb_false; simpl; lra).
    reflexivity.
  - exists (mkPart [0] 0 2), (mkPart [1] 0 1). simpl. repeat split; auto; try lra.
    + intros A; injection A; lra.
    + intros r [<-|[<-|[]]]; unfold pfeas; simpl; lra.
Qed.

(** a violated '>' constraint counts as feasible *)
Lemma pso_gt_refuted : exists gs vs, 
  exact_penalty 1 gs vs <= G_TOL /\ ~ Forall (holds_within (1/10000)) gs /\ Forall bounds_hold vs.
Proof.
  exists [(CGt, -5)], [(1, 0, 10)]. split; [|split].
  - unfold exact_penalty, exact_con, exact_var, XLB, XUB, G_TOL. simpl. rdec; rmx; lra.
  - intros F; inversion F as [|? ? A _]; subst; simpl in A; lra.
  - repeat constructor; lra.
Qed.

Lemma min_by_ok key l v : min_by key l = Some v -> In v l /\ forall w, In w l -> key v <= key w.
Proof.
  revert v; induction l as [|a l IH]; intros v H; simpl in H; [discriminate|].
  destruct (min_by key l) as [w|] eqn:E.
  - destruct (IH w eq_refl) as [I1 I2]. destruct (Rleb (key a) (key w)) eqn:EL; injection H as <-;
      [apply Rleb_true in EL|apply Rleb_false in EL].
    + split; [simpl; auto|]. intros u [<-|Hu]; [lra|]. specialize (I2 u Hu). lra.
    + split; [simpl; auto|]. intros u [<-|Hu]; [lra|]. auto.
  - injection H as <-. destruct l; [|simpl in E; destruct (min_by key l); [destruct (Rleb _ _)|]; discriminate].
    split; [simpl; auto|]. intros u [<-|[]]; lra.
Qed.
Lemma min_by_total key l : l <> [] -> exists v, min_by key l = Some v.
Proof. destruct l as [|a l]; [congruence|]. intros _. simpl. destruct (min_by key l); [destruct (Rleb _ _)|]; eauto. Qed.

Lemma pso_move_lemma : forall x v bounds, length x = length bounds -> length v = length bounds -> ordered bounds ->
  exists y, pso_move None x v bounds = Some y /\ inside bounds y.
Proof.
  induction x as [|xi x IH]; intros [|vi v] [|[l u] b] H1 H2 O; simpl in *; try discriminate; [exists []; split; auto; constructor|].
  inversion O; subst. destruct (IH v b) as (y & -> & I); auto. eexists; split; [reflexivity|]. constructor; auto.
  simpl in *. unfold pso_coord; rmx; lra.
Qed.
Lemma pso_move_disc_lemma vals : vals <> [] -> forall x v bounds, length x = length bounds -> length v = length bounds -> ordered bounds ->
  Forall (fun b => Forall (fun w => fst b <= w <= snd b) vals) bounds ->
  exists y c, pso_move None x v bounds = Some c /\ pso_move (Some vals) x v bounds = Some y /\
    inside bounds y /\ Forall2 (fun ci yi => nearest_value vals ci yi) c y.
Proof.
  intros NE. induction x as [|xi x IH]; intros [|vi v] [|[l u] b] H1 H2 O W; simpl in *; try discriminate.
  - exists [], []; repeat split; constructor.
  - inversion O; subst. inversion W as [|? ? W1 W2]; subst. destruct (IH v b) as (y & c & -> & -> & I1 & I2); auto.
    destruct (min_by_total (fun w => Rabs (w - pso_coord xi vi l u)) vals NE) as [m E]. rewrite E.
    apply min_by_ok in E. destruct E as [E1 E2].
    do 2 eexists; split; [reflexivity|]. split; [reflexivity|]. split; constructor; auto.
    + simpl in *. rewrite Forall_forall in W1. auto.
    + split; auto.
Qed.
Lemma pso_move_refuted : exists vals1 vals2 x v y,
  pso_move (Some vals1) x v [(1, 2); (10, 20)] = Some y /\
  In 1 vals1 /\ In 2 vals1 /\ In 10 vals2 /\ In 20 vals2 /\ Forall (fun w => 10 <= w <= 20) vals2 /\
  ~ In (nth 1 y 0) vals2 /\ ~ (10 <= nth 1 y 0 <= 20).
Proof.
  exists [1; 2], [10; 20], [1; 10], [0; 0], [1; 2]. repeat split; try (simpl; tauto); try (repeat constructor; lra).
  - cbn [pso_move]. 
    assert (pso_coord 1 0 1 2 = 1) as -> by (unfold pso_coord; rmx; lra).
    assert (pso_coord 10 0 10 20 = 10) as -> by (unfold pso_coord; rmx; lra).
    cbn [min_by]. 
    rewrite (proj2 (Rleb_true (Rabs (1 - 1)) (Rabs (2 - 1)))) by (rmx; lra).
    rewrite (proj2 (Rleb_false (Rabs (1 - 10)) (Rabs (2 - 10)))) by (rmx; lra). reflexivity.
  - simpl. intros [A|[A|[]]]; lra.
  - simpl. lra.
Qed.
Lemma pso_velocity_lemma w c1 c2 v x own glob vmin vmax : vmin <= vmax ->
  vmin <= pso_velocity w c1 c2 v x own glob vmin vmax <= vmax.
Proof. intros. unfold pso_velocity; rmx; lra. Qed.
Lemma pso_crazy_lemma r vmin vmax : vmin <= vmax -> 0 <= r < 1 -> vmin <= pso_crazy r vmin vmax <= vmax.
Proof.
  intros H [R1 R2]. unfold pso_crazy. assert (0 <= (vmax - vmin) * r) by (apply Rmult_le_pos; lra).
  assert ((vmax - vmin) * r <= (vmax - vmin) * 1) by (apply Rmult_le_compat_l; lra). lra.
Qed.
