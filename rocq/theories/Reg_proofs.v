Require Import List Bool PeanoNat Lia.
Import ListNotations.
From Verif Require Import Reg_model Reg_spec.

Lemma mem_in x l : mem x l = true <-> In x l.
Proof. unfold mem. rewrite existsb_exists. split. intros (y&I&E). apply Nat.eqb_eq in E. now subst. intros I. exists x. split; auto. apply Nat.eqb_refl. Qed.
Lemma mem_out x l : mem x l = false <-> ~ In x l.
Proof. rewrite <- mem_in. destruct (mem x l); split; congruence. Qed.
Lemma NoDup_snoc x (l : list nat) : NoDup l -> ~ In x l -> NoDup (l ++ [x]).
Proof. intros N I. apply NoDup_rev in N. rewrite <- (rev_involutive (l ++ [x])). apply NoDup_rev. rewrite rev_app_distr. simpl. constructor; auto. now rewrite <- in_rev. Qed.
Lemma add_var_vars v p : p_vars (add_var v p) = if mem v (p_vars p) then p_vars p else p_vars p ++ [v].
Proof. unfold add_var. now destruct (mem v (p_vars p)). Qed.
Lemma add_var_rest v p : p_cons (add_var v p) = p_cons p /\ p_locked (add_var v p) = p_locked p /\ p_own (add_var v p) = p_own p.
Proof. unfold add_var. now destruct (mem v (p_vars p)). Qed.
Lemma fold_rest l : forall p, let q := fold_left (fun q v => add_var v q) l p in p_cons q = p_cons p /\ p_locked q = p_locked p /\ p_own q = p_own p.
Proof. induction l; simpl; auto. intros p. destruct (IHl (add_var a p)) as (->&->&->). apply add_var_rest. Qed.
Lemma fold_firsts l : forall p, exists r, firsts (p_vars p) l r /\ p_vars (fold_left (fun q v => add_var v q) l p) = p_vars p ++ r.
Proof.
  induction l; simpl; intros p. exists []. split. constructor. now rewrite app_nil_r.
  destruct (IHl (add_var a p)) as (r&F&E). rewrite add_var_vars in F, E. destruct (mem a (p_vars p)) eqn:M.
  - exists r. split; auto. constructor 3; auto. now apply mem_in.
  - exists (a :: r). split. constructor; auto. now apply mem_out. rewrite E, <- app_assoc. reflexivity.
Qed.
Lemma fold_nodup l : forall p, NoDup (p_vars p) -> NoDup (p_vars (fold_left (fun q v => add_var v q) l p)).
Proof.
  induction l; simpl; auto. intros p N. apply IHl. rewrite add_var_vars. destruct (mem a (p_vars p)) eqn:M; auto. apply NoDup_snoc; auto. now apply mem_out.
Qed.
Lemma remove_first_spec v l : match remove_first v l with
  | Some r => exists a b, l = a ++ v :: b /\ r = a ++ b /\ ~ In v a
  | None => ~ In v l end.
Proof.
  induction l; simpl; auto. destruct (Nat.eqb a v) eqn:E.
  - apply Nat.eqb_eq in E. subst. exists [], l. auto.
  - apply Nat.eqb_neq in E. destruct (remove_first v l). destruct IHl as (x&y&->&->&N). exists (a :: x), y. repeat split. simpl. intuition. intuition.
Qed.
Lemma exec_nodup p o q : NoDup (p_vars p) -> exec p o = Some q -> NoDup (p_vars q).
Proof.
  intros N E. destruct o; simpl in E; try discriminate; try (injection E as <-; simpl; auto; fail); try (injection E as <-; clear -N; simpl; induction l; simpl; auto; fail).
  - injection E as <-. rewrite add_var_vars. destruct (mem v (p_vars p)) eqn:M; auto. apply NoDup_snoc; auto. now apply mem_out.
  - injection E as <-. unfold add_con. destruct (mem c (p_cons p)); auto.
  - injection E as <-. unfold set_vars. apply fold_nodup. simpl. constructor.
  - injection E as <-. simpl. constructor.
  - pose proof (remove_first_spec v (p_vars p)) as R. destruct (remove_first v (p_vars p)); try discriminate. injection E as <-. simpl.
    destruct R as (a&b&L&->&_). rewrite L in N. now apply NoDup_remove_1 in N.
Qed.
Lemma reg_nodup_lemma : forall vs cs lk os q, exec_all (new_prob vs cs lk) os = Some q -> NoDup (p_vars q).
Proof.
  intros vs cs lk os q. assert (N : NoDup (p_vars (new_prob vs cs lk))) by (apply fold_nodup; constructor). revert N. generalize (new_prob vs cs lk).
  induction os; simpl; intros p N E. congruence. destruct (exec p a) eqn:X; try discriminate. eapply IHos; [|exact E]. eapply exec_nodup; eauto.
Qed.
Lemma reg_new_lemma : forall vs cs lk, firsts [] vs (p_vars (new_prob vs cs lk)) /\ p_cons (new_prob vs cs lk) = cs.
Proof.
  intros. unfold new_prob. destruct (fold_firsts vs (mkPr [] cs lk (fun _ => false))) as (r&F&E). rewrite E. split; auto. apply (fold_rest vs (mkPr [] cs lk (fun _ => false))).
Qed.
Lemma reg_add_lemma : forall v p, (forall w, In w (p_vars (add_var v p)) <-> In w (p_vars p) \/ w = v) /\ (exists t, p_vars (add_var v p) = p_vars p ++ t) /\ add_var v (add_var v p) = add_var v p.
Proof.
  intros v p. assert (I : In v (p_vars (add_var v p))). { rewrite add_var_vars. destruct (mem v (p_vars p)) eqn:M. now apply mem_in. apply in_or_app. simpl. auto. }
  split; [|split].
  - intros w. rewrite add_var_vars in *. destruct (mem v (p_vars p)) eqn:M. intuition. now subst. rewrite in_app_iff. simpl. intuition.
  - rewrite add_var_vars. destruct (mem v (p_vars p)). exists []. now rewrite app_nil_r. now exists [v].
  - unfold add_var at 1. now rewrite (proj2 (mem_in _ _) I).
Qed.
Lemma reg_split_lemma : forall p v, (In v (p_vars p) <-> In v (free_vars p) \/ In v (locked_vars p)) /\ ~ (In v (free_vars p) /\ In v (locked_vars p)) /\
  length (free_vars p) + length (locked_vars p) = length (p_vars p).
Proof.
  intros p v. unfold free_vars, locked_vars. rewrite !filter_In. split; [|split].
  - destruct (p_locked p v); intuition.
  - destruct (p_locked p v); simpl; intuition; discriminate.
  - induction (p_vars p); simpl; auto. destruct (p_locked p a); simpl; lia.
Qed.
Lemma reg_lock_lemma : forall p v q, exec p (OLock v true) = Some q -> p_vars q = p_vars p /\ (forall w, In w (free_vars q) <-> In w (free_vars p) /\ w <> v) /\
  forall q', exec q (OLock v false) = Some q' -> forall w, In w (free_vars q') <-> In w (free_vars p) \/ w = v /\ In v (p_vars p).
Proof.
  intros p v q E. injection E as <-. split; auto. split.
  - intros w. unfold free_vars. cbn [p_vars p_locked]. rewrite !filter_In. destruct (Nat.eqb w v) eqn:X; [apply Nat.eqb_eq in X|apply Nat.eqb_neq in X]; simpl; intuition; try discriminate; try congruence.
  - intros q' E. injection E as <-. intros w. unfold free_vars. cbn [p_vars p_locked]. rewrite !filter_In. destruct (Nat.eqb w v) eqn:X; [apply Nat.eqb_eq in X; subst|apply Nat.eqb_neq in X]; simpl; repeat match goal with |- context [p_locked p ?x] => destruct (p_locked p x) end; simpl; intuition; try congruence.
Qed.
Lemma reg_set_lemma : forall l p, firsts [] l (p_vars (set_vars (SList l) p)) /\ p_cons (set_vars (SList l) p) = p_cons p.
Proof. intros l p. unfold set_vars; cbv zeta; cbn [contents]. destruct (fold_firsts l (clear_vars p)) as (r&F&E). rewrite E. split; auto. apply (fold_rest l (clear_vars p)). Qed.
Lemma fold_nodup_eq l : forall p, NoDup l -> (forall x, In x l -> ~ In x (p_vars p)) -> p_vars (fold_left (fun q v => add_var v q) l p) = p_vars p ++ l.
Proof.
  induction l; simpl; intros p N D. now rewrite app_nil_r. inversion N; subst. rewrite IHl; auto.
  - rewrite add_var_vars, (proj2 (mem_out _ _)) by (apply D; auto). now rewrite <- app_assoc.
  - intros x I. rewrite add_var_vars, (proj2 (mem_out _ _)) by (apply D; auto). rewrite in_app_iff. simpl. intros [J|[->|[]]]; [apply (D x); auto|auto].
Qed.
Lemma reg_self_free_lemma : forall p, NoDup (p_vars p) -> p_vars (set_vars SFree p) = free_vars p.
Proof. intros p N. unfold set_vars; cbv zeta; cbn [contents get_vars]. rewrite fold_nodup_eq; auto. unfold free_vars. now apply NoDup_filter. Qed.
Lemma reg_self_all_lemma : forall p, p_vars (set_vars SAll p) = [].
Proof. reflexivity. Qed.
Lemma reg_del_lemma : forall p v, NoDup (p_vars p) -> match exec p (ODel v) with
  | Some q => In v (p_vars p) /\ exists a b, p_vars p = a ++ v :: b /\ p_vars q = a ++ b /\ ~ In v (p_vars q)
  | None => ~ In v (p_vars p) end.
Proof.
  intros p v N. simpl. pose proof (remove_first_spec v (p_vars p)) as R. destruct (remove_first v (p_vars p)); auto.
  destruct R as (a&b&L&->&Na). split. rewrite L. apply in_elt. exists a, b. simpl. repeat split; auto. rewrite L in N. now apply NoDup_remove_2 in N.
Qed.
Lemma exec_owned p o q : by_add o -> Forall (fun c => p_own p c = true) (p_cons p) /\ NoDup (p_cons p) -> exec p o = Some q -> Forall (fun c => p_own q c = true) (p_cons q) /\ NoDup (p_cons q).
Proof.
  intros B [F N] E. destruct o; simpl in E, B; try contradiction; try discriminate; try (injection E as <-; simpl; auto; fail); try (injection E as <-; clear -N F; simpl; induction l; simpl; auto; fail).
  - injection E as <-. destruct (add_var_rest v p) as (->&_&->). auto.
  - injection E as <-. unfold add_con. destruct (mem c (p_cons p)) eqn:M; auto. cbn [p_cons p_own]. split; [|apply NoDup_snoc; auto; now apply mem_out]. apply Forall_app. split.
    + eapply Forall_impl; [|exact F]. simpl. intros a H. now destruct (Nat.eqb a c).
    + repeat constructor. now rewrite Nat.eqb_refl.
  - injection E as <-. unfold set_vars. set (l := contents _ _). destruct (fold_rest l (clear_vars p)) as (->&_&->). auto.
  - destruct (remove_first v (p_vars p)); try discriminate. injection E as <-. auto.
Qed.
Lemma reg_owned_lemma : forall vs lk os q, Forall by_add os -> exec_all (new_prob vs [] lk) os = Some q -> NoDup (p_cons q) /\ forall c, In c (p_cons q) -> linear_reads q c = Some (p_vars q).
Proof.
  intros vs lk os q B E. assert (P : Forall (fun c => p_own (new_prob vs [] lk) c = true) (p_cons (new_prob vs [] lk)) /\ NoDup (p_cons (new_prob vs [] lk))).
  { unfold new_prob. destruct (fold_rest vs (mkPr [] [] lk (fun _ => false))) as (->&_&->). simpl. split; constructor. }
  revert P E. generalize (new_prob vs [] lk). induction B; simpl; intros p P E.
  - injection E as <-. destruct P as [F N]. split; auto. intros c I. unfold linear_reads. rewrite Forall_forall in F. now rewrite F.
  - destruct (exec p x) eqn:X; try discriminate. eapply IHB; [|exact E]. eapply exec_owned; eauto.
Qed.
Lemma reg_unowned_lemma : forall vs cs lk c, In c cs -> In c (p_cons (new_prob vs cs lk)) /\ linear_reads (new_prob vs cs lk) c = None /\ add_con c (new_prob vs cs lk) = new_prob vs cs lk.
Proof.
  intros vs cs lk c I. unfold linear_reads, add_con. unfold new_prob. destruct (fold_rest vs (mkPr [] cs lk (fun _ => false))) as (->&_&->). simpl. rewrite (proj2 (mem_in _ _) I). auto.
Qed.
Lemma reg_type_lemma : forall k p t, free_vars p <> [] -> In t [KVar; KInt; KBin; KIdx; KDisc] -> (forall v, In v (free_vars p) -> k v = t) -> type_of_vars k p = Some t.
Proof.
  intros k p t N T A. unfold type_of_vars. destruct (free_vars p) as [|v r]; [congruence|]. rewrite (A v) by (simpl; auto). simpl in T. intuition; subst; reflexivity.
Qed.
Lemma reg_noop_lemma : forall p v l, exec p (OAddVariable v) = Some p /\ exec p (OAddVariables l) = Some p.
Proof. intros p v l. split; auto. simpl. f_equal. induction l; simpl; auto. Qed.
