(** Proofs on the populations of the genetic algorithm. *)
Require Import Reals ZArith List Bool Lra Lia Psatz PeanoNat.
Import ListNotations.
From Verif Require Import Base EC3_model Bool_tac EC3_proofs Plate_proofs.
From Verif Require Import Gpop_model Gpop_spec.
Local Open Scope R_scope.

Lemma gene_form : forall vars u c, vars <> [] -> exists v, nth_error vars (Nat.modulo c (length vars)) = Some v /\
  gene vars None u c = if g_int v then if Rltb (g_lb v) (g_ub v) then Some (g_lb v + IZR (floorZ (u c * (g_ub v - g_lb v)))) else None else Some (g_lb v + u c * (g_ub v - g_lb v)).
Proof.
  intros vars u c N. unfold gene. destruct vars as [|a vars]; [congruence|]. cbv zeta. set (n := length (a :: vars)). assert (n <> 0)%nat by (unfold n; cbn; lia).
  destruct (nth_error (a :: vars) (c mod n)) as [v|] eqn:E. exists v. auto. apply nth_error_None in E. pose proof (Nat.mod_upper_bound c n). lia.
Qed.
Lemma gene_drawn : forall vars u c, (forall k, 0 <= u k < 1) -> vars <> [] -> Forall drawable vars ->
  exists v x, nth_error vars (Nat.modulo c (length vars)) = Some v /\ gene vars None u c = Some x /\ drawn v x.
Proof.
  intros vars u c U N D. destruct (gene_form vars u c N) as (v&E&G). assert (Dv : drawable v) by (rewrite Forall_forall in D; apply D; eapply nth_error_In; eauto). destruct Dv as (L&I).
  specialize (U c). assert (W : 0 <= u c * (g_ub v - g_lb v) < g_ub v - g_lb v) by nra. destruct (g_int v) eqn:B.
  - rewrite (proj2 (Rltb_true _ _)) in G by auto. exists v. eexists. split; auto. split; [exact G|]. destruct (I eq_refl) as (z&Z). set (t := u c * (g_ub v - g_lb v)) in *.
    assert (F : IZR (floorZ t) <= t < IZR (floorZ t) + 1) by apply floorZ_spec.
    unfold drawn. split; [split|intros; eauto]. 2: lra. assert (0 <= IZR (floorZ t)); [|lra]. apply IZR_le. assert (0 < floorZ t + 1)%Z; [|lia]. apply lt_IZR. rewrite plus_IZR. lra.
  - exists v. eexists. split; auto. split; [exact G|]. unfold drawn. rewrite B. split; [lra|discriminate].
Qed.
Lemma individual_spec : forall vars x0 u n c ind, individual vars x0 u n c = Some ind <-> length ind = n /\ forall i, (i < n)%nat -> nth_error ind i = gene vars x0 u (c + i) /\ gene vars x0 u (c + i) <> None.
Proof.
  intros vars x0 u. induction n as [|n IH]; intros c ind; cbn [individual].
  - split. intro E. injection E as <-. split; auto. intros; lia. intros (L&_). destruct ind; [auto|discriminate].
  - destruct (gene vars x0 u c) as [g|] eqn:G; cbn [bind].
    + destruct (individual vars x0 u n (S c)) as [r|] eqn:E; cbn [bind].
      * split. { intro X. injection X as <-. apply IH in E. destruct E as (L&F). split; [cbn; lia|]. intros [|i] I. rewrite Nat.add_0_r, G. split; [auto|congruence]. replace (c + S i)%nat with (S c + i)%nat by lia. apply F. lia. }
        intros (L&F). destruct ind as [|a ind]; [discriminate|]. destruct (F 0%nat ltac:(lia)) as (F0&_). rewrite Nat.add_0_r, G in F0. cbn in F0. injection F0 as <-.
        assert (Q : Some r = Some ind). { rewrite <- E. apply IH. split; [cbn in L; lia|]. intros i I. destruct (F (S i) ltac:(lia)) as (F1&F2). replace (S c + i)%nat with (c + S i)%nat by lia. auto. } congruence.
      * split; [discriminate|]. intros (L&F). destruct ind as [|a ind]; [discriminate|]. exfalso. assert (Q : individual vars x0 u n (S c) = Some ind). { apply IH. split; [cbn in L; lia|]. intros i I. destruct (F (S i) ltac:(lia)) as (F1&F2). replace (S c + i)%nat with (c + S i)%nat by lia. auto. } congruence.
    + split; [discriminate|]. intros (L&F). destruct (F 0%nat ltac:(lia)) as (_&F0). rewrite Nat.add_0_r in F0. contradiction.
Qed.
Lemma individual_exists : forall vars x0 u n c, (forall i, gene vars x0 u (c + i) <> None) -> exists ind, individual vars x0 u n c = Some ind.
Proof.
  intros vars x0 u. induction n as [|n IH]; intros c H. eexists; reflexivity. cbn [individual]. pose proof (H 0%nat) as H0. rewrite Nat.add_0_r in H0. destruct (gene vars x0 u c); [|congruence]. cbn [bind].
  destruct (IH (S c)) as (r1&->). intro i. replace (S c + i)%nat with (c + S i)%nat by lia. apply H. cbn. eauto.
Qed.
Lemma population_exists : forall vars x0 u k c, (forall i, gene vars x0 u i <> None) -> exists P, population vars x0 u k c = Some P.
Proof.
  intros vars x0 u. induction k as [|k IH]; intros c H. eexists; reflexivity. cbn [population]. destruct (individual_exists vars x0 u (length vars) c) as (i&->). auto. cbn [bind]. destruct (IH (c + length vars)%nat H) as (P&->). cbn. eauto.
Qed.
Lemma population_spec : forall vars x0 u k c P, population vars x0 u k c = Some P -> length P = k /\ forall j ind, nth_error P j = Some ind -> individual vars x0 u (length vars) (c + j * length vars) = Some ind.
Proof.
  intros vars x0 u. induction k as [|k IH]; intros c P H; cbn [population] in H.
  - injection H as <-. split; auto. intros [|j] ind X; discriminate.
  - destruct (individual vars x0 u (length vars) c) as [i|] eqn:E; [|discriminate]. cbn [bind] in H. destruct (population vars x0 u k (c + length vars)) as [r|] eqn:F; [|discriminate]. injection H as <-. destruct (IH _ _ F) as (L&G). split; [cbn; lia|].
    intros [|j] ind X. cbn in X. injection X as <-. cbn [Nat.mul]. rewrite Nat.add_0_r. auto. cbn in X. apply G in X. replace (c + S j * length vars)%nat with (c + length vars + j * length vars)%nat by lia. auto.
Qed.
Lemma shift_mod : forall c j i n, n <> 0%nat -> ((c + j * n + i) mod n = (c + i) mod n)%nat.
Proof. intros. replace (c + j * n + i)%nat with (c + i + j * n)%nat by lia. apply Nat.mod_add; auto. Qed.
Lemma gene_shift_lemma : forall vars u k c, (forall k, 0 <= u k < 1) -> vars <> [] -> Forall drawable vars -> exists P, population vars None u k c = Some P /\ length P = k /\
  forall ind, In ind P -> length ind = length vars /\ forall i, (i < length vars)%nat -> exists v x, nth_error vars ((c + i) mod length vars) = Some v /\ nth_error ind i = Some x /\ drawn v x.
Proof.
  intros vars u k c U N D. assert (NL : length vars <> 0%nat) by (destruct vars; [congruence|cbn; lia]). destruct (population_exists vars None u k c) as (P&E). intros i G. destruct (gene_drawn vars u i U N D) as (v&x&_&X&_). congruence.
  exists P. split; auto. destruct (population_spec _ _ _ _ _ _ E) as (L&G). split; auto. intros ind I. apply In_nth_error in I. destruct I as (j&J). apply G in J. apply individual_spec in J. destruct J as (L2&F). split; auto. intros i Hi. destruct (F i Hi) as (F1&_).
  destruct (gene_drawn vars u (c + j * length vars + i) U N D) as (v&x&X1&X2&X3). rewrite shift_mod in X1 by auto. exists v, x. split; auto. split; auto. congruence.
Qed.
Lemma aligned_lemma : forall vars u k c, (forall k, 0 <= u k < 1) -> vars <> [] -> Forall drawable vars -> (c mod length vars = 0)%nat -> exists P, population vars None u k c = Some P /\ length P = k /\
  forall ind, In ind P -> Forall2 drawn vars ind.
Proof.
  intros vars u k c U N D A. assert (NL : length vars <> 0%nat) by (destruct vars; [congruence|cbn; lia]). destruct (gene_shift_lemma vars u k c U N D) as (P&E&L&G). exists P. split; auto. split; auto. intros ind I. destruct (G ind I) as (L2&F).
  assert (Q : forall (a : list gvar) (b : list R), length b = length a -> (forall i, (i < length a)%nat -> exists v x, nth_error a i = Some v /\ nth_error b i = Some x /\ drawn v x) -> Forall2 drawn a b).
  { induction a as [|v a IH]; intros b LB H; destruct b as [|x b]; try discriminate; constructor. destruct (H 0%nat ltac:(cbn; lia)) as (v'&x'&E1&E2&E3). cbn in E1, E2. congruence. apply IH. cbn in LB; lia. intros i Hi. apply (H (S i)). cbn; lia. }
  apply Q; auto. intros i Hi. destruct (F i Hi) as (v&x&X1&X2&X3). assert (M : ((c + i) mod length vars = i)%nat). { rewrite Nat.add_mod, A, Nat.add_0_l by auto. rewrite Nat.mod_mod, Nat.mod_small by auto. auto. } rewrite M in X1. exists v, x. auto.
Qed.
Lemma given_start_lemma : forall vars x u k c P ind i, length x = length vars -> population vars (Some x) u k c = Some P -> In ind P -> (i < length vars)%nat -> nth_error ind i = nth_error x ((c + i) mod length vars).
Proof.
  intros vars x u k c P ind i LX E I Hi. assert (NL : length vars <> 0%nat) by lia. destruct (population_spec _ _ _ _ _ _ E) as (L&G). apply In_nth_error in I. destruct I as (j&J). apply G in J. apply individual_spec in J. destruct J as (L2&F). destruct (F i Hi) as (F1&_). rewrite F1.
  unfold gene. destruct vars; [cbn in Hi; lia|]. cbv zeta. rewrite shift_mod by auto. reflexivity.
Qed.
Lemma calls_lemma : forall c k n, n <> 0%nat -> (calls c k n mod n = c mod n)%nat.
Proof. intros. unfold calls. apply Nat.mod_add; auto. Qed.

(** New populations. *)
Lemma concat_length : forall A (l : list A) m, length (concat (repeat l m)) = (m * length l)%nat.
Proof. induction m; cbn; auto. rewrite app_length, IHm. auto. Qed.
Lemma new_size_lemma : forall h off idx values best size h' pop, new_population h off idx values best size = Some (h', pop) ->
  let n := length off in let b := match best with Some _ => 1%nat | None => 0%nat end in
  (length pop = n * (size / n + 1) + b /\ size + b < length pop /\ length pop <= size + n + b)%nat.
Proof.
  intros h off idx values best size h' pop H n b. unfold new_population in H. destruct (nth_error off idx) as [r|] eqn:E; [|discriminate]. cbn [bind] in H. destruct (Nat.ltb _ _); [discriminate|]. injection H as <- <-.
  assert (N : n <> 0%nat). { intro Z. assert (idx < length off)%nat by (apply nth_error_Some; congruence). unfold n in Z; lia. }
  rewrite app_length, concat_length. fold n. assert (B : length (match best with Some b => [b] | None => [] end) = b) by (unfold b; destruct best; auto). rewrite B.
  pose proof (Nat.div_mod size n N). pose proof (Nat.mod_upper_bound size n N). nia.
Qed.
Lemma concat_in : forall A (l : list A) m x, In x (concat (repeat l (m + 1))) <-> In x l.
Proof. intros A l m x. rewrite Nat.add_1_r. cbn [repeat concat]. rewrite in_app_iff. split; auto. intros [H|H]; auto. apply in_concat in H. destruct H as (y&Y&Z). apply repeat_spec in Y. subst; auto. Qed.
Lemma new_members_lemma : forall h off idx values best size h' pop, new_population h off idx values best size = Some (h', pop) -> forall r, In r pop <-> In r off \/ best = Some r.
Proof.
  intros h off idx values best size h' pop H r. unfold new_population in H. destruct (nth_error off idx) as [q|] eqn:E; [|discriminate]. cbn [bind] in H. destruct (Nat.ltb _ _); [discriminate|]. injection H as <- <-. rewrite in_app_iff, concat_in. destruct best; cbn; intuition congruence.
Qed.
Lemma new_values_lemma : forall h off idx values best size h' pop, new_population h off idx values best size = Some (h', pop) -> exists r, nth_error off idx = Some r /\ (length (h r) <= length values)%nat /\
  (length (h r) = length values -> h' r = values) /\ forall k, k <> r -> h' k = h k.
Proof.
  intros h off idx values best size h' pop H. unfold new_population in H. destruct (nth_error off idx) as [q|] eqn:E; [|discriminate]. cbn [bind] in H. destruct (Nat.ltb _ _) eqn:B; [discriminate|]. apply Nat.ltb_ge in B. injection H as <- <-.
  exists q. split; auto. split; auto. split. intro L. rewrite Nat.eqb_refl, L. apply firstn_all. intros k K. rewrite (proj2 (Nat.eqb_neq _ _)); auto.
Qed.
Lemma may_choose_lemma : forall n idx, (0 < n)%nat -> may_choose n idx = true <-> ((idx = 0 /\ n = 1) \/ idx + 1 < n)%nat.
Proof. intros n idx N. unfold may_choose. destruct (Nat.ltb 1 n) eqn:E. apply Nat.ltb_lt in E. rewrite Nat.ltb_lt. lia. apply Nat.ltb_ge in E. rewrite Nat.eqb_eq. lia. Qed.
Lemma new_defined_lemma : forall h off idx values best size, may_choose (length off) idx = true -> off <> [] -> (forall r, In r off -> (length (h r) <= length values)%nat) -> exists h' pop, new_population h off idx values best size = Some (h', pop).
Proof.
  intros h off idx values best size M N L. assert (P : (0 < length off)%nat) by (destruct off; [congruence|cbn; lia]). apply may_choose_lemma in M; auto. unfold new_population. destruct (nth_error off idx) as [r|] eqn:E. 2: apply nth_error_None in E; lia. cbn [bind].
  rewrite (proj2 (Nat.ltb_ge _ _)) by (apply L; eapply nth_error_In; eauto). eauto.
Qed.
Lemma pair_lemma : forall h a b idx values size h' pop, may_choose 2 idx = true -> new_population h [a; b] idx values None size = Some (h', pop) -> length (h a) = length values -> idx = 0%nat /\ forall r, In r pop -> h' r = values \/ (r = b /\ h' r = h b).
Proof.
  intros h a b idx values size h' pop M H L. apply may_choose_lemma in M; [|lia]. assert (idx = 0%nat) by lia. subst idx. split; auto. intros r I. apply (new_members_lemma _ _ _ _ _ _ _ _ H) in I. destruct I as [I|I]; [|discriminate].
  destruct (new_values_lemma _ _ _ _ _ _ _ _ H) as (q&Q&_&V&W). injection Q as <-. destruct (Nat.eq_dec r a) as [->|N]. left; auto. destruct I as [I|[I|[]]]; [congruence|]. right. split; auto. subst. apply W; auto.
Qed.
