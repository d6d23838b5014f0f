(** C377: what the two-phase solver passes to its solvers. *)
Require Import Reals List Bool Lra Lia PeanoNat. Import ListNotations.
From Verif Require Import EC3_proofs Csv_proofs Solvers2_proofs Tph_proofs.
From Verif Require Import Csv_spec Tph_model Tph_spec.
Local Open Scope R_scope.

(** C377: given a solution of the first phase with an entry for every variable and non-empty lists of values, the second
    solver is called with a starting point that has one entry for each variable: the lower bound of a continuous one, and
    the least of the values kept around the solution otherwise, which for ascending values is the one [ll] places below
    a nearest value (or the first). *)
Theorem C377_start : forall m1 m2 ll ul k vs xs, (1 <= ul)%nat -> (length vs <= length xs)%nat -> (forall l, In (Pdisc l) vs -> l <> []) ->
  exists k1 k2 x0, solve_calls m1 m2 ll ul k vs xs = Some (k1, k2) /\ k_x0 k1 = k_x0 k /\ k_x0 k2 = Some x0 /\ length x0 = length vs /\
  (forall i lb, nth_error vs i = Some (Pcont lb) -> nth_error x0 i = Some lb) /\
  (forall i l, nth_error vs i = Some (Pdisc l) -> exists x s w, nth_error xs i = Some x /\ nth_error x0 i = Some s /\
     window l x ll ul = Some w /\ least s w /\ (ascending l -> exists j, nearest_at j x l /\ nth_error l (j - ll) = Some s)).
Proof.
  intros m1 m2 ll ul k vs xs U L N. destruct (tph_disc_total ll ul xs U vs 0 ltac:(lia) N) as (vs' & E).
  unfold solve_calls. rewrite E. cbn [bind]. do 2 eexists. exists (map lower vs'). split; [reflexivity|]. cbn [k_x0].
  apply tph_disc in E. split; [reflexivity|]. split; [reflexivity|].
  assert (LL : length vs' = length vs) by (rewrite <- (Forall2_length _ _ _ E), combine_length, seq_length; lia).
  split; [rewrite map_length; exact LL|].
  assert (G : forall i v, nth_error vs i = Some v -> exists v', nth_error vs' i = Some v' /\
    match v with Pcont lb => v' = Pcont lb | Pdisc vals => exists x w, nth_error xs i = Some x /\ window vals x ll ul = Some w /\ w <> [] /\ v' = Pdisc w end).
  { clear - E. revert E. generalize vs' as q. clear vs'.
    assert (K : forall vs s q, Forall2 (fun p v' => match snd p with Pcont lb => v' = Pcont lb
     | Pdisc vals => exists x w, nth_error xs (fst p) = Some x /\ window vals x ll ul = Some w /\ w <> [] /\ v' = Pdisc w end)
       (combine (seq s (length vs)) vs) q -> forall i v, nth_error vs i = Some v -> exists v', nth_error q i = Some v' /\
       match v with Pcont lb => v' = Pcont lb | Pdisc vals => exists x w, nth_error xs (s + i) = Some x /\ window vals x ll ul = Some w /\ w <> [] /\ v' = Pdisc w end).
    { induction vs0 as [|v0 vs0 IH]; intros s q F i v H; [destruct i; discriminate|]. cbn in F. inversion F as [|? v1 ? q' A B]; subst.
      destruct i as [|i]; cbn in H.
      - injection H as <-. exists v1. split; [reflexivity|]. rewrite Nat.add_0_r. exact A.
      - destruct (IH (S s) q' B i v H) as (v' & X & Y). exists v'. split; [exact X|]. rewrite Nat.add_succ_r. exact Y. }
    intros q F i v H. exact (K vs 0%nat q F i v H). }
  split.
  - intros i lb H. destruct (G i _ H) as (v' & X & ->). rewrite (map_nth_error lower i vs' X). reflexivity.
  - intros i l H. destruct (G i _ H) as (v' & X & x & w & Y & W & NE & ->). exists x, (lmin w), w. rewrite (map_nth_error lower i vs' X).
    split; [exact Y|]. split; [reflexivity|]. split; [exact W|]. split; [apply csv_least; exact NE|].
    intros A. destruct (tph_window _ _ _ _ _ U W) as (j & J & a & r & -> & F). exists j. split; [exact J|].
    rewrite tph_asc_min; [exact F|]. eapply tph_window_asc; eauto.
Qed.
Print Assumptions C377_start.

(** C377, finding: with the default limits (1 and 3) the second phase does not start from the value nearest to the
    solution of the first but from the one below it, whenever there is one. *)
Theorem C377_nearest_start_refuted : forall m1 m2 ul k pre a b post x, (1 <= ul)%nat -> ascending (pre ++ a :: b :: post) ->
  only_nearest b x (pre ++ a :: b :: post) ->
  exists k1 k2, solve_calls m1 m2 1 ul k [Pdisc (pre ++ a :: b :: post)] [x] = Some (k1, k2) /\ k_x0 k2 = Some [a] /\ a < b.
Proof.
  intros m1 m2 ul k pre a b post x U A (IB & O). set (l := pre ++ a :: b :: post) in *.
  assert (NE : l <> []) by (unfold l; destruct pre; discriminate).
  destruct (C377_start m1 m2 1 ul k [Pdisc l] [x] U (le_n _)) as (k1 & k2 & x0 & E & _ & X & L & _ & ST).
  { intros l' [H|[]]. injection H as <-. exact NE. }
  exists k1, k2. split; [exact E|]. destruct (ST 0%nat l eq_refl) as (x' & s & w & X' & Y & _ & _ & H). injection X' as <-.
  destruct (H A) as (j & (b' & J & M) & N). assert (b' = b).
  { destruct (Req_dec b' b) as [Q|Q]; [exact Q|]. specialize (M b IB). specialize (O b' (nth_error_In _ _ J) Q). lra. }
  subst b'. assert (AB : a < b /\ forall p, In p pre -> p < b).
  { clear - A. unfold l in A. induction pre as [|c pre IH]; cbn in A.
    - split; [apply A; left; reflexivity|intros p []].
    - destruct A as (A1 & A2). destruct (IH A2) as (B1 & B2). split; [exact B1|]. intros p [<-|I]; [|auto]. apply A1. apply in_app_iff. right. right. left. reflexivity. }
  assert (ND : forall i c, nth_error l i = Some c -> forall i', nth_error l i' = Some c -> i = i').
  { clear - A. revert A. generalize l as q. induction q as [|c q IH]; intros A i d H i' H'; [destruct i; discriminate|]. destruct A as (A1 & A2).
    destruct i as [|i], i' as [|i']; cbn in H, H'; auto.
    - injection H as <-. apply nth_error_In in H'. specialize (A1 _ H'). lra.
    - injection H' as <-. apply nth_error_In in H. specialize (A1 _ H). lra.
    - f_equal. eapply IH; eauto. }
  assert (JB : nth_error l (S (length pre)) = Some b).
  { unfold l. rewrite nth_error_app2 by lia. replace (S (length pre) - length pre)%nat with 1%nat by lia. reflexivity. }
  rewrite (ND _ _ J _ JB) in N. cbn in N. rewrite Nat.sub_0_r in N. unfold l in N. rewrite nth_error_app2, Nat.sub_diag in N by lia. cbn in N. injection N as <-.
  split; [|tauto]. rewrite X. f_equal. destruct x0 as [|y [|z x0]]; try discriminate. cbn in Y. congruence.
Qed.
Print Assumptions C377_nearest_start_refuted.

(** C377: limits of the numbers of iterations; finding: a limit of the first phase holds for the second as well when
    none is set for that, whatever the caller asked for. *)
Theorem C377_iterations : forall m1 m2 ll ul k vs xs k1 k2, solve_calls m1 m2 ll ul k vs xs = Some (k1, k2) ->
  (forall m, m1 = Some m -> k_maxiter k1 = Some m) /\ (m1 = None -> k_maxiter k1 = k_maxiter k) /\
  (forall m, m2 = Some m -> k_maxiter k2 = Some m) /\ (m2 = None -> m1 = None -> k_maxiter k2 = k_maxiter k).
Proof.
  intros m1 m2 ll ul k vs xs k1 k2 H. unfold solve_calls in H. destruct (discretize _ _ _ _ _); [|discriminate]. injection H as <- <-. cbn.
  repeat split; [intros m ->|intros ->|intros m ->|intros -> ->]; reflexivity.
Qed.
Print Assumptions C377_iterations.
Theorem C377_limit_carried_over_refuted : forall m ll ul k vs xs k1 k2, solve_calls (Some m) None ll ul k vs xs = Some (k1, k2) -> k_maxiter k2 = Some m.
Proof. intros m ll ul k vs xs k1 k2 H. unfold solve_calls in H. destruct (discretize _ _ _ _ _); [|discriminate]. injection H as <- <-. reflexivity. Qed.
Print Assumptions C377_limit_carried_over_refuted.

(** C377, finding: something that is not a solver is refused only in the first place, and only beside a solver. *)
Theorem C377_solvers_refuted : forall s1 s2, accepts s1 s2 = false <-> s1 = false /\ s2 = true.
Proof. intros [|] [|]; cbn; split; intros H; try discriminate; try reflexivity; intuition discriminate. Qed.
Print Assumptions C377_solvers_refuted.

Example C377_ex : ascending ([1] ++ 2 :: 4 :: [8]) /\ only_nearest 4 (9/2) ([1] ++ 2 :: 4 :: [8]).
Proof.
  split; cbn; [repeat split; intros b H; repeat (destruct H as [<-|H]; [lra|]); destruct H|].
  split; [cbn; tauto|]. intros v H N. cbn in H. rewrite (Rabs_left (4 - 9/2)) by lra.
  destruct H as [<-|[<-|[<-|[<-|[]]]]]; try lra; [rewrite Rabs_left by lra|rewrite Rabs_left by lra|rewrite Rabs_right by lra]; lra.
Qed.
