(** Property C363: the relaxation of a node and optimality-based tightening of branch and bound. *)
Require Import Reals List Bool Lra Lia PeanoNat.
Import ListNotations.
From Verif Require Import Base Bool_tac Bnb2_proofs.
From Verif Require Import Bnb2_model Bnb2_spec.
Local Open Scope R_scope.

(** C363 *)
Theorem C363_node : forall solve vs x0 start f x s fe, Forall (fun v => n_locked v = false) vs -> rest vs x0 start ->
  solve (map lock_equal vs) start = (f, x, s, fe) -> length x = length start ->
  exists xn out, lower_bound solve vs x0 = Some out /\ rest vs xn x /\ (forall i d, (i < length vs)%nat -> pinned (nth i vs d) -> nth i xn 0 = n_up (nth i vs d)) /\
    o_flag out = fe /\ (o_node out = if orb s fe then Some (f, xn) else None) /\
    Forall2 (fun v w => n_lo w = n_lo v /\ n_up w = n_up v /\ n_locked w = false /\ (pinned v -> n_val w = n_up v) /\ (~ pinned v -> w = v)) vs (o_vars out).
Proof. exact lower_bound_lemma. Qed.
Print Assumptions C363_node.
Theorem C363_tightening : forall P lp bx, exact_lp P lp -> match tighten lp (seq 0 (length bx)) bx with
  | None => forall x, ~ point_of P bx x
  | Some b => length b = length bx /\ (forall x, point_of P b x <-> point_of P bx x) /\
      forall i, (i < length bx)%nat -> (exists x, point_of P bx x /\ nth i x 0 = fst (nth i b (0, 0))) /\ (exists x, point_of P bx x /\ nth i x 0 = snd (nth i b (0, 0))) end.
Proof. exact tighten_lemma. Qed.
Print Assumptions C363_tightening.
Theorem C363_idempotent : forall P lp bx b, exact_lp P lp -> (0 < length bx)%nat -> tighten lp (seq 0 (length bx)) bx = Some b -> tighten lp (seq 0 (length b)) b = Some b /\ bounds_ok b = true.
Proof. exact tighten_idem_lemma. Qed.
Print Assumptions C363_idempotent.
(** A variable locked by the user makes the relaxation raise. *)
Theorem C363_locked_refuted : forall solve vs x0, Exists (fun v => n_locked v = true) vs -> lower_bound solve vs x0 = None.
Proof. exact lower_bound_locked_lemma. Qed.
Print Assumptions C363_locked_refuted.
(** Node with one variable fixed by branching. *)
Example C363_ex_node :
  let vs := [mkNv 0 4 false 1; mkNv 3 3 false 2; mkNv 1 9 false 5] in
  Forall (fun v => n_locked v = false) vs /\ rest vs [1; 2; 5] [1; 5] /\ rest vs [2; 3; 8] [2; 8].
Proof.
  cbn zeta. assert (A : pinned (mkNv 3 3 false 2)) by (unfold pinned; simpl; replace (3 - 3) with 0 by ring; rewrite Rabs_R0; lra).
  assert (B : ~ pinned (mkNv 0 4 false 1)) by (unfold pinned; simpl; rewrite Rabs_right; lra).
  assert (C : ~ pinned (mkNv 1 9 false 5)) by (unfold pinned; simpl; rewrite Rabs_right; lra).
  split. repeat constructor. split; (apply r_free; [exact B|apply r_pin; [exact A|apply r_free; [exact C|constructor]]]).
Qed.
(** An exact solver for the constraint x <= 2 in one variable, and the bounds [0, 5] tightened by it. *)
Definition ex_lp (mn : bool) (i : nat) (bx : bounds) : option (list R) :=
  match bx with
  | [(l, u)] => if Rltb u l then None else if Rltb 2 l then None else Some [if mn then l else Rmin u 2]
  | _ => None
  end.
Example C363_ex_tightening : exact_lp (fun x => exists a, x = [a] /\ a <= 2) ex_lp /\ tighten ex_lp (seq 0 1) [(0, 5)] = Some [(0, 2)].
Proof.
  split.
  - intros mn i bx I. destruct bx as [|[l u] [|b bx]]; cbn [ex_lp].
    + simpl in I. lia.
    + destruct (Rltb u l) eqn:A.
      { apply Rltb_true in A. intros x [X _]. inversion X; subst. simpl in *. lra. }
      apply Rltb_false in A. destruct (Rltb 2 l) eqn:B.
      { apply Rltb_true in B. intros x [X (a&E&L)]. subst. inversion X; subst. simpl in *. lra. }
      apply Rltb_false in B. assert (i = 0)%nat by (simpl in I; lia). subst i.
      pose proof (Rmin_l u 2). pose proof (Rmin_r u 2). assert (l <= Rmin u 2) by (apply Rmin_glb; lra).
      split. split. constructor; [|constructor]. destruct mn; simpl; lra. eexists. split; [reflexivity|]. destruct mn; lra.
      intros y [Y (a&E&L)]. subst. inversion Y; subst. simpl in *. destruct mn; simpl. lra. apply Rmin_glb; lra.
    + intros x [X (a&E&_)]. subst. inversion X; subst. inversion H4.
  - unfold tighten, raise_lower, cut_upper. cbn [seq ex_lp bind nth].
    rewrite (proj2 (Rltb_false 5 0)), (proj2 (Rltb_false 2 0)) by lra. cbn [bind nth].
    rewrite (proj2 (Rltb_false 0 0)) by lra. cbn [bind nth ex_lp]. rewrite (proj2 (Rltb_false 5 0)), (proj2 (Rltb_false 2 0)) by lra. cbn [bind nth].
    rewrite Rmin_right by lra. rewrite (proj2 (Rltb_true 2 5)) by lra. reflexivity.
Qed.
