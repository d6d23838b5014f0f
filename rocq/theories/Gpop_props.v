(** Property C355: populations of the genetic algorithm. *)
Require Import Reals ZArith List Bool Lra Lia Psatz PeanoNat.
Import ListNotations.
From Verif Require Import Base EC3_model Bool_tac EC3_proofs Plate_proofs Gpop_proofs.
From Verif Require Import Gpop_model Gpop_spec.
Local Open Scope R_scope.

(** C355 *)
Theorem C355_genes : forall vars u k c, (forall k, 0 <= u k < 1) -> vars <> [] -> Forall drawable vars -> exists P, population vars None u k c = Some P /\ length P = k /\
  forall ind, In ind P -> length ind = length vars /\ forall i, (i < length vars)%nat -> exists v x, nth_error vars ((c + i) mod length vars) = Some v /\ nth_error ind i = Some x /\ drawn v x.
Proof. exact gene_shift_lemma. Qed.
Print Assumptions C355_genes.
Theorem C355_aligned : forall vars u k c, (forall k, 0 <= u k < 1) -> vars <> [] -> Forall drawable vars -> (c mod length vars = 0)%nat -> exists P, population vars None u k c = Some P /\ length P = k /\
  forall ind, In ind P -> Forall2 drawn vars ind.
Proof. exact aligned_lemma. Qed.
Print Assumptions C355_aligned.
Theorem C355_given_start : forall vars x u k c P ind i, length x = length vars -> population vars (Some x) u k c = Some P -> In ind P -> (i < length vars)%nat -> nth_error ind i = nth_error x ((c + i) mod length vars).
Proof. exact given_start_lemma. Qed.
Print Assumptions C355_given_start.
Theorem C355_next_solve : forall c k n, n <> 0%nat -> (calls c k n mod n = c mod n)%nat.
Proof. exact calls_lemma. Qed.
Print Assumptions C355_next_solve.
Theorem C355_new_size : forall h off idx values best size h' pop, new_population h off idx values best size = Some (h', pop) ->
  let n := length off in let b := match best with Some _ => 1%nat | None => 0%nat end in
  (length pop = n * (size / n + 1) + b /\ size + b < length pop /\ length pop <= size + n + b)%nat.
Proof. exact new_size_lemma. Qed.
Print Assumptions C355_new_size.
Theorem C355_new_members : forall h off idx values best size h' pop, new_population h off idx values best size = Some (h', pop) -> forall r, In r pop <-> In r off \/ best = Some r.
Proof. exact new_members_lemma. Qed.
Print Assumptions C355_new_members.
Theorem C355_new_values : forall h off idx values best size h' pop, new_population h off idx values best size = Some (h', pop) -> exists r, nth_error off idx = Some r /\ (length (h r) <= length values)%nat /\
  (length (h r) = length values -> h' r = values) /\ forall k, k <> r -> h' k = h k.
Proof. exact new_values_lemma. Qed.
Print Assumptions C355_new_values.
Theorem C355_choice : forall n idx, (0 < n)%nat -> may_choose n idx = true <-> ((idx = 0 /\ n = 1) \/ idx + 1 < n)%nat.
Proof. exact may_choose_lemma. Qed.
Print Assumptions C355_choice.
Theorem C355_new_defined : forall h off idx values best size, may_choose (length off) idx = true -> off <> [] -> (forall r, In r off -> (length (h r) <= length values)%nat) -> exists h' pop, new_population h off idx values best size = Some (h', pop).
Proof. exact new_defined_lemma. Qed.
Print Assumptions C355_new_defined.
Theorem C355_two_parents : forall h a b idx values size h' pop, may_choose 2 idx = true -> new_population h [a; b] idx values None size = Some (h', pop) -> length (h a) = length values -> idx = 0%nat /\ forall r, In r pop -> h' r = values \/ (r = b /\ h' r = h b).
Proof. exact pair_lemma. Qed.
Print Assumptions C355_two_parents.
(** After one individual of a problem with one variable, a problem with two. *)
Theorem C355_misaligned_refuted : forall u, (forall k, 0 <= u k < 1) -> exists vars P ind x, Forall drawable vars /\ population vars None u 1 (calls 0 1 1) = Some P /\ In ind P /\ nth_error ind 0 = Some x /\
  forall v, nth_error vars 0 = Some v -> ~ (g_lb v <= x <= g_ub v).
Proof.
  intros u U. set (vars := [mkGv false 0 1; mkGv false 10 20]). assert (D : Forall drawable vars) by (repeat constructor; cbn; try lra; discriminate).
  destruct (gene_shift_lemma vars u 1 (calls 0 1 1) U ltac:(discriminate) D) as (P&E&L&G). destruct P as [|ind [|? ?]]; try discriminate. exists vars, [ind], ind.
  destruct (G ind (or_introl eq_refl)) as (_&F). destruct (F 0%nat ltac:(cbn; lia)) as (v&x&X1&X2&X3&_). cbn in X1. injection X1 as <-. cbn in X3. exists x. split; auto. split; auto. split; [left; auto|]. split; auto. intros v V. injection V as <-. cbn. lra.
Qed.
Print Assumptions C355_misaligned_refuted.
Example C355_ex : (forall k : nat, 0 <= 1/2 < 1) /\ Forall drawable [mkGv true 0 5; mkGv false 1 2] /\ (calls 0 50 2 mod 2 = 0)%nat /\ may_choose 2 0 = true.
Proof. split; [intros; lra|]. split. repeat constructor; cbn; try lra; try discriminate. intros _. exists 5%Z. lra. split; reflexivity. Qed.
