(** Property C362: registration of variables and constraints. *)
Require Import List Bool PeanoNat Lia.
Import ListNotations.
From Verif Require Import Reg_proofs.
From Verif Require Import Reg_model Reg_spec.

(** C362 *)
Theorem C362_constructor : forall vs cs lk, firsts [] vs (p_vars (new_prob vs cs lk)) /\ p_cons (new_prob vs cs lk) = cs.
Proof. exact reg_new_lemma. Qed.
Print Assumptions C362_constructor.
Theorem C362_no_duplicates : forall vs cs lk os q, exec_all (new_prob vs cs lk) os = Some q -> NoDup (p_vars q).
Proof. exact reg_nodup_lemma. Qed.
Print Assumptions C362_no_duplicates.
Theorem C362_add : forall v p, (forall w, In w (p_vars (add_var v p)) <-> In w (p_vars p) \/ w = v) /\ (exists t, p_vars (add_var v p) = p_vars p ++ t) /\ add_var v (add_var v p) = add_var v p.
Proof. exact reg_add_lemma. Qed.
Print Assumptions C362_add.
Theorem C362_free_or_locked : forall p v, (In v (p_vars p) <-> In v (free_vars p) \/ In v (locked_vars p)) /\ ~ (In v (free_vars p) /\ In v (locked_vars p)) /\
  length (free_vars p) + length (locked_vars p) = length (p_vars p).
Proof. exact reg_split_lemma. Qed.
Print Assumptions C362_free_or_locked.
Theorem C362_lock_unlock : forall p v q, exec p (OLock v true) = Some q -> p_vars q = p_vars p /\ (forall w, In w (free_vars q) <-> In w (free_vars p) /\ w <> v) /\
  forall q', exec q (OLock v false) = Some q' -> forall w, In w (free_vars q') <-> In w (free_vars p) \/ w = v /\ In v (p_vars p).
Proof. exact reg_lock_lemma. Qed.
Print Assumptions C362_lock_unlock.
Theorem C362_replace : forall l p, firsts [] l (p_vars (set_vars (SList l) p)) /\ p_cons (set_vars (SList l) p) = p_cons p.
Proof. exact reg_set_lemma. Qed.
Print Assumptions C362_replace.
Theorem C362_delete : forall p v, NoDup (p_vars p) -> match exec p (ODel v) with
  | Some q => In v (p_vars p) /\ exists a b, p_vars p = a ++ v :: b /\ p_vars q = a ++ b /\ ~ In v (p_vars q)
  | None => ~ In v (p_vars p) end.
Proof. exact reg_del_lemma. Qed.
Print Assumptions C362_delete.
Theorem C362_constraints : forall vs lk os q, Forall by_add os -> exec_all (new_prob vs [] lk) os = Some q -> NoDup (p_cons q) /\ forall c, In c (p_cons q) -> linear_reads q c = Some (p_vars q).
Proof. exact reg_owned_lemma. Qed.
Print Assumptions C362_constraints.
Theorem C362_type : forall k p t, free_vars p <> [] -> In t [KVar; KInt; KBin; KIdx; KDisc] -> (forall v, In v (free_vars p) -> k v = t) -> type_of_vars k p = Some t.
Proof. exact reg_type_lemma. Qed.
Print Assumptions C362_type.
(** Constraints given to the constructor do not know the problem, and adding them again does not help. *)
Theorem C362_constructor_constraints_refuted : forall vs cs lk c, In c cs -> In c (p_cons (new_prob vs cs lk)) /\ linear_reads (new_prob vs cs lk) c = None /\ add_con c (new_prob vs cs lk) = new_prob vs cs lk.
Proof. exact reg_unowned_lemma. Qed.
Print Assumptions C362_constructor_constraints_refuted.
(** Setting the variables to the problem's own variables loses the locked ones, or all of them. *)
Theorem C362_own_variables_refuted : forall p, NoDup (p_vars p) -> p_vars (set_vars SFree p) = free_vars p.
Proof. exact reg_self_free_lemma. Qed.
Print Assumptions C362_own_variables_refuted.
Theorem C362_all_variables_refuted : forall p, p_vars (set_vars SAll p) = [].
Proof. exact reg_self_all_lemma. Qed.
Print Assumptions C362_all_variables_refuted.
(** add_variable and add_variables change nothing. *)
Theorem C362_add_variable_refuted : forall p v l, exec p (OAddVariable v) = Some p /\ exec p (OAddVariables l) = Some p.
Proof. exact reg_noop_lemma. Qed.
Print Assumptions C362_add_variable_refuted.
(** A mixed problem takes the type of its first free variable. *)
Theorem C362_mixed_refuted : exists k p q, (forall v, In v (p_vars p) <-> In v (p_vars q)) /\ p_locked p = p_locked q /\ type_of_vars k p <> type_of_vars k q.
Proof.
  exists (fun v => if Nat.eqb v 0 then KVar else KIdx), (new_prob [0; 1] [] (fun _ => false)), (new_prob [1; 0] [] (fun _ => false)).
  split; [|split; [reflexivity|simpl; discriminate]]. intros v. simpl. intuition.
Qed.
Print Assumptions C362_mixed_refuted.
Example C362_ex : exec_all (new_prob [3; 5; 3] [] (fun _ => false)) [OAddVar 7; OLock 5 true; OAddCon 2; OAddCon 2; ODel 3] <> None /\
  (forall q, exec_all (new_prob [3; 5; 3] [] (fun _ => false)) [OAddVar 7; OLock 5 true; OAddCon 2; OAddCon 2; ODel 3] = Some q ->
    p_vars q = [5; 7] /\ free_vars q = [7] /\ p_cons q = [2] /\ p_vars (set_vars SFree q) = [7]).
Proof. split. discriminate. intros q E. injection E as <-. auto. Qed.
