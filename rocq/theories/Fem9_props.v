(** Further theorem about C38. *)
From Verif Require Import Base Fem_proofs Fem9_proofs.
From Verif Require Import Fem_model Fem_spec.

(** C38: the degrees of freedom removed are those named by a support of the case;
    a support on a degree of freedom that is not active removes nothing. *)
Theorem C38_removed : forall ns sups sid i, In i (rem_dofs ns sups sid) <->
  exists s k, In s sups /\ s_sid s = sid /\ In k (s_dof s) /\ dof_at ns (s_node s) k = Some (Z.of_nat i).
Proof. exact removed_lemma. Qed.
Print Assumptions C38_removed.
Example C38_removed_ex : In 2%nat (rem_dofs [[(-1)%Z; 2%Z]] [mkSup 7 0 [0; 1]%nat] 7).
Proof. cbn. auto. Qed.
