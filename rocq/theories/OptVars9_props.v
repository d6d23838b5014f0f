(** Further theorems about C02 and C03. *)
From Verif Require Import Base OptVars_proofs OptVars9_proofs.
From Verif Require Import OptVars_model OptVars_spec.

(** C02: unlocking makes substitution effective again. *)
Theorem C02_unlock : forall v x, is_index v = false -> exists v', substitute (unlock v) x = Some v' /\ v_value v' = Some x /\ v_locked v' = false.
Proof. exact unlock_lemma. Qed.
Print Assumptions C02_unlock.
(** C03: an unlocked index variable selects the entry that Python's [int] and list
    indexing select, from the end for negative numbers. *)
Theorem C03_index_position : forall v n x, (0 < n)%nat -> v_kind v = KIndex n -> v_locked v = false -> v_target v <> TNone ->
  (substitute v x = None <-> INR n <= x \/ x <= - INR n - 1) /\
  forall v', substitute v x = Some v' -> exists k, (k < n)%nat /\ v_written v' = Some (INR k) /\
    (-1 < x < 1 -> k = 0%nat) /\ (0 <= x -> INR k <= x < INR k + 1) /\ (x <= -1 -> INR k - INR n - 1 < x <= INR k - INR n).
Proof. exact index_position_lemma. Qed.
Print Assumptions C03_index_position.
Example C03_position_ex : exists v, v_kind v = KIndex 4 /\ v_locked v = false /\ v_target v <> TNone.
Proof. exists (mkVar (KIndex 4) 0 3 (Some 0) false 1 TSingle None). cbn. repeat split; congruence. Qed.
