(** Rewriting real comparisons whose outcome is known, and case splits on them. *)
From Verif Require Export Base.

Lemma leb_t a b : a <= b -> Rleb a b = true. Proof. apply Rleb_true. Qed.
Lemma leb_f a b : b < a -> Rleb a b = false. Proof. apply Rleb_false. Qed.
Lemma ltb_t a b : a < b -> Rltb a b = true. Proof. apply Rltb_true. Qed.
Lemma ltb_f a b : b <= a -> Rltb a b = false. Proof. apply Rltb_false. Qed.
Lemma eqb_t a b : a = b -> Reqb a b = true. Proof. apply Reqb_true. Qed.
Lemma eqb_f a b : a <> b -> Reqb a b = false. Proof. apply Reqb_false. Qed.
(** One case split on a comparison in the goal. *)
Ltac cmp1 :=
  match goal with
  | |- context [Rleb ?a ?b] => let E := fresh "E" in destruct (Rleb a b) eqn:E; [apply Rleb_true in E | apply Rleb_false in E]
  | |- context [Rltb ?a ?b] => let E := fresh "E" in destruct (Rltb a b) eqn:E; [apply Rltb_true in E | apply Rltb_false in E]
  | |- context [Reqb ?a ?b] => let E := fresh "E" in destruct (Reqb a b) eqn:E; [apply Reqb_true in E | apply Reqb_false in E]
  end.
Ltac cmp := repeat (cmp1; cbn [andb orb negb] in *).
