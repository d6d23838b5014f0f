From Coq Require Import String Ascii NArith ZArith List Bool Lia.
From Verif Require Import Cat_model Cat_spec Cat4_spec.
Import ListNotations.
Local Open Scope string_scope.

Definition wholeb (z : Z) : bool := ((z mod 10 =? 0) && (0 <=? z))%Z%bool.
Lemma wholeb_ok z : wholeb z = true -> whole z (dec (Z.to_N (z / 10))).
Proof.
  unfold wholeb. rewrite andb_true_iff, Z.eqb_eq, Z.leb_le. intros [A B]. exists (Z.to_N (z / 10)). split; [|reflexivity].
  rewrite Z2N.id by (apply Z.div_pos; lia). pose proof (Z.div_mod z 10). lia.
Qed.
Lemma chs_names_lemma k d t : In (k, (d, t)) chs_t -> k = "CHS " ++ one_decimal d ++ "X" ++ one_decimal t.
Proof.
  assert (C : forallb (fun p => let '(d, t) := snd p in String.eqb (fst p) ("CHS " ++ one_decimal d ++ "X" ++ one_decimal t)) chs_t = true) by (vm_compute; reflexivity).
  intros Hi. rewrite forallb_forall in C. specialize (C _ Hi). cbn [fst snd] in C. apply String.eqb_eq, C.
Qed.
Lemma shs_names_lemma k h b t r : In (k, (h, b, t, r)) shs_t -> exists s, whole h s /\ whole b s /\ k = "SHS " ++ s ++ "X" ++ s ++ "X" ++ one_decimal t.
Proof.
  assert (C : forallb (fun p => let '(h, b, t, r) := snd p in let s := dec (Z.to_N (h / 10)) in
    (wholeb h && (h =? b)%Z && String.eqb (fst p) ("SHS " ++ s ++ "X" ++ s ++ "X" ++ one_decimal t))%bool) shs_t = true) by (vm_compute; reflexivity).
  intros Hi. rewrite forallb_forall in C. specialize (C _ Hi). cbn [fst snd] in C. rewrite !andb_true_iff in C. destruct C as [[C1 C2] C3].
  apply Z.eqb_eq in C2. subst b. exists (dec (Z.to_N (h / 10))). split; [apply wholeb_ok, C1|]. split; [apply wholeb_ok, C1|]. apply String.eqb_eq, C3.
Qed.
Lemma rhs_names_lemma k h b t r : In (k, (h, b, t, r)) rhs_t -> exists s u, whole h s /\ whole b u /\ k = "RHS " ++ s ++ "x" ++ u ++ "x" ++ one_decimal t.
Proof.
  assert (C : forallb (fun p => let '(h, b, t, r) := snd p in
    (wholeb h && wholeb b && String.eqb (fst p) ("RHS " ++ dec (Z.to_N (h / 10)) ++ "x" ++ dec (Z.to_N (b / 10)) ++ "x" ++ one_decimal t))%bool) rhs_t = true) by (vm_compute; reflexivity).
  intros Hi. rewrite forallb_forall in C. specialize (C _ Hi). cbn [fst snd] in C. rewrite !andb_true_iff in C. destruct C as [[C1 C2] C3].
  exists (dec (Z.to_N (h / 10))), (dec (Z.to_N (b / 10))). split; [apply wholeb_ok, C1|]. split; [apply wholeb_ok, C2|]. apply String.eqb_eq, C3.
Qed.
