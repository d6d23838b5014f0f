(** Case splitting on nested maxima, minima and absolute values. *)
From Verif Require Export Base.

Lemma Rmax_facts a b : a <= Rmax a b /\ b <= Rmax a b /\ (Rmax a b = a \/ Rmax a b = b).
Proof. unfold Rmax; destruct (Rle_dec a b); lra. Qed.
Lemma Rmin_facts a b : Rmin a b <= a /\ Rmin a b <= b /\ (Rmin a b = a \/ Rmin a b = b).
Proof. unfold Rmin; destruct (Rle_dec a b); lra. Qed.
Lemma Rabs_facts a : (0 <= a /\ Rabs a = a) \/ (a < 0 /\ Rabs a = - a).
Proof. unfold Rabs; destruct (Rcase_abs a); lra. Qed.

Ltac rmx1 a b :=
  let m := fresh "m" in let H := fresh "H" in
  pose proof (Rmax_facts a b) as H; set (m := Rmax a b) in *; clearbody m;
  destruct H as (?&?&[?|?]).
Ltac rmn1 a b :=
  let m := fresh "m" in let H := fresh "H" in
  pose proof (Rmin_facts a b) as H; set (m := Rmin a b) in *; clearbody m;
  destruct H as (?&?&[?|?]).
Ltac rabs1 a :=
  let m := fresh "m" in let H := fresh "H" in
  pose proof (Rabs_facts a) as H; set (m := Rabs a) in *; clearbody m;
  destruct H as [[? ?]|[? ?]].
Ltac rmx :=
  repeat match goal with
  | |- context [Rmax ?a ?b] => rmx1 a b
  | |- context [Rmin ?a ?b] => rmn1 a b
  | |- context [Rabs ?a] => rabs1 a
  | H : context [Rmax ?a ?b] |- _ => rmx1 a b
  | H : context [Rmin ?a ?b] |- _ => rmn1 a b
  | H : context [Rabs ?a] |- _ => rabs1 a
  end.
