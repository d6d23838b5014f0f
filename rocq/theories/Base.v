(** Shared definitions: Python-like helpers over exact reals and lists.
    Python floats are modelled by [R]; see DESIGN.md for the trusted base. *)
From Coq Require Export Reals Lra Lia List Arith ZArith Bool Permutation Psatz.
Export ListNotations.
Open Scope R_scope.

(** Boolean comparisons, used to transcribe Python conditions. *)
Definition Rleb (a b : R) : bool := if Rle_dec a b then true else false.
Definition Rltb (a b : R) : bool := if Rlt_dec a b then true else false.
Definition Reqb (a b : R) : bool := if Req_EM_T a b then true else false.

Lemma Rleb_true a b : Rleb a b = true <-> a <= b.
Proof. unfold Rleb; destruct (Rle_dec a b); split; intros; auto; discriminate. Qed.
Lemma Rleb_false a b : Rleb a b = false <-> b < a.
Proof. unfold Rleb; destruct (Rle_dec a b); split; intros; auto; try discriminate; lra. Qed.
Lemma Rltb_true a b : Rltb a b = true <-> a < b.
Proof. unfold Rltb; destruct (Rlt_dec a b); split; intros; auto; discriminate. Qed.
Lemma Rltb_false a b : Rltb a b = false <-> b <= a.
Proof. unfold Rltb; destruct (Rlt_dec a b); split; intros; auto; try discriminate; lra. Qed.
Lemma Reqb_true a b : Reqb a b = true <-> a = b.
Proof. unfold Reqb; destruct (Req_EM_T a b); split; intros; auto; discriminate. Qed.
Lemma Reqb_false a b : Reqb a b = false <-> a <> b.
Proof. unfold Reqb; destruct (Req_EM_T a b); split; intros; auto; try discriminate; contradiction. Qed.

(** Python's [sum] of a list, and numpy's 1-D [dot]. *)
Definition Rsum (l : list R) : R := fold_right Rplus 0 l.
Fixpoint dot (a x : list R) : R :=
  match a, x with
  | ai :: a', xi :: x' => ai * xi + dot a' x'
  | _, _ => 0
  end.

Lemma Rsum_app l1 l2 : Rsum (l1 ++ l2) = Rsum l1 + Rsum l2.
Proof. unfold Rsum; induction l1 as [|a l IH]; simpl; lra. Qed.
Lemma Rsum_cons a l : Rsum (a :: l) = a + Rsum l.
Proof. reflexivity. Qed.
Lemma Rsum_perm l1 l2 : Permutation l1 l2 -> Rsum l1 = Rsum l2.
Proof. intros H; induction H; simpl; try lra. Qed.
Lemma Rsum_nonneg l : Forall (fun x => 0 <= x) l -> 0 <= Rsum l.
Proof. intros H; induction H; simpl; lra. Qed.
Lemma Rsum_scale c l : Rsum (map (fun x => c * x) l) = c * Rsum l.
Proof. induction l as [|a l IH]; simpl; lra. Qed.

(** Python's max/min on floats are [Rmax]/[Rmin]; a tactic to split them. *)
Ltac rmm :=
  repeat match goal with
  | |- context [Rmax ?a ?b] => unfold Rmax at 1; destruct (Rle_dec a b)
  | |- context [Rmin ?a ?b] => unfold Rmin at 1; destruct (Rle_dec a b)
  | H : context [Rmax ?a ?b] |- _ => unfold Rmax at 1 in H; destruct (Rle_dec a b)
  | H : context [Rmin ?a ?b] |- _ => unfold Rmin at 1 in H; destruct (Rle_dec a b)
  end.

Ltac rdec :=
  repeat match goal with
  | |- context [if Rle_dec ?a ?b then _ else _] => destruct (Rle_dec a b)
  | |- context [if Rlt_dec ?a ?b then _ else _] => destruct (Rlt_dec a b)
  | |- context [if Req_EM_T ?a ?b then _ else _] => destruct (Req_EM_T a b)
  end.

(** The value [max(lb, min(x, ub))]. *)
Definition clamp (lb ub x : R) : R := Rmax lb (Rmin x ub).

Lemma clamp_range lb ub x : lb <= ub -> lb <= clamp lb ub x <= ub.
Proof. unfold clamp; intros; rmm; lra. Qed.
Lemma clamp_id lb ub x : lb <= x <= ub -> clamp lb ub x = x.
Proof. unfold clamp; intros; rmm; lra. Qed.
Lemma clamp_low lb ub x : lb <= ub -> x <= lb -> clamp lb ub x = lb.
Proof. unfold clamp; intros; rmm; lra. Qed.
Lemma clamp_high lb ub x : lb <= ub -> ub <= x -> clamp lb ub x = ub.
Proof. unfold clamp; intros; rmm; lra. Qed.
Lemma clamp_idem lb ub x : lb <= ub -> clamp lb ub (clamp lb ub x) = clamp lb ub x.
Proof. intros; apply clamp_id, clamp_range; auto. Qed.
Lemma clamp_nearest lb ub x y : lb <= y <= ub -> Rabs (x - clamp lb ub x) <= Rabs (x - y).
Proof. unfold clamp; intros; rmm; unfold Rabs; repeat destruct (Rcase_abs _); lra. Qed.

(** Floor and Python's [int(x)] (truncation towards zero). *)
Definition floorZ (x : R) : Z := Int_part x.
Definition truncZ (x : R) : Z := if Rle_dec 0 x then Int_part x else (- Int_part (- x))%Z.

Lemma floorZ_spec x : IZR (floorZ x) <= x < IZR (floorZ x) + 1.
Proof. unfold floorZ; destruct (base_Int_part x); lra. Qed.
Lemma floorZ_unique x z : IZR z <= x < IZR z + 1 -> floorZ x = z.
Proof.
  intros [H1 H2]; destruct (floorZ_spec x) as [H3 H4].
  assert (IZR z < IZR (floorZ x + 1)) by (rewrite plus_IZR; lra).
  assert (IZR (floorZ x) < IZR (z + 1)) by (rewrite plus_IZR; lra).
  apply lt_IZR in H; apply lt_IZR in H0; lia.
Qed.
Lemma floorZ_IZR z : floorZ (IZR z) = z.
Proof. apply floorZ_unique; lra. Qed.

Lemma Forall2_length {A B} (P : A -> B -> Prop) l l' : Forall2 P l l' -> length l = length l'.
Proof. intros F; induction F; simpl; congruence. Qed.

(** Python 3 [round(x)] / [round(x, n)]: nearest, ties to even (on exact reals). *)
Definition roundZ (x : R) : Z :=
  let f := floorZ x in
  if Rlt_dec (x - IZR f) (1/2) then f
  else if Rlt_dec (1/2) (x - IZR f) then (f + 1)%Z
  else if Z.even f then f else (f + 1)%Z.
Definition roundn (n : nat) (x : R) : R := IZR (roundZ (x * 10 ^ n)) / 10 ^ n.

Lemma roundZ_err x : Rabs (x - IZR (roundZ x)) <= 1/2.
Proof.
  unfold roundZ; pose proof (floorZ_spec x) as [A B].
  destruct (Rlt_dec (x - IZR (floorZ x)) (1/2)).
  - rewrite Rabs_pos_eq; lra.
  - destruct (Rlt_dec (1/2) (x - IZR (floorZ x))).
    + rewrite plus_IZR, Rabs_left1; lra.
    + destruct (Z.even (floorZ x)); [rewrite Rabs_pos_eq; lra|].
      rewrite plus_IZR, Rabs_left1; lra.
Qed.

Lemma roundZ_nearest x z : Rabs (x - IZR (roundZ x)) <= Rabs (x - IZR z).
Proof.
  destruct (Z.eq_dec z (roundZ x)) as [->|D]; [lra|].
  pose proof (roundZ_err x) as E.
  assert (H : 1 <= Rabs (IZR z - IZR (roundZ x))).
  { rewrite <- minus_IZR. unfold Rabs. destruct (Rcase_abs _) as [C|C].
    - apply lt_IZR in C. rewrite <- opp_IZR. apply IZR_le. lia.
    - apply Rge_le, le_IZR in C. apply IZR_le. lia. }
  pose proof (Rabs_triang (IZR z - x) (x - IZR (roundZ x))) as T.
  replace (IZR z - x + (x - IZR (roundZ x))) with (IZR z - IZR (roundZ x)) in T by ring.
  rewrite (Rabs_minus_sym (IZR z) x) in T. pose proof (roundZ_err x). lra.
Qed.

Lemma roundZ_IZR z : roundZ (IZR z) = z.
Proof.
  unfold roundZ. rewrite floorZ_IZR. destruct (Rlt_dec _ _) as [|C]; auto. exfalso; apply C; lra.
Qed.

(** Setting one entry of an array. *)
Fixpoint set_nth {A} (i : nat) (v : A) (l : list A) : list A :=
  match l, i with
  | [], _ => []
  | _ :: r, O => v :: r
  | a :: r, S i' => a :: set_nth i' v r
  end.

Lemma set_nth_length {A} i (v : A) l : length (set_nth i v l) = length l.
Proof. revert i; induction l; intros [|i]; simpl; auto. Qed.
Lemma nth_set_nth {A} i j (v d : A) l : (i < length l)%nat ->
  nth j (set_nth i v l) d = if Nat.eqb j i then v else nth j l d.
Proof.
  revert i j; induction l as [|a l IH]; intros [|i] [|j] H; simpl in *; try lia; auto.
  apply IH; lia.
Qed.

(** Python's max/min of a list; [None] is the ValueError on an empty one. *)
Definition list_max (l : list R) : option R :=
  match l with [] => None | a :: r => Some (fold_left Rmax r a) end.
Definition list_min (l : list R) : option R :=
  match l with [] => None | a :: r => Some (fold_left Rmin r a) end.

Lemma fold_Rmax_ge r a : a <= fold_left Rmax r a /\ forall x, In x r -> x <= fold_left Rmax r a.
Proof.
  revert a; induction r as [|b r IH]; intros a; simpl; [split; [lra|intros x []]|].
  destruct (IH (Rmax a b)) as [H1 H2]. pose proof (Rmax_l a b); pose proof (Rmax_r a b).
  split; [lra|]. intros x [<-|Hx]; [lra|auto].
Qed.
Lemma fold_Rmax_in r a : fold_left Rmax r a = a \/ In (fold_left Rmax r a) r.
Proof.
  revert a; induction r as [|b r IH]; intros a; simpl; auto.
  destruct (IH (Rmax a b)) as [H|H]; auto. rewrite H. unfold Rmax; destruct (Rle_dec a b); auto.
Qed.
Lemma fold_Rmin_le r a : fold_left Rmin r a <= a /\ forall x, In x r -> fold_left Rmin r a <= x.
Proof.
  revert a; induction r as [|b r IH]; intros a; simpl; [split; [lra|intros x []]|].
  destruct (IH (Rmin a b)) as [H1 H2]. pose proof (Rmin_l a b); pose proof (Rmin_r a b).
  split; [lra|]. intros x [<-|Hx]; [lra|auto].
Qed.
Lemma fold_Rmin_in r a : fold_left Rmin r a = a \/ In (fold_left Rmin r a) r.
Proof.
  revert a; induction r as [|b r IH]; intros a; simpl; auto.
  destruct (IH (Rmin a b)) as [H|H]; auto. rewrite H. unfold Rmin; destruct (Rle_dec a b); auto.
Qed.
Lemma list_max_spec l m : list_max l = Some m <-> In m l /\ forall x, In x l -> x <= m.
Proof.
  destruct l as [|a r]; simpl; [split; [discriminate|intros [[] _]]|].
  destruct (fold_Rmax_ge r a) as [G1 G2]. pose proof (fold_Rmax_in r a) as I. split.
  - intros E; injection E as <-. split; [destruct I; [left|right]; auto|]. intros x [<-|H]; auto.
  - intros [Hm Hx]. f_equal. apply Rle_antisym.
    + apply Hx. destruct I as [->|I]; auto.
    + destruct Hm as [<-|Hm]; auto.
Qed.
Lemma list_min_spec l m : list_min l = Some m <-> In m l /\ forall x, In x l -> m <= x.
Proof.
  destruct l as [|a r]; simpl; [split; [discriminate|intros [[] _]]|].
  destruct (fold_Rmin_le r a) as [G1 G2]. pose proof (fold_Rmin_in r a) as I. split.
  - intros E; injection E as <-. split; [destruct I; [left|right]; auto|]. intros x [<-|H]; auto.
  - intros [Hm Hx]. f_equal. apply Rle_antisym.
    + destruct Hm as [<-|Hm]; auto.
    + apply Hx. destruct I as [->|I]; auto.
Qed.
Lemma list_max_none l : list_max l = None <-> l = [].
Proof. destruct l; simpl; split; intros; auto; discriminate. Qed.
Lemma list_min_none l : list_min l = None <-> l = [].
Proof. destruct l; simpl; split; intros; auto; discriminate. Qed.

Lemma Rsum_map_le {A} (f g : A -> R) l : (forall a, In a l -> f a <= g a) -> Rsum (map f l) <= Rsum (map g l).
Proof.
  induction l as [|a l IH]; intros H; simpl; [lra|].
  pose proof (H a (or_introl eq_refl)). specialize (IH (fun b Hb => H b (or_intror Hb))). lra.
Qed.
