(** No brace is made twice, at most three braces meet at a node, joints and the ridge joint. *)
From Verif Require Import Base EC3_model Sections_proofs Rhs_model Bool_tac.
From Verif Require Import Truss_proofs Truss3_proofs Truss4_proofs Truss5_proofs Truss6_proofs Truss7_proofs Truss8_proofs Truss10_proofs.
From Verif Require Import Truss_model Truss_spec.
Require Import Reals Lra List Bool Arith Lia.
Import ListNotations.
Local Open Scope nat_scope.

Lemma nodup_app : forall {A} (a b : list A), NoDup a -> NoDup b -> (forall x, In x a -> In x b -> False) -> NoDup (a ++ b).
Proof.
  intros A; induction a as [|x a IH]; intros b Ha Hb D; [exact Hb|]. inversion Ha; subst. cbn [app]. constructor.
  - rewrite in_app_iff. intros [I|I]; [contradiction|]. apply (D x); [now left|exact I].
  - apply IH; auto. intros y I J. apply (D y); [now right|exact J].
Qed.
Lemma nodup_flat_key : forall (key : brace -> nat) (f : nat -> list brace) l, NoDup l -> (forall i, In i l -> NoDup (f i)) ->
  (forall i b, In i l -> In b (f i) -> key b = i) -> NoDup (flat_map f l).
Proof.
  intros key f; induction l as [|x l IH]; intros Hl Hf Hk; [constructor|]. inversion Hl; subst. cbn [flat_map]. apply nodup_app.
  - apply Hf. now left.
  - apply IH; auto; intros; [apply Hf|apply Hk]; auto; now right.
  - intros b I J. apply in_flat_map in J as (y & Iy & J). apply Hk in I; [|now left]. apply Hk in J; [|now right]. congruence.
Qed.
Lemma nodup_zip : forall a b, NoDup a -> NoDup (zip_idx a b).
Proof.
  unfold zip_idx. induction a as [|x a IH]; intros b H; [constructor|]. destruct b as [|y b]; [constructor|]. inversion H; subst. cbn [combine]. constructor.
  - intros I. apply in_combine_l in I. contradiction.
  - now apply IH.
Qed.
Lemma nodup_map_evens : forall k a, NoDup (map (fun m => a + 2 * m) (seq 0 k)).
Proof. intros. apply FinFun.Injective_map_NoDup; [intros x y; lia|apply seq_NoDup]. Qed.

Lemma two_nodup : forall (x y : brace), x <> y -> NoDup [x; y].
Proof. intros. constructor; [intros [E|[]]; congruence|constructor; [intros []|constructor]]. Qed.
Lemma three_nodup : forall (x y z : brace), x <> y -> x <> z -> y <> z -> NoDup [x; y; z].
Proof. intros. constructor; [intros [E|[E|[]]]; congruence|now apply two_nodup]. Qed.

Lemma braces_nodup : forall s tp n up edge t, (1 <= n)%nat -> (0 <= s_dx1 s)%R -> generate_topology s tp n up edge = Some t -> NoDup (braces t).
Proof.
  intros s tp n up edge t Hn Hd H. destruct (gen_lengths _ _ _ _ _ _ Hn Hd H) as (_ & _ & ->).
  destruct (Req_dec (s_dx1 s) 0) as [Z|Z]; [rewrite eqb_t by exact Z|rewrite eqb_f by exact Z].
  - destruct tp; cbn [nt_of nb_of].
    + unfold K_braces. rewrite eqb_t by exact Z. apply nodup_app.
      * destruct up.
        -- apply nodup_flat_key with (key := fst); [apply seq_NoDup| |].
           ++ intros i Hi. apply in_seq in Hi. apply two_nodup. intros E; inversion E; lia.
           ++ intros i b _ [<-|[<-|[]]]; reflexivity.
        -- apply nodup_flat_key with (key := snd); [apply seq_NoDup| |].
           ++ intros i Hi. apply in_seq in Hi. apply two_nodup. intros E; inversion E; lia.
           ++ intros i b _ [<-|[<-|[]]]; reflexivity.
      * destruct edge; [|constructor]. apply two_nodup. destruct up; intros E; inversion E; lia.
      * intros b I J. destruct edge; [|contradiction]. destruct up; apply in_flat_seq in I as (m & Hm & [<-|[<-|[]]]);
          destruct J as [E|[E|[]]]; inversion E; lia.
    + unfold N_braces. rewrite eqb_t by exact Z. cbv zeta. rewrite !tl_seq, !skipn_seq, !slice_seq, !removelast_seq. apply nodup_app.
      * destruct edge; apply nodup_zip, seq_NoDup.
      * destruct up; (apply nodup_app; [apply nodup_zip, seq_NoDup|apply nodup_zip, seq_NoDup|]); intros [i j] I J;
          apply in_zip_seq in I as (m & Hm & -> & ->); apply in_zip_seq in J as (m' & Hm' & E1 & E2); lia.
      * intros [i j] I J. assert (i = j) by (destruct edge; apply in_zip_seq in I as (m & Hm & -> & ->); lia).
        destruct up; apply in_app_iff in J; destruct J as [J|J]; apply in_zip_seq in J as (m' & Hm' & E1 & E2); lia.
    + unfold KT_braces. rewrite eqb_t by exact Z. cbv zeta. rewrite !tl_seq, !skipn_seq, !removelast_seq. destruct up.
      * replace (4 * n + 3) with (2 * (2 * n + 1) + 1) by lia. rewrite evens_seq.
        replace (2 * (2 * n + 1) + 1 - 2) with (2 * (2 * n) + 1) by lia. rewrite evens_seq.
        assert (V : forall i j, In (i, j) (if edge then zip_idx (map (fun m => 0 + 2 * m) (seq 0 (2 * n + 1 + 1))) (seq 0 (2 * n + 2))
              else zip_idx (map (fun m => 0 + 2 + 2 * m) (seq 0 (2 * n + 1))) (seq (S 0) (2 * n + 2 - 1 - 1))) -> i = 2 * j).
        { intros i j I. destruct edge; apply in_zip_evens in I as (m & Hm & -> & ->); lia. }
        apply nodup_app; [destruct edge; apply nodup_zip, nodup_map_evens| |].
        -- apply nodup_app; [constructor; [intros []|constructor]| |].
           ++ apply nodup_app.
              ** apply nodup_flat_key with (key := snd); [apply seq_NoDup| |].
                 --- intros i Hi. apply two_nodup. intros E; inversion E; lia.
                 --- intros i b _ [<-|[<-|[]]]; reflexivity.
              ** constructor; [intros []|constructor].
              ** intros b I [<-|[]]. apply in_flat_seq in I as (m & Hm & [E|[E|[]]]); inversion E; lia.
           ++ intros b [<-|[]] J. apply in_app_iff in J. destruct J as [J|[E|[]]]; [|inversion E; lia].
              apply in_flat_seq in J as (m & Hm & [E|[E|[]]]); inversion E; lia.
        -- intros [i j] I J. apply V in I. subst i. cbn [app In] in J. destruct J as [E|J]; [inversion E; lia|]. apply in_app_iff in J.
           destruct J as [J|[E|[]]]; [|inversion E; lia]. apply in_flat_seq in J as (m & Hm & [E|[E|[]]]); inversion E; lia.
      * apply nodup_app.
        -- destruct edge; [|constructor]. apply two_nodup. intros E; inversion E; lia.
        -- apply nodup_flat_key with (key := snd); [apply seq_NoDup| |].
           ++ intros i Hi. apply in_seq in Hi. apply three_nodup; intros E; inversion E; lia.
           ++ intros i b _ [<-|[<-|[<-|[]]]]; reflexivity.
        -- intros b I J. destruct edge; [|contradiction]. apply in_flat_seq in J as (m & Hm & [<-|[<-|[<-|[]]]]); destruct I as [E|[E|[]]]; inversion E; lia.
  - destruct tp; cbn [nt_of nb_of].
    + unfold K_braces. rewrite eqb_f by exact Z. apply nodup_flat_key with (key := snd); [apply seq_NoDup| |].
      * intros i Hi. apply two_nodup. intros E; inversion E; lia.
      * intros i b _ [<-|[<-|[]]]; reflexivity.
    + unfold N_braces. rewrite eqb_f by exact Z. cbv zeta. rewrite !tl_seq, !skipn_seq, !slice_seq, !removelast_seq. apply nodup_app; [apply nodup_zip, seq_NoDup| |].
      * apply nodup_app; [apply nodup_zip, seq_NoDup|apply nodup_zip, seq_NoDup|]. intros [i j] I J.
        apply in_zip_seq in I as (m & Hm & -> & ->); apply in_zip_seq in J as (m' & Hm' & E1 & E2); lia.
      * intros [i j] I J. apply in_zip_seq in I as (m & Hm & -> & ->). apply in_app_iff in J; destruct J as [J|J]; apply in_zip_seq in J as (m' & Hm' & E1 & E2); lia.
    + unfold KT_braces. rewrite eqb_f by exact Z. cbv zeta. apply nodup_flat_key with (key := snd); [apply seq_NoDup| |].
      * intros i Hi. apply three_nodup; intros E; inversion E; lia.
      * intros i b _ [<-|[<-|[<-|[]]]]; reflexivity.
Qed.

(** The braces of a generated truss, by node. *)
Lemma braces_char : forall s tp n up edge t, 1 <= n -> (0 <= s_dx1 s)%R -> generate_topology s tp n up edge = Some t ->
  forall i j, In (i, j) (braces t) <->
  match tp with
  | TK => if Reqb (s_dx1 s) 0 then
            if up then (1 <= i <= 2 * n + 1 /\ (j = i - 1 \/ j = i)) \/ (edge = true /\ ((i = 0 /\ j = 0) \/ (i = 2 * n + 2 /\ j = 2 * n + 1)))
            else (1 <= j <= 2 * n /\ (i = j - 1 \/ i = j)) \/ (edge = true /\ ((i = 0 /\ j = 0) \/ (i = 2 * n /\ j = 2 * n + 1)))
          else j < 2 * n /\ (i = j \/ i = j + 1)
  | TN => if Reqb (s_dx1 s) 0 then
            (i = j /\ i <= 2 * n /\ (edge = true \/ 1 <= i < 2 * n)) \/
            (if up then (i = j + 1 /\ j < n) \/ (j = i + 1 /\ n <= i < 2 * n)
             else (j = i + 1 /\ i < n) \/ (i = j + 1 /\ n <= j < 2 * n))
          else (i = j + 1 /\ j < 2 * n - 1) \/ (i = j /\ j < n) \/ (i = j + 2 /\ n <= j + 1 < 2 * n)
  | TKT => if Reqb (s_dx1 s) 0 then
             if up then (i = 2 * j /\ j <= 2 * n + 1 /\ (edge = true \/ 1 <= j <= 2 * n)) \/
               (i = 2 * j + 1 /\ j <= 2 * n) \/ (i + 1 = 2 * j /\ 1 <= j <= 2 * n + 1)
             else (1 <= j <= 2 * n /\ (i + 2 = 2 * j \/ i + 1 = 2 * j \/ i = 2 * j)) \/ (edge = true /\ ((i = 0 /\ j = 0) \/ (i = 4 * n /\ j = 2 * n + 1)))
           else j < 2 * n /\ (i = 2 * j \/ i = 2 * j + 1 \/ i = 2 * j + 2)
  end.
Proof.
  intros s tp n up edge t Hn Hd H i j. destruct (gen_lengths _ _ _ _ _ _ Hn Hd H) as (_ & _ & ->).
  destruct (Req_dec (s_dx1 s) 0) as [Z|Z]; [rewrite eqb_t by exact Z|rewrite eqb_f by exact Z].
  - destruct tp; cbn [nt_of nb_of]; [destruct up|destruct up|destruct up]; cbn [nt_of nb_of].
    + now apply K_up_braces.
    + now apply K_down_braces.
    + now apply (N_zero_braces (s_dx1 s) n true).
    + now apply (N_zero_braces (s_dx1 s) n false).
    + now apply KT_up_braces.
    + now apply KT_down_braces.
  - destruct tp; cbn [nt_of nb_of]; [apply K_dx_braces|apply N_dx_braces|apply KT_dx_braces]; auto.
Qed.

Definition at_node (v : node) (b : brace) : Prop := match v with Top i => fst b = i | Bot j => snd b = j end.
Lemma braces_at_in : forall bs v b, In b (braces_at bs v) <-> In b bs /\ at_node v b.
Proof.
  intros bs v b. unfold braces_at. rewrite filter_In. destruct v; cbn [at_node]; rewrite Nat.eqb_eq; tauto.
Qed.
Lemma braces_at_nodup : forall bs v, NoDup bs -> NoDup (braces_at bs v).
Proof. intros. unfold braces_at. now apply NoDup_filter. Qed.
Lemma braces_at_le : forall bs v l, NoDup bs -> (forall b, In b bs -> at_node v b -> In b l) -> length (braces_at bs v) <= length l.
Proof.
  intros bs v l N H. apply NoDup_incl_length; [now apply braces_at_nodup|]. intros b I. apply braces_at_in in I as [I A]. now apply H.
Qed.
Lemma braces_at_ge : forall bs v l, NoDup l -> (forall b, In b l -> In b bs /\ at_node v b) -> length l <= length (braces_at bs v).
Proof. intros bs v l N H. apply NoDup_incl_length; [exact N|]. intros b I. apply braces_at_in. now apply H. Qed.

(** At most three braces meet at a node. *)
Lemma at_most_three : forall s tp n up edge t, (1 <= n)%nat -> (0 <= s_dx1 s)%R -> generate_topology s tp n up edge = Some t ->
  forall v, (length (braces_at (braces t) v) <= 3)%nat.
Proof.
  intros s tp n up edge t Hn Hd H v. pose proof (braces_nodup _ _ _ _ _ _ Hn Hd H) as N. pose proof (braces_char _ _ _ _ _ _ Hn Hd H) as C.
  assert (P : forall a b c : nat * nat, (forall x, In x (braces t) -> at_node v x -> x = a \/ x = b \/ x = c) -> length (braces_at (braces t) v) <= 3).
  { intros a b c K. apply (braces_at_le (braces t) v [a; b; c] N). intros x I A. destruct (K x I A) as [->|[->| ->]]; simpl; auto. }
  destruct (Req_dec (s_dx1 s) 0) as [Z|Z]; [rewrite eqb_t in C by exact Z|rewrite eqb_f in C by exact Z].
  - destruct tp.
    + destruct up, v as [v|v].
      * apply (P (v, v - 1) (v, v) (v, 2 * n + 1)). intros [i j] I A. cbn [at_node fst snd] in A. subst. apply C in I.
        destruct (Nat.eq_dec j v) as [->|]; [auto|]. destruct (Nat.eq_dec j (v - 1)) as [->|]; [auto|]. right; right. f_equal; lia.
      * apply (P (v, v) (v + 1, v) (0, v)). intros [i j] I A. cbn [at_node fst snd] in A. subst. apply C in I.
        destruct (Nat.eq_dec i v) as [->|]; [auto|]. destruct (Nat.eq_dec i (v + 1)) as [->|]; [auto|]. right; right. f_equal; lia.
      * apply (P (v, v) (v, v + 1) (v, 0)). intros [i j] I A. cbn [at_node fst snd] in A. subst. apply C in I.
        destruct (Nat.eq_dec j v) as [->|]; [auto|]. destruct (Nat.eq_dec j (v + 1)) as [->|]; [auto|]. right; right. f_equal; lia.
      * apply (P (v, v) (v - 1, v) (2 * n, v)). intros [i j] I A. cbn [at_node fst snd] in A. subst. apply C in I.
        destruct (Nat.eq_dec i v) as [->|]; [auto|]. destruct (Nat.eq_dec i (v - 1)) as [->|]; [auto|]. right; right. f_equal; lia.
    + destruct v as [v|v].
      * apply (P (v, v) (v, v + 1) (v, v - 1)). intros [i j] I A. cbn [at_node fst snd] in A. subst. apply C in I.
        destruct (Nat.eq_dec j v) as [->|]; [auto|]. destruct (Nat.eq_dec j (v + 1)) as [->|]; [auto|]. right; right. f_equal. destruct up; lia.
      * apply (P (v, v) (v + 1, v) (v - 1, v)). intros [i j] I A. cbn [at_node fst snd] in A. subst. apply C in I.
        destruct (Nat.eq_dec i v) as [->|]; [auto|]. destruct (Nat.eq_dec i (v + 1)) as [->|]; [auto|]. right; right. f_equal. destruct up; lia.
    + destruct up, v as [v|v].
      * apply (P (v, v / 2) (v, (v + 1) / 2) (v, v / 2)). intros [i j] I A. cbn [at_node fst snd] in A. subst. apply C in I.
        destruct I as [(E & _)|[(E & _)|(E & _)]].
        -- left. f_equal. subst. rewrite Nat.mul_comm, Nat.div_mul; lia.
        -- left. f_equal. subst. replace (2 * j + 1) with (1 + j * 2) by lia. rewrite Nat.div_add by lia. reflexivity.
        -- right; left. f_equal. rewrite E, Nat.mul_comm, Nat.div_mul; lia.
      * apply (P (2 * v, v) (2 * v + 1, v) (2 * v - 1, v)). intros [i j] I A. cbn [at_node fst snd] in A. subst. apply C in I.
        destruct I as [(E & _)|[(E & _)|(E & _)]]; [left|right; left|right; right]; f_equal; lia.
      * apply (P (v, (v + 2) / 2) (v, (v + 1) / 2) (v, if v =? 0 then 0 else if v =? 4 * n then 2 * n + 1 else 0)). intros [i j] I A. cbn [at_node fst snd] in A. subst. apply C in I.
        destruct (Nat.eq_dec j (2 * n + 1)) as [->|N1].
        { right; right. f_equal. rewrite if_neq by lia. rewrite if_eq by lia. reflexivity. }
        destruct (Nat.eq_dec j 0) as [->|N2]; [right; right; f_equal; rewrite if_eq by lia; reflexivity|].
        destruct I as [(R & [E|[E|E]])|(_ & E)]; [left; f_equal; rewrite E, Nat.mul_comm, Nat.div_mul; lia|right; left; f_equal; rewrite E, Nat.mul_comm, Nat.div_mul; lia| |lia].
        right; left. f_equal. subst. replace (2 * j + 1) with (1 + j * 2) by lia. rewrite Nat.div_add by lia. reflexivity.
      * apply (P (2 * v - 2, v) (2 * v - 1, v) (if v =? 0 then 0 else if v =? 2 * n + 1 then 4 * n else 2 * v, v)). intros [i j] I A. cbn [at_node fst snd] in A. subst. apply C in I.
        destruct (Nat.eq_dec v 0) as [->|N1]; [right; right; f_equal; rewrite if_eq by lia; lia|].
        destruct (Nat.eq_dec v (2 * n + 1)) as [->|N2]; [right; right; f_equal; rewrite if_neq by lia; rewrite if_eq by lia; lia|].
        destruct I as [(R & [E|[E|E]])|(_ & E)]; [left; f_equal; lia|right; left; f_equal; lia|right; right; f_equal; rewrite !if_neq by lia; lia|lia].
  - destruct tp, v as [v|v].
    + apply (P (v, v) (v, v - 1) (v, v)). intros [i j] I A. cbn [at_node fst snd] in A. subst. apply C in I.
      destruct (Nat.eq_dec j v) as [->|]; [auto|]. right; left. f_equal. lia.
    + apply (P (v, v) (v + 1, v) (v, v)). intros [i j] I A. cbn [at_node fst snd] in A. subst. apply C in I.
      destruct (Nat.eq_dec i v) as [->|]; [auto|]. right; left. f_equal. lia.
    + apply (P (v, v) (v, v - 1) (v, v - 2)). intros [i j] I A. cbn [at_node fst snd] in A. subst. apply C in I.
      destruct (Nat.eq_dec j v) as [->|]; [auto|]. destruct (Nat.eq_dec j (v - 1)) as [->|]; [auto|]. right; right. f_equal. lia.
    + apply (P (v, v) (v + 1, v) (v + 2, v)). intros [i j] I A. cbn [at_node fst snd] in A. subst. apply C in I.
      destruct (Nat.eq_dec i v) as [->|]; [auto|]. destruct (Nat.eq_dec i (v + 1)) as [->|]; [auto|]. right; right. f_equal. lia.
    + apply (P (v, v / 2) (v, v / 2 - 1) (v, v / 2)). intros [i j] I A. cbn [at_node fst snd] in A. subst. apply C in I.
      destruct I as (_ & [E|[E|E]]); [left|left|right; left]; f_equal; subst.
      * rewrite Nat.mul_comm, Nat.div_mul; lia.
      * replace (2 * j + 1) with (1 + j * 2) by lia. rewrite Nat.div_add by lia. reflexivity.
      * replace (2 * j + 2) with ((j + 1) * 2) by lia. rewrite Nat.div_mul; lia.
    + apply (P (2 * v, v) (2 * v + 1, v) (2 * v + 2, v)). intros [i j] I A. cbn [at_node fst snd] in A. subst. apply C in I.
      destruct I as (_ & [E|[E|E]]); subst; auto.
Qed.
