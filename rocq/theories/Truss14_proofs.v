(** Joints of the generated truss and its ridge joint. *)
From Verif Require Import Base EC3_model Sections_proofs Rhs_model Bool_tac.
From Verif Require Import Truss_proofs Truss3_proofs Truss4_proofs Truss5_proofs Truss6_proofs Truss7_proofs Truss8_proofs Truss10_proofs Truss12_proofs Truss13_proofs.
From Verif Require Import Truss_model Truss_spec.
Require Import Reals Lra List Bool Arith Lia.
Import ListNotations.
Local Open Scope nat_scope.

Lemma at_node_iff : forall v i j, at_node v (i, j) <-> (v = Top i \/ v = Bot j).
Proof. intros [a|a] i j; cbn [at_node fst snd]; split; [intros ->; now left|intros [E|E]; now inversion E|intros ->; now right|intros [E|E]; now inversion E]. Qed.
Lemma meeting_count : forall t v, NoDup (braces t) -> meeting t v (length (braces_at (braces t) v)).
Proof.
  intros t v N. exists (braces_at (braces t) v). split; [now apply braces_at_nodup|]. split; [reflexivity|].
  intros i j. rewrite braces_at_in, at_node_iff. tauto.
Qed.
Lemma meeting_unique : forall t v k, NoDup (braces t) -> meeting t v k -> k = length (braces_at (braces t) v).
Proof.
  intros t v k N (l & Nl & <- & H). apply Nat.le_antisymm; apply NoDup_incl_length; auto using braces_at_nodup; intros [i j] I.
  - apply braces_at_in. rewrite at_node_iff. now apply H.
  - apply braces_at_in in I. rewrite at_node_iff in I. now apply H.
Qed.

Definition own_joint (bs : list brace) (v : node) : option (jtype * node) :=
  match length (braces_at bs v) with 3 => Some (JKT, v) | 2 => Some (JK, v) | 1 => Some (JY, v) | _ => None end.
Lemma joint_loop_own : forall bs vs old, (forall v, In v vs -> length (braces_at bs v) <= 3) ->
  joint_loop bs vs old = Some (map (fun v => (v, own_joint bs v)) vs).
Proof.
  intros bs; induction vs as [|v vs IH]; intros old H; [reflexivity|]. cbn [joint_loop map]. pose proof (H v (or_introl eq_refl)) as Hv.
  unfold own_joint at 1. destruct (length (braces_at bs v)) as [|[|[|[|k]]]]; [| | | |lia]; cbn [next_joint bind];
  (rewrite IH; [reflexivity|intros; apply H; now right]).
Qed.

Lemma truss_joints_lemma : forall s tp n up edge t, (1 <= n)%nat -> (0 <= s_dx1 s)%R -> generate_topology s tp n up edge = Some t ->
  exists js, generate_joints t = Some js /\
    (forall v j, In (v, j) js -> is_node t v /\ exists k, meeting t v k /\ (k <= 3)%nat /\
      j = match class_of k with Some c => Some (c, v) | None => None end) /\
    (forall v, is_node t v -> exists j, In (v, j) js) /\ NoDup (map fst js).
Proof.
  intros s tp n up edge t Hn Hd H. pose proof (at_most_three _ _ _ _ _ _ Hn Hd H) as Le. pose proof (braces_nodup _ _ _ _ _ _ Hn Hd H) as N.
  exists (map (fun v => (v, own_joint (braces t) v)) (all_nodes t)). split; [unfold generate_joints; now apply joint_loop_own|].
  assert (An : forall v, In v (all_nodes t) <-> is_node t v).
  { intros v. unfold all_nodes. rewrite in_app_iff, !in_map_iff. split.
    - intros [(i & <- & I)|(i & <- & I)]; apply in_seq in I; cbn [is_node]; lia.
    - destruct v as [i|i]; cbn [is_node]; intros I; [left|right]; exists i; (split; [reflexivity|]); apply in_seq; lia. }
  split; [|split].
  - intros v j I. apply in_map_iff in I as (w & E & I). inversion E; subst. split; [now apply An|].
    exists (length (braces_at (braces t) v)). split; [now apply meeting_count|]. split; [apply Le|]. unfold own_joint, class_of.
    destruct (length (braces_at (braces t) v)) as [|[|[|[|k]]]]; reflexivity.
  - intros v I. exists (own_joint (braces t) v). apply in_map_iff. exists v. split; [reflexivity|now apply An].
  - rewrite map_map. cbn [fst]. rewrite map_id. unfold all_nodes. apply nodup_app.
    + apply FinFun.Injective_map_NoDup; [intros x y E; now inversion E|apply seq_NoDup].
    + apply FinFun.Injective_map_NoDup; [intros x y E; now inversion E|apply seq_NoDup].
    + intros v I J. apply in_map_iff in I as (a & <- & _). apply in_map_iff in J as (b & E & _). discriminate.
Qed.

(** The fold that finds the ridge. *)
Lemma fold_last : forall (f : nat -> bool) l r, (forall i, fold_left (fun r i => if f i then Some i else r) l r = Some i -> (r = Some i \/ (In i l /\ f i = true))) /\
  (fold_left (fun r i => if f i then Some i else r) l r = None -> r = None /\ forall i, In i l -> f i = false).
Proof.
  intros f; induction l as [|x l IH]; intros r.
  - cbn [fold_left]. split; [now left|]. intros ->. split; [reflexivity|]. intros i [].
  - cbn [fold_left]. destruct (IH (if f x then Some x else r)) as [A B]. split.
    + intros i E. destruct (A i E) as [C|(C & D)]; [|right; split; [now right|exact D]]. destruct (f x) eqn:Ex; [|now left].
      inversion C; subst. right. split; [now left|exact Ex].
    + intros E. destruct (B E) as [C D]. destruct (f x) eqn:Ex; [discriminate|]. split; [exact C|]. intros i [<-|I]; auto.
Qed.
Lemma ridge_at : forall s t i, ridge_node s t = Some i -> i < length (top_nodes t) /\
  fst (nth i (top_nodes t) (0, 0)%R) = s_L1 s /\ (length (braces_at (braces t) (Top i)) = 2 \/ length (braces_at (braces t) (Top i)) = 3).
Proof.
  intros s t i H. unfold ridge_node in H.
  destruct (fold_last (fun i => (let c := length (braces_at (braces t) (Top i)) in ((c =? 2) || (c =? 3)) && Reqb (fst (nth i (top_nodes t) (0, 0)%R)) (s_L1 s))) (seq 0 (length (top_nodes t))) None) as [A _].
  apply A in H. destruct H as [H|(H & E)]; [discriminate|]. apply in_seq in H. apply andb_true_iff in E as (E1 & E2). apply Reqb_true in E2.
  apply orb_true_iff in E1. rewrite !Nat.eqb_eq in E1. split; [lia|]. split; [exact E2|exact E1].
Qed.
Lemma ridge_none : forall s t, ridge_node s t = None -> forall i, i < length (top_nodes t) ->
  fst (nth i (top_nodes t) (0, 0)%R) = s_L1 s -> length (braces_at (braces t) (Top i)) <> 2 /\ length (braces_at (braces t) (Top i)) <> 3.
Proof.
  intros s t H i Hi E. unfold ridge_node in H.
  destruct (fold_last (fun i => (let c := length (braces_at (braces t) (Top i)) in ((c =? 2) || (c =? 3)) && Reqb (fst (nth i (top_nodes t) (0, 0)%R)) (s_L1 s))) (seq 0 (length (top_nodes t))) None) as [_ B].
  apply B in H. destruct H as [_ H]. specialize (H i ltac:(apply in_seq; lia)). cbv beta zeta in H. rewrite eqb_t, andb_true_r in H by exact E.
  apply orb_false_iff in H. rewrite !Nat.eqb_neq in H. exact H.
Qed.

(** Middle top node and its braces. *)
Lemma mid_unique : forall nt xt (L : R), (forall i, S i < nt -> (xt i < xt (S i))%R) -> forall m i, m < nt -> i < nt -> xt m = xt i -> i = m.
Proof.
  intros nt xt L O m i Hm Hi E. destruct (lt_eq_lt_dec i m) as [[C|C]|C]; [exfalso|exact C|exfalso].
  - pose proof (O i ltac:(lia)). pose proof (inc_bounds nt xt O m (S i) ltac:(lia) ltac:(lia)). lra.
  - pose proof (O m ltac:(lia)). pose proof (inc_bounds nt xt O i (S m) ltac:(lia) ltac:(lia)). lra.
Qed.

Lemma ridge_lemma : forall L dx H0 H1 tp n up edge, (0 <= dx < L)%R -> usable tp up dx n ->
  exists t, generate_topology (mkSl L L dx dx H0 H1) tp n up edge = Some t /\
    match ridge_node (mkSl L L dx dx H0 H1) t with
    | Some i => place t (Top i) = (L, H1 - H0)%R /\ (i < length (top_nodes t))%nat /\ (tp = TN -> dx = 0%R /\ up = true)
    | None => tp = TN /\ (dx <> 0%R \/ up = false)
    end.
Proof.
  intros L dx H0 H1 tp n up edge Hd U. destruct (config L dx H0 H1 tp n up edge Hd U) as (t & nt & nb & xt & xb & Et & Sh & O & Mt & Mb & N1 & N2 & Od).
  exists t. split; [exact Et|]. pose proof U as (Hn & HN & HK).
  assert (Hs : (0 <= s_dx1 (mkSl L L dx dx H0 H1))%R) by (cbn [s_dx1]; lra).
  pose proof (braces_nodup _ _ _ _ _ _ Hn Hs Et) as Nd. pose proof (braces_char _ _ _ _ _ _ Hn Hs Et) as C. cbn [s_dx1] in C.
  destruct (gen_lengths _ _ _ _ _ _ Hn Hs Et) as (Lt & Lb & _). pose proof Sh as (L1 & L2 & T & B). destruct O as (O1 & O2 & O3 & O4).
  apply Nat.odd_spec in Od. destruct Od as (k & Ek). pose proof (Mt k ltac:(lia)) as M. replace (nt - 1 - k) with k in M by lia.
  assert (Mid : xt k = L) by lra.
  assert (Only : forall i, i < length (top_nodes t) -> fst (nth i (top_nodes t) (0, 0)%R) = L -> i = k).
  { intros i Hi E. rewrite L1 in Hi. rewrite T in E by lia. cbn [fst] in E. apply (mid_unique nt xt L O3 k i); try lia. lra. }
  assert (Pk : place t (Top k) = (L, H1 - H0)%R).
  { cbn [place]. rewrite T by lia. rewrite Mid. f_equal. unfold roof. rewrite Rmin_left by lra. field. lra. }
  assert (Nt : nt = nt_of tp (Reqb dx 0) up n) by (cbn [s_dx1] in Lt; congruence).
  assert (Few : forall b, (forall x, In x (braces t) -> fst x = k -> x = b) -> ridge_node (mkSl L L dx dx H0 H1) t = None).
  { intros b Hb. destruct (ridge_node _ t) as [i|] eqn:E; [|reflexivity]. apply ridge_at in E as (Hi & E1 & E2). cbn [s_L1] in E1.
    apply Only in E1; [|exact Hi]. subst i. assert (length (braces_at (braces t) (Top k)) <= length [b]); [|simpl in *; lia].
    apply braces_at_le; [exact Nd|]. intros x I A. left. symmetry. now apply Hb. }
  assert (Many : forall b c, b <> c -> In b (braces t) -> In c (braces t) -> fst b = k -> fst c = k -> ridge_node (mkSl L L dx dx H0 H1) t = Some k).
  { intros b c D I1 I2 F1 F2. assert (G : 2 <= length (braces_at (braces t) (Top k))).
    { change 2 with (length [b; c]). apply braces_at_ge; [now apply two_nodup|]. intros x [<-|[<-|[]]]; auto. }
    pose proof (at_most_three _ _ _ _ _ _ Hn Hs Et (Top k)). destruct (ridge_node _ t) as [i|] eqn:E.
    - apply ridge_at in E as (Hi & E1 & E2). f_equal. apply Only; [exact Hi|exact E1].
    - exfalso. pose proof (ridge_none _ _ E k ltac:(lia)) as R. cbn [s_L1] in R. rewrite T in R by lia. specialize (R Mid). lia. }
  assert (Yes : ridge_node (mkSl L L dx dx H0 H1) t = Some k -> (tp = TN -> dx = 0%R /\ up = true) ->
    match ridge_node (mkSl L L dx dx H0 H1) t with
    | Some i => place t (Top i) = (L, H1 - H0)%R /\ i < length (top_nodes t) /\ (tp = TN -> dx = 0%R /\ up = true)
    | None => tp = TN /\ (dx <> 0%R \/ up = false) end).
  { intros -> K. split; [exact Pk|]. split; [lia|exact K]. }
  destruct (Req_dec dx 0) as [Z|Z]; [rewrite eqb_t in C, Nt by exact Z|rewrite eqb_f in C, Nt by exact Z].
  - destruct tp; cbn [nt_of] in Nt.
    + apply Yes; [|discriminate]. destruct up; cbn [nt_of] in Nt.
      * apply (Many (k, k - 1) (k, k)); try reflexivity; [intros E; inversion E; lia|apply C; lia|apply C; lia].
      * specialize (HK eq_refl Z eq_refl). apply (Many (k, k) (k, k + 1)); try reflexivity; [intros E; inversion E; lia|apply C; lia|apply C; lia].
    + assert (k = n) by (destruct up; cbn in Nt; lia). subst k. destruct up.
      * apply Yes; [|auto]. apply (Many (n, n) (n, n + 1)); try reflexivity; [intros E; inversion E; lia|apply C; lia|apply C; lia].
      * rewrite (Few (n, n)); [auto|]. intros [i j] I F. cbn [fst] in F. subst i. apply C in I. f_equal. lia.
    + apply Yes; [|discriminate]. destruct up; cbn [nt_of] in Nt.
      * apply (Many (k, n) (k, n + 1)); try reflexivity; [intros E; inversion E; lia|apply C; lia|apply C; lia].
      * apply (Many (k, n) (k, n + 1)); try reflexivity; [intros E; inversion E; lia|apply C; lia|apply C; lia].
  - destruct tp; cbn [nt_of] in Nt.
    + apply Yes; [|discriminate]. apply (Many (k, k) (k, k - 1)); try reflexivity; [intros E; inversion E; lia|apply C; lia|apply C; lia].
    + assert (k = n) by lia. subst k. rewrite (Few (n, n - 1)); [auto|]. intros [i j] I F. cbn [fst] in F. subst i. apply C in I. f_equal. lia.
    + apply Yes; [|discriminate]. apply (Many (k, n) (k, n - 1)); try reflexivity; [intros E; inversion E; lia|apply C; lia|apply C; lia].
Qed.
