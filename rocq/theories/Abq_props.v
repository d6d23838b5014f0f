(** C373: export of a frame to Abaqus. *)
Require Import Reals List Bool Lra Lia PeanoNat Permutation Sorted. Import ListNotations.
From Verif Require Import Base EC3_model EC3_proofs Abq_proofs.
From Verif Require Import Abq_model Abq_spec.
Local Open Scope R_scope.

(** Node lines: node k is line k, with its number one more than its nid and its coordinates in metres. *)
Theorem C373_nodes ns : length (node_lines ns) = length ns /\
  forall k n, nth_error ns k = Some n -> exists X Y Z, nth_error (node_lines ns) k = Some (S (an_nid n), (X, Y, Z)) /\
    1000 * X = an_x n /\ Y = 0 /\ 1000 * Z = an_y n.
Proof.
  unfold node_lines. split; [apply map_length|]. intros k n H. rewrite (map_nth_error _ _ _ H), Nat.add_1_r.
  eexists _, _, _. split; [reflexivity|]. lra.
Qed.
Print Assumptions C373_nodes.

(** Element lines: exactly the elements that are not excluded, each once, with the numbers of its nodes. *)
Theorem C373_elements els ecc :
  NoDup (map fst (element_lines els ecc)) /\
  forall k a b, In (k, (a, b)) (element_lines els ecc) <->
    exists e, (e < length els)%nat /\ ~ In e ecc /\ k = S e /\
      a = S (ae_n1 (nth e els (mkAe 0 0 []))) /\ b = S (ae_n2 (nth e els (mkAe 0 0 []))).
Proof.
  split; [apply abq_elements_nodup|]. intros k a b. rewrite abq_elements. split; intros [e [H R]]; exists e; (split; [|exact R]).
  - apply nth_error_Some. congruence.
  - apply nth_error_nth'. exact H.
Qed.
Print Assumptions C373_elements.

(** Rows of a set: read one after the other they are the numbers of the set, and each has 1 to 16 of them. *)
Theorem C373_rows l : concat (rows16 l) = l /\ (forall r, In r (rows16 l) -> (1 <= length r <= 16)%nat) /\
  (forall k r, nth_error (rows16 l) k = Some r -> r = firstn 16 (skipn (16 * k) l)).
Proof.
  destruct (abq_rows16 l) as [A B]. split; [exact A|]. split; [intros r Hr; exact (proj1 (Forall_forall _ _) B r Hr)|].
  intros k r H. exact (abq_rows_full (S (length l)) 0 l ltac:(lia) k r H).
Qed.
Print Assumptions C373_rows.

(** Element sets of the part: one per included member (in one row), gap sets of two elements or more, the sets of the
    options, and the release sets. *)
Theorem C373_sets els mems opt sets : part_sets els mems opt = Some sets ->
  map (fun s => (as_name s, concat (as_rows s))) (firstn (length sets - 2) sets) =
    map (fun m => (NMember (am_name m), map S (am_els m))) (filter (fun m => existsb (Nat.eqb (am_name m)) (ao_incl opt)) mems)
    ++ (if (1 <? length (ao_top opt))%nat then [(NTop, map S (ao_top opt))] else [])
    ++ (if (1 <? length (ao_bottom opt))%nat then [(NBottom, map S (ao_bottom opt))] else [])
    ++ map (fun s => (NSet (fst s), map S (snd s))) (ao_sets opt) /\
  (forall s r, In s sets -> In r (as_rows s) -> (forall m, as_name s <> NMember m) -> (1 <= length r <= 16)%nat).
Proof.
  intros H. apply abq_part in H. destruct H as [s1 [s2 [E _]]].
  set (A := map (fun m => mkAs _ _) _) in E. set (B := if (1 <? length (ao_top opt))%nat then _ else _) in E.
  set (C := if (1 <? length (ao_bottom opt))%nat then _ else _) in E. set (D := map (fun s => mkAs _ _) _) in E. split.
  - replace sets with ((A ++ B ++ C ++ D) ++ [mkAs NS1 (rows16 s1); mkAs NS2 (rows16 s2)]) by (rewrite E, <- !app_assoc; reflexivity).
    rewrite (app_length (A ++ B ++ C ++ D)). cbn [length]. rewrite Nat.add_sub, firstn_app, Nat.sub_diag, firstn_all, firstn_O, app_nil_r.
    rewrite !map_app. subst A B C D. rewrite !map_map. cbn [as_name as_rows concat]. clear E.
    apply f_equal2; [apply map_ext; intros m; rewrite app_nil_r; reflexivity|].
    apply f_equal2; [destruct (1 <? length (ao_top opt))%nat; [|reflexivity]; cbn [map as_name as_rows]; rewrite (proj1 (abq_rows16 _)); reflexivity|].
    apply f_equal2; [destruct (1 <? length (ao_bottom opt))%nat; [|reflexivity]; cbn [map as_name as_rows]; rewrite (proj1 (abq_rows16 _)); reflexivity|].
    apply map_ext. intros s. rewrite (proj1 (abq_rows16 _)). reflexivity.
  - assert (K : forall n l r, In r (as_rows (mkAs n (rows16 l))) -> (1 <= length r <= 16)%nat).
    { intros n l r Hr. exact (proj1 (Forall_forall _ _) (proj2 (abq_rows16 l)) r Hr). }
    intros s r Hs Hr Hn. rewrite E in Hs. rewrite !in_app_iff in Hs. destruct Hs as [Hs|[Hs|[Hs|[Hs|Hs]]]].
    + subst A. apply in_map_iff in Hs. destruct Hs as [m [<- _]]. exfalso. apply (Hn (am_name m)). reflexivity.
    + subst B. destruct (1 <? length (ao_top opt))%nat; [|destruct Hs]. destruct Hs as [<-|[]]. exact (K _ _ _ Hr).
    + subst C. destruct (1 <? length (ao_bottom opt))%nat; [|destruct Hs]. destruct Hs as [<-|[]]. exact (K _ _ _ Hr).
    + subst D. apply in_map_iff in Hs. destruct Hs as [m [<- _]]. exact (K _ _ _ Hr).
    + destruct Hs as [<-|[<-|[]]]; exact (K _ _ _ Hr).
Qed.
Print Assumptions C373_sets.

(** Release sets: exactly the elements with a release that belong to an included member of two elements or more; an
    element released at both ends is only in the first set. *)
Theorem C373_releases els mems opt sets : part_sets els mems opt = Some sets ->
  exists s1 s2, skipn (length sets - 2) sets = [s1; s2] /\ as_name s1 = NS1 /\ as_name s2 = NS2 /\
  (forall k, In k (concat (as_rows s1)) <-> exists e, in_long_member mems (ao_incl opt) e /\ k = S e /\
     In 2%nat (ae_rel (nth e els (mkAe 0 0 [])))) /\
  (forall k, In k (concat (as_rows s2)) <-> exists e, in_long_member mems (ao_incl opt) e /\ k = S e /\
     ~ In 2%nat (ae_rel (nth e els (mkAe 0 0 []))) /\ In 5%nat (ae_rel (nth e els (mkAe 0 0 [])))).
Proof.
  intros H. apply abq_part in H. destruct H as [s1 [s2 [E [A B]]]].
  exists (mkAs NS1 (rows16 s1)), (mkAs NS2 (rows16 s2)). split; [|split; [reflexivity|split; [reflexivity|]]].
  - rewrite E, !app_assoc. match goal with |- skipn (length (?a ++ _) - 2) _ = _ => set (L := a) end.
    rewrite app_length. cbn [length]. rewrite Nat.add_sub, skipn_app, skipn_all, Nat.sub_diag. reflexivity.
  - cbn [as_rows]. rewrite !(proj1 (abq_rows16 _)). split; assumption.
Qed.
Print Assumptions C373_releases.

(** Two members: one of two elements with hinges at its ends, one of a single element with two hinges. *)
Definition abq_els : list aelem := [mkAe 0 1 [2]; mkAe 1 2 [5]; mkAe 2 3 [2; 5]]%nat.
Definition abq_opt (incl top : list nat) (mpc : list (nat * nat)) : aopts := mkAo incl [] top [] [] mpc 0 1.
Example C373_sets_ex : part_sets abq_els [mkAm 7 [0; 1]; mkAm 8 [2]]%nat (abq_opt [7; 8]%nat [1]%nat []) =
  Some [mkAs (NMember 7) [[1; 2]]; mkAs (NMember 8) [[3]]; mkAs NS1 [[1]]; mkAs NS2 [[2]]]%nat.
Proof. vm_compute. reflexivity. Qed.
Example C373_elements_ex : element_lines abq_els [1]%nat = [(1, (1, 2)); (3, (3, 4))]%nat.
Proof. reflexivity. Qed.
Example C373_rows_ex : map (@length nat) (rows16 (seq 1 40)) = [16; 16; 8]%nat.
Proof. reflexivity. Qed.

(** Finding: hinges at the ends of a member of one element, and the second hinge of an element with two, are lost. *)
Theorem C373_hinge_exported_refuted :
  (exists els mems opt sets e, part_sets els mems opt = Some sets /\ (exists m, In m mems /\ In (am_name m) (ao_incl opt) /\ In e (am_els m)) /\
     In 2%nat (ae_rel (nth e els (mkAe 0 0 []))) /\ forall s, In s sets -> as_name s = NS1 -> ~ In (S e) (concat (as_rows s))) /\
  (exists els mems opt sets e, part_sets els mems opt = Some sets /\ in_long_member mems (ao_incl opt) e /\
     In 5%nat (ae_rel (nth e els (mkAe 0 0 []))) /\ forall s, In s sets -> as_name s = NS2 -> ~ In (S e) (concat (as_rows s))).
Proof.
  split.
  - eexists abq_els, [mkAm 7 [0; 1]; mkAm 8 [2]]%nat, (abq_opt [7; 8]%nat [] []), _, 2%nat. split; [vm_compute; reflexivity|].
    split; [exists (mkAm 8 [2]%nat); cbn; tauto|]. split; [cbn; tauto|].
    intros s [<-|[<-|[<-|[<-|[]]]]]; cbn; try discriminate. intros _ [H|[]]. discriminate.
  - eexists abq_els, [mkAm 7 [1; 2]]%nat, (abq_opt [7]%nat [] []), _, 2%nat. split; [vm_compute; reflexivity|].
    split; [exists (mkAm 7 [1; 2]%nat); cbn; intuition lia|]. split; [cbn; tauto|].
    intros s [<-|[<-|[<-|[]]]]; cbn; try discriminate. intros _ [H|[]]. discriminate.
Qed.
Print Assumptions C373_hinge_exported_refuted.

(** Finding: without a list of included members no member gets an element set (and so no section), and no hinge is
    exported. *)
Theorem C373_no_included_members els mems opt sets : part_sets els mems opt = Some sets -> ao_incl opt = [] ->
  (forall s m, In s sets -> as_name s <> NMember m) /\
  (forall s k, In s sets -> as_name s = NS1 \/ as_name s = NS2 -> ~ In k (concat (as_rows s))).
Proof.
  intros H I. apply abq_part in H. destruct H as [s1 [s2 [E [A B]]]]. rewrite I in *.
  assert (F : forall l : list amember, filter (fun m => existsb (Nat.eqb (am_name m)) []) l = []) by (induction l; [reflexivity|exact IHl]).
  rewrite F in E. cbn [map app] in E.
  assert (N : forall e, ~ in_long_member mems [] e) by (intros e [m [_ [[] _]]]).
  assert (G : forall s, In s sets -> (exists i, as_name s = NSet i) \/ as_name s = NTop \/ as_name s = NBottom \/ s = mkAs NS1 (rows16 s1) \/ s = mkAs NS2 (rows16 s2)).
  { intros s Hs. rewrite E, !in_app_iff in Hs. destruct Hs as [Hs|[Hs|[Hs|Hs]]].
    - destruct (1 <? length (ao_top opt))%nat; [|destruct Hs]. destruct Hs as [<-|[]]. auto.
    - destruct (1 <? length (ao_bottom opt))%nat; [|destruct Hs]. destruct Hs as [<-|[]]. auto.
    - apply in_map_iff in Hs. destruct Hs as [x [<- _]]. left. eexists. reflexivity.
    - destruct Hs as [<-|[<-|[]]]; auto. }
  split.
  - intros s m Hs. destruct (G s Hs) as [[i K]|[K|[K|[->| ->]]]]; [rewrite K|rewrite K|rewrite K|cbn|cbn]; discriminate.
  - intros s k Hs O. destruct (G s Hs) as [[i K]|[K|[K|[->| ->]]]]; [rewrite K in O; destruct O; discriminate|rewrite K in O; destruct O; discriminate|rewrite K in O; destruct O; discriminate| |];
      cbn [as_rows]; rewrite (proj1 (abq_rows16 _)); [rewrite A|rewrite B]; intros [e [K _]]; exact (N e K).
Qed.
Print Assumptions C373_no_included_members.

(** Finding: a single gap element is left out. *)
Theorem C373_single_gap els mems opt sets g : part_sets els mems opt = Some sets -> ao_top opt = [g] ->
  forall s, In s sets -> as_name s <> NTop.
Proof.
  intros H T s Hs. apply abq_part in H. destruct H as [s1 [s2 [E _]]]. rewrite T in E. rewrite E, !in_app_iff in Hs.
  destruct Hs as [Hs|[Hs|[Hs|[Hs|Hs]]]].
  - apply in_map_iff in Hs. destruct Hs as [x [<- _]]. discriminate.
  - destruct Hs.
  - destruct (1 <? length (ao_bottom opt))%nat; [|destruct Hs]. destruct Hs as [<-|[]]. discriminate.
  - apply in_map_iff in Hs. destruct Hs as [x [<- _]]. discriminate.
  - destruct Hs as [<-|[<-|[]]]; discriminate.
Qed.
Print Assumptions C373_single_gap.

(** Nodes held in the plane: all but the slaves; the export raises exactly if a slave is no node or is named twice. *)
Theorem C373_plane_nodes ns mpc : NoDup (map an_nid ns) ->
  (forall rows, plane_nodes ns mpc = Some rows ->
     NoDup (concat rows) /\ forall k, In k (concat rows) <-> (exists n, In n ns /\ k = S (an_nid n)) /\ ~ In k (map fst mpc)) /\
  ((exists rows, plane_nodes ns mpc = Some rows) <->
     NoDup (map fst mpc) /\ forall c, In c mpc -> exists n, In n ns /\ fst c = S (an_nid n)).
Proof.
  intros N. set (l := map (fun n => an_nid n + 1)%nat ns).
  assert (Nl : NoDup l).
  { subst l. rewrite <- (map_map an_nid (fun i => (i + 1)%nat)). apply FinFun.Injective_map_NoDup; [intros a b; lia|exact N]. }
  assert (Il : forall k, In k l <-> exists n, In n ns /\ k = S (an_nid n)).
  { intros k. subst l. rewrite in_map_iff. split; intros [n [A B]]; exists n; split; auto; lia. }
  unfold plane_nodes. fold l. split; [|split].
  - intros rows. destruct (fold_opt _ mpc l) as [r|] eqn:E; [|discriminate]. cbn [option_map]. intros H; injection H as <-.
    destruct (abq_mpc_fold mpc l r Nl E) as [A [_ [_ B]]]. rewrite (proj1 (abq_rows16 _)). split; [exact A|]. intros k. rewrite B, Il. reflexivity.
  - intros [rows H]. destruct (fold_opt _ mpc l) as [r|] eqn:E; [|discriminate]. destruct (abq_mpc_fold mpc l r Nl E) as [_ [A [B _]]].
    split; [exact A|]. intros c Hc. apply Il, B, Hc.
  - intros [A B]. destruct (abq_mpc_some mpc l Nl A) as [r E]; [intros c Hc; apply Il, B, Hc|]. rewrite E. eexists. reflexivity.
Qed.
Print Assumptions C373_plane_nodes.
Example C373_plane_ex : plane_nodes [mkAn 0 0 0; mkAn 1 1 0; mkAn 2 2 0] [(2, 1)]%nat = Some [[1; 3]]%nat.
Proof. reflexivity. Qed.

(** Monitored nodes: the positions, counted from zero, of the requested number of nodes closest to the place. *)
Theorem C373_monitored ns opt : 
  length (monitored ns opt) = min (ao_n opt) (length ns) /\ NoDup (monitored ns opt) /\
  (forall i, In i (monitored ns opt) -> (i < length ns)%nat) /\
  (forall i j d, In i (monitored ns opt) -> (j < length ns)%nat -> ~ In j (monitored ns opt) ->
     Rabs (an_x (nth i ns d) - ao_x opt) <= Rabs (an_x (nth j ns d) - ao_x opt)).
Proof.
  unfold monitored. set (ks := map _ ns). destruct (abq_argsort ks) as [P S]. assert (L : length ks = length ns) by apply map_length.
  rewrite L in P. assert (ND : NoDup (argsort ks)) by (apply (Permutation_NoDup (Permutation_sym P)), seq_NoDup).
  assert (Sp := firstn_skipn (ao_n opt) (argsort ks)).
  split; [rewrite firstn_length, (Permutation_length P), seq_length; reflexivity|].
  split; [exact (abq_nodup_firstn _ _ ND)|].
  assert (Lt : forall i, In i (firstn (ao_n opt) (argsort ks)) -> (i < length ns)%nat).
  { intros i Hi. assert (H : In i (argsort ks)) by (rewrite <- Sp; apply in_or_app; left; exact Hi).
    apply (Permutation_in _ P) in H. apply in_seq in H. lia. }
  split; [exact Lt|]. intros i j d Hi Hj Hn.
  assert (In j (skipn (ao_n opt) (argsort ks))) as Hs.
  { assert (H : In j (argsort ks)) by (apply (Permutation_in _ (Permutation_sym P)), in_seq; lia).
    rewrite <- Sp in H. apply in_app_or in H. destruct H; [contradiction|assumption]. }
  assert (K := abq_sorted_firstn _ _ _ i j S Hi Hs). cbn beta in K.
  assert (V : forall k, (k < length ns)%nat -> nth k ks 0 = Rabs (an_x (nth k ns d) - ao_x opt)).
  { intros k Hk. subst ks. rewrite (nth_indep _ 0 (Rabs (an_x d - ao_x opt))) by (rewrite map_length; exact Hk).
    exact (map_nth (fun n => Rabs (an_x n - ao_x opt)) ns d k). }
  rewrite !V in K by (auto; apply Lt; exact Hi). exact K.
Qed.
Print Assumptions C373_monitored.

(** Finding: these are not the numbers of the nodes in the file: the monitored node is another one, or none. *)
Theorem C373_monitored_number_refuted : exists ns opt k,
  (forall i n, nth_error ns i = Some n -> an_nid n = i) /\ monitored ns opt = [k] /\
  (forall n, In n ns -> S (an_nid n) <> k).
Proof.
  exists [mkAn 0 0 0; mkAn 1 1 0], (abq_opt [] [] []), 0%nat. split; [|split].
  - intros [|[|i]] n H; cbn in H; [injection H as <-; reflexivity|injection H as <-; reflexivity|destruct i; discriminate].
  - unfold monitored, abq_opt. cbn [ao_n ao_x map an_x].
    replace (0 - 0) with 0 by lra. replace (1 - 0) with 1 by lra. rewrite Rabs_R0, Rabs_R1. unfold argsort.
    cbn [length seq fold_right insert_by nth]. assert (E : Rltb 1 0 = false) by (apply Rltb_false; lra). rewrite E. reflexivity.
  - intros n _ H. discriminate.
Qed.
Print Assumptions C373_monitored_number_refuted.

(** Supports: exported boundary conditions hold, of the degrees of freedom in the plane, what the supports hold, if all
    supports are fixed, hinged or vertical rollers. *)
Theorem C373_supports sup : (forall s, In s sup -> fst s <> KX /\ fst s <> KGeneral) ->
  forall n dof, held (support_sets sup) n dof <-> exists k i, In (k, i) sup /\ n = S i /\ kind_holds k dof.
Proof.
  intros H n dof. rewrite abq_held. split.
  - intros [k [i [A [B [C D]]]]]. exists k, i. destruct (H _ A) as [H1 H2]. cbn in H1, H2. destruct k; cbn in *; tauto.
  - intros [k [i [A [B D]]]]. exists k, i. destruct (H _ A) as [H1 H2]. cbn in H1, H2. destruct k; cbn in *; tauto.
Qed.
Print Assumptions C373_supports.

(** Every support of one of the four types is exported with the code of its type; no other. *)
Theorem C373_support_codes sup n c : (exists b, In b (support_sets sup) /\ In n (fst b) /\ snd b = c) <->
  exists i, n = S i /\ ((In (KHinged, i) sup /\ c = PINNED) \/ (In (KY, i) sup /\ c = CODE3) \/
    (In (KX, i) sup /\ c = XSYMM) \/ (In (KFixed, i) sup /\ c = ENCASTRE)).
Proof.
  rewrite abq_support_in. split.
  - intros [k [i [A [B [C D]]]]]. exists i. split; [exact B|]. destruct k; cbn in D; subst c; tauto.
  - intros [i [-> [[A ->]|[[A ->]|[[A ->]|[A ->]]]]]]; [exists KHinged, i|exists KY, i|exists KX, i|exists KFixed, i];
      (split; [exact A|split; [reflexivity|split; [discriminate|reflexivity]]]).
Qed.
Print Assumptions C373_support_codes.

(** Finding: a support held in x only is exported as one that also holds the rotation, a support of the base class is
    not exported. *)
Theorem C373_supports_refuted i :
  held (support_sets [(KX, i)]) (S i) 2 /\ ~ kind_holds KX 2 /\ (forall n dof, ~ held (support_sets [(KGeneral, i)]) n dof).
Proof.
  split; [apply abq_held; exists KX, i; cbn; split; [auto|split; [reflexivity|split; [discriminate|auto]]]|]. split; [cbn; discriminate|].
  intros n dof H. apply abq_held in H. destruct H as [k [j [[E|[]] [_ [C _]]]]]. injection E as <- _. congruence.
Qed.
Print Assumptions C373_supports_refuted.
Example C373_supports_ex : support_sets [(KHinged, 0); (KY, 4); (KHinged, 2)]%nat = [([1; 3], PINNED); ([5], CODE3)]%nat.
Proof. reflexivity. Qed.
