(** C369: the load cases of a frame in the analysis. *)
From Verif Require Import Raami_proofs Lan_proofs.
From Verif Require Import Lan_model Lan_spec.
Open Scope nat_scope.

(** C369: after any sequence of additions the analysis of all load cases, if it does not raise, covers every load case
    once, with the loads that have its id, and every load of the frame acts in exactly one load case. *)
Theorem C369_every_load_once : forall ps f cols, lrun ps new_frame = Some f -> analyse_all (generate_fem f) f = Some cols ->
  map fst cols = map fst (cases f) /\ NoDup (map fst cols) /\
  (forall i ls, In (i, ls) cols -> ls = filter (fun l => Nat.eqb (o_lid l) i) (applied f) /\ ls <> []) /\
  Permutation (List.concat (map snd cols)) (applied f).
Proof. exact lan_all_lemma. Qed.
Print Assumptions C369_every_load_once.
(** C369: it raises unless there is a load case and each has a load. *)
Theorem C369_when_all : forall f, (exists cols, analyse_all (generate_fem f) f = Some cols) <->
  (cases f <> [] /\ forall i, In i (map fst (cases f)) -> exists l, In l (applied f) /\ o_lid l = i).
Proof. exact lan_ok_lemma. Qed.
Print Assumptions C369_when_all.
(** C369: loads with plain names added one by one are all analysed, unchanged apart from the name. *)
Theorem C369_plain_loads : forall ls, ls <> [] -> Forall (fun l => plain (o_name l)) ls ->
  exists f cols, lrun (map OPut ls) new_frame = Some f /\ analyse_all (generate_fem f) f = Some cols /\
    exists xs, Permutation (List.concat (map snd cols)) xs /\ Forall2 same_load xs ls.
Proof. exact lan_plain_lemma. Qed.
Print Assumptions C369_plain_loads.
(** C369: one load case. *)
Theorem C369_one_case : forall f i, ((exists cols, analyse_one (generate_fem f) f (Some i) = Some cols) <-> exists l, In l (applied f) /\ o_lid l = i) /\
  forall cols, analyse_one (generate_fem f) f (Some i) = Some cols -> cols = [(i, filter (fun l => Nat.eqb (o_lid l) i) (applied f))].
Proof. intros f i. split; [apply lan_one_lemma|apply lan_one_value]. Qed.
Print Assumptions C369_one_case.
(** C369: without an id the load case of the first load or load case added is analysed. *)
Theorem C369_default_case : forall ps p f f' g i, lrun ps new_frame = Some f -> lids f = [] -> lstep p f = Some f' ->
  (exists l, p = OPut l /\ o_lid l = i) \/ (exists os, p = OCase i os) -> forall qs, lrun qs f' = Some g ->
  analyse_one (generate_fem g) g None = analyse_one (generate_fem g) g (Some i).
Proof. exact lan_default_lemma. Qed.
Print Assumptions C369_default_case.
(** C369: the ids of the loads and the ids of the load cases are the same after any sequence of additions. *)
Theorem C369_ids_agree : forall ps f, lrun ps new_frame = Some f -> forall i, In i (lids f) <-> In i (map fst (cases f)).
Proof. exact lan_ids_lemma. Qed.
Print Assumptions C369_ids_agree.

Open Scope string_scope.
(** C369, finding: a load case without loads makes the analysis of all load cases raise. *)
Theorem C369_empty_case_refuted : exists f, lrun [OPut (ld "P" 1); OCase 7 []] new_frame = Some f /\
  List.length (applied f) = 1 /\ analyse_all (generate_fem f) f = None.
Proof. eexists. split; [vm_compute; reflexivity|]. split; vm_compute; reflexivity. Qed.
Print Assumptions C369_empty_case_refuted.
(** C369, finding: a load in two load cases belongs to the one created last; the other is left without a load and the
    analysis raises. *)
Theorem C369_shared_load_refuted : exists f, lrun [ONew (ld "P" 1); OCase 3 [0]; OCase 4 [0]] new_frame = Some f /\
  in_case f 3 0 /\ in_case f 4 0 /\ map o_lid (applied f) = [4] /\ analyse_all (generate_fem f) f = None.
Proof. eexists. split; [vm_compute; reflexivity|]. split; [exists [0]; split; [vm_compute; reflexivity|left; reflexivity]|]. split; [exists [0]; split; [vm_compute; reflexivity|left; reflexivity]|]. split; vm_compute; reflexivity. Qed.
Print Assumptions C369_shared_load_refuted.
(** C369, finding: a load case whose load has a name in use is left without loads, and the analysis raises. *)
Theorem C369_name_in_use_refuted : exists f, lrun [OPut (ld "P" 1); ONew (ld "P" 2); OCase 5 [1]] new_frame = Some f /\
  in_case f 5 1 /\ map o_what (applied f) = [1] /\ analyse_all (generate_fem f) f = None.
Proof. eexists. split; [vm_compute; reflexivity|]. split; [exists [1]; split; [vm_compute; reflexivity|left; reflexivity]|]. split; vm_compute; reflexivity. Qed.
Print Assumptions C369_name_in_use_refuted.
(** C369, finding: a load added after the finite element model was generated is in the frame but not in the analysis,
    which gives no warning. *)
Theorem C369_stale_model_refuted : exists f g cols, lrun [OPut (ld "P" 1)] new_frame = Some f /\ lrun [OPut (ld "Q" 2)] f = Some g /\
  map o_what (applied g) = [1; 2] /\ analyse_all (generate_fem f) g = Some cols /\ map o_what (List.concat (map snd cols)) = [1].
Proof. do 3 eexists. split; [vm_compute; reflexivity|]. split; [vm_compute; reflexivity|]. split; [vm_compute; reflexivity|]. split; vm_compute; reflexivity. Qed.
Print Assumptions C369_stale_model_refuted.
Example C369_ex : exists f cols, lrun [OPut (ld "P" 1); OPut (ld "P" 2); ONew (ld "Q" 3); OCase 8 [2]; OComb 9 ULS [[0; 1]; [2]]] new_frame = Some f /\
  analyse_all (generate_fem f) f = Some cols /\ map fst cols = [0; 8; 9] /\ map (fun c => map o_what (snd c)) cols = [[1; 2]; [3]; [1; 2; 3]].
Proof. do 2 eexists. split; [vm_compute; reflexivity|]. split; [vm_compute; reflexivity|]. split; vm_compute; reflexivity. Qed.
