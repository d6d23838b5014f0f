(** C221: load case ids, one sweep of the member optimisation, members created without hinges. *)
From Verif Require Import Tac Raami_proofs Raami2_proofs Raami9_proofs.
From Verif Require Import Raami_model Raami_spec.

(** C221 *)
Theorem C221_case_id : forall i os f f', add_loadcase i os f = Some f' -> In i (lids f') /\ incl (lids f) (lids f').
Proof. exact loadcase_id_lemma. Qed.
Print Assumptions C221_case_id.
Theorem C221_empty_case : forall i f f', add_loadcase i [] f = Some f' ->
  (In i (lids f) -> lids f' = lids f) /\ (~ In i (lids f) -> lids f' = lids f ++ [i]) /\ loads f' = loads f /\ dget Nat.eqb i (cases f') = Some [].
Proof. exact empty_case_lemma. Qed.
Print Assumptions C221_empty_case.
Theorem C221_sweep : forall bestg bestm s, let r := fst (sweep bestg bestm s) in
  List.length (fst r) = List.length (fst s) /\ List.length (snd r) = List.length (snd s) /\
  (forall j, (j < List.length (fst s))%nat -> nth j (fst r) 0%nat = bestg s j) /\
  (forall j, (j < List.length (snd s))%nat -> nth j (snd r) 0%nat = bestm s j).
Proof. exact sweep_lemma. Qed.
Print Assumptions C221_sweep.
Theorem C221_fresh_members : forall os m, Forall (fun o => match o with Hnew _ None => True | _ => False end) os -> In (Hnew m None) os ->
  hinges_of (hrun os) m = (false, false).
Proof. exact fresh_members_lemma. Qed.
Print Assumptions C221_fresh_members.
Example C221_ex : (exists f, add_loadcase 4 [] (mkFrame [] [] [2]%nat []) = Some f /\ lids f = [2; 4]%nat) /\
  hinges_of (hrun [Hnew 1 None; Hnew 2 None]) 1 = (false, false).
Proof. split; [eexists; split; reflexivity|]. apply fresh_members_lemma; [repeat constructor|left; reflexivity]. Qed.

(** Finding: removing the self-weight clears the flags but keeps the loads, so every call of
    add_self_weight adds one load per member, whatever was removed before. *)
Theorem C127_history_refuted : forall n ops, let s := sw_run n ops in
  sw_on s = last ops false /\ sw_flag s = repeat (last ops false) n /\ sw_loads s = repeat (List.length (filter (fun b => b) ops)) n.
Proof. exact selfweight_history_lemma. Qed.
Print Assumptions C127_history_refuted.
Example C127_history_ex : sw_loads (sw_run 2 [true; false; true]) = [2; 2]%nat /\ sw_on (sw_run 2 [true; false]) = false.
Proof. split; reflexivity. Qed.
