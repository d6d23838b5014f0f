(** Property C354: results of the load combiners. *)
Require Import Reals List Bool Lra Lia Psatz PeanoNat.
Import ListNotations.
From Verif Require Import Base EC3_model Bool_tac EC3_proofs Plate_proofs Loads_proofs Lres_proofs.
From Verif Require Import Loads_model Lres_model Lres_spec.
Local Open Scope R_scope.

(** C354 *)
Theorem C354_winner : forall rnd c, (c_G c <> [] \/ c_Q c <> []) ->
  uls_result rnd c = bind (uls_combine c) (fun k => by_id rnd (k_loads k)) /\
  (let '(a, b, d) := sls_combine c in sls_result rnd c = bind (by_id rnd (k_loads a)) (fun ra => bind (by_id rnd (k_loads b)) (fun rb => bind (by_id rnd (k_loads d)) (fun rd => Some (ra, rb, rd))))) /\
  acc_result rnd c = by_id rnd (k_loads (acc_combine c)).
Proof. exact results_lemma. Qed.
Print Assumptions C354_winner.
Theorem C354_by_member : forall rnd ls X Y, by_id rnd ls = Some (X, Y) ->
  length X = length Y /\ acts (length X - 1) ls /\ (forall i, acts i ls -> (i < length X)%nat) /\
  (forall i, nth i X None = None <-> ~ acts i ls) /\ (forall i, nth i Y None = None <-> ~ acts i ls) /\
  (forall i, acts i ls -> nth i X None = Some (value_on rnd dx i ls) /\ nth i Y None = Some (value_on rnd dy i ls)).
Proof. exact by_id_lemma. Qed.
Print Assumptions C354_by_member.
Theorem C354_raises : forall rnd ls, by_id rnd ls = None <-> ls = [] \/ exists lf, In lf ls /\ l_ids (fst lf) = [].
Proof. exact by_id_raises_lemma. Qed.
Print Assumptions C354_raises.
Theorem C354_no_loads : forall rnd c, c_G c = [] -> c_Q c = [] -> uls_result rnd c = None /\ sls_result rnd c = None /\ acc_result rnd c = None.
Proof. exact nothing_lemma. Qed.
Print Assumptions C354_no_loads.
Theorem C354_split_adds_up : forall rnd p g q r X Y i, split_result rnd p = Some (g, q, r) -> single_result rnd p = Some (X, Y) ->
  num X i = key_num false g i + key_num false q i + key_num false r i /\ num Y i = key_num true g i + key_num true q i + key_num true r i.
Proof. exact split_sum_lemma. Qed.
Print Assumptions C354_split_adds_up.
Theorem C354_split_defined : forall rnd c p, (c_G c <> [] \/ c_Q c <> []) -> (p = fst (fst (sls_parts c)) \/ p = snd (fst (sls_parts c)) \/ p = snd (sls_parts c)) ->
  (split_result rnd p = None <-> single_result rnd p = None).
Proof. exact split_defined_lemma. Qed.
Print Assumptions C354_split_defined.
Theorem C354_service_defined : forall rnd c, (c_G c <> [] \/ c_Q c <> []) -> (forall l, In l (c_G c) \/ In l (c_Q c) -> l_ids l <> []) -> exists r, sls_result rnd c = Some r.
Proof. exact sls_defined_lemma. Qed.
Print Assumptions C354_service_defined.
Theorem C354_permanent_defined : forall rnd c kfi, c_kfi c = Some kfi -> c_G c <> [] -> (forall l, In l (c_G c) \/ In l (c_Q c) -> l_ids l <> []) ->
  (exists r, uls_result rnd c = Some r) /\ (exists r, sls_result rnd c = Some r) /\ (exists r, acc_result rnd c = Some r).
Proof. exact permanent_lemma. Qed.
Print Assumptions C354_permanent_defined.
Theorem C354_multi : forall rnd ls L cls CC kk m, multi_adds ls (new_multi cls CC kk) = Some m -> exists c, adds ls (new_combiner cls CC kk) = Some c /\ m_uls m = c /\ m_sls m = c /\ m_acc m = c /\
  multi_reduce L m = mkMulti (use_reduction L c) (use_reduction L c) (use_reduction L c) /\
  forall r, multi_result rnd m = Some r <-> uls_result rnd c = Some (fst (fst r)) /\ sls_result rnd c = Some (snd (fst r)) /\ acc_result rnd c = Some (snd r).
Proof. exact lres_multi_lemma. Qed.
Print Assumptions C354_multi.
Theorem C354_uplift_refuted : forall rnd c kfi, c_kfi c = Some kfi -> 0 <= kfi -> c_G c = [] -> (forall l, In l (c_Q c) -> l_val l <= 0 /\ 0 <= psi 0 l) -> uls_result rnd c = None.
Proof. exact uplift_lemma. Qed.
Print Assumptions C354_uplift_refuted.
Theorem C354_accidental_uplift_refuted : forall rnd c, c_G c = [] -> (forall l, In l (c_Q c) -> l_val l < 0 /\ 0 < psi 1 l /\ 0 < psi 2 l) -> acc_result rnd c = None.
Proof. exact acc_uplift_lemma. Qed.
Print Assumptions C354_accidental_uplift_refuted.
(** A permanent load on members 0 and 2, snow on member 2. *)
Example C354_ex : let g := mkLoad kLoad 4 (1, 1, 1) dy [0; 2]%nat in let s := mkLoad kSnow 2 (7/10, 4/10, 2/10) dy [2]%nat in
  by_id (fun x => x) [(g, 1); (s, 1/2)] = Some ([Some 0; None; Some 0], [Some 4; None; Some 5]).
Proof.
  cbv zeta. unfold by_id. cbn. unfold bucket. cbn. repeat f_equal; lra.
Qed.
Example C354_ex2 : let c := mkComb 4 (Some 1) 1 [] [mkLoad kWind (-2) (6/10, 2/10, 2/10) dy [0]%nat] in
  (forall l, In l (c_Q c) -> l_val l < 0 /\ 0 < psi 1 l /\ 0 < psi 2 l) /\ (forall l, In l (c_Q c) -> l_ids l <> []).
Proof. cbv zeta. split; intros l [<-|[]]; cbn. lra. discriminate. Qed.
