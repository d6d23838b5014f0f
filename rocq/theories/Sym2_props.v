(** Properties C341-C342: profiles of symmetric members, members of several spans. *)
From Verif Require Import Base EC3_model Bool_tac EC3_proofs Plate_proofs Sym_proofs Sym2_proofs Sym3_proofs.
From Verif Require Import Sym_model Sym_spec.
Require Import Reals List Bool Lra Lia Psatz PeanoNat.
Import ListNotations.
Local Open Scope R_scope.

(** C341 *)
Theorem C341_last_given : forall pr l sec, (forall a b, pr a = Some b -> pr b = Some a) ->
  exists sec', set_profiles (fun _ => Single) pr sec l = Some sec' /\
    (forall k, sec' k = last_given pr k (sec k) l).
Proof. exact set_profiles_lemma. Qed.
Print Assumptions C341_last_given.
Theorem C341_pairs_equal : forall pr l sec, (forall a b, pr a = Some b -> pr b = Some a) ->
  exists sec', set_profiles (fun _ => Single) pr sec l = Some sec' /\
    forall a b, pr a = Some b -> (sec a = sec b \/ exists e, In e l /\ (fst e = a \/ fst e = b)) -> sec' a = sec' b.
Proof. exact pair_sections_lemma. Qed.
Print Assumptions C341_pairs_equal.
Theorem C341_sweep : forall pr best n sec, (forall a b, pr a = Some b -> pr b = Some a /\ a <> b /\ (a < n)%nat) ->
  exists sec', pair_sweep (fun _ => Single) pr best [] sec (seq 0 n) = Some sec' /\
    forall k, (k < n)%nat -> sec' k = best (match pr k with Some q => Nat.min k q | None => k end).
Proof. exact pair_sweep_lemma. Qed.
Print Assumptions C341_sweep.
Theorem C341_spans_refuted : forall pr best sec k q, pr k = Some q -> pr q = Some k -> (k < q)%nat ->
  exists sec', pair_sweep (fun _ => Multi) pr best [] sec [k; q] = Some sec' /\ sec' k = best k /\ sec' q = sec q.
Proof.
  intros pr best sec k q E _ H. cbn [pair_sweep isin existsb]. unfold set_profile. cbn [bind]. rewrite E. cbn [app isin existsb].
  assert (T : isin q [k; q] = true) by (apply isin_iff; simpl; auto). unfold isin in T. cbn [existsb] in T. unfold isin. cbn [existsb]. rewrite T.
  eexists. split; [reflexivity|]. cbv beta. rewrite Nat.eqb_refl. split; auto. destruct (Nat.eqb_spec q k); auto. lia.
Qed.
Print Assumptions C341_spans_refuted.
Theorem C341_mixed_refuted : exists kd pr sec, pr 0%nat = Some 1%nat /\ pr 1%nat = Some 0%nat /\ set_profile kd pr sec 0 7 = None
  /\ exists sec', set_profile kd pr sec 1 7 = Some sec' /\ sec' 0%nat <> sec' 1%nat.
Proof.
  exists (fun k => match k with 0%nat => Single | _ => Multi end), (fun k => match k with 0%nat => Some 1%nat | 1%nat => Some 0%nat | _ => None end), (fun _ => 3%nat).
  split; [reflexivity|]. split; [reflexivity|]. split; [reflexivity|]. eexists. split; [reflexivity|]. cbn. discriminate.
Qed.
Print Assumptions C341_mixed_refuted.
Example C341_ex : option_map (fun s => (s 0, s 1, s 2)%nat)
  (set_profiles (fun _ => Single) (fun k => match k with 0 => Some 2 | 2 => Some 0 | _ => None end)%nat (fun _ => 9%nat) [(0, 5); (1, 6); (2, 7)]%nat) = Some (7, 6, 7)%nat.
Proof. reflexivity. Qed.

(** C342 *)
Theorem C342_never_longer : forall ns L, span_length ns = Some L -> 0 <= L <= path_length ns.
Proof. exact span_short_lemma. Qed.
Print Assumptions C342_never_longer.
Theorem C342_straight : forall o d ts, fst d * fst d + snd d * snd d = 1 -> ts <> [] -> rising ts ->
  span_length (along_ray o d ts) = Some (path_length (along_ray o d ts)).
Proof. exact span_straight_lemma. Qed.
Print Assumptions C342_straight.
Theorem C342_local_point : forall o d t u ts, fst d * fst d + snd d * snd d = 1 -> rising (t :: u :: ts) -> t < u -> forall loc,
  let ns := along_ray o d (t :: u :: ts) in
  span_to_global ns loc = Some (let s := t + loc * (last ts u - t) in (fst o + s * fst d, snd o + s * snd d)).
Proof. exact span_end_lemma. Qed.
Print Assumptions C342_local_point.
Theorem C342_back : forall a b t loc L, a <> b -> span_length (a :: b :: t) = Some L -> L <> 0 ->
  bind (span_to_global (a :: b :: t) loc) (span_to_local (a :: b :: t)) = Some (Rabs loc).
Proof. exact span_round_lemma. Qed.
Print Assumptions C342_back.
Theorem C342_nodes : forall t nel a b, length nel = S (length t) -> (forall n, In n nel -> (0 < n)%nat) ->
  let l := span_nodes (a :: b :: t) nel in
  length l = S (fold_right Nat.add 0%nat nel) /\ hd (0, 0) l = a /\ last l (0, 0) = last (b :: t) b /\
  (forall p, In p (a :: b :: t) -> In p l).
Proof. exact span_nodes_lemma. Qed.
Print Assumptions C342_nodes.
Theorem C342_weight : forall A rho o d ts, fst d * fst d + snd d * snd d = 1 -> ts <> [] -> rising ts ->
  span_weight A rho (along_ray o d ts) = Some (A * path_length (along_ray o d ts) * rho).
Proof. intros. unfold span_weight. rewrite span_straight_lemma by auto. reflexivity. Qed.
Print Assumptions C342_weight.
Theorem C342_bent_refuted : exists ns L w, span_length ns = Some L /\ span_weight 1 1 ns = Some w /\ L < path_length ns /\ w < path_length ns
  /\ span_to_global ns 1 <> Some (last ns (0, 0)).
Proof.
  exists [(0, 0); (3, 0); (3, 4)], 5, 5.
  assert (E : span_length [(0, 0); (3, 0); (3, 4)] = Some 5).
  { cbn. f_equal. unfold sdist; cbn [fst snd]. replace (_ + _) with (5 * 5) by ring. apply sqrt_square; lra. }
  assert (P : path_length [(0, 0); (3, 0); (3, 4)] = 7).
  { cbn. replace (Rsqr (3 - 0) + Rsqr (0 - 0)) with (3 * 3) by (unfold Rsqr; ring). replace (Rsqr (3 - 3) + Rsqr (4 - 0)) with (4 * 4) by (unfold Rsqr; ring). rewrite !sqrt_square by lra. ring. }
  split; [exact E|]. split. unfold span_weight. rewrite E. cbn [option_map]. f_equal; ring. split; [lra|]. split; [lra|].
  unfold span_to_global. rewrite E. cbn [bind fst snd last]. intro H. injection H as H1 H2. lra.
Qed.
Print Assumptions C342_bent_refuted.
Example C342_ex : length (span_nodes [(0, 0); (3, 0); (8, 0)] [2; 3]%nat) = 6%nat /\ rising [0; 3; 8].
Proof. split. reflexivity. cbn. lra. Qed.
