(** Proofs about the semi-rigid beam, releases and the matrix cache. *)
From Verif Require Import Tac Beam_spec Fem2_proofs Beam_proofs.

Ltac rb := first [apply Rltb_true; lra | apply Rltb_false; lra | apply Rleb_true; lra | apply Rleb_false; lra
  | apply Reqb_true; lra | apply Reqb_false; lra | apply Reqb_false; intros ?; lra].

(** ---------- semi-rigid beam ---------- *)
(** Closed form of the bending part: g is E I / L, c1 and c2 the flexibility ratios. *)
Definition sr_closed (g L c1 c2 : R) : mat :=
  let d := sr_delta c1 c2 in
  let vv := 12 * g * (1 + c1 + c2) / (L ^ 2 * d) in
  let v1 := 6 * g * (1 + 2 * c2) / (L * d) in
  let v2 := 6 * g * (1 + 2 * c1) / (L * d) in
  let t1 := 4 * g * (1 + 3 * c2) / d in
  let t2 := 4 * g * (1 + 3 * c1) / d in
  let t12 := 2 * g / d in
  mrows [[vv; v1; - vv; v2]; [v1; t1; - v1; t12]; [- vv; - v1; vv; - v2]; [v2; t12; - v2; t2]].

Lemma delta_pos c1 c2 : 0 <= c1 -> 0 <= c2 -> 1 <= sr_delta c1 c2.
Proof. intros. unfold sr_delta. nra. Qed.

Lemma kRigid_pos : 0 < kRigid. Proof. unfold kRigid. apply pow_lt; lra. Qed.
Lemma kHinge_pos : 0 < kHinge. Proof. unfold kHinge. apply Rinv_0_lt_compat, pow_lt; lra. Qed.
Lemma kHR : kHinge < kRigid.
Proof.
  unfold kHinge, kRigid. apply Rlt_trans with 1.
  - rewrite <- Rinv_1. apply Rinv_lt_contravar; [|]; simpl; lra.
  - rewrite <- (pow1 20) at 1. simpl. lra.
Qed.
Lemma gamma_cases E I L r : 0 < E -> 0 < I -> 0 < L -> 0 < r <= kRigid ->
  (r = kRigid /\ sr_gamma E I L r = 0 /\ Rltb r kRigid = false) \/
  (r < kRigid /\ 0 < sr_gamma E I L r /\ r = E * I / L / sr_gamma E I L r /\ Rltb r kRigid = true).
Proof.
  intros HE HI HL [H1 H2]. unfold sr_gamma. destruct (Rle_lt_or_eq_dec _ _ H2) as [H|H].
  - right. replace (Reqb r kRigid) with false by (symmetry; rb).
    assert (P : 0 < E * I / L / r) by (repeat apply Rmult_lt_0_compat; auto; apply Rinv_0_lt_compat; auto).
    split; [auto|]. split; [auto|]. split; [field; repeat split; lra|rb].
  - left. replace (Reqb r kRigid) with true by (symmetry; rb). split; [auto|]. split; [auto|]. rb.
Qed.

Lemma sr_bend_closed E I L r1 r2 i j : 0 < E -> 0 < I -> 0 < L -> 0 < r1 <= kRigid -> 0 < r2 <= kRigid ->
  (i < 4)%nat -> (j < 4)%nat ->
  sr_bend E I L r1 r2 i j = sr_closed (E * I / L) L (sr_gamma E I L r1) (sr_gamma E I L r2) i j.
Proof.
  intros HE HI HL H1 H2 Hi Hj. unfold sr_bend, sr_closed.
  destruct (gamma_cases E I L r1 HE HI HL H1) as [(A1 & G1 & B1)|(A1 & G1 & Q1 & B1)];
  destruct (gamma_cases E I L r2 HE HI HL H2) as [(A2 & G2 & B2)|(A2 & G2 & Q2 & B2)];
  rewrite B1, B2; cbv zeta.
  - rewrite G1, G2. unfold sr_delta, sr_S, mmul, mtr.
    destruct i as [|[|[|[|i]]]]; try lia; destruct j as [|[|[|[|j]]]]; try lia; mx; field; lra.
  - rewrite G1. set (c := sr_gamma E I L r2) in *. rewrite Q2. clearbody c. clear Q2 A2 H2 B2.
    pose proof (delta_pos 0 c ltac:(lra) ltac:(lra)) as DP. unfold sr_delta, sr_S, mmul, mtr in *.
    destruct i as [|[|[|[|i]]]]; try lia; destruct j as [|[|[|[|j]]]]; try lia; mx; field; repeat split; lra.
  - rewrite G2. set (c := sr_gamma E I L r1) in *. rewrite Q1. clearbody c. clear Q1 A1 H1 B1.
    pose proof (delta_pos c 0 ltac:(lra) ltac:(lra)) as DP. unfold sr_delta, sr_S, mmul, mtr in *.
    destruct i as [|[|[|[|i]]]]; try lia; destruct j as [|[|[|[|j]]]]; try lia; mx; field; repeat split; lra.
  - set (c := sr_gamma E I L r1) in *. rewrite Q1. set (e := sr_gamma E I L r2) in *. rewrite Q2. clearbody c e. clear Q1 A1 H1 B1 Q2 A2 H2 B2.
    pose proof (delta_pos c e ltac:(lra) ltac:(lra)) as DP. unfold sr_delta, sr_S, mmul, mtr in *.
    destruct i as [|[|[|[|i]]]]; try lia; destruct j as [|[|[|[|j]]]]; try lia; mx; field; repeat split; lra.
Qed.
