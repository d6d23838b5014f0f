(** Property C351: minimisation of the eccentricities of a tubular truss. *)
From Verif Require Import Base EC3_model Bool_tac EC3_proofs Plate_proofs Tjt_proofs Tjt2_proofs Ecc_proofs.
Require Import Reals List Bool Lra Lia Psatz PeanoNat.
Import ListNotations.
From Verif Require Import Base Rhs_model Tjt_model Tjt_spec Ecc_model Ecc_spec.
Local Open Scope R_scope.

(** C351 *)
Theorem C351_gap_limits : forall b0 beta t1 t2 mg g, gap_ub b0 beta t1 t2 mg g <= 0 /\ gap_lb b0 beta t1 t2 mg g <= 0 <->
  1/2 * b0 * (1 - beta) <= g <= 3/2 * b0 * (1 - beta) /\ t1 + t2 <= g /\ mg <= g.
Proof. exact gap_con_lemma. Qed.
Print Assumptions C351_gap_limits.
Theorem C351_gap_possible : forall b0 beta t1 t2 mg, 0 < b0 -> beta <= 1 ->
  (exists g, gap_ub b0 beta t1 t2 mg g <= 0 /\ gap_lb b0 beta t1 t2 mg g <= 0) <-> t1 + t2 <= 3/2 * b0 * (1 - beta) /\ mg <= 3/2 * b0 * (1 - beta).
Proof. exact gap_possible_lemma. Qed.
Print Assumptions C351_gap_possible.
Theorem C351_real_gap : forall j h0 h1 h2 ang b1 b2 b0 beta t1 t2 mg, unit_vec (j_v j) -> unit_vec b1 -> unit_vec b2 -> j_ridge j = false ->
  j_xp j = local_point j (j_x j) (j_y j) -> 0 < h1 -> 0 < h2 -> 0 <= mg ->
  let p := perp (j_top j) (j_v j) in let v := j_v j in let a1 := brace_angle v b1 in let a2 := brace_angle v b2 in
  vdot b1 p <> 0 -> vdot b2 p <> 0 -> (vdot b1 v / vdot b1 p) * (vdot b2 v / vdot b2 p) <= 0 ->
  gap_lb b0 beta t1 t2 mg (calc_gap (j_y j) h0 h1 h2 a1 a2) <= 0 ->
  exists x1 c1 x2 c2, face_point j h0 ang b1 = Some (x1, c1) /\ face_point j h0 ang b2 = Some (x2, c2) /\
  let real := pdist x1 x2 - 1/2 * (h1 / sin (rad a1) + h2 / sin (rad a2)) in mg <= real /\ t1 + t2 <= real /\ 1/2 * b0 * (1 - beta) <= real.
Proof. exact gap_real_lemma. Qed.
Print Assumptions C351_real_gap.
Theorem C351_variables : forall span js v, In v (ecc_vars span js) <-> exists j, In j js /\ e_x j <= span / 2 /\ v_joint v = e_id j /\
  ((v = mkEv (e_id j) false (- (55/100) * e_h0 j) (e_h0 j / 4) (e_h0 j / 10) /\ e_kind j <> OtherJ) \/ (v = mkEv (e_id j) true (-200) 200 0 /\ e_kind j = KGapJ)).
Proof. exact ecc_vars_lemma. Qed.
Print Assumptions C351_variables.
Theorem C351_start : forall span js v, (forall j, In j js -> 0 <= e_h0 j) -> In v (ecc_vars span js) -> v_lb v <= v_val v <= v_ub v.
Proof. exact ecc_start_lemma. Qed.
Print Assumptions C351_start.
Theorem C351_one_per_coordinate : forall span js, NoDup (map e_id js) -> NoDup (map (fun v => (v_joint v, v_isx v)) (ecc_vars span js)).
Proof. exact ecc_keys_lemma. Qed.
Print Assumptions C351_one_per_coordinate.
Theorem C351_gradient : forall vs xs hs, length xs = length vs -> length hs = length vs ->
  ecc_obj vs (addl xs hs) = ecc_obj vs xs + dotl (ecc_grad vs xs) hs + ecc_obj vs hs /\ length (ecc_grad vs xs) = length vs.
Proof. exact ecc_taylor_lemma. Qed.
Print Assumptions C351_gradient.
Theorem C351_zero : forall vs xs, 0 <= ecc_obj vs xs /\ (ecc_obj vs xs = 0 <-> forall v t, In (v, t) (combine vs xs) -> v_isx v = false -> t = 0).
Proof. exact ecc_zero_lemma. Qed.
Print Assumptions C351_zero.
Theorem C351_point : forall sym js vs xs p x y, NoDup (map (fun v => (v_joint v, v_isx v)) vs) -> (forall v, In v vs -> sym (v_joint v) <> Some p) ->
  (forall k, j_ridge (js k) = false -> j_xp (js k) = local_point (js k) (j_x (js k)) (j_y (js k))) ->
  given vs xs p x y -> j_ridge (js p) = false -> j_xp (substituted sym js vs xs p) = local_point (js p) x y.
Proof. exact substituted_lemma. Qed.
Print Assumptions C351_point.
Theorem C351_vertical : forall sym nd js vs xs p q n0 n1 xp yp xq yq, NoDup (map (fun v => (v_joint v, v_isx v)) vs) ->
  (forall v, In v vs -> sym (v_joint v) <> Some p /\ sym (v_joint v) <> Some q) ->
  (forall k, j_ridge (js k) = false -> j_xp (js k) = local_point (js k) (j_x (js k)) (j_y (js k))) ->
  (forall i k, nd i = nd k -> i = k) -> nd p = n0 -> nd q = n1 -> n0 <> n1 -> j_ridge (js p) = false -> j_ridge (js q) = false ->
  given vs xs p xp yp -> given vs xs q xq yq -> fst (j_node (js p)) = fst (j_node (js q)) ->
  (vert_con nd js n0 n1 vs xs = 0 <-> fst (j_xp (substituted sym js vs xs p)) = fst (j_xp (substituted sym js vs xs q))).
Proof. exact vertical_lemma. Qed.
Print Assumptions C351_vertical.
Theorem C351_ridge_refuted : exists sym nd js vs xs p q, let js' := substituted sym js vs xs in
  (forall i k, nd i = nd k -> i = k) /\ p <> q /\ fst (j_node (js p)) = fst (j_node (js q)) /\ j_ridge (js p) = true /\ j_ridge (js q) = false /\
  vs = ecc_vars 10 [mkEj p 5 RidgeJ 100; mkEj q 5 KGapJ 100] /\ length xs = length vs /\
  vert_con nd js (nd p) (nd q) vs xs = 0 /\ fst (j_xp (js' p)) <> fst (j_xp (js' q)).
Proof.
  set (js := fun k : nat => match k with 0%nat => mkKj (5, 3) (4/5, 3/5) true true 0 0 (5, 3) | _ => mkKj (5, 0) (1, 0) false false 0 0 (5, 0) end).
  assert (E : ecc_vars 10 [mkEj 0 5 RidgeJ 100; mkEj 1 5 KGapJ 100] = [y_var (mkEj 0 5 RidgeJ 100); y_var (mkEj 1 5 KGapJ 100); x_var (mkEj 1 5 KGapJ 100)]).
  { unfold ecc_vars. cbn [flat_map app]. unfold joint_vars. cbn [e_x e_kind]. rewrite (proj2 (Rleb_true _ _)) by lra. reflexivity. }
  exists (fun _ => None), (fun k => k), js, (ecc_vars 10 [mkEj 0 5 RidgeJ 100; mkEj 1 5 KGapJ 100]), [10; 0; -6], 0%nat, 1%nat. cbv zeta.
  split; [auto|]. split; [auto|]. split; [reflexivity|]. split; [reflexivity|]. split; [reflexivity|]. split; [reflexivity|]. rewrite E. split; [reflexivity|]. split.
  - unfold vert_con, vert_coef, perp. cbn. lra.
  - unfold substituted, assigns, own_y, local_point, vadd, vscale, perp. cbn. lra.
Qed.
Print Assumptions C351_ridge_refuted.
Example C351_ex : let vs := ecc_vars 10 [mkEj 2 3 KGapJ 100; mkEj 7 8 KGapJ 100] in map (fun v => (v_joint v, v_isx v)) vs = [(2%nat, false); (2%nat, true)] /\ given vs [4; 5] 2 5 4.
Proof.
  assert (E : ecc_vars 10 [mkEj 2 3 KGapJ 100; mkEj 7 8 KGapJ 100] = [y_var (mkEj 2 3 KGapJ 100); x_var (mkEj 2 3 KGapJ 100)]).
  { unfold ecc_vars. cbn [flat_map app]. unfold joint_vars. cbn [e_x e_kind]. rewrite (proj2 (Rleb_true 3 _)), (proj2 (Rleb_false 8 _)) by lra. reflexivity. }
  cbv zeta. rewrite E. split; [reflexivity|]. split; [exists (x_var (mkEj 2 3 KGapJ 100))|exists (y_var (mkEj 2 3 KGapJ 100))]; (split; [cbn; auto|split; reflexivity]).
Qed.
