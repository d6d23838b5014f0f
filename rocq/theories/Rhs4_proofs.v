From Coq Require Import Rpower.
From Verif Require Import EC3_proofs Sections_proofs Sections3_proofs Plate_proofs Loads2_proofs Joint4_proofs Rhs_proofs Rhs2_proofs Rhs3_proofs.
From Verif Require Import Rhs_model Rhs_spec.
Lemma Rmin_scale : forall x b, 0 <= b -> Rmin x 1 * b = Rmin b (x * b).
Proof. intros x b B. unfold Rmin. repeat destruct Rle_dec; nra. Qed.
Lemma sin_pos_ok : forall a, angle_ok a -> 0 < sin (rad a).
Proof. intros a [A B]. apply (sin_mono_angle a a); lra. Qed.
Lemma k_values_lemma : forall j b a, k_ok j -> brace_ok b -> angle_ok a -> k_tp j = 0 ->
  let c := k_c j in let s := sin (rad a) in
  k_face j a = k_red j * std_face (k_kn j) (c_fy c) (c_t c) (c_b c) (k_beta j) s /\
  k_shear j a = k_red j * std_shear (c_fy c) (c_h c) (c_b c) (c_t c) (k_gap j) s /\
  k_brace j b = k_red j * std_brace (c_fy c) (c_b c) (c_t c) (br_fy b) (br_h b) (br_b b) (br_t b) /\
  k_punch j b a = k_red j * std_punch (c_fy c) (c_b c) (c_t c) (br_h b) (br_b b) s.
Proof.
  intros j b a J BO AO TP c s. pose proof (sin_pos_ok a AO) as SA. fold s in SA. pose proof J as [[H [B [T [F _]]]] [_ [_ [_ [_ [GP _]]]]]]. fold c in H, B, T, F.
  destruct BO as [BT [BH [BB BF]]]. pose proof sqrt3_pos as S3.
  assert (FT : face_t j = c_t c). { unfold face_t. rewrite TP. destruct (Reqb 0 0) eqn:E; [auto|apply Reqb_false in E; lra]. }
  split; [|split; [|split]].
  - unfold k_face, std_face. rewrite FT. fold c s. replace (gamma c) with (c_b c / (2 * c_t c)) by (unfold gamma; field; lra). field. lra.
  - unfold k_shear, std_shear, a_eta. cbv zeta. fold c s.
    assert (Q : 0 <= 4 * k_gap j ^ 2 / (3 * c_t c ^ 2)). { apply div_nn; [pose proof (pow2_ge_0 (k_gap j)); lra|]. pose proof (pow_lt _ 2 T). lra. }
    replace (1 / (1 + 4 * k_gap j ^ 2 / 3 / c_t c ^ 2)) with (/ (1 + 4 * k_gap j ^ 2 / (3 * c_t c ^ 2))).
    2:{ assert (E : 4 * k_gap j ^ 2 / 3 / c_t c ^ 2 = 4 * k_gap j ^ 2 / (3 * c_t c ^ 2)) by (field; lra). rewrite E. unfold Rdiv. ring. }
    rewrite sqrt_inv. set (q := sqrt (1 + _)) in *. assert (0 < q) by (apply sqrt_lt_R0; lra). field. repeat split; lra.
  - unfold k_brace, std_brace. cbv zeta. fold c. rewrite FT, Rmin_scale by lra.
    replace (10 / (c_b c / c_t c) * c_fy c * c_t c / (br_fy b * br_t b) * br_b b) with (10 * c_t c / c_b c * (c_fy c * c_t c) / (br_fy b * br_t b) * br_b b) by (field; repeat split; lra).
    field.
  - unfold k_punch, std_punch. cbv zeta. fold c s. rewrite FT, Rmin_scale by lra.
    replace (10 / (c_b c / c_t c) * br_b b) with (10 * c_t c / c_b c * br_b b) by (field; lra). field. lra.
Qed.
Lemma y_values_lemma : forall j, y_ok j -> let c := y_c j in let b := y_b j in let s := sin (rad (y_a j)) in
  y_brace j = y_red j * std_y_brace (c_fy c) (c_b c) (c_t c) (br_fy b) (br_h b) (br_b b) (br_t b) /\
  y_punch j = y_red j * std_y_punch (c_fy c) (c_b c) (c_t c) (br_h b) (br_b b) s /\
  (y_beta j < 1 -> y_face j = Rpower (y_red j) (y_kn j) * c_fy c * c_t c ^ 2 / ((1 - br_b b / c_b c) * s) * (2 * (br_h b / c_b c) / s + 4 * sqrt (1 - br_b b / c_b c))) /\
  (0 <= y_N1 j -> y_web j = Some (Rpower (y_red j) (y_kn j) * (c_fy c * c_t c / s * (2 * br_h b / s + 10 * c_t c)))).
Proof.
  intros j J c b s. pose proof J as [[H [B [T [F _]]]] [[BT [BH [BB BF]]] [AO _]]]. fold c b in H, B, T, F, BT, BH, BB, BF.
  pose proof (sin_pos_ok _ AO) as SA. fold s in SA. pose proof sqrt3_pos as S3.
  split; [|split; [|split]].
  - unfold y_brace, std_y_brace. cbv zeta. fold c b. rewrite Rmin_scale by lra.
    replace (10 / (c_b c / c_t c) * c_fy c * c_t c / (br_fy b * br_t b) * br_b b) with (10 * c_t c / c_b c * (c_fy c * c_t c) / (br_fy b * br_t b) * br_b b) by (field; repeat split; lra).
    field.
  - unfold y_punch, std_y_punch. cbv zeta. fold c b s. rewrite Rmin_scale by lra.
    replace (10 / (c_b c / c_t c) * br_b b) with (10 * c_t c / c_b c * br_b b) by (field; lra). field. lra.
  - intros L. unfold y_face. cbv zeta. rewrite (proj2 (capped_bounds _ (ybeta_pos j J)) L). unfold Rdiv at 1. rewrite Rinv_1, Rmult_1_r. reflexivity.
  - intros N. unfold y_web, y_fb. destruct (Rltb (y_N1 j) 0) eqn:E; [apply Rltb_true in E; lra|]. cbn [bind]. cbv zeta. f_equal. fold c b s. field. lra.
Qed.
