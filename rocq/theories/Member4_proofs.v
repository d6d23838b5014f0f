From Verif Require Import EC3_spec EC3_proofs Sections_proofs Sections3_proofs Plate_proofs Loads2_proofs Member_proofs Member2_proofs Member3_proofs.
From Verif Require Import Member_model Member_spec.

Definition xp : prof := mkProf 1 100 100 1 1 1 0 1 (1/10) 1 (21/100) (21/100) (34/100) (34/100) 1000 0 0 1 1 (fun _ => 3%nat) (fun _ => 1) (fun _ => [0]).
Definition xm (ltb : bool) : member := new_member xp 1 1 1 ltb Dual.
Lemma xm_ok ltb l c : mem_ok (with_cmy (with_secs (xm ltb) l) c).
Proof. unfold mem_ok, prof_ok, xm, xp; cbn. repeat split; try lra; try discriminate; [intros _; lra|]. intros x X; destruct X as [<-|[]]; lra. Qed.
Lemma xm_strength ltb l c : member_strength (with_cmy (with_secs (xm ltb) l) c) = Some (1, 1).
Proof.
  destruct (member_strength_lemma _ (xm_ok ltb l c)) as (a & b & t & S & _ & _ & _ & _ & _ & _ & _ & EA & EB & _).
  assert (SL : slend_y (with_cmy (with_secs (xm ltb) l) c) <= 2/10). 
  { unfold slend_y, slend_of, ncrit_y, xm, xp; cbn -[pow PI sqrt]. assert (25 <= PI ^ 2 * 1 * 100 / (1 * 1) ^ 2). { pose proof PI3. replace (PI ^ 2 * 1 * 100 / (1 * 1) ^ 2) with (PI ^ 2 * 100) by field. simpl. nra. }
    set (q := PI ^ 2 * 1 * 100 / (1 * 1) ^ 2) in *. rewrite <- (sqrt_square (2/10)) by lra. apply sqrt_le_1; [apply div_nn; lra|lra|]. apply div_le_iff; lra. }
  specialize (EA SL). specialize (EB SL). rewrite S, EA, EB. unfold xm, xp; cbn. f_equal. f_equal; ring.
Qed.
Lemma design_ltb_lemma : forall m sway md n, mem_ok m -> NoDup (map fst (m_secs m)) -> m_LTB m = true ->
  MEdY m = Some md -> NcEd m = Some n -> n < 0 -> 1/1000000 <= md -> design m sway = None.
Proof.
  intros m sway md n M ND LT EM EN N MD. destruct (check_sections_full m M ND) as (r0 & f & E0 & _). unfold design. rewrite E0. cbn [bind]. destruct (if m_LTB (with_f m f) then _ else _); [|reflexivity]. cbn [bind].
  change (NcEd (with_f m f)) with (NcEd m). rewrite EN. cbn [bind]. destruct (Rltb n 0) eqn:Q; [|apply Rltb_false in Q; lra]. destruct (check_buckling _); [|reflexivity]. cbn [bind].
  rewrite (beamcolumn_ltb_lemma (with_f m f) sway true md n); auto.
Qed.
Lemma xsec ltb c s : let m := with_cmy (with_secs (xm ltb) [(1/2, s)]) c in
  MEdY m = Some (Rabs (s_My s)) /\ NcEd m = Some (Rmin (s_N s) 0) /\ MEdZ m = Some (Rabs (s_Mz s)) /\ check_sections m = Some (0, with_f m (sec_forces s)).
Proof.
  cbv zeta. split; [reflexivity|]. split; [reflexivity|]. split; [reflexivity|]. unfold check_sections. cbn. unfold check_section. cbn. destruct (Reqb (1/2) (1/2)) eqn:Q; [|apply Reqb_false in Q; congruence]. cbn. unfold Rmax. destruct (Rle_dec 0 0); reflexivity.
Qed.
(* with one section at midspan and compression 1, moment 1 about both axes *)
Lemma xdesign c : 0 <= c -> option_map fst (design (with_cmy (with_secs (xm false) [(1/2, mkSec (-1) 1 1 0 0 0)]) c) false)
   = Some (1 + c * (1 + Rmin (slend_y (xm false)) (6/10))).
Proof.
  intros C. set (s := mkSec (-1) 1 1 0 0 0). set (m := with_cmy _ c). destruct (xsec false c s) as (EM & EN & EZ & ES). fold m in EM, EN, EZ, ES. cbn [s_My s_N s_Mz s] in EM, EN, EZ.
  rewrite Rabs_pos_eq in EM by lra. rewrite Rabs_pos_eq in EZ by lra. rewrite Rmin_left in EN by lra.
  unfold design. rewrite ES. cbn [bind]. change (m_LTB (with_f m (sec_forces s))) with false. cbn [bind]. change (NcEd (with_f m (sec_forces s))) with (NcEd m). rewrite EN. cbn [bind].
  destruct (Rltb (-1) 0) eqn:Q; [|apply Rltb_false in Q; lra].
  unfold check_buckling. change (NcEd (with_f m (sec_forces s))) with (NcEd m). rewrite EN. cbn [bind]. destruct (Rleb 0 (-1)) eqn:Q2; [apply Rleb_true in Q2; lra|].
  change (member_strength (with_f m (sec_forces s))) with (member_strength m). assert (MS : member_strength m = Some (1, 1)) by apply xm_strength. rewrite MS. cbn [bind fst snd].
  destruct (beamcolumn_value_lemma (with_f m (sec_forces s)) false true 1 (-1) 1 1) as (m' & E); try assumption; try reflexivity; try lra.
  { apply (xm_ok false [(1/2, s)] c). } { exists 1. split; [exact EZ|lra]. }
  cbv zeta in E. rewrite E. cbn [bind fst snd option_map]. change (p_class (m_p (with_f m (sec_forces s))) _) with 3%nat. change (p_MRd (m_p (with_f m (sec_forces s))) _) with 1. cbn [Nat.leb].
  assert (CC : fst (Cmy (with_f m (sec_forces s)) false true) = c).
  { unfold Cmy, m. cbn -[Reqb]. destruct (Reqb (1/2) 0) eqn:Q3; [apply Reqb_true in Q3; lra|]. reflexivity. }
  rewrite CC. change (slend_y (with_f m (sec_forces s))) with (slend_y (xm false)). rewrite (Rabs_left (-1)) by lra.
  set (k := Rmin (slend_y (xm false)) (6/10)). assert (K : 0 <= k) by (unfold k; apply Rmin_glb; [apply slend_nn|lra]).
  assert (CK : 0 <= c * (1 + k)) by (apply Rmult_le_pos; lra).
  f_equal. rewrite (Rmax_left (- -1 / 1) (- -1 / 1)) by lra. rewrite (Rmax_right 0) by lra.
  replace (- -1 / 1) with 1 by lra. replace (1 + c * (1 + k * 1) * (1 / 1)) with (1 + c * (1 + k)) by lra. replace (1 + 8 / 10 * (c * (1 + k * 1)) * (1 / 1)) with (1 + 8/10 * (c * (1 + k))) by lra.
  rewrite (Rmax_left (1 + c * (1 + k))) by lra. rewrite Rmax_right by lra. reflexivity.
Qed.
Lemma xcmy : fst (Cmy (add_section (add_section (xm false) 0 (mkSec 0 1 0 0 0 0)) 1 (mkSec 0 1 0 0 0 0)) false true) = 1.
Proof.
  unfold Cmy, add_section. cbn -[Reqb equivalent_moment_factor]. rewrite ?Reqb_refl. 
  destruct (Reqb 0 1) eqn:Q; [apply Reqb_true in Q; lra|]. cbn -[Reqb equivalent_moment_factor].
  destruct (Reqb 0 0) eqn:Q0; [|apply Reqb_false in Q0; congruence]. rewrite Q. destruct (Reqb 1 1) eqn:Q1; [|apply Reqb_false in Q1; congruence].
  destruct (Reqb 0 (1/2)) eqn:Q2; [apply Reqb_true in Q2; lra|]. destruct (Reqb 1 (1/2)) eqn:Q3; [apply Reqb_true in Q3; lra|]. cbn [fst s_My].
  unfold equivalent_moment_factor. cbv zeta. assert (P : psi 1 1 = 1).
  { unfold psi. repeat match goal with |- context [if ?b then _ else _] => let H := fresh in destruct b eqn:H end; try (field; lra); rewrite ?Rabs_R1 in *;
    repeat match goal with H : Rltb _ _ = _ |- _ => first [apply Rltb_true in H|apply Rltb_false in H] | H : Rleb _ _ = _ |- _ => first [apply Rleb_true in H|apply Rleb_false in H] | H : Reqb _ _ = _ |- _ => first [apply Reqb_true in H|apply Reqb_false in H] end; lra. }
  cbn [s_My]. rewrite P. rewrite Rmax_left; lra.
Qed.
Lemma design_stale_lemma : exists p L s0 s1 s, let new := new_member p L 1 1 false Dual in
  let fresh := add_section new (1/2) s in
  let used := add_section (clear_sections (snd (Cmy (add_section (add_section new 0 s0) 1 s1) false true))) (1/2) s in
  mem_ok fresh /\ m_secs used = m_secs fresh /\ m_p used = m_p fresh /\ option_map fst (design used false) <> option_map fst (design fresh false).
Proof.
  exists xp, 1, (mkSec 0 1 0 0 0 0), (mkSec 0 1 0 0 0 0), (mkSec (-1) 1 1 0 0 0). cbv zeta. fold (xm false).
  set (used := add_section (clear_sections _) _ _). split; [exact (xm_ok false _ (9/10))|].
  assert (U : used = with_cmy (with_secs (xm false) [(1/2, mkSec (-1) 1 1 0 0 0)]) 1).
  { unfold used. pose proof xcmy as X. set (m := add_section (add_section (xm false) 0 _) 1 _) in *. unfold Cmy in *. cbn [fst snd] in *.
    destruct (dget 0 (m_secs m)) as [a|] eqn:A. 2:{ exfalso. unfold m, add_section in A. cbn -[Reqb] in A. destruct (Reqb 0 1) eqn:Q; [apply Reqb_true in Q; lra|]. cbn -[Reqb] in A. destruct (Reqb 0 0) eqn:Q0; [discriminate|apply Reqb_false in Q0; congruence]. }
    destruct (dget 1 (m_secs m)) as [b|] eqn:B. 2:{ exfalso. unfold m, add_section in B. cbn -[Reqb] in B. destruct (Reqb 0 1) eqn:Q; [apply Reqb_true in Q; lra|]. cbn -[Reqb] in B. rewrite Q in B. destruct (Reqb 1 1) eqn:Q1; [discriminate|apply Reqb_false in Q1; congruence]. }
    cbn [fst snd] in *. rewrite X. reflexivity. }
  rewrite U. split; [reflexivity|]. split; [reflexivity|]. rewrite (xdesign 1) by lra.
  change (add_section (xm false) (1/2) (mkSec (-1) 1 1 0 0 0)) with (with_cmy (with_secs (xm false) [(1/2, mkSec (-1) 1 1 0 0 0)]) (9/10)). rewrite (xdesign (9/10)) by lra.
  intros Q. apply some_inj in Q. assert (0 <= Rmin (slend_y (xm false)) (6/10)) by (apply Rmin_glb; [apply slend_nn|lra]). lra.
Qed.
(* the design check does not cover torsional buckling *)
Lemma design_torsion_lemma : exists m r m' n t, mem_ok m /\ design m false = Some (r, m') /\ r <= 1 /\ NcEd m = Some n /\ torsional_strength m = Some t /\ t < - n.
Proof.
  set (s := mkSec (-1/1000) 0 0 0 0 0). set (m := with_cmy (with_secs (xm false) [(1/2, s)]) (9/10)).
  destruct (xsec false (9/10) s) as (EM & EN & EZ & ES). fold m in EM, EN, EZ, ES. cbn [s_My s_N s_Mz s] in EM, EN, EZ. rewrite Rabs_R0 in EM. rewrite Rmin_left in EN by lra.
  destruct (member_strength_lemma m (xm_ok false _ _)) as (a & b & t & _ & ET & _ & _ & _ & _ & _ & LT & _).
  assert (D : exists r m', design m false = Some (r, m') /\ r <= 1).
  { unfold design. rewrite ES. cbn [bind]. change (m_LTB (with_f m (sec_forces s))) with false. cbn [bind]. change (NcEd (with_f m (sec_forces s))) with (NcEd m). rewrite EN. cbn [bind].
    destruct (Rltb (-1/1000) 0) eqn:Q; [|apply Rltb_false in Q; lra].
    unfold check_buckling. change (NcEd (with_f m (sec_forces s))) with (NcEd m). rewrite EN. cbn [bind]. destruct (Rleb 0 (-1/1000)) eqn:Q2; [apply Rleb_true in Q2; lra|].
    change (member_strength (with_f m (sec_forces s))) with (member_strength m). assert (MS : member_strength m = Some (1, 1)) by apply xm_strength. rewrite MS. cbn [bind fst snd].
    unfold check_beamcolumn. change (MEdY (with_f m (sec_forces s))) with (MEdY m). rewrite EM. cbn [bind]. rewrite Rabs_R0. destruct (Rltb 0 (1/1000000)) eqn:Q3; [|apply Rltb_false in Q3; lra]. cbn [bind fst snd].
    eexists _, _. split; [reflexivity|]. rewrite Rabs_left by lra. repeat apply Rmax_lub; lra. }
  destruct D as (r & m' & ED & LR). exists m, r, m', (-1/1000), t. split; [apply xm_ok|]. split; auto. split; auto. split; auto. split; auto.
  assert (NT : ncrit_T m = 1/1000000). { unfold ncrit_T, m, xm, xp; cbn -[pow PI]. field. }
  lra.
Qed.
(* overloaded stocky members: the moment term of the interaction formula turns negative *)
Lemma kyy_negative_lemma : exists UN sl Cm, 0 < Cm /\ 0 <= sl /\ 0 < UN /\ kyy UN sl Cm 1 < 0.
Proof. exists 10, 0, 1. unfold kyy, gammaM1; cbn [Nat.ltb Nat.leb]. rewrite Rmin_left by lra. repeat split; lra. Qed.
