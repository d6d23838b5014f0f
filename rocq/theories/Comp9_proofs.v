(** Exact values of composite beams as built by the constructor. *)
From Verif Require Import Base Bool_tac EC3_model EC3_proofs Sections_proofs Loads2_proofs Comp_proofs Comp_model Comp_spec.
Require Import Reals List Lra Lia Psatz.
Local Open Scope R_scope.
(** Bending stiffness of two parts with rigid connection: sum plus the steiner term of the lever arm a. *)
Definition joined (EIa EAa EIc EAc a : R) : R := EIa + EIc + EAa * EAc / (EAa + EAc) * a ^ 2.
Lemma built_beam_lemma : forall L s sl RH, let c := new_beam L s sl RH in beam_ok c -> exists EI ya yc,
  EIcom c Short = Some EI /\ ya_com c Short = Some ya /\ yc_com c Short = Some yc /\ 0 < ya /\ 0 < yc /\
  ya + yc = i_h s / 2 + l_ha sl + l_hc sl / 2 /\ m_EAa c * ya = Ecm (l_g sl) * (l_hc sl * (L / 4)) * yc /\
  EI = joined (i_E s * i_I s) (i_E s * i_A s) (Ecm (l_g sl) * (L / 4 * l_hc sl ^ 3 / 12)) (Ecm (l_g sl) * (L / 4 * l_hc sl)) (i_h s / 2 + l_ha sl + l_hc sl / 2).
Proof.
  intros L s sl RH c OK. destruct (elastic_lemma c Short (Ecm (l_g sl)) OK eq_refl (Ecm_pos _)) as (y & EI & C1 & [B1 B2] & Q1 & D1 & D2 & D3).
  exists EI, (m_ya c - y), (y - m_yc c). split; [exact D1|]. unfold ya_com, yc_com. rewrite C1. cbn [bind]. rewrite (Rabs_pos_eq (m_ya c - y)) by lra. rewrite (Rabs_left (m_yc c - y)) by lra.
  split; [reflexivity|]. split; [apply f_equal; ring|]. split; [lra|]. split; [lra|]. split; [unfold m_ya, m_yc, l_h; cbn; field|].
  split; [rewrite Q1; unfold m_Ac, beff; cbn; field|]. rewrite D2. unfold joined, m_EIa, m_EAa, m_Ic, m_Ac, beff, m_ya, m_yc, l_h. cbn [c new_beam m_s m_slab m_b0 m_L].
  destruct OK as (H1 & H2 & H3 & H4 & H5 & H6 & H7 & _). unfold beff in H1. cbn in *. pose proof (Ecm_pos (l_g sl)).
  assert (0 < i_E s * i_A s) by pm. assert (0 < L) by lra. assert (0 < Ecm (l_g sl) * (L / 4 * l_hc sl)) by pm. field. split; lra.
Qed.
Lemma concrete_details_lemma : forall g, nu_cracked g = 6/10 - fck g * (24/10000).
Proof. intros g. unfold nu_cracked. field. Qed.
Lemma web_force_lemma : forall c, m_Rw c = i_fy (m_s c) * (i_h (m_s c) * i_tw (m_s c)) - 2 * (i_fy (m_s c) * i_tw (m_s c) * (i_tf (m_s c) + i_r (m_s c))).
Proof. intros c. unfold m_Rw, i_hw. ring. Qed.
(** The axis in the slab, written with the given data. *)
Lemma slab_axis_value_lemma : forall c, beam_ok c ->
  i_fy (m_s c) * i_A (m_s c) < 85/100 * (85/100 * fck (l_g (m_slab c)) / (3/2)) * (beff c * l_hc (m_slab c)) ->
  plastic_axis c = Some (i_fy (m_s c) * i_A (m_s c) / (85/100 * (85/100 * fck (l_g (m_slab c)) / (3/2)) * beff c)).
Proof.
  intros c OK H. assert (E : m_Rc c = 85/100 * (85/100 * fck (l_g (m_slab c)) / (3/2)) * (beff c * l_hc (m_slab c))).
  { unfold m_Rc, cfcd, m_Ac. field. }
  assert (R0 : m_Ra c < m_Rc c) by (rewrite E; exact H).
  destruct OK as (H1 & H2 & H3 & H4 & H5 & H6 & H7 & H8). 
  assert (F0 : 0 < fck (l_g (m_slab c))) by (destruct (l_g (m_slab c)); cbn; lra).
  unfold plastic_axis. rewrite (ltb_t _ _ R0). rewrite pdiv_ok.
  - cbn [bind]. apply f_equal. rewrite E. unfold m_Ra. field. repeat split; lra.
  - rewrite E. apply Rgt_not_eq. pm.
Qed.
(** A column as built carries no force and stands on its full length. *)
Lemma new_col_lemma : forall L t g d fs p, let c := new_col L t g d fs p in
  NEd c = 0 /\ k_nged c = 0 /\ M1 c = 0 /\ M2 c = 0 /\ k_ly c * k_L c = L /\ k_lz c * k_L c = L /\ k_n c * bar_A d = k_As c /\ k_RH c = 50 /\
  match p with
  | Some (y, z) => k_y c = y /\ k_z c = z
  | None => get_u c = 30 /\ get_v c = 30 + d
  end.
Proof.
  intros L t g d fs p. assert (X : Rabs 0 <= Rabs 0) by lra. destruct p as [[y z]|]; cbn zeta; unfold NEd, M1, M2, k_As, get_u, get_v; cbn;
    rewrite (leb_t _ _ X), Rabs_R0; repeat split; try ring; unfold bar_r; field.
Qed.
