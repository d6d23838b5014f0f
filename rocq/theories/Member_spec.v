(** Definitions used in the statements about steel members. *)
From Verif Require Import Member_model.

(** The last section given for a location in a history of calls. *)
Fixpoint last_at (loc : R) (ops : list (R * sec)) (dflt : option sec) : option sec :=
  match ops with [] => dflt | (k, s) :: ops' => last_at loc ops' (if Req_EM_T k loc then Some s else dflt) end.
(** A history of add_section calls. *)
Definition add_all (ops : list (R * sec)) (m : member) : member := fold_left (fun m e => add_section m (fst e) (snd e)) ops m.

(** A profile with positive data; imperfection factors as in the tables of the code of practice. *)
Definition prof_ok (p : prof) : Prop :=
  0 < p_A p /\ 0 < p_Iy p /\ 0 < p_Iz p /\ 0 < p_E p /\ 0 < p_G p /\ 0 < p_It p /\ 0 <= p_Iw p /\ 0 < p_h p /\ 0 < p_fy p /\
  0 <= p_ay p <= 1 /\ 0 <= p_az p <= 1 /\ 0 <= p_aLT p <= 1 /\ 0 <= p_aLTg p <= 1 /\ 0 < p_i0 p /\ (forall f, 0 < p_MRd p f) /\
  (forall f, p_res p f <> [] /\ forall x, In x (p_res p f) -> 0 <= x).
(** A member with positive lengths. *)
Definition mem_ok (m : member) : Prop := prof_ok (m_p m) /\ 0 < m_L m /\ 0 < m_ly m /\ 0 < m_lz m.
(** The same member with another length. *)
Definition with_L (m : member) (L : R) : member :=
  mkM (m_p m) L (m_ly m) (m_lz m) (m_LTB m) (m_sym m) (m_secs m) (m_f m) (m_cmy m).
(** The forces of a section as the profile stores them. *)
Definition sec_forces (s : sec) : forces := (s_N s, s_My s, s_Vz s).
(** Sections that agree on the axial force, the moment and the shear force of the main plane, and on
    whether there is a moment about the minor axis. *)
Definition same_plane (e e' : R * sec) : Prop :=
  fst e = fst e' /\ s_N (snd e) = s_N (snd e') /\ s_My (snd e) = s_My (snd e') /\ s_Vz (snd e) = s_Vz (snd e') /\
  (s_Mz (snd e) = 0 <-> s_Mz (snd e') = 0).
