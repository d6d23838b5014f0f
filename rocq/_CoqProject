-Q theories Verif

theories/Abq_model.v
theories/Abq_proofs.v
theories/Abq_props.v
theories/Abq_spec.v
theories/Approx9_proofs.v
theories/Approx9_props.v
theories/Approx_model.v
theories/Approx_proofs.v
theories/Approx_props.v
theories/Approx_spec.v
theories/Apx_model.v
theories/Apx_proofs.v
theories/Apx_props.v
theories/Apx_spec.v
theories/Asm_model.v
theories/Asm_proofs.v
theories/Asm_props.v
theories/Asm_spec.v
theories/Base.v
theories/Beam2_proofs.v
theories/Beam3_proofs.v
theories/Beam4_proofs.v
theories/Beam5_proofs.v
theories/Beam6_proofs.v
theories/Beam9_proofs.v
theories/Beam9_props.v
theories/Beam_model.v
theories/Beam_proofs.v
theories/Beam_props.v
theories/Beam_spec.v
theories/BnB2_proofs.v
theories/BnB9_proofs.v
theories/BnB9_props.v
theories/BnB_model.v
theories/BnB_proofs.v
theories/BnB_props.v
theories/BnB_spec.v
theories/Bnb2_model.v
theories/Bnb2_proofs.v
theories/Bnb2_props.v
theories/Bnb2_spec.v
theories/Bool_tac.v
theories/Brk_model.v
theories/Brk_proofs.v
theories/Brk_props.v
theories/Brk_spec.v
theories/Cat2_proofs.v
theories/Cat3_proofs.v
theories/Cat4_proofs.v
theories/Cat4_props.v
theories/Cat4_spec.v
theories/Cat_model.v
theories/Cat_proofs.v
theories/Cat_props.v
theories/Cat_spec.v
theories/CfMem_model.v
theories/CfMem_proofs.v
theories/CfMem_props.v
theories/CfMem_spec.v
theories/CfProf2_proofs.v
theories/CfProf2_props.v
theories/CfProf3_proofs.v
theories/CfProf4_proofs.v
theories/CfProf5_proofs.v
theories/CfProf6_proofs.v
theories/CfProf7_proofs.v
theories/CfProf_model.v
theories/CfProf_proofs.v
theories/CfProf_props.v
theories/CfProf_spec.v
theories/Cold2_proofs.v
theories/Cold3_proofs.v
theories/Cold4_proofs.v
theories/Cold5_proofs.v
theories/Cold6_proofs.v
theories/Cold_model.v
theories/Cold_proofs.v
theories/Cold_props.v
theories/Cold_spec.v
theories/Comp2_proofs.v
theories/Comp3_proofs.v
theories/Comp9_proofs.v
theories/Comp_model.v
theories/Comp_proofs.v
theories/Comp_props.v
theories/Comp_spec.v
theories/Cost9_proofs.v
theories/Cost9_props.v
theories/Cost9_spec.v
theories/Cost_model.v
theories/Cost_proofs.v
theories/Cost_props.v
theories/Cost_spec.v
theories/Csv_model.v
theories/Csv_proofs.v
theories/Csv_props.v
theories/Csv_spec.v
theories/EC39_proofs.v
theories/EC39_props.v
theories/EC39_spec.v
theories/EC3_model.v
theories/EC3_proofs.v
theories/EC3_props.v
theories/EC3_spec.v
theories/Ecc_model.v
theories/Ecc_proofs.v
theories/Ecc_props.v
theories/Ecc_spec.v
theories/Elr_model.v
theories/Elr_proofs.v
theories/Elr_props.v
theories/Elr_spec.v
theories/Epj2_proofs.v
theories/Epj3_proofs.v
theories/Epj5_proofs.v
theories/Epj_model.v
theories/Epj_proofs.v
theories/Epj_props.v
theories/Epj_spec.v
theories/Epo_model.v
theories/Epo_proofs.v
theories/Epo_props.v
theories/Epo_spec.v
theories/Epr_model.v
theories/Epr_proofs.v
theories/Epr_props.v
theories/Epr_spec.v
theories/F2d2_proofs.v
theories/F2d3_proofs.v
theories/F2d_model.v
theories/F2d_proofs.v
theories/F2d_props.v
theories/F2d_spec.v
theories/Fem2_proofs.v
theories/Fem3_proofs.v
theories/Fem9_proofs.v
theories/Fem9_props.v
theories/Fem_model.v
theories/Fem_proofs.v
theories/Fem_props.v
theories/Fem_spec.v
theories/Fin_model.v
theories/Fin_proofs.v
theories/Fin_props.v
theories/Fin_spec.v
theories/Fire2_proofs.v
theories/Fire3_proofs.v
theories/Fire9_proofs.v
theories/Fire9_props.v
theories/Fire_model.v
theories/Fire_proofs.v
theories/Fire_props.v
theories/Fire_spec.v
theories/Gpop_model.v
theories/Gpop_proofs.v
theories/Gpop_props.v
theories/Gpop_spec.v
theories/Heur2_proofs.v
theories/Heur3_proofs.v
theories/Heur_model.v
theories/Heur_proofs.v
theories/Heur_props.v
theories/Heur_spec.v
theories/Joint2_proofs.v
theories/Joint3_proofs.v
theories/Joint4_proofs.v
theories/Joint9_proofs.v
theories/Joint9_props.v
theories/Joint9_spec.v
theories/Joint_model.v
theories/Joint_proofs.v
theories/Joint_props.v
theories/Joint_spec.v
theories/Lan_model.v
theories/Lan_proofs.v
theories/Lan_props.v
theories/Lan_spec.v
theories/Linearize_model.v
theories/Linearize_proofs.v
theories/Linearize_props.v
theories/Linearize_spec.v
theories/Loads2_proofs.v
theories/Loads9_proofs.v
theories/Loads9_props.v
theories/Loads9_spec.v
theories/Loads_model.v
theories/Loads_proofs.v
theories/Loads_props.v
theories/Loads_spec.v
theories/Lres_model.v
theories/Lres_proofs.v
theories/Lres_props.v
theories/Lres_spec.v
theories/Mat.v
theories/Member2_proofs.v
theories/Member3_proofs.v
theories/Member4_proofs.v
theories/Member_model.v
theories/Member_proofs.v
theories/Member_props.v
theories/Member_spec.v
theories/OptVars9_proofs.v
theories/OptVars9_props.v
theories/OptVars_model.v
theories/OptVars_proofs.v
theories/OptVars_props.v
theories/OptVars_spec.v
theories/Plate9_proofs.v
theories/Plate9_props.v
theories/Plate_model.v
theories/Plate_proofs.v
theories/Plate_props.v
theories/Plate_spec.v
theories/Portal2_proofs.v
theories/Portal3_proofs.v
theories/Portal4_proofs.v
theories/Portal_model.v
theories/Portal_proofs.v
theories/Portal_props.v
theories/Portal_spec.v
theories/Problem2_proofs.v
theories/Problem2_props.v
theories/Problem9_proofs.v
theories/Problem9_props.v
theories/Problem_model.v
theories/Problem_proofs.v
theories/Problem_props.v
theories/Problem_spec.v
theories/Prof2_proofs.v
theories/Prof3_proofs.v
theories/Prof4_proofs.v
theories/Prof5_proofs.v
theories/Prof6_proofs.v
theories/Prof_model.v
theories/Prof_proofs.v
theories/Prof_props.v
theories/Prof_spec.v
theories/Raami2_proofs.v
theories/Raami9_proofs.v
theories/Raami9_props.v
theories/Raami_model.v
theories/Raami_proofs.v
theories/Raami_props.v
theories/Raami_spec.v
theories/Rab_model.v
theories/Rab_proofs.v
theories/Rab_props.v
theories/Rab_spec.v
theories/Reg_model.v
theories/Reg_proofs.v
theories/Reg_props.v
theories/Reg_spec.v
theories/Rhs2_proofs.v
theories/Rhs3_proofs.v
theories/Rhs4_proofs.v
theories/Rhs_model.v
theories/Rhs_proofs.v
theories/Rhs_props.v
theories/Rhs_spec.v
theories/Rpt_model.v
theories/Rpt_proofs.v
theories/Rpt_props.v
theories/Rpt_spec.v
theories/Rst_model.v
theories/Rst_proofs.v
theories/Rst_props.v
theories/Rst_spec.v
theories/Secls2_proofs.v
theories/Secls3_proofs.v
theories/Secls4_proofs.v
theories/Secls5_proofs.v
theories/Secls_model.v
theories/Secls_proofs.v
theories/Secls_props.v
theories/Secls_spec.v
theories/Sections2_proofs.v
theories/Sections3_proofs.v
theories/Sections9_proofs.v
theories/Sections9_props.v
theories/Sections9_spec.v
theories/Sections_model.v
theories/Sections_proofs.v
theories/Sections_props.v
theories/Sections_spec.v
theories/Sizing2_proofs.v
theories/Sizing3_proofs.v
theories/Sizing4_proofs.v
theories/Sizing_model.v
theories/Sizing_proofs.v
theories/Sizing_props.v
theories/Sizing_spec.v
theories/Skin2_proofs.v
theories/Skin3_proofs.v
theories/Skin_model.v
theories/Skin_proofs.v
theories/Skin_props.v
theories/Skin_spec.v
theories/Soe_model.v
theories/Soe_proofs.v
theories/Soe_props.v
theories/Soe_spec.v
theories/Solvers2_proofs.v
theories/Solvers9_proofs.v
theories/Solvers9_props.v
theories/Solvers_model.v
theories/Solvers_proofs.v
theories/Solvers_props.v
theories/Solvers_spec.v
theories/Stls2_proofs.v
theories/Stls_model.v
theories/Stls_proofs.v
theories/Stls_props.v
theories/Stls_spec.v
theories/Stud_model.v
theories/Stud_proofs.v
theories/Stud_props.v
theories/Stud_spec.v
theories/Swarm_model.v
theories/Swarm_proofs.v
theories/Swarm_props.v
theories/Swarm_spec.v
theories/Sym2_proofs.v
theories/Sym2_props.v
theories/Sym3_proofs.v
theories/Sym3_props.v
theories/Sym_model.v
theories/Sym_proofs.v
theories/Sym_props.v
theories/Sym_spec.v
theories/Tac.v
theories/Tight_proofs.v
theories/Tight_props.v
theories/Timber2_proofs.v
theories/Timber3_proofs.v
theories/Timber4_proofs.v
theories/Timber5_proofs.v
theories/Timber6_proofs.v
theories/Timber_model.v
theories/Timber_proofs.v
theories/Timber_props.v
theories/Timber_spec.v
theories/Tjt2_proofs.v
theories/Tjt_model.v
theories/Tjt_proofs.v
theories/Tjt_props.v
theories/Tjt_spec.v
theories/Tmilp2_proofs.v
theories/Tmilp3_proofs.v
theories/Tmilp4_proofs.v
theories/Tmilp_model.v
theories/Tmilp_proofs.v
theories/Tmilp_props.v
theories/Tmilp_spec.v
theories/Tpc_model.v
theories/Tpc_proofs.v
theories/Tpc_props.v
theories/Tpc_spec.v
theories/Tph_model.v
theories/Tph_proofs.v
theories/Tph_props.v
theories/Tph_spec.v
theories/Truss10_proofs.v
theories/Truss11_proofs.v
theories/Truss12_proofs.v
theories/Truss13_proofs.v
theories/Truss14_proofs.v
theories/Truss15_proofs.v
theories/Truss2_proofs.v
theories/Truss3_proofs.v
theories/Truss4_proofs.v
theories/Truss5_proofs.v
theories/Truss6_proofs.v
theories/Truss7_proofs.v
theories/Truss8_proofs.v
theories/Truss_model.v
theories/Truss_proofs.v
theories/Truss_props.v
theories/Truss_spec.v
theories/Tseg_model.v
theories/Tseg_proofs.v
theories/Tseg_props.v
theories/Tseg_spec.v
theories/Tube2_proofs.v
theories/Tube_model.v
theories/Tube_proofs.v
theories/Tube_props.v
theories/Tube_spec.v
theories/Wfr_model.v
theories/Wfr_proofs.v
theories/Wfr_props.v
theories/Wfr_spec.v
theories/Wqp_model.v
theories/Wqp_proofs.v
theories/Wqp_props.v
theories/Wqp_spec.v
