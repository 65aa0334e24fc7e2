-Q theories Verif
theories/Base.v
theories/Float32.v
theories/Float32_facts.v
theories/Float32_round.v
theories/Atom_model.v
theories/Atom_spec.v
theories/Atom_proofs.v
theories/Atom_float_proofs.v
theories/Atom_props.v
theories/Utils_model.v
theories/Utils_spec.v
theories/Utils_proofs.v
theories/Utils_props.v
theories/CellList_model.v
theories/CellList_spec.v
theories/CellList_proofs.v
theories/CellList_props.v
theories/Image_model.v
theories/Image_spec.v
theories/Image_proofs.v
theories/Image_props.v
theories/Match_model.v
theories/Match_spec.v
theories/Match_proofs.v
theories/Match_props.v
theories/Fact_model.v
theories/Fact_spec.v
theories/Fact_proofs.v
theories/Fact_props.v
theories/Sched_model.v
theories/Sched_spec.v
theories/Sched_proofs.v
theories/Sched_props.v
theories/Obj_model.v
theories/Obj_spec.v
theories/Obj_proofs.v
theories/Obj_props.v
theories/Float32_val.v
theories/View_model.v
theories/View_spec.v
theories/View_proofs.v
theories/View_props.v
theories/Grp_model.v
theories/Grp_spec.v
theories/Grp_proofs.v
theories/Grp_more.v
theories/Grp_props.v
theories/Sln_model.v
theories/Sln_spec.v
theories/Sln_proofs.v
theories/Sln_props.v
theories/Rate_model.v
theories/Rate_spec.v
theories/Rate_float.v
theories/Rate_proofs.v
theories/Rate_props.v
theories/Mb_model.v
theories/Mb_spec.v
theories/Mb_proofs.v
theories/Mb_props.v
theories/Pack_model.v
theories/Pack_spec.v
theories/Pack_proofs.v
theories/Pack_props.v
theories/Ev_model.v
theories/Ev_spec.v
theories/Ev_proofs.v
theories/Ev_props.v
theories/Req_model.v
theories/Req_spec.v
theories/Req_proofs.v
theories/Req_props.v
theories/Op_model.v
theories/Op_spec.v
theories/Op_typing.v
theories/Op_proofs.v
theories/Op_props.v
theories/Ovl_model.v
theories/Ovl_spec.v
theories/Ovl_proofs.v
theories/Ovl_props.v
theories/Pgm_model.v
theories/Pgm_spec.v
theories/Pgm_proofs.v
theories/Pgm_props.v
theories/Mon_model.v
theories/Mon_spec.v
theories/Mon_proofs.v
theories/Mon_goals.v
theories/Mon_props.v
theories/Sol_model.v
theories/Sol_spec.v
theories/Sol_proofs.v
theories/Sol_props.v
theories/Dec_model.v
theories/Dec_spec.v
theories/Dec_proofs.v
theories/Dec_stream.v
theories/Dec_props.v
theories/Grp_one.v
theories/Grp2_spec.v
theories/Grp2_proofs.v
theories/Grp3_proofs.v
theories/Grp4_proofs.v
theories/Grp5_proofs.v
theories/Grp2_props.v
theories/Cst_model.v
theories/Cst_spec.v
theories/Cst_proofs.v
theories/Cst2_proofs.v
theories/Cst3_proofs.v
theories/Cst4_proofs.v
theories/Csg_model.v
theories/Csg_spec.v
theories/Csg_proofs.v
theories/Cst_props.v
theories/Prd_model.v
theories/Prd_spec.v
theories/Prd_proofs.v
theories/Inv_model.v
theories/Inv_spec.v
theories/Inv_proofs.v
theories/Inv_props.v
theories/Gd_model.v
theories/Gd_spec.v
theories/Gd_proofs.v
theories/Gd2_proofs.v
theories/Gd3_proofs.v
theories/Gd4_proofs.v
theories/Gd_props.v
theories/Bp_model.v
theories/Bp_spec.v
theories/Bp_proofs.v
theories/Bp2_proofs.v
theories/Bp3_proofs.v
theories/Bp_props.v
theories/Ppr_model.v
theories/Ppr_spec.v
theories/Ppr_proofs.v
theories/Ppr2_proofs.v
theories/Ppr3_proofs.v
theories/Ppr4_proofs.v
theories/Ppr_props.v
theories/Mac_model.v
theories/Mac_spec.v
theories/Mac_proofs.v
theories/Mac2_proofs.v
theories/Mac3_proofs.v
theories/Mac4_proofs.v
theories/Mac5_proofs.v
theories/Mac6_proofs.v
theories/Mac_props.v
theories/Lit_model.v
theories/Lit_spec.v
theories/Lit_proofs.v
theories/Lit2_proofs.v
theories/Lit_props.v
theories/Gb_model.v
theories/Gb_spec.v
theories/Gb_proofs.v
theories/Gb2_proofs.v
theories/Gb3_proofs.v
theories/Gb4_proofs.v
theories/Gb5_proofs.v
theories/Gb_props.v
theories/Abs_model.v
theories/Abs_spec.v
theories/Abs_proofs.v
theories/Abs2_proofs.v
theories/Abs3_proofs.v
theories/Abs4_proofs.v
theories/Abs5_proofs.v
theories/Abs6_proofs.v
theories/Abs_props.v
theories/Inst_model.v
theories/Inst_spec.v
theories/Inst_proofs.v
theories/Inst2_proofs.v
theories/Inst3_proofs.v
theories/Inst4_proofs.v
theories/Inst5_proofs.v
theories/Inst6_proofs.v
theories/Inst7_proofs.v
theories/Inst_props.v
theories/Af_model.v
theories/Af_spec.v
theories/Af_proofs.v
theories/Af2_proofs.v
theories/Af3_proofs.v
theories/Af4_proofs.v
theories/Af5_proofs.v
theories/Af_props.v
theories/Vec_model.v
theories/Vec_spec.v
theories/Vec_proofs.v
theories/Vec2_proofs.v
theories/Vec3_proofs.v
theories/Vec4_proofs.v
theories/Vec5_proofs.v
theories/Vec6_proofs.v
theories/Vec7_proofs.v
theories/Vec_props.v
theories/Cmd_model.v
theories/Cmd_spec.v
theories/Cmd_proofs.v
theories/Cmd2_proofs.v
theories/Cmd3_proofs.v
theories/Cmd_props.v
theories/Pat_model.v
theories/Pat_spec.v
theories/Pat_proofs.v
theories/Pat2_proofs.v
theories/Pat3_proofs.v
theories/Pat_props.v
theories/Cmp_model.v
theories/Cmp_spec.v
theories/Cmp_proofs.v
theories/Cmp2_proofs.v
theories/Cmp3_proofs.v
theories/Cmp4_proofs.v
theories/Cmp5_proofs.v
theories/Cmp6_proofs.v
theories/Cmp_props.v
theories/Ld_model.v
theories/Ld_spec.v
theories/Ld_proofs.v
theories/Ld2_proofs.v
theories/Ld3_proofs.v
theories/Ld_props.v
theories/Pln_model.v
theories/Pln_spec.v
theories/Pln_proofs.v
theories/Pln2_proofs.v
theories/Pln_props.v
theories/Snp_model.v
theories/Snp_spec.v
theories/Snp_proofs.v
theories/Snp2_proofs.v
theories/Snp_props.v
theories/Fwd_model.v
theories/Fwd_spec.v
theories/Fwd_proofs.v
theories/Fwd2_proofs.v
theories/Fwd_props.v
theories/Sto_model.v
theories/Sto_spec.v
theories/Sto_proofs.v
theories/Sto2_proofs.v
theories/Sto_props.v
theories/Drv_model.v
theories/Drv_spec.v
theories/Drv_proofs.v
theories/Drv_props.v
theories/Asm_model.v
theories/Asm_spec.v
theories/Asm_proofs.v
theories/Asm_props.v
theories/Pro_model.v
theories/Pro_spec.v
theories/Pro_proofs.v
theories/Pro_props.v
theories/Net_model.v
theories/Net_spec.v
theories/Net_proofs.v
theories/Net_props.v
