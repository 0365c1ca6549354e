-Q theories Verif
theories/Calendar_Model.v
theories/Calendar_Spec.v
theories/Calendar_Proofs.v
theories/Calendar_Props.v
theories/CStr_Model.v
theories/CNum_Model.v
theories/Sort_Model.v
theories/Sort_Proofs.v
theories/List_Model.v
theories/List_Proofs.v
theories/List_Props.v
theories/Dim_Model.v
theories/Dim_Spec.v
theories/Dim_Proofs.v
theories/Dim_Props.v
theories/Var_Model.v
theories/Var_Spec.v
theories/Var_Proofs.v
theories/Var_Props.v
theories/Param_Model.v
theories/Param_Spec.v
theories/Param_Proofs.v
theories/Param_Props.v
theories/Qx.v
theories/Snow_Model.v
theories/Snow_Spec.v
theories/Snow_Proofs.v
theories/Snow_Props.v
theories/Unit_Model.v
theories/Unit_Proofs.v
theories/Unit_Props.v
theories/Infil_Model.v
theories/Infil_Proofs.v
theories/Infil_Props.v
theories/Canopy_Model.v
theories/Canopy_Spec.v
theories/Canopy_Proofs.v
theories/Canopy_Props.v
theories/Soln_Model.v
theories/Soln_Spec.v
theories/Soln_Proofs.v
theories/Soln_Props.v
theories/Route_Model.v
theories/Route_Spec.v
theories/Route_Proofs.v
theories/Route_Props.v
theories/Clock_Model.v
theories/Clock_Spec.v
theories/Clock_Proofs.v
theories/Clock_Props.v
theories/Precip_Model.v
theories/Precip_Spec.v
theories/Precip_Proofs.v
theories/Precip_Props.v
theories/Run_Model.v
theories/Run_Spec.v
theories/Run_Proofs.v
theories/Run_Props.v
theories/Mix_Model.v
theories/Mix_Spec.v
theories/Mix_Proofs.v
theories/Mix_Props.v
theories/Tally_Model.v
theories/Tally_Spec.v
theories/Tally_Proofs.v
theories/Tally_Props.v
theories/Map_Model.v
theories/Map_Proofs.v
theories/Name_Model.v
theories/Name_Spec.v
theories/Name_Proofs.v
theories/Name_Props.v
theories/Variant_Model.v
theories/Variant_Spec.v
theories/Variant_Proofs.v
theories/Variant_Props.v
theories/SelOut_Model.v
theories/SelOut_Spec.v
theories/SelOut_Proofs.v
theories/SelOut_Props.v
theories/Inst_Model.v
theories/Inst_Spec.v
theories/Inst_Proofs.v
theories/Inst_Props.v
theories/Reg_Model.v
theories/Reg_Spec.v
theories/Reg_Proofs.v
theories/Reg_Props.v
theories/Fstr_Model.v
theories/Fstr_Spec.v
theories/Fstr_Proofs.v
theories/Fstr_Props.v
theories/Elem_Model.v
theories/Elem_Spec.v
theories/Elem_Proofs.v
theories/Elem_Props.v
theories/Xchg_Model.v
theories/Xchg_Spec.v
theories/Xchg_Proofs.v
theories/Xchg_Props.v
theories/Pget_Model.v
theories/Pget_Spec.v
theories/Pget_Proofs.v
theories/Pget_Props.v
theories/Resize_Model.v
theories/Resize_Spec.v
theories/Resize_Proofs.v
theories/Resize_Props.v
theories/Pfile_Model.v
theories/Pfile_Spec.v
theories/Pfile_Proofs.v
theories/Pfile_Props.v
theories/Ctrl_Model.v
theories/Ctrl_Spec.v
theories/Ctrl_Proofs.v
theories/Ctrl_Props.v
theories/Args_Model.v
theories/Args_Spec.v
theories/Args_Proofs.v
theories/Args_Props.v
theories/Data_Model.v
theories/Data_Spec.v
theories/Data_Proofs.v
theories/Data_Props.v
theories/Ckpt_Model.v
theories/Ckpt_Spec.v
theories/Ckpt_Proofs.v
theories/Ckpt_Props.v
theories/Store_Model.v
theories/Store_Spec.v
theories/Store_Proofs.v
theories/Store_Props.v
theories/Blend_Model.v
theories/Blend_Spec.v
theories/Blend_Proofs.v
theories/Blend_Props.v
theories/Hill_Model.v
theories/Hill_Spec.v
theories/Hill_Proofs.v
theories/Hill_Props.v
theories/Chem_Model.v
theories/Chem_Spec.v
theories/Chem_Proofs.v
theories/Chem2_Proofs.v
theories/Chem3_Proofs.v
theories/Chem4_Proofs.v
theories/Chem_Props.v
theories/Resv_Model.v
theories/Resv_Spec.v
theories/Resv_Proofs.v
theories/Resv2_Proofs.v
theories/Resv_Props.v
theories/Pack_Model.v
theories/Pack_Spec.v
theories/Pack_Proofs.v
theories/Pack2_Proofs.v
theories/Pack_Props.v
theories/Basic_Model.v
theories/Basic_Spec.v
theories/Basic_Proofs.v
theories/Basic2_Proofs.v
theories/Basic_Props.v
theories/Prog_Model.v
theories/Prog_Spec.v
theories/Prog_Proofs.v
theories/Prog2_Proofs.v
theories/Prog3_Proofs.v
theories/Prog4_Proofs.v
theories/Prog5_Proofs.v
theories/Prog_Props.v
theories/Lex_Model.v
theories/Lex_Spec.v
theories/Lex_Proofs.v
theories/Lex_Props.v
theories/Temp_Model.v
theories/Temp_Spec.v
theories/Temp_Proofs.v
theories/Temp_Props.v
theories/Sun_Model.v
theories/Sun_Spec.v
theories/Sun_Proofs.v
theories/Sun_Props.v
theories/Acct_Model.v
theories/Acct_Spec.v
theories/Acct_Proofs.v
theories/Acct2_Proofs.v
theories/Acct3_Proofs.v
theories/Acct4_Proofs.v
theories/Acct5_Proofs.v
theories/Acct_Props.v
theories/Basic2_Props.v
theories/Prog2_Props.v
theories/Acct2_Props.v
theories/Steps_Model.v
theories/Steps_Spec.v
theories/Steps_Proofs.v
theories/Steps_Props.v
theories/Advec_Model.v
theories/Advec_Spec.v
theories/Advec_Proofs.v
theories/Advec_Props.v
theories/Lex2_Props.v
theories/Phrmix_Model.v
theories/Phrmix_Spec.v
theories/Phrmix_Proofs.v
theories/Phrmix_Props.v
theories/Obs_Model.v
theories/Obs_Spec.v
theories/Obs_Proofs.v
theories/Obs_Props.v
theories/Inp_Model.v
theories/Inp_Spec.v
theories/Inp_Proofs.v
theories/Inp_Props.v
theories/Retry_Model.v
theories/Retry_Spec.v
theories/Retry_Proofs.v
theories/Retry_Props.v
theories/Units_Model.v
theories/Units_Spec.v
theories/Units_Proofs.v
theories/Units_Props.v
theories/Anim_Model.v
theories/Anim_Spec.v
theories/Anim_Proofs.v
theories/Anim_Props.v
theories/Iso_Model.v
theories/Iso_Spec.v
theories/Iso_Props.v
theories/Trans_Model.v
theories/Trans_Spec.v
theories/Trans_Proofs.v
theories/Trans_Props.v
theories/Melt_Spec.v
theories/Melt_Props.v
theories/Slope_Spec.v
theories/Slope_Props.v
theories/Extra_Spec.v
theories/Extra_Props.v
theories/Extra2_Props.v
theories/Summ_Model.v
theories/Summ_Spec.v
theories/Summ_Props.v
theories/Extra3_Props.v
theories/Extra4_Props.v
theories/Hdr_Model.v
theories/Hdr_Spec.v
theories/Hdr_Props.v
theories/Extra5_Props.v
theories/Extra6_Props.v
theories/Tsdate_Model.v
theories/Tsdate_Spec.v
theories/Tsdate_Props.v
theories/Hysep_Model.v
theories/Hysep_Spec.v
theories/Hysep_Props.v
theories/Hysep2_Props.v
theories/Qsort_Model.v
theories/Qsort_Spec.v
theories/Qsort_Proofs.v
theories/Qsort_Props.v
theories/Vol_Model.v
theories/Vol_Spec.v
theories/Vol_Props.v
theories/Tbase_Model.v
theories/Tbase_Spec.v
theories/Tbase_Props.v
theories/Dlist_Model.v
theories/Dlist_Spec.v
theories/Dlist_Props.v
