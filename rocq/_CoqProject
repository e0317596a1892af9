-Q theories Verif
theories/Base.v
theories/BaseLemmas.v
theories/Workers_Model.v
theories/Workers_Spec.v
theories/Workers_Proofs.v
theories/Workers_Proofs2.v
theories/Workers_Proofs3.v
theories/Workers_Final.v
theories/Workers_Props.v
theories/Bg_Model.v
theories/Bg_Spec.v
theories/Bg_Proofs.v
theories/Bg_Proofs2.v
theories/Bg_Proofs3.v
theories/Bg_Final.v
theories/Bg_Props.v
theories/DataBuf_Model.v
theories/DataBuf_Spec.v
theories/DataBuf_Proofs.v
theories/DataBuf_Props.v
theories/Kern_Model.v
theories/Kern_Spec.v
theories/Kern_Proofs.v
theories/MKern_Model.v
theories/MKern_Spec.v
theories/MKern_Proofs.v
theories/MKern_Proofs2.v
theories/MKern_Proofs3.v
theories/MKern_Proofs4.v
theories/IdxMax_Model.v
theories/IdxMax_Spec.v
theories/IdxMax_Proofs.v
theories/MKern_Props.v
theories/Smx_Model.v
theories/Smx_Spec.v
theories/Smx_Proofs.v
theories/Smx_Proofs2.v
theories/Smx_Proofs3.v
theories/Smx_Props.v
theories/TData_Model.v
theories/TData_Spec.v
theories/TData_Proofs.v
theories/TData_Proofs2.v
theories/TData_Proofs3.v
theories/TData_Proofs4.v
theories/TData_Proofs5.v
theories/TData_Proofs6.v
theories/TData_Props.v
theories/Istor_Model.v
theories/Istor_Spec.v
theories/Istor_Proofs.v
theories/Istor_Props.v
theories/FindK_Model.v
theories/FindK_Spec.v
theories/FindK_Proofs.v
theories/FindK_Proofs2.v
theories/FindK_Proofs3.v
theories/FindK_Proofs4.v
theories/FindK_Props.v
theories/Tri_Model.v
theories/Tri_Spec.v
theories/Tri_Proofs.v
theories/Tri_Float.v
theories/Tri_Props.v
theories/Bin_Model.v
theories/Bin_Spec.v
theories/Bin_Proofs.v
theories/Bin_Proofs2.v
theories/Bin_Proofs3.v
theories/Bin_Proofs4.v
theories/Bin_Proofs5.v
theories/Bin_Proofs6.v
theories/Bin_Proofs7.v
theories/Bin_Props.v
theories/Ew_Model.v
theories/Ew_Spec.v
theories/Ew_Proofs.v
theories/Act_Model.v
theories/Act_Spec.v
theories/Act_Proofs.v
theories/Loss_Proofs.v
theories/Act_Props.v
theories/Priv_Model.v
theories/Priv_Proofs.v
theories/Sfm_Model.v
theories/Sfm_Spec.v
theories/Sfm_Proofs.v
theories/Sfm_Proofs2.v
theories/Sfm_Props.v
theories/Norm_Model.v
theories/Norm_Spec.v
theories/Norm_Proofs.v
theories/Norm_Props.v
theories/Opt_Model.v
theories/Opt_Spec.v
theories/Opt_Ema.v
theories/Opt_Proofs.v
theories/Opt_Proofs2.v
theories/Opt_Proofs3.v
theories/Opt_Proofs4.v
theories/Opt_Proofs5.v
theories/Opt_Props.v
theories/Drop_Model.v
theories/Drop_Spec.v
theories/Drop_Proofs.v
theories/Drop_Props.v
theories/Net_Model.v
theories/Net_Spec.v
theories/Net_Proofs.v
theories/Net_Proofs2.v
theories/Net_Proofs3.v
theories/Net_Proofs4.v
theories/Net_Proofs5.v
theories/Net_Props.v
theories/Train_Model.v
theories/Train_Spec.v
theories/Train_Proofs.v
theories/Train_Proofs2.v
theories/Train_Proofs3.v
theories/Train_Proofs4.v
theories/Train_Props.v
theories/Mem_Model.v
theories/Mem_Spec.v
theories/Mem_Proofs.v
theories/Mem_Props.v
theories/Gc_Model.v
theories/Gc_Spec.v
theories/Gc_Proofs.v
theories/Gc_Proofs2.v
theories/Gc_Proofs3.v
theories/Gc_Proofs4.v
theories/Gc_Proofs5.v
theories/Gc_Proofs6.v
theories/Gc_Props.v
theories/Util_Model.v
theories/Util_Spec.v
theories/Util_Proofs.v
theories/Util_Proofs2.v
theories/Util_Props.v
theories/Rng_Model.v
theories/Rng_Spec.v
theories/Rng_Proofs.v
theories/Rng_Props.v
theories/Asm_Model.v
theories/Asm_Spec.v
theories/Asm_Proofs.v
theories/Asm_Proofs2.v
theories/Asm_Proofs3.v
theories/Lph_Spec.v
theories/Lph_Proofs.v
theories/Asm_Props.v
theories/Sum_Model.v
theories/Sum_Spec.v
theories/Sum_Proofs.v
theories/Sum_Props.v
theories/Ev_Model.v
theories/Ev_Spec.v
theories/Ev_Proofs.v
theories/Ev_Proofs2.v
theories/Ev_Proofs3.v
theories/Ev_Proofs4.v
theories/Ev_Props.v
theories/La_Model.v
theories/La_Spec.v
theories/La_Proofs.v
theories/La_Proofs2.v
theories/La_Proofs3.v
theories/La_Proofs4.v
theories/La_Props.v
theories/Pen_Model.v
theories/Pen_Spec.v
theories/Pen_Proofs.v
theories/Pen_Proofs2.v
theories/Pen_Props.v
theories/Do_Model.v
theories/Do_Spec.v
theories/Do_Proofs.v
theories/Do_Proofs2.v
theories/Do_Proofs3.v
theories/Do_Props.v
theories/Gp_Model.v
theories/Gp_Spec.v
theories/Gp_Proofs.v
theories/Gp_Proofs2.v
theories/Gp_Proofs3.v
theories/Gp_Proofs4.v
theories/Gp_Proofs5.v
theories/Gp_Proofs6.v
theories/Gp_Props.v
theories/Nrm_Model.v
theories/Nrm_Spec.v
theories/Nrm_Proofs.v
theories/Nrm_Proofs2.v
theories/Nrm_Proofs3.v
theories/Nrm_Proofs4.v
theories/Nrm_Proofs5.v
theories/Nrm_Proofs6.v
theories/Nrm_Proofs7.v
theories/Nrm_Props.v
theories/Fit_Model.v
theories/Fit_Spec.v
theories/Fit_Proofs.v
theories/Fit_Proofs2.v
theories/Fit_Proofs3.v
theories/Fit_Proofs4.v
theories/Fit_Proofs5.v
theories/Fit_Props.v
theories/Lsu_Model.v
theories/Lsu_Spec.v
theories/Lsu_Proofs.v
theories/Lsu_Proofs2.v
theories/Lsu_Proofs3.v
theories/Lsu_Proofs4.v
theories/Lsu_Proofs5.v
theories/Lsu_Proofs6.v
theories/Lsu_Props.v
theories/Wi_Model.v
theories/Wi_Spec.v
theories/Wi_Proofs.v
theories/Wi_Props.v
theories/Tf_Model.v
theories/Tf_Spec.v
theories/Tf_Proofs.v
theories/Tf_Proofs2.v
theories/Tf_Proofs3.v
theories/Tf_Proofs4.v
theories/Tf_Proofs5.v
theories/Tf_Proofs6.v
theories/Tf_Props.v
theories/Fs_Model.v
theories/Fs_Spec.v
theories/Fs_Proofs.v
theories/Fs_Proofs2.v
theories/Fs_Proofs3.v
theories/Fs_Proofs4.v
theories/Fs_Props.v
theories/As_Model.v
theories/As_Spec.v
theories/As_Proofs.v
theories/As_Proofs2.v
theories/As_Proofs3.v
theories/As_Proofs4.v
theories/As_Props.v
theories/Js_Model.v
theories/Js_Spec.v
theories/Js_Proofs.v
theories/Js_Proofs2.v
theories/Js_Proofs3.v
theories/Js_Props.v
theories/Ls_Model.v
theories/Ls_Spec.v
theories/Ls_Proofs.v
theories/Ls_Proofs2.v
theories/Ls_Props.v
theories/Pw_Model.v
theories/Pw_Spec.v
theories/Pw_Proofs.v
theories/Pw_Props.v
theories/Sy_Model.v
theories/Sy_Spec.v
theories/Sy_Proofs.v
theories/Sy_Props.v
theories/Mf_Model.v
theories/Mf_Spec.v
theories/Mf_Proofs.v
theories/Mf_Proofs2.v
theories/Mf_Proofs3.v
theories/Mf_Props.v
theories/Rw_Model.v
theories/Rw_Spec.v
theories/Rw_Proofs.v
theories/Rw_Proofs2.v
theories/Rw_Props.v
theories/Dp_Model.v
theories/Dp_Spec.v
theories/Dp_Proofs.v
theories/Dp_Proofs2.v
theories/Dp_Proofs3.v
theories/Dp_Proofs4.v
theories/Dp_Props.v
theories/Ww_Model.v
theories/Ww_Spec.v
theories/Ww_Proofs.v
theories/Ww_Proofs2.v
theories/Ww_Props.v
theories/Cl_Model.v
theories/Cl_Spec.v
theories/Cl_Proofs.v
theories/Cl_Props.v
theories/Tt_Model.v
theories/Tt_Spec.v
theories/Tt_Proofs.v
theories/Tt_Props.v
theories/Nz_Model.v
theories/Nz_Spec.v
theories/Nz_Proofs.v
theories/Nz_Proofs2.v
theories/Nz_Props.v
