-Q theories Verif
theories/Py.v
theories/StrUtil.v
theories/Units_Model.v
theories/Units_Spec.v
theories/Units_Proofs.v
theories/Units_Algebra.v
theories/Units_Proofs2.v
theories/Units_Props.v
theories/Units_Props2.v
theories/PyLemmas.v
theories/Sched_Model.v
theories/Sched_Spec.v
theories/Sched_Proofs.v
theories/Sched_Proofs2.v
theories/Sched_Proofs3.v
theories/Sched_Proofs4.v
theories/Sched_Props.v
theories/Sched_Props2.v
theories/Alns_Model.v
theories/Alns_Spec.v
theories/Alns_Proofs.v
theories/Alns_Proofs2.v
theories/Alns_Props.v
theories/Gen_Model.v
theories/Gen_Spec.v
theories/Gen_Proofs.v
theories/Gen_Props.v
theories/Vtw_Model.v
theories/Vtw_Spec.v
theories/Vtw_Proofs.v
theories/Vtw_Props.v
theories/Sched_Props3.v
theories/Gen_Props2.v
theories/Cal_Model.v
theories/Cal_Spec.v
theories/Cal_Proofs.v
theories/Cal_Proofs2.v
theories/Cal_Proofs3.v
theories/Cal_Props.v
theories/Time_Model.v
theories/Time_Spec.v
theories/Time_Proofs.v
theories/Time_Props.v
theories/Rot_Model.v
theories/Rot_Spec.v
theories/Rot_Proofs.v
theories/Rot_Props.v
theories/Num.v
theories/Geo_Model.v
theories/Geo_Spec.v
theories/Geo_Alt.v
theories/Geo_Alt2.v
theories/Geo_Acc.v
theories/Geo_Num.v
theories/Geo_Props.v
theories/Geo_Props2.v
theories/Geo_Dir.v
theories/Geo_Props3.v
theories/Geo_Props4.v
theories/Geo_Props5.v
theories/Geo_Props6.v
theories/Geo_Props7.v
theories/Geo_Props8.v
theories/Lvlh_Model.v
theories/Lvlh_Spec.v
theories/Lvlh_Proofs.v
theories/Lvlh_Props.v
theories/Lvlh_Props2.v
theories/Disp_Model.v
theories/Disp_Props.v
theories/Text_Model.v
theories/Text_Spec.v
theories/Text_Num.v
theories/Text_Proofs.v
theories/Text_Props.v
theories/Text_Props2.v
theories/Save_Model.v
theories/Save_Props.v
theories/Save_Props2.v
theories/Arr_Model.v
theories/Arr_Proofs.v
theories/Arr_Props.v
theories/Arr_Props2.v
theories/Arr_Props3.v
theories/Vis_Model.v
theories/Vis_Spec.v
theories/Vis_Proofs.v
theories/Vis_Props.v
theories/Sess_Model.v
theories/Sess_Spec.v
theories/Sess_Proofs.v
theories/Sess_Props.v
theories/Fl_Model.v
theories/Fl_Spec.v
theories/Fl_Proofs.v
theories/Fl_Props.v
theories/Fls_Model.v
theories/Fls_Spec.v
theories/Fls_Proofs.v
theories/Fls_Proofs2.v
theories/Fls_Proofs3.v
theories/Fls_Props.v
theories/Fls_Props2.v
theories/Fla_Model.v
theories/Fla_Spec.v
theories/Fla_Proofs.v
theories/Fla_Proofs2.v
theories/Fla_Proofs3.v
theories/Fla_Proofs4.v
theories/Fla_Props.v
theories/Fla_Proofs5.v
theories/Fla_Props2.v
theories/Heap_Model.v
theories/Heap_Spec.v
theories/Heap_Proofs.v
theories/Heap_Proofs2.v
theories/Heap_Proofs3.v
theories/Heap_Props.v
theories/Iter_Model.v
theories/Iter_Props.v
theories/Flc_Model.v
theories/Flc_Spec.v
theories/Flc_Proofs.v
theories/Flc_Proofs2.v
theories/Flc_Proofs3.v
theories/Flc_Proofs4.v
theories/Flc_Proofs5.v
theories/Flc_Props.v
theories/Flg_Model.v
theories/Flg_Spec.v
theories/Flg_Proofs.v
theories/Flg_Num.v
theories/Flg_Proofs2.v
theories/Flg_Proofs3.v
theories/Flg_Proofs4.v
theories/Flg_Proofs5.v
theories/Flg_Proofs6.v
theories/Flg_Proofs7.v
theories/Flg_Best.v
theories/Flw_Model.v
theories/Flw_Spec.v
theories/Flw_Proofs.v
theories/Flg_Cases.v
theories/Flg_Props.v
theories/Fle_Model.v
theories/Fle_Spec.v
theories/Fle_Proofs.v
theories/Fle_Props.v
theories/Ops_Model.v
theories/Ops_Spec.v
theories/Ops_Props.v
theories/Repr_Model.v
theories/Repr_Spec.v
theories/Repr_Proofs.v
theories/Repr_Props.v
theories/Int_Model.v
theories/Int_Spec.v
theories/Int_Props.v
theories/Flr_Model.v
theories/Flr_Spec.v
theories/Flx_Expr.v
theories/Flr_Proofs.v
theories/Flr_Proofs2.v
theories/Flr_Proofs3.v
theories/Flr_Proofs4.v
theories/Flr_Proofs5.v
theories/Flr_Proofs6.v
theories/Flr_Proofs7.v
theories/Flr_Best.v
theories/Flr_Props.v
theories/Flk_Model.v
theories/Flk_Spec.v
theories/Flk_Proofs.v
theories/Flk_Proofs2.v
theories/Flk_Proofs3.v
theories/Flk_Proofs4.v
theories/Flk_Proofs5.v
theories/Flk_Proofs6.v
theories/Flk_Props.v
theories/Flv_Model.v
theories/Flv_Spec.v
theories/Flv_Proofs.v
theories/Flv_Proofs2.v
theories/Flv_Proofs3.v
theories/Flv_Proofs4.v
theories/Flv_Proofs5.v
theories/Flv_Proofs6.v
theories/Flv_Props.v
theories/Geo_Foot.v
theories/Fly_Model.v
theories/Fly_Spec.v
theories/Fly_Proofs.v
theories/Fly_Proofs2.v
theories/Fly_Proofs3.v
theories/Fly_Proofs4.v
theories/Fly_Proofs5.v
theories/Fly_Proofs6.v
theories/Fly_Props.v
theories/Fln_Model.v
theories/Fln_Spec.v
theories/Fln_Proofs.v
theories/Fln_Proofs2.v
theories/Fln_Proofs3.v
theories/Fln_Proofs4.v
theories/Fln_Props.v
theories/Flb_Model.v
theories/Flb_Spec.v
theories/Flb_Proofs.v
theories/Flb_Proofs2.v
theories/Flb_Proofs3.v
theories/Flb_Props.v
theories/Flx_Model.v
theories/Flx_Spec.v
theories/Flx_Proofs.v
theories/Flx_Props.v
theories/Ast_Spec.v
theories/Ast_Proofs.v
theories/Ast_Props.v
theories/Flu_Model.v
theories/Flu_Spec.v
theories/Flu_Proofs.v
theories/Flu_Props.v
theories/Deg_Spec.v
theories/Deg_Proofs.v
theories/Deg_Props.v
theories/Flz_Model.v
theories/Flz_Spec.v
theories/Flz_Proofs.v
theories/Flz_Proofs2.v
theories/Flz_Props.v
theories/Flq_Model.v
theories/Flq_Props.v
theories/Flk_Props2.v
theories/Lvlh_Props3.v
theories/Ast_Props2.v
theories/Units_Props3.v
theories/Ops_Props2.v
theories/Near_Spec.v
theories/Near_Props.v
theories/Near_Props2.v
theories/Near_Turn.v
theories/Text_Props3.v
theories/Gen_Props3.v
theories/Fvw_Model.v
theories/Fvw_Props.v
theories/Near_Props3.v
theories/Near_Spec2.v
theories/Near_Lat.v
theories/Near_Props4.v
theories/Near_Props5.v
theories/Vis_Props2.v
theories/Up_Spec.v
theories/Up_Props.v
theories/Up_Props2.v
