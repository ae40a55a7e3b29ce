-Q theories Verif
theories/Base.v
theories/Conn_Model.v
theories/Conn_Spec.v
theories/Conn_Proofs.v
theories/Conn_Gap.v
theories/Conn_Props.v
theories/PBuf_Model.v
theories/PBuf_Spec.v
theories/PBuf_Proofs.v
theories/PBuf_Props.v
theories/Rule_Model.v
theories/Rule_Spec.v
theories/Rule_Proofs.v
theories/Rule_Props.v
theories/Perm_Model.v
theories/Perm_Spec.v
theories/Perm_Proofs.v
theories/Perm_Shape.v
theories/Perm_Props.v
theories/Lock_Model.v
theories/Lock_Spec.v
theories/Lock_Proofs.v
theories/Lock_Props.v
theories/Bytes.v
theories/CfgPkt_Model.v
theories/CfgPkt_Spec.v
theories/CfgPkt_Proofs.v
theories/CfgPkt_Props.v
theories/Frame_Model.v
theories/Frame_Spec.v
theories/Frame_Proofs.v
theories/Frame_Props.v
theories/PStr_Model.v
theories/PStr_Spec.v
theories/PStr_Proofs.v
theories/PStr_Props.v
theories/Cache_Model.v
theories/Cache_Spec.v
theories/Cache_Proofs.v
theories/Cache_Props.v
theories/SMgr_Model.v
theories/SMgr_Spec.v
theories/SMgr_Proofs.v
theories/SMgr_Props.v
theories/Ratio_Model.v
theories/Ratio_Spec.v
theories/Ratio_Proofs.v
theories/Ratio_Props.v
theories/Event_Model.v
theories/Event_Spec.v
theories/Event_Proofs.v
theories/Event_Props.v
theories/Types_Model.v
theories/Types_Spec.v
theories/Types_Proofs.v
theories/Types_Props.v
theories/Loop_Model.v
theories/Loop_Spec.v
theories/Loop_Proofs.v
theories/Loop_Props.v
theories/Graph_Model.v
theories/Graph_Spec.v
theories/Graph_Proofs.v
theories/Graph_Props.v
theories/SRead_Model.v
theories/SRead_Spec.v
theories/SRead_Proofs.v
theories/SRead_Props.v
theories/TRead_Model.v
theories/TRead_Spec.v
theories/TRead_Proofs.v
theories/TRead_Props.v
theories/BRead_Model.v
theories/BRead_Spec.v
theories/BRead_Step.v
theories/BRead_Proofs.v
theories/BRead_Props.v
theories/Comp_Model.v
theories/Comp_Spec.v
theories/Comp_Proofs.v
theories/Comp_Inv.v
theories/Comp_Props.v
theories/Eval_Model.v
theories/Eval_Spec.v
theories/Eval_Char.v
theories/Eval_Parse.v
theories/Eval_Gram.v
theories/Eval_Lex.v
theories/Eval_Calc.v
theories/Eval_Props.v
theories/Tree_Model.v
theories/Tree_Spec.v
theories/Tree_Proofs.v
theories/Tree_Props.v
theories/Prop_Model.v
theories/Prop_Spec.v
theories/Prop_Proofs.v
theories/Prop_Keep.v
theories/Prop_Last.v
theories/Prop_Quiet.v
theories/Prop_Batch.v
theories/Prop_Mirror.v
theories/Prop_Settle.v
theories/Prop_Props.v
theories/Rpc_Model.v
theories/Rpc_Spec.v
theories/Rpc_Proofs.v
theories/Rpc_Hist.v
theories/Rpc_Props.v
theories/Notif_Model.v
theories/Notif_Spec.v
theories/Notif_Proofs.v
theories/Notif_Props.v
theories/Sig_Model.v
theories/Sig_Spec.v
theories/Sig_Proofs.v
theories/Sig_Hist.v
theories/Sig_Props.v
theories/SubC_Model.v
theories/SubC_Spec.v
theories/SubC_Proofs.v
theories/SubC_Props.v
theories/RefC_Model.v
theories/RefC_Spec.v
theories/RefC_Proofs.v
theories/RefC_Props.v
theories/Bulk_Model.v
theories/Bulk_Spec.v
theories/Bulk_Proofs.v
theories/Bulk_Props.v
theories/Json_Model.v
theories/Json_Spec.v
theories/Json_Proofs.v
theories/Json_Props.v
theories/MRead_Model.v
theories/MRead_Spec.v
theories/MRead_Proofs.v
theories/MRead_Start.v
theories/MRead_Hole.v
theories/MRead_Props.v
theories/Conf_Model.v
theories/Conf_Spec.v
theories/Conf_Core.v
theories/Conf_Upd.v
theories/Conf_Proofs.v
theories/Conf_Any.v
theories/Conf_Props.v
theories/CDev_Model.v
theories/CDev_Spec.v
theories/CDev_Proofs.v
theories/CDev_Props.v
theories/Ext_Model.v
theories/Ext_Spec.v
theories/Ext_Proofs.v
theories/Ext_Props.v
theories/Cont_Model.v
theories/Cont_Spec.v
theories/Cont_Proofs.v
theories/Cont_Eq.v
theories/Cont_Data.v
theories/Cont_Clone.v
theories/Cont_Props.v
theories/Mir_Model.v
theories/Mir_Spec.v
theories/Mir_Proofs.v
theories/Mir_Inv.v
theories/Mir_Steps.v
theories/Mir_Props.v
theories/CMir_Model.v
theories/CMir_Spec.v
theories/CMir_Proofs.v
theories/CMir_Steps.v
theories/CMir_Run.v
theories/CMir_Props.v
theories/Strc_Model.v
theories/Strc_Spec.v
theories/Strc_Proofs.v
theories/Strc_Steps.v
theories/Strc_Create.v
theories/Strc_Props.v
theories/Stat_Model.v
theories/Stat_Spec.v
theories/Stat_Proofs.v
theories/Stat_Trig.v
theories/Stat_Num.v
theories/Stat_Props.v
theories/Desc_Model.v
theories/Desc_Spec.v
theories/Desc_Proofs.v
theories/Desc_Step.v
theories/Desc_Accept.v
theories/Desc_Props.v
theories/Opts_Model.v
theories/Opts_Spec.v
theories/Opts_Proofs.v
theories/Opts_Acts.v
theories/Opts_Again.v
theories/Opts_Text.v
theories/Opts_Effect.v
theories/Opts_Props.v
theories/Sess_Model.v
theories/Sess_Spec.v
theories/Sess_Proofs.v
theories/Sess_Count.v
theories/Sess_Types.v
theories/Sess_Lists.v
theories/Sess_Keep.v
theories/Sess_Effect.v
theories/Sess_Back.v
theories/Sess_Props.v
theories/Auth_Model.v
theories/Auth_Spec.v
theories/Auth_Proofs.v
theories/Auth_Props.v
theories/Task_Model.v
theories/Task_Spec.v
theories/Task_Proofs.v
theories/Task_Build.v
theories/Task_Await.v
theories/Task_Props.v
theories/Err_Model.v
theories/Err_Spec.v
theories/Err_Proofs.v
theories/Err_Props.v
theories/CStat_Model.v
theories/CStat_Spec.v
theories/CStat_Proofs.v
theories/CStat_Props.v
theories/MMgr_Model.v
theories/MMgr_Spec.v
theories/MMgr_Proofs.v
theories/MMgr_Proofs2.v
theories/MMgr_Props.v
theories/OMode_Model.v
theories/OMode_Spec.v
theories/OMode_Proofs.v
theories/OMode_Props.v
theories/SyncC_Model.v
theories/SyncC_Spec.v
theories/SyncC_Proofs.v
theories/SyncC_Props.v
theories/DInfo_Model.v
theories/DInfo_Spec.v
theories/DInfo_Proofs.v
theories/DInfo_Props.v
theories/Logg_Model.v
theories/Logg_Spec.v
theories/Logg_Proofs.v
theories/Logg_Props.v
theories/Epoch_Model.v
theories/Epoch_Spec.v
theories/Epoch_Proofs.v
theories/Epoch_Proofs2.v
theories/Epoch_Props.v
theories/StrSrc_Model.v
theories/StrSrc_Spec.v
theories/StrSrc_Proofs.v
theories/StrSrc_Props.v
