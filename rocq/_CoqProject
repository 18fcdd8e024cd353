-Q theories Verif
theories/PyBase.v
theories/NBits.v
theories/HTTP2_Model.v
theories/HTTP2_Int.v
theories/HTTP2_Sim.v
theories/HTTP2_Inv.v
theories/HTTP2_Spec.v
theories/HTTP2_More.v
theories/Prop_HTTP2.v
theories/PyStr.v
theories/PyMerge.v
theories/Lib_Model.v
theories/Lib_Spec.v
theories/Lib_Proofs.v
theories/Lib_Session.v
theories/Prop_Lib.v
theories/HTTP2_Proc_Model.v
theories/HTTP2_Proc.v
theories/Prop_HTTP2_Proc.v
theories/H1_Model.v
theories/H1_Spec.v
theories/H1_Proofs.v
theories/Prop_H1.v
theories/Bits.v
theories/Simple_Model.v
theories/Simple_Spec.v
theories/Simple_Proofs.v
theories/Simple_Session.v
theories/Prop_Simple.v
theories/BB_Model.v
theories/BB_Spec.v
theories/BB_Proofs.v
theories/Prop_BB.v
theories/Small_Model.v
theories/Prop_Small.v
theories/HD_Model.v
theories/HD_Int.v
theories/HD_Sim.v
theories/HD_Step.v
theories/HD_Spec.v
theories/HD_Session.v
theories/HD_Total.v
theories/HD_Proc_Model.v
theories/Prop_HD.v
theories/HDHuff_Model.v
theories/HDHuff_Bits.v
theories/HDHuff_Opt.v
theories/Prop_HDHuff.v
theories/BB_Read.v
theories/D2Huff_Model.v
theories/D2Huff_Proofs.v
theories/D2Huff_Dict.v
theories/Prop_D2Huff.v
theories/D2Wire_Model.v
theories/D2Wire_Proofs.v
theories/D2Wire_Frame.v
theories/Prop_D2Wire.v
theories/D2Store_Model.v
theories/D2Store_Proofs.v
theories/Prop_D2Store.v
theories/D2Code_Model.v
theories/Prop_D2Ranges.v
theories/D2Code_Sets.v
theories/D2Code_Store.v
theories/D2Code_Exec.v
theories/D2Code_Make.v
theories/D2Code_Round.v
theories/D2Code_Says.v
theories/Prop_D2Code.v
theories/D2Code_Bytes.v
theories/Prop_D2Limits.v
theories/D2Hostile_Proofs.v
theories/Prop_D2Hostile.v
theories/D2State_Model.v
theories/D2State_Proofs.v
theories/Prop_D2State.v
theories/D1Huff_Model.v
theories/D1Huff_Proofs.v
theories/Prop_D1Huff.v
theories/D1Wire_Model.v
theories/D1Wire_Proofs.v
theories/D1Wire_Frame.v
theories/Prop_D1Wire.v
theories/D1Code_Model.v
theories/D1Code_Inv.v
theories/D1Code_Store.v
theories/D1Code_Exec.v
theories/D1Code_Round.v
theories/Prop_D1Code.v
theories/Bohe_Model.v
theories/Bohe_Proofs.v
theories/Prop_Bohe.v
theories/DB_Model.v
theories/DB_Proofs.v
theories/DB_Ops.v
theories/DB_Session.v
theories/DB_Wire.v
theories/DB_Text.v
theories/Prop_DB.v
theories/Prop_DB2.v
theories/Prop_DB3.v
theories/HTTP2_Hostile.v
theories/Prop_HTTP2_Hostile.v
theories/HD_Hostile.v
theories/Prop_HD_Hostile.v
theories/Run_Model.v
theories/Run_Proofs.v
theories/Run_Total.v
theories/Run_Report.v
theories/Run_Complete.v
theories/Prop_Run.v
theories/Loading_Model.v
theories/Prop_Loading.v
theories/Prop_H1Text.v
theories/D1Hostile_Proofs.v
theories/Prop_D1Hostile.v
theories/HTTP2_Repeat.v
theories/Prop_HTTP2_Repeat.v
theories/HD_Repeat.v
theories/Prop_HD_Repeat.v
theories/Fork_Model.v
theories/Fork_Proofs.v
theories/Prop_Fork.v
theories/D2Code_Repeat.v
theories/Prop_D2Repeat.v
theories/Prop_SimpleText.v
theories/Prop_BoheEnc.v
theories/BoheCookie_Model.v
theories/Prop_BoheCookie.v
theories/Params_Model.v
theories/Prop_Options.v
theories/Prop_Params.v
theories/Prop_D1Names.v
theories/Prop_D1State.v
theories/HD_Choice.v
theories/Prop_HD_Choice.v
theories/HTTP2_Choice.v
theories/Prop_HTTP2_Choice.v
theories/D2Code_Choice.v
theories/Prop_D2Choice.v
theories/D2Huff_Opt.v
theories/Prop_D2HuffOpt.v
theories/D1Code_Choice.v
theories/Prop_D1Choice.v
theories/Tool_Model.v
theories/Tool_Clean.v
theories/Tool_Proofs.v
theories/Prop_Tool.v
theories/PyNum.v
theories/SDate_Model.v
theories/SDate_Cal.v
theories/SDate_Text.v
theories/SDate_Proofs.v
theories/Prop_SDate.v
theories/Report_Model.v
theories/Prop_Report.v
theories/HTTP2_Worst.v
theories/Prop_HTTP2_Worst.v
theories/Text_Hostile.v
theories/Prop_Text_Hostile.v
theories/Prop_D2Widths.v
theories/Verbose_Model.v
theories/Prop_Verbose.v
theories/Cmd_Model.v
theories/Prop_Cmd.v
theories/Main_Model.v
theories/Prop_Main.v
theories/Zlib_Model.v
theories/Prop_Zlib.v
theories/Hyper_Model.v
theories/Prop_Hyper.v
theories/DC_Model.v
theories/DC_Proofs.v
theories/Prop_DC.v
theories/Fmt_Model.v
theories/Prop_Fmt.v
theories/LB_Model.v
theories/Prop_LB.v
theories/WF_Model.v
theories/Prop_WF.v
theories/Prop_RefCnt.v
theories/Prop_HD_Worst.v
theories/Prop_D2Bits.v
theories/Prop_D1Bits.v
theories/Prop_DBBits.v
theories/Host_Model.v
theories/Prop_Host.v
theories/Prop_HostGroups.v
theories/Prop_Har.v
theories/Prop_DCTable.v
theories/DCW_Model.v
theories/Prop_DCBits.v
theories/Prop_DCSites.v
theories/DCE_Model.v
theories/Prop_DCEnc.v
theories/ForkBin_Model.v
theories/Prop_ForkBin.v
theories/DCR_Model.v
theories/Prop_DCRead.v
theories/DBR_Model.v
theories/Prop_DBRead.v
theories/DBX_Model.v
theories/Prop_DBTalk.v
