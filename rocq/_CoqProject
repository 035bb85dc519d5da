-Q theories Verif
theories/Base.v
theories/PyStr.v
theories/Defines.v
theories/Utf8.v
theories/FileRd.v
theories/Regex.v
theories/Config.v
theories/VSpace.v
theories/Aggregator.v
theories/Var.v
theories/VarFun.v
theories/FuncOdbc.v
theories/Annotate.v
theories/AppM.v
theories/Pattern.v
theories/Dialplan.v
theories/Loader.v
theories/Commands.v
theories/Check.v
theories/CmdLs.v
theories/Mutator.v
theories/Convert.v
theories/IdentScan.v
theories/LintTest.v
theories/MakeCanon.v
theories/Report.v
theories/Show.v
theories/Options.v
theories/Spec_FuncOdbc.v
theories/Spec_Aggregator.v
theories/Spec_Annotate.v
theories/Spec_Var.v
theories/Spec_App.v
theories/Spec_Args.v
theories/Spec_Commands.v
theories/Spec_Check.v
theories/Spec_CmdLs.v
theories/Spec_Config.v
theories/Spec_Mutator.v
theories/Spec_Convert.v
theories/Spec_VarFun.v
theories/Spec_Crash.v
theories/Spec_Dialplan.v
theories/Spec_File.v
theories/Spec_Ident.v
theories/Spec_Pattern.v
theories/Spec_Search.v
theories/Spec_Subst.v
theories/Spec_Line.v
theories/Spec_Log.v
theories/Spec_Run.v
theories/Spec_Include.v
theories/Spec_VSpace.v
theories/Spec_Reader.v
theories/Spec_IdentRun.v
theories/Spec_LintTest.v
theories/Spec_MakeCanon.v
theories/Spec_Options.v
theories/Spec_Page.v
theories/Spec_Report.v
theories/Spec_Whole.v
theories/Spec_Show.v
theories/Spec_Survive.v
theories/Spec_Templates.v
theories/Spec_Verbatim.v
theories/Spec_Vg.v
theories/Vg.v
theories/VgRead.v
theories/Spec_VgPlan.v
theories/Spec_VgCheck.v
theories/Spec_VgRead.v
theories/Spec_VgWhole.v
theories/Spec_VgIdent.v
theories/VgMain.v
theories/Spec_VgMain.v
theories/Spec_VgShow.v
theories/Web.v
theories/Spec_Web.v
theories/Tables.v
theories/VgPlan.v
theories/VgCheck.v
theories/VgIdent.v
theories/VgShow.v
theories/VgWhole.v
theories/Regex_proofs.v
theories/Config_proofs.v
theories/VSpace_proofs.v
theories/FuncOdbc_proofs.v
theories/Aggregator_proofs.v
theories/Annotate_proofs.v
theories/Var_proofs.v
theories/Balance_proofs.v
theories/VarFun_proofs.v
theories/Round_proofs.v
theories/App_proofs.v
theories/Tok_proofs.v
theories/AppT_proofs.v
theories/Loader_proofs.v
theories/Args_proofs.v
theories/Utf8_proofs.v
theories/Pattern_proofs.v
theories/Canon_proofs.v
theories/CanonConv_proofs.v
theories/Log_proofs.v
theories/Check_proofs.v
theories/Commands_proofs.v
theories/CmdLs_proofs.v
theories/Mutator_proofs.v
theories/Convert_proofs.v
theories/Crash_proofs.v
theories/Match_proofs.v
theories/Slice_proofs.v
theories/CrashV_proofs.v
theories/CrashA_proofs.v
theories/Dialplan_proofs.v
theories/DialplanC_proofs.v
theories/DialplanJ_proofs.v
theories/DialplanK_proofs.v
theories/DialplanL_proofs.v
theories/File_proofs.v
theories/Flat_proofs.v
theories/FlatM_proofs.v
theories/FlatD_proofs.v
theories/Include_proofs.v
theories/FlatR_proofs.v
theories/Report_proofs.v
theories/FlatT_proofs.v
theories/VSpaceMsg_proofs.v
theories/Reader_proofs.v
theories/Vg_proofs.v
theories/VgRead_proofs.v
theories/FlatV_proofs.v
theories/Ident_proofs.v
theories/Subst_proofs.v
theories/SubstF_proofs.v
theories/Line_proofs.v
theories/Search_proofs.v
theories/Run_proofs.v
theories/Spaced_proofs.v
theories/Whole_proofs.v
theories/IdentRun_proofs.v
theories/Web_proofs.v
theories/Modules_proofs.v
theories/LintTest_proofs.v
theories/MakeCanon_proofs.v
theories/MakeCanonL_proofs.v
theories/MakeCanonW_proofs.v
theories/Page_proofs.v
theories/Steady_proofs.v
theories/Properties_Crash.v
theories/Service_proofs.v
theories/Show_proofs.v
theories/ShowL_proofs.v
theories/SplitN_proofs.v
theories/Survive_proofs.v
theories/SurviveJ_proofs.v
theories/SurviveE_proofs.v
theories/SurviveW_proofs.v
theories/Templates_proofs.v
theories/VSpaceTree_proofs.v
theories/Verbatim_proofs.v
theories/VgPlan_proofs.v
theories/VgCheck_proofs.v
theories/VgWhole_proofs.v
theories/VgIdent_proofs.v
theories/VgMain_proofs.v
theories/VgShow_proofs.v
theories/VgShowL_proofs.v
theories/Properties_Aggregator.v
theories/Properties_Annotate.v
theories/Properties_App.v
theories/Properties_Args.v
theories/Properties_Check.v
theories/Properties_CmdLs.v
theories/Properties_Commands.v
theories/Properties_Config.v
theories/Properties_Convert.v
theories/Properties_Dialplan.v
theories/Properties_File.v
theories/Properties_FuncOdbc.v
theories/Properties_Ident.v
theories/Properties_IdentRun.v
theories/Properties_Include.v
theories/Properties_Var.v
theories/Properties_Line.v
theories/Properties_LintTest.v
theories/Properties_Mutator.v
theories/Properties_MakeCanon.v
theories/Properties_Modules.v
theories/Properties_Options.v
theories/Properties_Pattern.v
theories/Properties_Run.v
theories/Properties_Report.v
theories/Properties_Show.v
theories/Properties_Subst.v
theories/Properties_Survive.v
theories/Properties_VSpace.v
theories/Properties_Vg.v
theories/Properties_VgCheck.v
theories/Properties_VgIdent.v
theories/Properties_VgMain.v
theories/Properties_VgPlan.v
theories/Properties_VgRead.v
theories/Properties_VgShow.v
theories/Properties_VgWhole.v
theories/Properties_Web.v
theories/Properties_Whole.v
theories/Tests_App.v
theories/Tests_Util.v
theories/Tests_Config.v
theories/Tests_Dialplan.v
theories/Tests_File.v
theories/Tests_Pattern.v
theories/Tests_Regress.v
theories/Tests_Var.v
