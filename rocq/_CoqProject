-Q theories Verif

theories/TwoBits_Model.v
theories/TwoBits_Proofs.v
theories/P_TwoBits.v
theories/Plru_Model.v
theories/Plru_Spec.v
theories/Plru_Proofs.v
theories/Plru_Refute.v
theories/P_Plru.v
theories/Lfsr_Model.v
theories/Lfsr_Proofs.v
theories/LfsrPeriod_Proofs.v
theories/P_Lfsr.v
theories/Py.v
theories/Dict_Proofs.v
theories/Prio_Model.v
theories/Prio_Proofs.v
theories/P_Prio.v
theories/Delay_Model.v
theories/Delay_Proofs.v
theories/P_Delay.v
theories/Funcov_Model.v
theories/Funcov_Spec.v
theories/Funcov_Proofs.v
theories/FuncovProps_Proofs.v
theories/FuncovEdit_Proofs.v
theories/P_Funcov.v
theories/Trig_Model.v
theories/Trig_Spec.v
theories/Trig_Proofs.v
theories/P_Trig.v
theories/Adder_Model.v
theories/Adder_Proofs.v
theories/P_Adder.v
theories/Logger_Model.v
theories/Logger_Proofs.v
theories/P_Logger.v
theories/Codegen_Model.v
theories/Codegen_Spec.v
theories/Codegen_Proofs.v
theories/P_Codegen.v
theories/Port_Model.v
theories/Port_Spec.v
theories/Port_Proofs.v
theories/P_Port.v
theories/Names_Model.v
theories/Names_Spec.v
theories/Names_Proofs.v
theories/P_Names.v
theories/Env_Model.v
theories/Env_Spec.v
theories/Env_Proofs.v
theories/P_Env.v
theories/Bundle_Model.v
theories/Bundle_Spec.v
theories/Bundle_Proofs.v
theories/Bundle2_Proofs.v
theories/Bundle3_Proofs.v
theories/Bundle4_Proofs.v
theories/Bundle5_Proofs.v
theories/P_Bundle.v
theories/BundleVal_Model.v
theories/BundleVal_Spec.v
theories/BundleVal_Proofs.v
theories/BundleVal2_Proofs.v
theories/BundleVal3_Proofs.v
theories/BundleVal4_Proofs.v
theories/BundleVal5_Proofs.v
theories/P_BundleVal.v
theories/BundleStar_Spec.v
theories/BundleStar_Proofs.v
theories/P_BundleStar.v
theories/BundleLog_Spec.v
theories/P_BundleLog.v
theories/Lists_Model.v
theories/Lists_Spec.v
theories/Lists_Proofs.v
theories/P_Lists.v
theories/Loop_Model.v
theories/Loop_Spec.v
theories/Loop_Proofs.v
theories/Loop2_Proofs.v
theories/Loop3_Proofs.v
theories/Loop4_Proofs.v
theories/Loop5_Proofs.v
theories/Loop6_Proofs.v
theories/LoopRun_Model.v
theories/LoopRun_Proofs.v
theories/P_Loop.v
theories/Loop7_Proofs.v
theories/Loop8_Proofs.v
theories/Loop9_Proofs.v
theories/Loop10_Proofs.v
theories/Loop11_Proofs.v
theories/Loop12_Proofs.v
theories/Loop2_Spec.v
theories/LoopProg_Model.v
theories/P_Loop2.v
theories/P_Loop3.v
theories/Loop13_Proofs.v
theories/P_Loop4.v
theories/Mon_Model.v
theories/Mon_Spec.v
theories/P_Mon.v
theories/Req_Model.v
theories/Req_Spec.v
theories/P_Req.v
theories/P_Req2.v
theories/Inst_Model.v
theories/Inst_Spec.v
theories/P_Inst.v
theories/Call_Model.v
theories/Call_Spec.v
theories/Call_Proofs.v
theories/P_Call.v
theories/Loop14_Proofs.v
theories/Loop15_Proofs.v
theories/Bind_Spec.v
theories/Loop16_Proofs.v
theories/Loop17_Proofs.v
theories/Loop18_Proofs.v
theories/Loop19_Proofs.v
theories/Drv_Model.v
theories/Drv_Spec.v
theories/Drv_Proofs.v
theories/P_Drv.v
theories/Exec_Model.v
theories/Exec_Spec.v
theories/Exec_Proofs.v
theories/P_Exec.v
theories/P_Exec2.v
theories/Test_Proofs.v
theories/P_Exec3.v
theories/Loop20_Proofs.v
theories/Loop21_Proofs.v
theories/Loop22_Proofs.v
theories/Loop3_Spec.v
theories/Loop23_Proofs.v
theories/P_Loop5.v
theories/Live_Spec.v
theories/Live_Proofs.v
theories/Live2_Proofs.v
theories/Live3_Proofs.v
theories/P_Live.v
theories/Comp_Model.v
theories/Comp_Proofs.v
theories/P_Comp.v
theories/Hook_Spec.v
theories/Hook_Proofs.v
theories/P_Hook.v
theories/Fail_Spec.v
theories/Fail_Proofs.v
theories/P_Fail.v
theories/MainEnv_Model.v
theories/MainEnv_Spec.v
theories/MainEnv_Proofs.v
theories/P_MainEnv.v
theories/HookLog_Spec.v
theories/HookLog_Proofs.v
theories/P_HookLog.v
theories/Handler_Model.v
theories/Handler_Spec.v
theories/Handler_Proofs.v
theories/P_Handler.v
theories/Agent_Model.v
theories/Agent_Spec.v
theories/Agent_Proofs.v
theories/P_Agent.v
theories/Make_Model.v
theories/P_Make.v
theories/Last_Proofs.v
theories/P_Last.v
theories/WMon_Model.v
theories/WMon_Spec.v
theories/WMon_Proofs.v
theories/P_WMon.v
theories/Ref_Model.v
theories/Ref_Spec.v
theories/Ref_Proofs.v
theories/P_Ref.v
theories/Dbg_Model.v
theories/Dbg_Spec.v
theories/Dbg_Proofs.v
theories/P_Dbg.v
theories/Rules_Spec.v
theories/P_Rules.v
theories/Flow_Spec.v
theories/P_Flow.v
theories/P_Coro.v
theories/Prim_Model.v
theories/Prim_Spec.v
theories/Prim_Proofs.v
theories/P_Prim.v
theories/Block_Model.v
theories/Block_Spec.v
theories/P_Block.v
theories/DMon_Model.v
theories/DMon_Spec.v
theories/P_DMon.v
theories/LTrig_Model.v
theories/LTrig_Spec.v
theories/LTrig_Proofs.v
theories/P_LTrig.v
theories/BindX_Model.v
theories/BindX_Proofs.v
theories/P_BindX.v
theories/HookCall_Model.v
theories/P_HookCall.v
theories/ReqX_Model.v
theories/ReqX_Spec.v
theories/P_ReqX.v
theories/P_Stale.v
theories/Clk_Model.v
theories/Clk_Spec.v
theories/P_Clk.v
theories/First_Spec.v
theories/First_Proofs.v
theories/P_First.v
theories/P_Until.v
theories/Reuse_Model.v
theories/P_Reuse.v
theories/ClkEnd_Model.v
theories/P_ClkEnd.v
theories/Cleanup_Model.v
theories/Cleanup_Spec.v
theories/Cleanup_Proofs.v
theories/P_Cleanup.v
theories/AgentQ_Model.v
theories/AgentQ_Spec.v
theories/P_AgentQ.v
theories/ReqM_Model.v
theories/ReqM_Spec.v
theories/P_ReqM.v
theories/ListLen_Spec.v
theories/P_ListLen.v
theories/Handler2_Spec.v
theories/P_Handler2.v
theories/Whole_Spec.v
theories/P_Whole.v
