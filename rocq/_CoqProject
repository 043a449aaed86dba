-Q theories Verif
theories/Graph_Model.v
theories/Graph_Spec.v
theories/Graph_OrderProofs.v
theories/Graph_RenderProofs.v
theories/Graph_TraceModel.v
theories/Graph_TraceSpec.v
theories/Graph_TraceProofs.v
theories/Graph_MainProofs.v
theories/Graph_Props.v
theories/Quantum_HeapModel.v
theories/Quantum_HeapSpec.v
theories/Quantum_HeapProofs.v
theories/Quantum_Model.v
theories/Quantum_Spec.v
theories/Quantum_Proofs.v
theories/Quantum_Props.v
theories/Protocol_Model.v
theories/Protocol_Spec.v
theories/Protocol_Proofs.v
theories/Protocol_InvProofs.v
theories/Protocol_ConnProofs.v
theories/Protocol_MagicProofs.v
theories/Protocol_Props.v
theories/Thread_Model.v
theories/Thread_Spec.v
theories/Thread_Proofs.v
theories/Thread_OfflineProofs.v
theories/Thread_Props.v
theories/Common_Model.v
theories/Float_Model.v
theories/Float_Proofs.v
theories/Param_Model.v
theories/Param_Inst.v
theories/Param_Spec.v
theories/Param_CurveSpec.v
theories/Param_ClockSpec.v
theories/Param_Real.v
theories/Param_TimelineProofs.v
theories/Param_SafetyProofs.v
theories/Param_RangeProofs.v
theories/Param_IeeeProofs.v
theories/Param_ExactProofs.v
theories/Param_CurveProofs.v
theories/Param_OrderProofs.v
theories/Param_RealProofs.v
theories/Param_ClockProofs.v
theories/Param_Props.v
theories/Float_BoundProofs.v
theories/Buffer_Model.v
theories/Buffer_Spec.v
theories/Buffer_Proofs.v
theories/Buffer_ApiProofs.v
theories/Buffer_ResampleProofs.v
theories/Buffer_RechunkProofs.v
theories/Buffer_Props.v
theories/Arith_Model.v
theories/Arith_Real.v
theories/Float_ErrorProofs.v
theories/Source_Model.v
theories/Source_Spec.v
theories/Source_Proofs.v
theories/Source_ClockProofs.v
theories/Osc_Proofs.v
theories/Osc_ExactProofs.v
theories/Osc_IeeeProofs.v
theories/Source_Props.v
theories/Absn_Model.v
theories/Absn_Spec.v
theories/Absn_ExactProofs.v
theories/Absn_IeeeProofs.v
theories/Absn_SafetyProofs.v
theories/Absn_LoopProofs.v
theories/Absn_HangProofs.v
theories/Absn_Props.v
theories/Delay_Model.v
theories/Delay_Spec.v
theories/Delay_Proofs.v
theories/Delay_ExactProofs.v
theories/Delay_RunProofs.v
theories/Delay_IeeeProofs.v
theories/Delay_IeeeRunProofs.v
theories/Delay_Props.v
theories/Route_Model.v
theories/Route_Spec.v
theories/Route_Proofs.v
theories/Route_Props.v
theories/Shape_Model.v
theories/Shape_Spec.v
theories/Shape_Proofs.v
theories/Shape_Props.v
theories/Filter_Model.v
theories/Filter_Spec.v
theories/Filter_Proofs.v
theories/Filter_ExactProofs.v
theories/Filter_FloatSpec.v
theories/Filter_StableProofs.v
theories/Filter_CoefsProofs.v
theories/Filter_ResponseProofs.v
theories/Filter_SafeProofs.v
theories/Filter_IeeeProofs.v
theories/Filter_EdgeProofs.v
theories/Filter_Props.v
theories/Comp_Model.v
theories/Comp_Spec.v
theories/Comp_Proofs.v
theories/Comp_ExactProofs.v
theories/Comp_CurveProofs.v
theories/Comp_IeeeProofs.v
theories/Comp_Props.v
theories/Analyser_Model.v
theories/Analyser_Spec.v
theories/Analyser_RingProofs.v
theories/Analyser_Proofs.v
theories/Analyser_ExactProofs.v
theories/Analyser_IeeeProofs.v
theories/Analyser_Props.v
theories/Script_Model.v
theories/Script_Spec.v
theories/Script_Proofs.v
theories/Script_Props.v
theories/Pan_Model.v
theories/Pan_Spec.v
theories/Pan_Proofs.v
theories/Pan_NodeProofs.v
theories/Pan_IeeeProofs.v
theories/Pan_HrtfProofs.v
theories/Pan_Props.v
theories/Event_Model.v
theories/Event_Spec.v
theories/Event_Proofs.v
theories/Event_Props.v
theories/Stats_Model.v
theories/Stats_Spec.v
theories/Stats_Proofs.v
theories/Stats_IeeeProofs.v
theories/Stats_Props.v
theories/Wave_Model.v
theories/Wave_Spec.v
theories/Wave_Proofs.v
theories/Wave_IeeeProofs.v
theories/Wave_Props.v
theories/Context_Model.v
theories/Context_Spec.v
theories/Context_Proofs.v
theories/Context_ProgressProofs.v
theories/Context_StartProofs.v
theories/Context_Props.v
theories/Conv_Model.v
theories/Conv_Spec.v
theories/Conv_Proofs.v
theories/Conv_IeeeProofs.v
theories/Conv_Props.v
theories/Worklet_Model.v
theories/Worklet_Spec.v
theories/Worklet_Proofs.v
theories/Worklet_Props.v
theories/Track_Model.v
theories/Track_Spec.v
theories/Track_Proofs.v
theories/Track_Props.v
theories/Recorder_Model.v
theories/Recorder_Spec.v
theories/Recorder_Proofs.v
theories/Recorder_Props.v
theories/Config_Model.v
theories/Config_Spec.v
theories/Config_Proofs.v
theories/Config_Props.v
theories/Element_Model.v
theories/Element_Spec.v
theories/Element_Proofs.v
theories/Element_NodeProofs.v
theories/Element_SoundProofs.v
theories/Element_Props.v
theories/Decode_Model.v
theories/Decode_Spec.v
theories/Decode_Proofs.v
theories/Decode_Props.v
theories/Mic_Model.v
theories/Mic_Spec.v
theories/Mic_Proofs.v
theories/Mic_Props.v
theories/Filter_IirSpec.v
theories/Filter_IirProofs.v
theories/Filter_IirIeeeProofs.v
theories/Param_EnvelopeSpec.v
theories/Param_EnvelopeProofs.v
theories/Param_Envelope_Props.v
theories/Flow_Spec.v
theories/Flow_Proofs.v
theories/Flow_Props.v
theories/Whole_Model.v
theories/Whole_Spec.v
theories/Whole_Proofs.v
theories/Whole_Props.v
theories/Desk_Model.v
theories/Desk_Spec.v
theories/Desk_RealSpec.v
theories/Desk_FloatSpec.v
theories/Desk_BuildProofs.v
theories/Desk_MixProofs.v
theories/Desk_FlowProofs.v
theories/Desk_Proofs.v
theories/Desk_RealProofs.v
theories/Desk_IeeeProofs.v
theories/Desk_Props.v
theories/Over_Model.v
theories/Over_Spec.v
theories/Over_Proofs.v
theories/Over_Props.v
theories/Param_KrateSpec.v
theories/Param_KrateProofs.v
theories/Param_Krate_Props.v
theories/Sched_Model.v
theories/Sched_Spec.v
theories/Sched_Proofs.v
theories/Sched_NodeProofs.v
theories/Sched_Props.v
theories/Osc_SoundSpec.v
theories/Osc_SoundProofs.v
theories/Osc_ToneProofs.v
theories/Osc_BoundProofs.v
theories/Osc_Props.v
theories/Absn_SoundSpec.v
theories/Absn_SoundProofs.v
theories/Absn_SoundCaseProofs.v
theories/AbsnSound_Props.v
theories/Thread_ReportProofs.v
theories/Protocol_PauseProofs.v
theories/Device_Model.v
theories/Device_Spec.v
theories/Device_IdProofs.v
theories/Device_SizeProofs.v
theories/Device_ContextProofs.v
theories/Device_Props.v
theories/Twin_Proofs.v
theories/Twin_Props.v
theories/Suspend_Model.v
theories/Suspend_Proofs.v
theories/Suspend_Props.v
theories/Absn_LoopSpec.v
theories/Absn_LoopIeeeProofs.v
theories/Diag_Model.v
theories/Diag_Spec.v
theories/Diag_Proofs.v
theories/Diag_RequestProofs.v
theories/Diag_Props.v
theories/Calls_Model.v
theories/Calls_Spec.v
theories/Calls_Proofs.v
theories/Calls_RunProofs.v
theories/Calls_Props.v
theories/Osc_PhaseSpec.v
theories/Osc_PhaseProofs.v
theories/Osc_WaveProofs.v
theories/Osc_Phase_Props.v
theories/Calls_PortProofs.v
theories/Draw_Model.v
theories/Draw_Spec.v
theories/Draw_GraphProofs.v
theories/Draw_LogProofs.v
theories/Draw_StepProofs.v
theories/Draw_Proofs.v
theories/Draw_Props.v
theories/Attr_Model.v
theories/Attr_Spec.v
theories/Attr_PanSpec.v
theories/Attr_Proofs.v
theories/Attr_NodeProofs.v
theories/Attr_SoundProofs.v
theories/Attr_Props.v
theories/Attr_Effect_Props.v
theories/Pan_FloatSpec.v
theories/Pan_FloatProofs.v
theories/Pan_FloatNodeProofs.v
theories/Pan_Float_Props.v
theories/Offline_Model.v
theories/Offline_Spec.v
theories/Offline_Proofs.v
theories/Offline_LifeProofs.v
theories/Offline_SoundProofs.v
theories/Offline_ProgressProofs.v
theories/Offline_Props.v
theories/OfflineSync_Model.v
theories/OfflineSync_Spec.v
theories/OfflineSync_Proofs.v
theories/OfflineSync_Props.v
theories/Owner_Model.v
theories/Owner_Spec.v
theories/Owner_Proofs.v
theories/Owner_Props.v
theories/Change_Spec.v
theories/Change_Proofs.v
theories/Change_Props.v
theories/Hooks_Model.v
theories/Hooks_Spec.v
theories/Hooks_Proofs.v
theories/Hooks_SourceProofs.v
theories/Hooks_Props.v
theories/Echo_Model.v
theories/Echo_Spec.v
theories/Echo_GraphProofs.v
theories/Echo_Proofs.v
theories/Echo_Props.v
theories/Mod_Model.v
theories/Mod_Spec.v
theories/Mod_GraphProofs.v
theories/Mod_Proofs.v
theories/Mod_RealProofs.v
theories/Mod_Props.v
theories/Value_Model.v
theories/Value_Spec.v
theories/Value_Proofs.v
theories/Value_ReadProofs.v
theories/Value_Props.v
theories/Pause_Spec.v
theories/Pause_Proofs.v
theories/Pause_Props.v
theories/Contain_Spec.v
theories/Contain_Proofs.v
theories/Contain_Props.v
theories/Handler_Model.v
theories/Handler_Spec.v
theories/Handler_Proofs.v
theories/Handler_Props.v
theories/Dispose_Model.v
theories/Dispose_Spec.v
theories/Dispose_Proofs.v
theories/Dispose_Props.v
theories/Meter_Model.v
theories/Meter_Spec.v
theories/Meter_Proofs.v
theories/Meter_Props.v
theories/Answer_Model.v
theories/Answer_Spec.v
theories/Answer_Proofs.v
theories/Answer_Props.v
theories/Cubeb_Model.v
theories/Cubeb_Spec.v
theories/Cubeb_Proofs.v
theories/Cubeb_Props.v
theories/Notify_Model.v
theories/Notify_Spec.v
theories/Notify_Proofs.v
theories/Notify_Props.v
theories/RecLock_Model.v
theories/RecLock_Spec.v
theories/RecLock_Proofs.v
theories/RecLock_Props.v
theories/Clock_Model.v
theories/Clock_Spec.v
theories/Clock_Proofs.v
theories/Clock_Props.v
theories/Now_Proofs.v
theories/Now_Props.v
theories/Now_ParamProofs.v
theories/NowParam_Props.v
theories/NowBuffer_Props.v
theories/NowOsc_Props.v
theories/NowParam_Spec.v
