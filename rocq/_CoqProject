-Q theories Verif

theories/PyBase.v
theories/Selection_Model.v
theories/Selection_Spec.v
theories/Selection_Proofs.v
theories/Selection_Props.v
theories/Event_Model.v
theories/Event_Spec.v
theories/Event_Proofs.v
theories/Event_Props.v
theories/Registry_Model.v
theories/Registry_Spec.v
theories/Registry_Proofs.v
theories/Registry_Props.v
theories/RefCount_Model.v
theories/RefCount_Spec.v
theories/RefCount_Proofs.v
theories/RefCount_Props.v
theories/Process_Model.v
theories/Process_Spec.v
theories/Process_Proofs.v
theories/Process_Props.v
theories/Promise_Model.v
theories/Promise_Spec.v
theories/Promise_Proofs.v
theories/Promise_Props.v
theories/Validator_Model.v
theories/Validator_Spec.v
theories/Validator_Proofs.v
theories/Validator_Props.v
theories/ListModel_Model.v
theories/ListModel_Spec.v
theories/ListModel_Proofs.v
theories/ListModel_Props.v
theories/Filter_Model.v
theories/Filter_Spec.v
theories/Filter_Proofs.v
theories/Filter_Props.v
theories/Filtered_Model.v
theories/Filtered_Spec.v
theories/Filtered_Proofs.v
theories/Filtered_Proofs2.v
theories/Filtered_Proofs3.v
theories/Filtered_Props.v
theories/FilteredSel_Spec.v
theories/FilteredSel_Proofs.v
theories/FilteredSel_Props.v
theories/Mapped_Model.v
theories/Mapped_Spec.v
theories/Mapped_Proofs.v
theories/Mapped_Proofs2.v
theories/Mapped_Props.v
theories/Flattened_Model.v
theories/Flattened_Spec.v
theories/Flattened_Proofs.v
theories/Flattened_Proofs2.v
theories/Flattened_Props.v
theories/Text_Model.v
theories/Text_Proofs.v
theories/ConvNum_Model.v
theories/ConvNum_Spec.v
theories/ConvNum_Proofs.v
theories/ConvNum_Props.v
theories/ConvUuid_Model.v
theories/ConvUuid_Spec.v
theories/ConvUuid_Proofs.v
theories/ConvUuid_Props.v
theories/ConvDate_Model.v
theories/ConvDate_Spec.v
theories/ConvDate_Proofs.v
theories/ConvDate_Props.v
theories/ConvFloat_Model.v
theories/ConvFloat_Spec.v
theories/ConvFloat_Proofs.v
theories/ConvFloat_Props.v
theories/Float53_Model.v
theories/Float53_Proofs.v
theories/Float53_Proofs2.v
theories/GeomInt_Model.v
theories/GeomInt_Spec.v
theories/GeomInt_Proofs.v
theories/GeomInt_Props.v
theories/GeomPretty_Model.v
theories/GeomPretty_Spec.v
theories/GeomPretty_Proofs.v
theories/GeomPretty_Props.v
theories/GeomFloat_Model.v
theories/GeomFloat_Spec.v
theories/GeomFloat_Props.v
theories/GeomRot_Model.v
theories/GeomRot_Props.v
theories/Bind_Model.v
theories/Bind_Spec.v
theories/Bind_Props.v
theories/PropModel_Model.v
theories/PropModel_Spec.v
theories/PropModel_Props.v
theories/Stream_Model.v
theories/Stream_Spec.v
theories/Stream_Props.v
theories/StreamTime_Model.v
theories/StreamTime_Spec.v
theories/StreamTime_Props.v
theories/Struct_Model.v
theories/Struct_Spec.v
theories/Struct_Proofs.v
theories/Struct_Props.v
theories/PersistCtx_Model.v
theories/PersistCtx_Spec.v
theories/PersistCtx_Props.v
theories/PersistHeap_Model.v
theories/PersistHeap_Spec.v
theories/PersistHeap_Proofs.v
theories/PersistHeap_Proofs2.v
theories/PersistHeap_Props.v
theories/PersistDict_Model.v
theories/PersistDict_Spec.v
theories/PersistDict_Proofs.v
theories/PersistDict_Proofs2.v
theories/PersistDict_Props.v
theories/PoolTask_Model.v
theories/PoolTask_Spec.v
theories/PoolTask_Proofs.v
theories/PoolTask_Props.v
theories/Pool_Model.v
theories/Pool_Spec.v
theories/Pool_Proofs.v
theories/Pool_Proofs2.v
theories/Pool_Proofs3.v
theories/Pool_Props.v
theories/Disp_Model.v
theories/Disp_Spec.v
theories/Disp_Proofs.v
theories/Disp_Proofs2.v
theories/Disp_Props.v
theories/Recorder_Model.v
theories/Recorder_Spec.v
theories/Recorder_Proofs.v
theories/Recorder_Proofs2.v
theories/Recorder_Proofs3.v
theories/Recorder_Props.v
theories/Fmt_Model.v
theories/Fmt_Spec.v
theories/Fmt_Proofs.v
theories/Fmt_Proofs2.v
theories/Fmt_Props.v
theories/Ticker_Model.v
theories/Ticker_Spec.v
theories/Ticker_Proofs.v
theories/Ticker_Props.v
theories/LogTicker_Model.v
theories/LogTicker_Spec.v
theories/LogTicker_Proofs.v
theories/LogTicker_Props.v
theories/ConvDbl_Model.v
theories/ConvDbl_Spec.v
theories/ConvDbl_Proofs.v
theories/ConvDbl_Proofs2.v
theories/ConvDbl_Props.v
theories/StructSeq_Model.v
theories/StructSeq_Spec.v
theories/StructSeq_Proofs.v
theories/StructSeq_Props.v
theories/StructTree_Model.v
theories/StructTree_Spec.v
theories/StructTree_Proofs.v
theories/StructTree_Props.v
theories/BindLoop_Model.v
theories/BindLoop_Spec.v
theories/BindLoop_Proofs.v
theories/BindLoop_Props.v
theories/Chain_Model.v
theories/Chain_Spec.v
theories/Chain_Proofs.v
theories/Chain_Proofs2.v
theories/Chain_Proofs3.v
theories/Chain_Props.v
theories/Feed_Model.v
theories/Feed_Spec.v
theories/Feed_Proofs.v
theories/Feed_Proofs2.v
theories/Feed_Proofs3.v
theories/Feed_Props.v
theories/MapFail_Model.v
theories/MapFail_Spec.v
theories/MapFail_Proofs.v
theories/MapFail_Props.v
theories/Net_Model.v
theories/Net_Spec.v
theories/Net_Proofs.v
theories/Net_Proofs2.v
theories/Net_Props.v
theories/FiltFail_Model.v
theories/FiltFail_Spec.v
theories/FiltFail_Proofs.v
theories/FiltFail_Props.v
theories/PromNet_Model.v
theories/PromNet_Spec.v
theories/PromNet_Proofs.v
theories/PromNet_Props.v
theories/TaskThr_Model.v
theories/TaskThr_Spec.v
theories/TaskThr_Proofs.v
theories/TaskThr_Proofs2.v
theories/TaskThr_Props.v
theories/EventThr_Model.v
theories/EventThr_Spec.v
theories/EventThr_Proofs.v
theories/EventThr_Proofs2.v
theories/EventThr_Props.v
theories/Reent_Model.v
theories/Reent_Spec.v
theories/Reent_Proofs.v
theories/Reent_Proofs2.v
theories/Reent_Props.v
theories/RefNet_Model.v
theories/RefNet_Spec.v
theories/RefNet_Proofs.v
theories/RefNet_Props.v
theories/FuncLife_Model.v
theories/FuncLife_Spec.v
theories/FuncLife_Proofs.v
theories/FuncLife_Props.v
theories/GeomMore_Model.v
theories/GeomMore_Spec.v
theories/GeomMore_Proofs.v
theories/GeomMore_Props.v
theories/FiltThr_Model.v
theories/FiltThr_Spec.v
theories/FiltThr_Proofs.v
theories/FiltThr_Proofs2.v
theories/FiltThr_Proofs3.v
theories/FiltThr_Props.v
theories/NetLife_Model.v
theories/NetLife_Spec.v
theories/NetLife_Proofs.v
theories/NetLife_Proofs2.v
theories/NetLife_Proofs3.v
theories/NetLife_Props.v
theories/FiltBlk_Model.v
theories/FiltBlk_Spec.v
theories/FiltBlk_Proofs.v
theories/FiltBlk_Proofs2.v
theories/FiltBlk_Proofs3.v
theories/FiltBlk_Props.v
theories/PersistStore_Model.v
theories/PersistStore_Spec.v
theories/PersistStore_Proofs.v
theories/PersistStore_Proofs2.v
theories/PersistStore_Proofs3.v
theories/PersistStore_Proofs4.v
theories/PersistStore_Props.v
theories/LockOrder_Model.v
theories/LockOrder_Spec.v
theories/LockOrder_Proofs.v
theories/LockOrder_Props.v
theories/BindThr_Model.v
theories/BindThr_Spec.v
theories/BindThr_Proofs.v
theories/BindThr_Proofs2.v
theories/BindThr_Props.v
theories/LoopClose_Model.v
theories/LoopClose_Spec.v
theories/LoopClose_Proofs.v
theories/LoopClose_Proofs2.v
theories/LoopClose_Props.v
theories/FiltAttach_Model.v
theories/FiltAttach_Spec.v
theories/FiltAttach_Proofs.v
theories/FiltAttach_Proofs2.v
theories/FiltAttach_Props.v
theories/GeomEq_Model.v
theories/GeomEq_Spec.v
theories/GeomEq_Proofs.v
theories/GeomEq_Props.v
theories/StreamThr_Model.v
theories/StreamThr_Spec.v
theories/StreamThr_Proofs.v
theories/StreamThr_Props.v
theories/Cascade_Model.v
theories/Cascade_Spec.v
theories/Cascade_Proofs.v
theories/Cascade_Proofs2.v
theories/Cascade_Proofs3.v
theories/Cascade_Props.v
theories/Blocks_Model.v
theories/Blocks_Spec.v
theories/Blocks_Proofs.v
theories/Blocks_Proofs2.v
theories/Blocks_Proofs3.v
theories/Blocks_Props.v
theories/PersistRead_Model.v
theories/PersistRead_Spec.v
theories/PersistRead_Proofs.v
theories/PersistRead_Proofs2.v
theories/PersistRead_Proofs3.v
theories/PersistRead_Props.v
theories/MapAttach_Model.v
theories/MapAttach_Spec.v
theories/MapAttach_Proofs.v
theories/MapAttach_Proofs2.v
theories/MapAttach_Proofs3.v
theories/MapAttach_Props.v
theories/RegNet_Model.v
theories/RegNet_Spec.v
theories/RegNet_Proofs.v
theories/RegNet_Proofs2.v
theories/RegNet_Props.v
theories/FlatThr_Model.v
theories/FlatThr_Spec.v
theories/FlatThr_Proofs.v
theories/FlatThr_Proofs2.v
theories/FlatThr_Proofs3.v
theories/FlatThr_Props.v
theories/RecLife_Model.v
theories/RecLife_Spec.v
theories/RecLife_Proofs.v
theories/RecLife_Proofs2.v
theories/RecLife_Proofs3.v
theories/RecLife_Props.v
theories/SortFail_Model.v
theories/SortFail_Spec.v
theories/SortFail_Proofs.v
theories/SortFail_Proofs2.v
theories/SortFail_Proofs3.v
theories/SortFail_Props.v
theories/CtxNet_Model.v
theories/CtxNet_Spec.v
theories/CtxNet_Proofs.v
theories/CtxNet_Proofs2.v
theories/CtxNet_Props.v
theories/SelShare_Model.v
theories/SelShare_Spec.v
theories/SelShare_Proofs.v
theories/SelShare_Props.v
theories/ConvPath_Model.v
theories/ConvPath_Spec.v
theories/ConvPath_Proofs.v
theories/ConvPath_Props.v
theories/PropNet_Model.v
theories/PropNet_Spec.v
theories/PropNet_Proofs.v
theories/PropNet_Props.v
theories/SelRel_Model.v
theories/SelRel_Spec.v
theories/SelRel_Proofs.v
theories/SelRel_Props.v
theories/PropShare_Model.v
theories/PropShare_Spec.v
theories/PropShare_Proofs.v
theories/PropShare_Props.v
theories/EqItems_Model.v
theories/EqItems_Spec.v
theories/EqItems_Proofs.v
theories/EqItems_Props.v
