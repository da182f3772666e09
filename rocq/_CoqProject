-Q theories Verif
theories/Align_model.v
theories/Align_props.v
theories/Base.v
theories/Base_lemmas.v
theories/ChanIo_model.v
theories/ChanIo_proof.v
theories/ChanIo_props.v
theories/ChanIo_spec.v
theories/ChanMap_frame.v
theories/ChanMap_mat.v
theories/ChanMap_mirror.v
theories/ChanMap_model.v
theories/ChanMap_proof.v
theories/ChanMap_props.v
theories/ChanMap_search.v
theories/ChanMap_spec.v
theories/ChanMap_tables.v
theories/ChannelSet_model.v
theories/ChannelSet_proof.v
theories/ChannelSet_props.v
theories/ChannelSet_spec.v
theories/CommunicatorLoop_proof.v
theories/Communicator_model.v
theories/Communicator_proof.v
theories/Communicator_props.v
theories/Communicator_spec.v
theories/ConcQueue_model.v
theories/ConcQueue_proof.v
theories/ConcQueue_props.v
theories/ConcQueue_spec.v
theories/Counter_model.v
theories/Counter_proof.v
theories/Counter_props.v
theories/CtlQueueCl2_proof.v
theories/CtlQueueCl3_proof.v
theories/CtlQueueCl_proof.v
theories/CtlQueueEnd_proof.v
theories/CtlQueueInv_proof.v
theories/CtlQueueLp2_proof.v
theories/CtlQueueLp3_proof.v
theories/CtlQueueLp4_proof.v
theories/CtlQueueLp_proof.v
theories/CtlQueueRun_proof.v
theories/CtlQueue_model.v
theories/CtlQueue_proof.v
theories/CtlQueue_props.v
theories/CtlQueue_spec.v
theories/DelayedReader_model.v
theories/DelayedReader_proof.v
theories/DelayedReader_props.v
theories/DelayedReader_spec.v
theories/Depacketizer_model.v
theories/Depacketizer_proof.v
theories/Depacketizer_props.v
theories/Depacketizer_spec.v
theories/DynArray_model.v
theories/DynArray_proof.v
theories/DynArray_props.v
theories/DynArray_run.v
theories/DynArray_spec.v
theories/DynArray_step.v
theories/FecHeaders_model.v
theories/FecHeaders_proof.v
theories/FecHeaders_props.v
theories/FecReaderRun_proof.v
theories/FecReaderSafe_proof.v
theories/FecReaderStart_proof.v
theories/FecReader_model.v
theories/FecReader_proof.v
theories/FecReader_props.v
theories/FecReader_spec.v
theories/FecRecoverFill_proof.v
theories/FecRecoverRun_proof.v
theories/FecRecover_proof.v
theories/FecRecover_spec.v
theories/FecWriter_model.v
theories/FecWriter_proof.v
theories/FecWriter_props.v
theories/FecWriter_spec.v
theories/Feedback_model.v
theories/Feedback_proof.v
theories/Feedback_props.v
theories/Feedback_spec.v
theories/Float32.v
theories/FreqEst_model.v
theories/FreqEst_proof.v
theories/FreqEst_props.v
theories/FreqEst_spec.v
theories/Hashmap_model.v
theories/Hashmap_proof.v
theories/Hashmap_props.v
theories/Hashmap_spec.v
theories/HeapArena_model.v
theories/HeapArena_proof.v
theories/HeapArena_props.v
theories/HeapArena_spec.v
theories/Identity_model.v
theories/Identity_proof.v
theories/Identity_props.v
theories/Identity_spec.v
theories/Interleaver_model.v
theories/Interleaver_proof.v
theories/Interleaver_props.v
theories/Interleaver_spec.v
theories/LatMon_model.v
theories/LatMon_proof.v
theories/LatMon_props.v
theories/LatMon_spec.v
theories/LatTuner_model.v
theories/LatTuner_proof.v
theories/LatTuner_props.v
theories/LatTuner_spec.v
theories/LinkMeter_model.v
theories/LinkMeter_proof.v
theories/LinkMeter_props.v
theories/LinkMeter_spec.v
theories/List_model.v
theories/List_proof.v
theories/List_props.v
theories/List_spec.v
theories/Loss_model.v
theories/Loss_proof.v
theories/Loss_props.v
theories/MemLimiter_model.v
theories/MemLimiter_proof.v
theories/MemLimiter_props.v
theories/MemLimiter_spec.v
theories/Mixer_model.v
theories/Mixer_proof.v
theories/Mixer_props.v
theories/Mixer_spec.v
theories/MovStats_model.v
theories/MovStats_proof.v
theories/MovStats_props.v
theories/MovStats_spec.v
theories/Mpsc_model.v
theories/Mpsc_proof.v
theories/Mpsc_props.v
theories/Mpsc_spec.v
theories/NodeSlots_model.v
theories/NodeSlots_node.v
theories/NodeSlots_proof.v
theories/NodeSlots_props.v
theories/NodeSlots_run.v
theories/NodeSlots_spec.v
theories/NodeSlots_step.v
theories/Ntp_model.v
theories/Ntp_proof.v
theories/Ntp_props.v
theories/Packetizer_model.v
theories/Packetizer_proof.v
theories/Packetizer_props.v
theories/Packetizer_spec.v
theories/ParseUnits2_proof.v
theories/ParseUnits2_props.v
theories/ParseUnits2_spec.v
theories/ParseUnits_model.v
theories/ParseUnits_proof.v
theories/ParseUnits_props.v
theories/ParseUnits_spec.v
theories/PcmCodec_proof.v
theories/PcmFloat_proof.v
theories/PcmIo_model.v
theories/PcmIo_proof.v
theories/PcmIo_props.v
theories/PcmIo_spec.v
theories/Pcm_model.v
theories/Pcm_proof.v
theories/Pcm_props.v
theories/Pcm_spec.v
theories/Pct_model.v
theories/Pct_proof.v
theories/Pct_props.v
theories/Pct_spec.v
theories/PipeLoopClients_proof.v
theories/PipeLoopLive_proof.v
theories/PipeLoop_model.v
theories/PipeLoop_proof.v
theories/PipeLoop_props.v
theories/PipeLoop_spec.v
theories/Protocol_model.v
theories/Protocol_props.v
theories/Pump_model.v
theories/Pump_proof.v
theories/Pump_props.v
theories/Pump_spec.v
theories/Queue_model.v
theories/Queue_proof.v
theories/Queue_props.v
theories/Queue_spec.v
theories/Random_model.v
theories/Random_proof.v
theories/Random_props.v
theories/RateLimiter_model.v
theories/RateLimiter_proof.v
theories/RateLimiter_props.v
theories/RecvState_model.v
theories/RecvState_proof.v
theories/RecvState_props.v
theories/RecvState_spec.v
theories/RefCount_model.v
theories/RefCount_proof.v
theories/RefCount_props.v
theories/RefCount_spec.v
theories/ReporterIndex_proof.v
theories/ReporterIndex_props.v
theories/ReporterNames_proof.v
theories/ReporterOwn_props.v
theories/ReporterPacket_proof.v
theories/ReporterRun_proof.v
theories/Reporter_model.v
theories/Reporter_proof.v
theories/Reporter_props.v
theories/Reporter_spec.v
theories/ResamplerIo_model.v
theories/ResamplerIo_proof.v
theories/ResamplerIo_props.v
theories/ResamplerIo_spec.v
theories/Resampler_hist.v
theories/Resampler_model.v
theories/Resampler_proof.v
theories/Resampler_props.v
theories/Resampler_scale.v
theories/Resampler_spec.v
theories/RingQueue_model.v
theories/RingQueue_proof.v
theories/RingQueue_props.v
theories/RingQueue_spec.v
theories/Router_model.v
theories/Router_proof.v
theories/Router_props.v
theories/Router_spec.v
theories/RtcpBack_proof.v
theories/RtcpBuild_model.v
theories/RtcpBuild_proof.v
theories/RtcpBuild_props.v
theories/RtcpBuild_spec.v
theories/RtcpCompound_proof.v
theories/RtcpFit_proof.v
theories/RtcpMean_proof.v
theories/RtcpMean_spec.v
theories/RtcpProto_proof.v
theories/RtcpRead_proof.v
theories/RtcpTrav_model.v
theories/RtcpTrav_proof.v
theories/RtcpTrav_props.v
theories/RtcpTrav_spec.v
theories/RtcpWire_proof.v
theories/RtcpWire_spec.v
theories/RtpCompose_proof.v
theories/RtpCompose_spec.v
theories/RtpFilter_model.v
theories/RtpFilter_proof.v
theories/RtpFilter_props.v
theories/RtpFilter_spec.v
theories/Rtp_model.v
theories/Rtp_proof.v
theories/Rtp_props.v
theories/Rtp_spec.v
theories/Rtt_model.v
theories/Rtt_proof.v
theories/Rtt_props.v
theories/Rtt_spec.v
theories/Seqlock_model.v
theories/Seqlock_proof.v
theories/Seqlock_props.v
theories/Seqlock_spec.v
theories/Seqnum_model.v
theories/Seqnum_proof.v
theories/Seqnum_props.v
theories/SessGroupDgram_proof.v
theories/SessGroupDgram_props.v
theories/SessGroupDgram_spec.v
theories/SessGroupNet_proof.v
theories/SessGroupRun_proof.v
theories/SessGroup_model.v
theories/SessGroup_proof.v
theories/SessGroup_props.v
theories/SessGroup_spec.v
theories/SessRouterRef_proof.v
theories/SessRouter_model.v
theories/SessRouter_proof.v
theories/SessRouter_props.v
theories/SessRouter_spec.v
theories/Shipper_model.v
theories/Shipper_props.v
theories/SlabGrow_props.v
theories/SlabPool_model.v
theories/SlabPool_proof.v
theories/SlabPool_props.v
theories/SlabPool_spec.v
theories/SliceView_model.v
theories/SliceView_props.v
theories/Slice_lemmas.v
theories/Slice_model.v
theories/SortedQueue_model.v
theories/SortedQueue_proof.v
theories/SortedQueue_props.v
theories/SortedQueue_spec.v
theories/Spsc_model.v
theories/Spsc_proof.v
theories/Spsc_props.v
theories/Spsc_spec.v
theories/StrBuilder_model.v
theories/StrBuilder_proof.v
theories/StrBuilder_props.v
theories/StrBuilder_spec.v
theories/StrList_model.v
theories/StrList_proof.v
theories/StrList_props.v
theories/StrList_spec.v
theories/TimeConv_model.v
theories/TimeConv_proof.v
theories/TimeConv_props.v
theories/TimeConv_spec.v
theories/Timer_model.v
theories/Timer_proof.v
theories/Timer_props.v
theories/Timer_spec.v
theories/TsMap_model.v
theories/TsMap_proof.v
theories/TsMap_props.v
theories/TsMap_spec.v
theories/UriParts_props.v
theories/Uri_model.v
theories/Uri_proof.v
theories/Uri_props.v
theories/Uri_spec.v
theories/Watchdog_model.v
theories/Watchdog_proof.v
theories/Watchdog_props.v
theories/Watchdog_spec.v
theories/WavSink_model.v
theories/WavSink_proof.v
theories/WavSink_props.v
theories/WavSink_spec.v
