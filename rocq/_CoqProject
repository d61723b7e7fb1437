-Q theories Verif
theories/Base.v
theories/M_Reader.v
theories/M_Packet.v
theories/M_Group.v
theories/M_Summary.v
theories/M_Timecode.v
theories/M_Pn.v
theories/M_Bytes.v
theories/M_Sync.v
theories/M_Frame.v
theories/M_FramePackets.v
theories/M_ReedSolomon.v
theories/M_RsPipeline.v
theories/S_RsPipeline.v
theories/M_Pipeline.v
theories/M_Merge.v
theories/M_Cli.v
theories/S_Bits.v
theories/L_Base.v
theories/L_Bits.v
theories/S_Packet.v
theories/S_Resume.v
theories/L_Reader.v
theories/L_Packet.v
theories/P_Packet.v
theories/S_Group.v
theories/L_Group.v
theories/P_Group.v
theories/L_Timecode.v
theories/L_Float.v
theories/S_Timecode.v
theories/P_Timecode.v
theories/S_PyTime.v
theories/M_PyTime.v
theories/L_PyTime.v
theories/P_PyTime.v
theories/S_Pn.v
theories/L_Pn.v
theories/P_Pn.v
theories/S_Sync.v
theories/L_Sync.v
theories/S_Bytes.v
theories/P_Bytes.v
theories/L_SyncBits.v
theories/L_SyncRun.v
theories/L_SyncIter.v
theories/L_SyncSafe.v
theories/P_Sync.v
theories/S_Frame.v
theories/L_Frame.v
theories/P_Frame.v
theories/S_FramePackets.v
theories/L_FramePackets.v
theories/L_FramePackets2.v
theories/P_FramePackets.v
theories/S_ReedSolomon.v
theories/L_ReedSolomon.v
theories/P_ReedSolomon.v
theories/L_RsPipeline.v
theories/P_RsPipeline.v
theories/S_Pipeline.v
theories/L_Pipeline.v
theories/L_SyncFail.v
theories/P_Pipeline.v
theories/S_Merge.v
theories/L_Merge.v
theories/P_Merge.v
theories/S_Cli.v
theories/S_Diff.v
theories/S_InfoTotals.v
theories/P_CliFilter.v
theories/P_CliDiff.v
theories/P_CliInfo.v
theories/P_CliFrame.v
theories/M_Main.v
theories/S_Main.v
theories/S_Framing.v
theories/P_Main.v
theories/P_Main2.v
theories/P_RsDrop.v
theories/P_ReadErr.v
theories/P_Builder.v
theories/P_RsLive.v
theories/P_Causal.v
theories/P_Rollover.v
theories/P_CliDiff2.v
theories/P_Resume.v
theories/S_SyncDirect.v
theories/P_SyncDirect.v
theories/P_Ints.v
theories/S_Loss.v
theories/L_Loss.v
theories/P_Loss.v
theories/S_Options.v
theories/P_Options.v
theories/M_Write.v
theories/S_Write.v
theories/L_Write.v
theories/P_Write.v
theories/S_AnyFile.v
theories/P_AnyFile.v
theories/M_Live.v
theories/S_Live.v
theories/L_Live.v
theories/P_Live.v
theories/P_LiveCmd.v
theories/M_Pause.v
theories/S_Pause.v
theories/L_Pause.v
theories/P_Pause.v
theories/S_FrameLive.v
theories/L_SyncReads.v
theories/L_SyncTwin.v
theories/M_FrameLive.v
theories/L_FrameLive.v
theories/P_FrameLive.v
theories/M_MergeLive.v
theories/S_MergeLive.v
theories/L_MergeLive.v
theories/P_MergeLive.v
theories/S_Cut.v
theories/M_Cut.v
theories/L_Cut.v
theories/P_Cut.v
theories/S_Json.v
theories/M_Json.v
theories/S_Report.v
theories/L_Json.v
theories/P_Json.v
theories/M_Stdout.v
theories/S_Stdout.v
theories/L_Stdout.v
theories/P_Stdout.v
theories/M_Text.v
theories/S_Text.v
theories/L_Text.v
theories/P_Text.v
theories/M_Info.v
theories/S_Info.v
theories/L_Info.v
theories/P_Info.v
theories/M_MergeTd.v
theories/S_MergeTd.v
theories/P_MergeTd.v
theories/M_Config.v
theories/S_Config.v
theories/P_Config.v
theories/M_Input.v
theories/S_Input.v
theories/P_Input.v
theories/M_Serde.v
theories/S_Serde.v
theories/P_Serde.v
theories/M_Doc.v
theories/P_Doc.v
theories/S_Compose.v
theories/L_Compose.v
theories/P_Compose.v
theories/M_MergeAny.v
theories/S_MergeAny.v
theories/P_MergeAny.v
theories/S_Record.v
theories/P_Record.v
theories/S_Py.v
theories/M_Py.v
theories/P_Py.v
theories/M_RsSource.v
theories/S_RsSource.v
theories/L_RsSource.v
theories/P_RsSource.v
theories/S_Order.v
theories/P_Order.v
theories/M_Links.v
theories/S_Links.v
theories/P_Links.v
theories/S_Memory.v
theories/P_Memory.v
theories/S_Join.v
theories/P_Join.v
theories/P_JoinLink.v
theories/P_JoinNot.v
theories/W_Join.v
theories/P_Filtered.v
theories/S_TimeOrder.v
theories/P_TimeOrder.v
theories/S_Damage.v
theories/P_Damage.v
theories/S_FalseSync.v
theories/P_FalseSync.v
theories/S_FrameDamage.v
theories/P_FrameDamage.v
theories/P_FrameRegain.v
theories/W_Packets.v
theories/W_Sync.v
theories/W_Frames.v
theories/W_Rs.v
theories/W_Cli.v
theories/W_Stream.v
theories/W_Write.v
theories/W_Live.v
theories/W_Pause.v
theories/W_Report.v
theories/W_Config.v
