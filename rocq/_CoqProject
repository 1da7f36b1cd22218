-Q theories Verif
theories/Prelude.v
theories/H4.v
theories/H4Spec.v
theories/H4Proofs.v
theories/P_H4.v
theories/Address.v
theories/AddressSpec.v
theories/AddressProofs.v
theories/P_Address.v
theories/Rpa.v
theories/RpaProofs.v
theories/P_Rpa.v
theories/Handles.v
theories/HandlesSpec.v
theories/HandlesProofs.v
theories/P_Handles.v
theories/PcapFilter.v
theories/PcapFilterSpec.v
theories/PcapFilterProofs.v
theories/PcapFilterNames.v
theories/P_PcapFilter.v
theories/Sniffer.v
theories/SnifferSpec.v
theories/SnifferProofs.v
theories/P_Sniffer.v
theories/Table.v
theories/AsyncTasks.v
theories/AsyncTasksSpec.v
theories/AsyncTasksProofs.v
theories/P_AsyncTasks.v
theories/AsyncThreads.v
theories/AsyncThreadsSpec.v
theories/AsyncThreadsProofs.v
theories/P_AsyncThreads.v
theories/PhyModel.v
theories/PhyModelSpec.v
theories/PhyModelProofs.v
theories/PhyModelTopology.v
theories/P_PhyModel.v
theories/TestChannel.v
theories/TestChannelSpec.v
theories/TestChannelProofs.v
theories/P_TestChannel.v
theories/TestCommand.v
theories/TestCommandProofs.v
theories/TestCommandSpec.v
theories/TestCommandRequests.v
theories/P_TestCommand.v
theories/LeTypes.v
theories/LeAdvertise.v
theories/LeLists.v
theories/LeScan.v
theories/LeInitiate.v
theories/LeHost.v
theories/LeTac.v
theories/LeFrame.v
theories/LeStep.v
theories/LeHistory.v
theories/LeListsSpec.v
theories/LeListsProofs.v
theories/LeListsWitness.v
theories/P_LeLists.v
theories/LeSets.v
theories/LeAdvertSpec.v
theories/LeAdvertProofs.v
theories/LeOutputs.v
theories/LeAdvertSends.v
theories/LeAdvertWitness.v
theories/P_LeAdvert.v
theories/LeParamsSpec.v
theories/LeParamsProofs.v
theories/LeInitProofs.v
theories/LeParamsWitness.v
theories/P_LeParams.v
theories/EventMask.v
theories/EventMaskSpec.v
theories/EventMaskLe.v
theories/EventMaskProofs.v
theories/EventMaskWitness.v
theories/P_EventMask.v
theories/Scheduler.v
theories/SchedulerSpec.v
theories/SchedulerProofs.v
theories/SchedulerWitness.v
theories/P_Scheduler.v
theories/Baseband.v
theories/BasebandSpec.v
theories/BasebandProofs.v
theories/BasebandCapture.v
theories/P_Baseband.v
theories/Apcf.v
theories/ApcfSpec.v
theories/ApcfProofs.v
theories/P_Apcf.v
theories/Sco.v
theories/ScoSpec.v
theories/ScoProofs.v
theories/ScoWitness.v
theories/P_Sco.v
theories/LeLink.v
theories/LeLinkSpec.v
theories/LeLinkProofs.v
theories/LeLinkMore.v
theories/LeLinkPhy.v
theories/LeLinkReach.v
theories/LeLinkWitness.v
theories/P_LeLink.v
theories/LeAskSpec.v
theories/LeAsk.v
theories/LeAskWitness.v
theories/P_LeAsk.v
theories/LeLedgerSpec.v
theories/LeLedger.v
theories/LeLedgerWitness.v
theories/P_LeLedger.v
theories/LePairSpec.v
theories/LePair.v
theories/LePairAgree.v
theories/LePairWitness.v
theories/P_LePair.v
theories/Cs.v
theories/CsSpec.v
theories/CsProofs.v
theories/CsMore.v
theories/CsSafety.v
theories/CsAgree.v
theories/CsWitness.v
theories/P_Cs.v
theories/Iso.v
theories/IsoSpec.v
theories/IsoProofs.v
theories/IsoSafe.v
theories/IsoMore.v
theories/IsoLife.v
theories/IsoParams.v
theories/IsoEnd.v
theories/IsoPath.v
theories/IsoPeer.v
theories/IsoTight.v
theories/IsoWitness.v
theories/P_Iso.v
theories/LeFilterSpec.v
theories/LeFilter.v
theories/LeFilterMore.v
theories/LeFilterInv.v
theories/LeFilterAdv.v
theories/LeFilterInit.v
theories/LeFilterWitness.v
theories/P_LeFilter.v
theories/LeTimeSpec.v
theories/LeTime.v
theories/LeTimeCount.v
theories/LeTimeScan.v
theories/LeTimeWitness.v
theories/P_LeTime.v
theories/LeEventsSpec.v
theories/LeEvents.v
theories/LeEventsWitness.v
theories/P_LeEvents.v
theories/LePaceSpec.v
theories/LePaceTrainSpec.v
theories/LePaceTrain.v
theories/LePace.v
theories/LePaceLegacy.v
theories/LePaceWitness.v
theories/P_LePace.v
theories/LeOwnSpec.v
theories/LeOwn.v
theories/LeOwnInit.v
theories/LeOwnWitness.v
theories/P_LeOwn.v
theories/LeOwnTrainSpec.v
theories/LeOwnPeriodic.v
theories/LeOwnTrainWitness.v
theories/P_LeOwnTrain.v
theories/Bredr.v
theories/BredrBase.v
theories/BredrInv.v
theories/BredrConn.v
theories/BredrSpec.v
theories/BredrRefine.v
theories/BredrCount.v
theories/BredrTime.v
theories/BredrLive.v
theories/BredrWatch.v
theories/BredrFrame.v
theories/BredrData.v
theories/BredrIncoming.v
theories/BredrWitness.v
theories/P_Bredr.v
theories/Ec.v
theories/EcSpec.v
theories/EcProofs.v
theories/EcWitness.v
theories/P_Ec.v
theories/Lmp.v
theories/LmpSpec.v
theories/LmpProofs.v
theories/LmpFits.v
theories/LmpManager.v
theories/LmpLive.v
theories/LmpSafe.v
theories/LmpSessions.v
theories/LmpWitness.v
theories/P_Lmp.v
theories/HciTables.v
theories/Hci.v
theories/HciSpec.v
theories/HciProofs.v
theories/HciHistory.v
theories/HciWitness.v
theories/P_Hci.v
theories/HciAccountSpec.v
theories/HciAccount.v
theories/HciAccountWitness.v
theories/P_HciAccount.v
theories/HciMaskSpec.v
theories/HciMask.v
theories/HciMaskWitness.v
theories/P_HciMask.v
theories/LeData.v
theories/LeDataSpec.v
theories/LeDataProofs.v
theories/LeDataMore.v
theories/LeDataWatch.v
theories/LeDataTell.v
theories/LeDataPair.v
theories/LeDataWitness.v
theories/P_LeData.v
theories/BredrFlow.v
theories/BredrPairSpec.v
theories/BredrPair.v
theories/BredrRemoteSpec.v
theories/BredrRemote.v
theories/BredrPairWitness.v
theories/BredrRemoteWitness.v
theories/P_BredrRemote.v
theories/BredrRole.v
theories/BredrRoleSpec.v
theories/BredrRoles.v
theories/BredrRoleWitness.v
theories/P_BredrRoles.v
theories/BredrSyncSpec.v
theories/BredrSync.v
theories/BredrSyncPair.v
theories/BredrCalls.v
theories/BredrVoice.v
theories/BredrSyncWitness.v
theories/P_BredrSync.v
theories/BredrInquirySpec.v
theories/BredrInquiry.v
theories/BredrFind.v
theories/BredrInquiryWitness.v
theories/P_BredrInquiry.v
theories/BredrFailSpec.v
theories/BredrFail.v
theories/BredrFailWitness.v
theories/P_BredrFail.v
theories/Transport.v
theories/TransportSpec.v
theories/TransportProofs.v
theories/TransportWitness.v
theories/P_Transport.v
theories/FdWatch.v
theories/FdWatchSpec.v
theories/FdWatchProofs.v
theories/FdWatchCalls.v
theories/FdWatchLive.v
theories/FdWatchStop.v
theories/FdWatchWitness.v
theories/P_FdWatch.v
theories/Config.v
theories/ConfigSpec.v
theories/ConfigProofs.v
theories/ConfigWitness.v
theories/P_Config.v
theories/LeSyncSpec.v
theories/LeSyncProofs.v
theories/LeSyncWitness.v
theories/P_LeSync.v
theories/Server.v
theories/ServerSpec.v
theories/ServerProofs.v
theories/ServerClients.v
theories/ServerTest.v
theories/ServerWitness.v
theories/P_Server.v
theories/Channel.v
theories/ChannelSpec.v
theories/ChannelProofs.v
theories/ChannelPhy.v
theories/ChannelWitness.v
theories/P_Channel.v
theories/LeReportSpec.v
theories/LeReport.v
theories/LeReportWitness.v
theories/P_LeReport.v
theories/MaskViewSpec.v
theories/MaskViewProofs.v
theories/MaskViewWitness.v
theories/P_MaskView.v
theories/Socket.v
theories/SocketSpec.v
theories/SocketProofs.v
theories/SocketWitness.v
theories/P_Socket.v
theories/LeStops.v
theories/LeStopsWitness.v
theories/P_LeStops.v
