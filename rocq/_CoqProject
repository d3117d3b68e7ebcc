-Q theories Verif
theories/Types.v
theories/Config.v
theories/MemStore.v
theories/Internal.v
theories/LeaderState.v
theories/SeqPaxos.v
theories/Ble.v
theories/Omni.v
theories/System.v
theories/Basics.v
theories/PropBasic.v
theories/Scen.v
theories/Spec.v
theories/Refute.v
theories/PropRefuted.v
theories/Ghost.v
theories/GhostOps.v
theories/Inv.v
theories/StoreOps.v
theories/SyncOps.v
theories/Op.v
theories/FollowerOps.v
theories/RecvOps.v
theories/LeadLinks.v
theories/LeadSend.v
theories/LeadLoop.v
theories/LeadApp.v
theories/LeadRecv.v
theories/LeadMaj.v
theories/SysInv.v
theories/Reads.v
theories/Agree.v
theories/PropAgreement.v
theories/Local.v
theories/PropLocal.v
theories/Frame.v
theories/PropCalls.v
theories/PropElect.v
theories/PropTrim.v
theories/PropBatch.v
theories/PropRead.v
theories/Prims.v
theories/PropSnap.v
theories/Persist.v
theories/PropPersist.v
theories/Unicache.v
theories/PropUnicache.v
theories/PropUnicacheLfu.v
theories/NoPanic.v
theories/PropNoPanic.v
theories/PropDecided.v
theories/PropRestart.v
theories/PropStop.v
theories/PropAccepted.v
theories/PropRounds.v
theories/PropNoDup.v
theories/Progress.v
theories/Takeover.v
theories/Moves.v
theories/PropProgress.v
theories/PropStopMore.v
theories/PropOrder.v
theories/PropStable.v
theories/Steady.v
theories/PropSteady.v
theories/Converge.v
theories/PropConverge.v
theories/PropBuffer.v
theories/TrimPanic.v
theories/PropTrimPanic.v
theories/PropAnswer.v
theories/PropReplica.v
theories/Chosen.v
theories/PropChosen.v
theories/Quiet.v
theories/PropQuiet.v
theories/SnapPanic.v
theories/PropSnapPanic.v
theories/Fresh.v
theories/PropFresh.v
theories/Dup.v
theories/PropDup.v
theories/UniSys.v
theories/UniRefute.v
theories/UniSweep.v
theories/UniInv.v
theories/PropUni.v
theories/TwoConf.v
theories/PropTwoConf.v
theories/PropStopBuf.v
theories/PropHeart.v
theories/PropCompact.v
theories/PropSend.v
theories/Route.v
theories/PropRoute.v
theories/Phase.v
theories/PropLeader.v
theories/Derive.v
theories/PropDerive.v
theories/PropDeriveUni.v
theories/DiskCalls.v
theories/DiskRun.v
theories/PropDisk.v
theories/PropLeadOrder.v
theories/Ui.v
theories/PropUi.v
theories/QConnect.v
theories/PropQConnect.v
theories/Hops.v
theories/PropHops.v
theories/Fan.v
theories/PropFan.v
