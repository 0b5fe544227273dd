-Q theories Verif
theories/Alias.v
theories/Alloc.v
theories/AnyModel.v
theories/AnyProofs.v
theories/AuthModel.v
theories/AuthProofs.v
theories/AuthSame.v
theories/Base.v
theories/BigProofs.v
theories/Builder.v
theories/BuilderProofs.v
theories/CapProofs.v
theories/Chunks.v
theories/ClockProofs.v
theories/Collation.v
theories/CollationTable.v
theories/Conn.v
theories/ConnProofs.v
theories/Connector.v
theories/Crowd.v
theories/Decimal.v
theories/DecimalProofs.v
theories/ErrorProofs.v
theories/ExprModel.v
theories/Fine.v
theories/FineAll.v
theories/FineArg.v
theories/FineArgProofs.v
theories/FineAuth.v
theories/FineAuthProofs.v
theories/FineBuild.v
theories/FineFrame.v
theories/FineModel.v
theories/FineMore.v
theories/FinePool.v
theories/FineProofs.v
theories/FineRef.v
theories/FineRun.v
theories/Flow.v
theories/FlowProofs.v
theories/GoSlice.v
theories/HeadProofs.v
theories/HeaderProofs.v
theories/Heap.v
theories/History.v
theories/InjectProofs.v
theories/Late.v
theories/Mem.v
theories/MemArg.v
theories/MemArgProofs.v
theories/MemAuth.v
theories/MemAuthProofs.v
theories/MemBuild.v
theories/MemBusy.v
theories/MemBusyProofs.v
theories/MemKept.v
theories/MemKeptProofs.v
theories/MemModel.v
theories/MemPipes.v
theories/MemProofs.v
theories/MemRead.v
theories/MemReadProofs.v
theories/MemRef.v
theories/MemUse.v
theories/MoreProofs.v
theories/MsgModel.v
theories/MsgProofs.v
theories/OnceProofs.v
theories/Operators.v
theories/Options.v
theories/OrderProofs.v
theories/Overlap.v
theories/PanicLock.v
theories/PanicProofs.v
theories/PeakProofs.v
theories/PlanEnd.v
theories/PlanProofs.v
theories/PlanSys.v
theories/Pool.v
theories/PoolMu.v
theories/PoolPanic.v
theories/PoolProofs.v
theories/ProtoProofs.v
theories/Pure.v
theories/RaceProofs.v
theories/RawSend.v
theories/Recover.v
theories/RecoverProofs.v
theories/RecoverRow.v
theories/Reenter.v
theories/RefuseProofs.v
theories/ReplyProofs.v
theories/RepoTests.v
theories/ReuseProofs.v
theories/SessionProofs.v
theories/ShapeProofs.v
theories/SizeProofs.v
theories/SliceProofs.v
theories/SpecAlloc.v
theories/SpecApart.v
theories/SpecArg.v
theories/SpecAuth.v
theories/SpecBig.v
theories/SpecBroken.v
theories/SpecBusy.v
theories/SpecClock.v
theories/SpecCommit.v
theories/SpecCrowd.v
theories/SpecDecimal.v
theories/SpecError.v
theories/SpecFine.v
theories/SpecFlow.v
theories/SpecGroups.v
theories/SpecHistory.v
theories/SpecInject.v
theories/SpecInstant.v
theories/SpecKept.v
theories/SpecLedger.v
theories/SpecLevel.v
theories/SpecMem.v
theories/SpecMore.v
theories/SpecMsg.v
theories/SpecNames.v
theories/SpecOnce.v
theories/SpecOpen.v
theories/SpecOps.v
theories/SpecOverlap.v
theories/SpecPanic.v
theories/SpecPeak.v
theories/SpecPlace.v
theories/SpecPlan.v
theories/SpecPool.v
theories/SpecPrepared.v
theories/SpecProg.v
theories/SpecProto.v
theories/SpecRace.v
theories/SpecRead.v
theories/SpecRecover.v
theories/SpecRefuse.v
theories/SpecReply.v
theories/SpecReplyNames.v
theories/SpecRetry.v
theories/SpecReuse.v
theories/SpecRows.v
theories/SpecSchema.v
theories/SpecSecret.v
theories/SpecServer.v
theories/SpecSession.v
theories/SpecShare.v
theories/SpecSize.v
theories/SpecSpend.v
theories/SpecStart.v
theories/SpecSystem.v
theories/SpecTime.v
theories/SpecTyped.v
theories/SpecUnit.v
theories/SpecValue.v
theories/SpecWire.v
theories/SpendMore.v
theories/SpendProofs.v
theories/Stateful.v
theories/StringProofs.v
theories/System.v
theories/SystemProofs.v
theories/Text.v
theories/TextProofs.v
theories/ThmAlias.v
theories/ThmAlloc.v
theories/ThmApart.v
theories/ThmArg.v
theories/ThmAuth.v
theories/ThmBig.v
theories/ThmBroken.v
theories/ThmBuilder.v
theories/ThmBusy.v
theories/ThmCancel.v
theories/ThmClock.v
theories/ThmCollation.v
theories/ThmCommit.v
theories/ThmConn.v
theories/ThmConnector.v
theories/ThmCrowd.v
theories/ThmDecimal.v
theories/ThmDefects.v
theories/ThmError.v
theories/ThmFine.v
theories/ThmFlow.v
theories/ThmHeap.v
theories/ThmHistory.v
theories/ThmInject.v
theories/ThmInstant.v
theories/ThmKept.v
theories/ThmLate.v
theories/ThmLedger.v
theories/ThmLevel.v
theories/ThmMem.v
theories/ThmMemAuth.v
theories/ThmMore.v
theories/ThmOnce.v
theories/ThmOpen.v
theories/ThmOps.v
theories/ThmOptions.v
theories/ThmOverlap.v
theories/ThmPanic.v
theories/ThmPeak.v
theories/ThmPlace.v
theories/ThmPlan.v
theories/ThmPool.v
theories/ThmPoolPanic.v
theories/ThmPrepared.v
theories/ThmProto.v
theories/ThmRace.v
theories/ThmRaw.v
theories/ThmRead.v
theories/ThmRecover.v
theories/ThmRecoverRow.v
theories/ThmReenter.v
theories/ThmRefuse.v
theories/ThmRestart.v
theories/ThmRetry.v
theories/ThmReuse.v
theories/ThmRows.v
theories/ThmSecret.v
theories/ThmServer.v
theories/ThmSession.v
theories/ThmShare.v
theories/ThmSize.v
theories/ThmSpend.v
theories/ThmStart.v
theories/ThmSystem.v
theories/ThmTime.v
theories/ThmTx.v
theories/ThmTyped.v
theories/ThmTypedBig.v
theories/ThmTypedError.v
theories/ThmTypedFilter.v
theories/ThmTypedHeads.v
theories/ThmTypedHistory.v
theories/ThmTypedKept.v
theories/ThmTypedLedger.v
theories/ThmTypedNames.v
theories/ThmTypedNull.v
theories/ThmTypedOrder.v
theories/ThmTypedRecover.v
theories/ThmTypedRecoverRow.v
theories/ThmTypedReenter.v
theories/ThmTypedReplies.v
theories/ThmTypedRetry.v
theories/ThmTypedServe.v
theories/ThmTypedShape.v
theories/ThmTypedText.v
theories/ThmTypedWork.v
theories/ThmValues.v
theories/Timed.v
theories/TimedProofs.v
theories/TimedRefine.v
theories/TimedSum.v
theories/TypedErrorProofs.v
theories/TypedFrameProofs.v
theories/TypedProofs.v
theories/TypedRunProofs.v
theories/TypedSizeProofs.v
theories/UnitProofs.v
theories/Unmarshal.v
theories/UnmarshalProofs.v
theories/ValueProofs.v
theories/Values.v
theories/Varint.v
theories/VarintProofs.v
theories/WireProofs.v
