-Q theories Verif
theories/Base.v
theories/MathModel.v
theories/CurveModel.v
theories/FeeModel.v
theories/ConfigModel.v
theories/PoolModel.v
theories/TxModel.v
theories/SystemModel.v
theories/Fixtures.v
theories/Lib.v
theories/Spec.v
theories/CurveProofs.v
theories/CurveLoops.v
theories/Potential.v
theories/CalcProofs.v
theories/ConfigProofs.v
theories/FeeProofs.v
theories/SwapProofs.v
theories/InvProofs.v
theories/InvOps.v
theories/InvReach.v
theories/PropSwap.v
theories/FixturesReach.v
theories/Effects.v
theories/Frame.v
theories/PropLife.v
theories/Bounds.v
theories/PropSafe.v
theories/SpecHist.v
theories/PropFees.v
theories/Only.v
theories/PropPay.v
theories/PropLp.v
theories/PropAccess.v
theories/PropMath.v
theories/PropSched.v
theories/PropLimiter.v
theories/PropRate.v
theories/LimInv.v
theories/PropPart.v
theories/PropVol.v
theories/PropConfig.v
theories/PropVest.v
theories/TxTree.v
theories/PropTx.v
theories/PropMig.v
theories/Live.v
theories/PropSell.v
theories/PropBuy.v
theories/PropFreeze.v
theories/SdkModel.v
theories/PropSdk.v
theories/PropCases.v
theories/Steps.v
theories/Walks.v
theories/PropTrade.v
theories/PropFair.v
theories/PropToken.v
theories/PropOpen.v
theories/AcctModel.v
theories/AcctSim.v
theories/AcctInv.v
theories/AcctStep.v
theories/AcctSpec.v
theories/AcctFlow.v
theories/PropAcct.v
theories/MigFeeModel.v
theories/PropMigFee.v
theories/LampModel.v
theories/PropLamp.v
theories/EventModel.v
theories/PropEvent.v
theories/TokenModel.v
theories/PropMint.v
theories/PropStrand.v
theories/PropUntaken.v
theories/MetaModel.v
theories/PropMeta.v
theories/PropIndep.v
theories/PropWait.v
theories/PropEqual.v
theories/PropRoad.v
theories/LayoutModel.v
theories/PropLayout.v
theories/PropShare.v
theories/Conform.v
theories/PropDrift.v
theories/PropOrder.v
theories/PropHonest.v
theories/PropRight.v
theories/PropFresh.v
theories/PropExact.v
theories/PropLock.v
theories/PropHold.v
theories/NameModel.v
theories/PropName.v
theories/PropMode.v
theories/PropSpot.v
theories/PropCharge.v
theories/PropSplit.v
theories/PropProduct.v
theories/PropAccept.v
theories/PropAllow.v
theories/PropLarger.v
theories/PropFirst.v
theories/PropRound.v
theories/LocalModel.v
theories/PropLocal.v
theories/PropFront.v
theories/PropParallel.v
theories/PropEarn.v
theories/PropClock.v
theories/PropNames.v
theories/PropFree.v
theories/PropDust.v
theories/PropPath.v
theories/PropBulk.v
theories/PropBidAsk.v
theories/PropGroup.v
theories/PropPump.v
theories/PropDepth.v
