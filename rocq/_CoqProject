-Q theories Verif
theories/Base.v
theories/Decimal.v
theories/SqrtPriceM.v
theories/LogM.v
theories/FeeGrowthM.v
theories/ClammM.v
theories/Types.v
theories/TickmapM.v
theories/StorageM.v
theories/CollectionsM.v
theories/StateM.v
theories/ServiceM.v
theories/AsyncM.v
theories/Arith.v
theories/SpecMath.v
theories/SpecFees.v
theories/P_Clamm.v
theories/P_Delta.v
theories/P_Next.v
theories/P_Step.v
theories/P_StepProps.v
theories/P_Fees.v
theories/Prop_Math.v
theories/P_TickPrice.v
theories/P_LogR.v
theories/P_GetTick.v
theories/Prop_Tick.v
theories/P_Tickmap.v
theories/P_Closer.v
theories/Prop_Tickmap.v
theories/SpecSum.v
theories/P_Balance.v
theories/P_Effects.v
theories/SpecHistory.v
theories/P_Positions.v
theories/P_History.v
theories/P_Loop.v
theories/Cases.v
theories/P_Check.v
theories/P_State.v
theories/Prop_State.v
theories/SpecState.v
theories/P_Iter.v
theories/P_Inv.v
theories/P_InvPos.v
theories/P_PosOps.v
theories/P_InvSwap.v
theories/P_Swap.v
theories/P_SwapLoop.v
theories/P_InvHist.v
theories/P_Tight.v
theories/SpecLoop.v
theories/P_Term.v
theories/SpecRoute.v
theories/P_Quote.v
theories/SpecClean.v
theories/P_Active.v
theories/P_Live.v
theories/P_Bals.v
theories/SpecAsync.v
theories/P_Async.v
theories/P_AsyncRuns.v
theories/P_Queries.v
theories/CasesClean.v
theories/Prop_Ticks.v
theories/Prop_Swap.v
theories/Prop_Queries.v
theories/Prop_Async.v
theories/SpecSolv.v
theories/SpecHeld.v
theories/P_RSum.v
theories/P_Claims.v
theories/P_Owed.v
theories/P_OwedSwap.v
theories/P_Solv.v
theories/P_Payout.v
theories/P_Exit.v
theories/P_Held.v
theories/Prop_Solvency.v
theories/SdkM.v
theories/SdkFetchM.v
theories/SpecSdk.v
theories/P_Sdk.v
theories/P_SdkView.v
theories/Prop_Sdk.v
theories/LiquidityM.v
theories/P_Liq.v
theories/P_LiqCharge.v
theories/Prop_Liq.v
theories/SpecUtil.v
theories/SdkUtilM.v
theories/P_SdkUtil.v
theories/Prop_SdkUtil.v
theories/P_SdkBreak.v
theories/Prop_SdkKeys.v
theories/SpecRecords.v
theories/Prop_Records.v
theories/EventM.v
theories/SpecLog.v
theories/P_Log.v
theories/Prop_Log.v
theories/SpecPath.v
theories/P_Path.v
theories/Prop_Path.v
theories/SpecTime.v
theories/P_Time.v
theories/Prop_Time.v
theories/SpecOutcome.v
theories/P_Outcome.v
theories/P_Capacity.v
theories/Prop_Outcome.v
theories/TokenM.v
theories/SpecToken.v
theories/Prop_Token.v
theories/SdkListM.v
theories/P_Limit.v
theories/P_Timeless.v
theories/Prop_SdkSwap.v
theories/Prop_SdkList.v
theories/SpecCost.v
theories/P_Create.v
theories/Prop_Calls.v
theories/Prop_Cost.v
theories/SpecShare.v
theories/P_Share.v
theories/Prop_Share.v
theories/DecimalLibM.v
theories/SpecDecimal.v
theories/P_Decimal.v
theories/Prop_Decimal.v
theories/Prop_Casts.v
theories/Prop_Convert.v
theories/SecondsM.v
theories/Prop_Seconds.v
theories/ConcentrationM.v
theories/SpecConcentration.v
theories/P_Concentration.v
theories/Prop_Concentration.v
theories/SpecTrade.v
theories/P_Trade.v
theories/Prop_Trade.v
theories/SpecPrice.v
theories/P_Price.v
theories/Prop_Price.v
theories/SpecIndep.v
theories/SpecTrace.v
theories/P_Indep.v
theories/P_Trace.v
theories/P_OpenClose.v
theories/Prop_Indep.v
theories/Prop_Trace.v
theories/SpecOften.v
theories/P_Often.v
theories/Prop_Often.v
theories/SpecSplit.v
theories/P_Split.v
theories/Prop_Split.v
theories/SpecOrder.v
theories/P_Order.v
theories/Prop_Order.v
theories/SpecSale.v
theories/P_Sale.v
theories/Prop_Sale.v
theories/SpecAnon.v
theories/P_Anon.v
theories/Prop_Anon.v
theories/SpecClock.v
theories/P_Clock.v
theories/Prop_Clock.v
theories/SpecCoins.v
theories/P_Coins.v
theories/Prop_Coins.v
theories/P_Mono.v
theories/Prop_Mono.v
theories/SpecFeeless.v
theories/P_Feeless.v
theories/Prop_Feeless.v
theories/SpecTiers.v
theories/P_Tiers.v
theories/Prop_Tiers.v
theories/Prop_Range.v
