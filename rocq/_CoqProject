-Q theories Verif

theories/Base.v
theories/BaseLemmas.v
theories/Num.v
theories/NumR.v
theories/NumF.v
theories/Traits.v
theories/FilterM.v
theories/RbjM.v
theories/AnalysisM.v
theories/WindowM.v
theories/UtilM.v
theories/DelayM.v
theories/LinDelayM.v
theories/DelaySpec.v
theories/PlaceSpec.v
theories/DelayRun.v
theories/DelayProofs.v
theories/DelayFacts.v
theories/DelayLemmas.v
theories/Witness.v
theories/PropDelay.v
theories/Device.v
theories/BlockSpec.v
theories/CoreLemmas.v
theories/PropCore.v
theories/Signal.v
theories/SignalFacts.v
theories/FilterFacts.v
theories/FloatFacts.v
theories/FilterSpec.v
theories/FilterLemmas.v
theories/PropFilter.v
theories/RbjSpec.v
theories/RbjFacts.v
theories/RbjLemmas.v
theories/PropRbj.v
theories/LinSpec.v
theories/LinRun.v
theories/LinFloatSpec.v
theories/LinProofs.v
theories/LinCtlR.v
theories/LinCtlF.v
theories/LinInv.v
theories/LinFacts.v
theories/LinFloat.v
theories/LinLemmas.v
theories/LinWit.v
theories/LinLemmas2.v
theories/PropLin.v
theories/PropLin2.v
theories/LinSame.v
theories/LinLemmas3.v
theories/PropLin3.v
theories/FloatSpec.v
theories/SmoothF.v
theories/AnaSpec.v
theories/CrLibm.v
theories/AnaFacts.v
theories/AnaLemmas.v
theories/PropAna.v
theories/AnaLemmas2.v
theories/PropAna2.v
theories/WinSpec.v
theories/WinFacts.v
theories/WinLemmas.v
theories/PropWindow.v
theories/WinLemmasF.v
theories/PropWindowF.v
theories/UtilSpec.v
theories/UtilLemmas.v
theories/PropUtil.v
theories/EqSpec.v
theories/EqFacts.v
theories/EqLemmas.v
theories/PropEq.v
theories/FltFilterSpec.v
theories/FltFilterFacts.v
theories/FltFilterLemmas.v
theories/PropFltFilter.v
theories/SysSpec.v
theories/SysLemmas.v
theories/PropSys.v
theories/TailSpec.v
theories/TailFacts.v
theories/TailLemmas.v
theories/PropTail.v
theories/ConstLemmas.v
theories/PropConst.v
theories/RbjFltSpec.v
theories/RbjFltFacts.v
theories/RbjFltFacts2.v
theories/RbjShelfFacts.v
theories/BlowFacts.v
theories/RbjFltLemmas.v
theories/PropRbjFlt.v
theories/TrackSpec.v
theories/TrackFacts.v
theories/TrackLemmas.v
theories/PropTrack.v
theories/WinAccSpec.v
theories/WinAccFacts.v
theories/WinAccLemmas.v
theories/PropWinAcc.v
theories/DbSpec.v
theories/DbFacts.v
theories/DbLemmas.v
theories/PropDb.v
theories/RbjAccSpec.v
theories/RbjAccFacts.v
theories/RbjAccLemmas.v
theories/PropRbjAcc.v
theories/PoisonSpec.v
theories/PoisonLemmas.v
theories/PropPoison.v
theories/LinAccLemmas.v
theories/PropLinAcc.v
theories/GainAccSpec.v
theories/GainAccFacts.v
theories/GainAccLemmas.v
theories/PropGainAcc.v
theories/FixLibm.v
theories/RepoTests.v
theories/MeterSpec.v
theories/MeterFacts.v
theories/MeterLemmas.v
theories/PropMeter.v
theories/MonoSpec.v
theories/MonoLemmas.v
theories/PropMono.v
theories/SpectrumSpec.v
theories/SpectrumLemmas.v
theories/PropSpectrum.v
theories/SpectrumFlt.v
theories/PropSpectrumFlt.v
theories/CmdM.v
theories/CmdSpec.v
theories/CmdFacts.v
theories/CmdLemmas.v
theories/PropCmd.v
theories/PolSpec.v
theories/PolFacts.v
theories/PolLemmas.v
theories/PropPol.v
theories/SymSpec.v
theories/SymLemmas.v
theories/SymFltFacts.v
theories/SymFacts.v
theories/SymMain.v
theories/PropSym.v
theories/EchoSpec.v
theories/EchoLemmas.v
theories/PropEcho.v
theories/PortM.v
theories/PortSpec.v
theories/PortLemmas.v
theories/PropPort.v
theories/ModSpec.v
theories/ModLemmas.v
theories/PropMod.v
theories/ModFLemmas.v
theories/PropModF.v
theories/OlaSpec.v
theories/OlaLemmas.v
theories/PropOla.v
theories/MeterFLemmas.v
theories/PropMeterF.v
theories/GrowSpec.v
theories/GrowLemmas.v
theories/PropGrow.v
theories/CrestLemmas.v
theories/PropCrest.v
theories/SchroederSpec.v
theories/SchroederLemmas.v
theories/PropSchroeder.v
theories/LinTapLemmas.v
theories/PropLinTaps.v
theories/FadeLemmas.v
theories/PropFade.v
theories/StringSpec.v
theories/StringLemmas.v
theories/PropString.v
theories/LimitSpec.v
theories/LimitLemmas.v
theories/PropLimit.v
theories/NetSpec.v
theories/NetLemmas.v
theories/PropNet.v
theories/CrossLemmas.v
theories/PropCross.v
theories/HatSpec.v
theories/EmergeLemmas.v
theories/PropEmerge.v
theories/OrderSpec.v
theories/OrderLemmas.v
theories/PropOrder.v
theories/OrderLineSpec.v
theories/OrderLineLemmas.v
theories/PropOrderLine.v
theories/FixedSpec.v
theories/FixedLemmas.v
theories/PropFixed.v
theories/BoxSpec.v
theories/BoxLemmas.v
theories/PropBox.v
theories/FirSpec.v
theories/FirLemmas.v
theories/PropFir.v
theories/ScaleSpec.v
theories/ScaleLemmas.v
theories/PropScale.v
theories/OscSpec.v
theories/OscLemmas.v
theories/PropOsc.v
theories/DcLemmas.v
theories/PropDc.v
theories/BothSpec.v
theories/BothLemmas.v
theories/PropBoth.v
theories/LoopSpec.v
theories/LoopLemmas.v
theories/PropLoop.v
theories/ScatterSpec.v
theories/ScatterLemmas.v
theories/PropScatter.v
theories/FracSpec.v
theories/FracLemmas.v
theories/PropFrac.v
theories/RackSpec.v
theories/RackLemmas.v
theories/PropRack.v
theories/GateSpec.v
theories/GateLemmas.v
theories/PropGate.v
theories/CombLemmas.v
theories/PropComb.v
theories/SettingSpec.v
theories/SettingLemmas.v
theories/PropSetting.v
theories/MapSpec.v
theories/MapLemmas.v
theories/PropMap.v
theories/FracEchoSpec.v
theories/FracEchoLemmas.v
theories/PropFracEcho.v
theories/LinPairSpec.v
theories/LinPairFacts.v
theories/LinPairLemmas.v
theories/PropLinPair.v
theories/CompSpec.v
theories/CompFacts.v
theories/CompLemmas.v
theories/PropComp.v
theories/PhaseSpec.v
theories/PhaseLemmas.v
theories/PropPhase.v
theories/OverSpec.v
theories/OverLemmas.v
theories/PropOver.v
theories/OverFltLemmas.v
theories/PropOverFlt.v
theories/ButterSpec.v
theories/ButterLemmas.v
theories/PropButter.v
theories/ButterXLemmas.v
theories/PropButterX.v
theories/GraphSpec.v
theories/GraphLemmas.v
theories/PropGraph.v
theories/FltChainSpec.v
theories/FltChainLemmas.v
theories/PropFltChain.v
theories/FltCrossSpec.v
theories/FltCrossLemmas.v
theories/PropFltCross.v
theories/FltButterSpec.v
theories/FltButterLemmas.v
theories/PropFltButter.v
theories/FltToneLemmas.v
theories/PropFltTone.v
theories/FltPairSpec.v
theories/FltPairLemmas.v
theories/PropFltPair.v
theories/FltBankSpec.v
theories/FltBankLemmas.v
theories/PropFltBank.v
theories/FltPlatLemmas.v
theories/PropFltPlat.v
