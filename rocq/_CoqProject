-Q theories Verif
theories/Base.v
theories/Fixed.v
theories/Spec.v
theories/BaseLemmas.v
theories/FixedLemmas.v
theories/SpecLemmas.v
theories/ConvProofs.v
theories/ArithProofs.v
theories/ArithProofs2.v
theories/InspectProofs.v
theories/RefuteArith.v
theories/InspectProofs2.v
theories/PropsConv.v
theories/PropsArith.v
theories/CLemmas.v
theories/SpecText.v
theories/TextOut.v
theories/NumLemmas.v
theories/OutProofs.v
theories/TextIn.v
theories/InLemmas.v
theories/InProofs.v
theories/RoundTrip.v
theories/StreamProofs.v
theories/RefuteText.v
theories/PropsText.v
theories/Math.v
theories/MathProofs.v
theories/SqrtProofs.v
theories/SqrtNeg.v
theories/NewtonProofs.v
theories/PowProofs.v
theories/MathThms.v
theories/RefuteMath.v
theories/PropsMath.v
theories/SpecReal.v
theories/RealLemmas.v
theories/StdProofs.v
theories/LogProofs.v
theories/LogThms.v
theories/SinPoly.v
theories/SinProofs.v
theories/SinThms.v
theories/AtanProofs.v
theories/AsinProofs.v
theories/RealThms.v
theories/RefuteReal.v
theories/PropsReal.v
theories/Numbers.v
theories/ExpProofs.v
theories/ExpDef.v
theories/ExpThms.v
theories/NumThms.v
theories/PropsReal2.v
theories/Format.v
theories/SpecFormat.v
theories/FormatProofs.v
theories/ParseProofs.v
theories/FormatThms.v
theories/PropsFormat.v
theories/Random.v
theories/RandomProofs.v
theories/PropsRandom.v
theories/Ext.v
theories/SpecExt.v
theories/ExtProofs.v
theories/ExtThms.v
theories/PropsExt.v
theories/Cordic.v
theories/CordicProofs.v
theories/CordicReal.v
theories/CordicThms.v
theories/PropsCordic.v
theories/Util.v
theories/UtilProofs.v
theories/PerfProofs.v
theories/LutProofs.v
theories/UtilThms.v
theories/LutMore.v
theories/LutThms.v
theories/PropsUtil.v
theories/CbrtProofs.v
theories/CbrtThms.v
theories/PropsCbrt.v
theories/AsinAcc.v
theories/Asin64.v
theories/PropsMore.v
theories/RepoTests.v
theories/PowAcc.v
theories/SpecClient.v
theories/Client.v
theories/ClientProofs.v
theories/PropsClient.v
theories/DerivedReal.v
theories/LogMono.v
theories/LogThms2.v
theories/PropsDerived.v
theories/DocTests.v
theories/LawProofs.v
theories/RootLaws.v
theories/AngleRound.v
theories/FormatStream.v
theories/PropsLaws.v
theories/RoundDiv.v
theories/Mem.v
theories/SpecMem.v
theories/MemProofs.v
theories/PropsMem.v
theories/FmodAny.v
theories/Literal.v
theories/SpecLiteral.v
theories/LiteralProofs.v
theories/PropsLiteral.v
theories/SpecFp.v
theories/Float.v
theories/FloatProofs.v
theories/FloatThms.v
theories/FloatTies.v
theories/PropsFloat.v
theories/SpecConst.v
theories/EulerGamma.v
theories/RestProofs.v
theories/PropsRest.v
theories/Wide.v
theories/WideProofs.v
theories/PropsWide.v
theories/SpecBench.v
theories/Bench.v
theories/BenchProofs.v
theories/PropsBench.v
theories/SpecCpu.v
theories/Cpu.v
theories/CpuProofs.v
theories/PropsCpu.v
theories/SpecPrint.v
theories/Print.v
theories/PrintProofs.v
theories/LdProofs.v
theories/PropsPrint.v
theories/SpecAccuracy.v
theories/Accuracy.v
theories/AccuracyProofs.v
theories/PropsAccuracy.v
theories/FillProofs.v
theories/PropsFill.v
theories/SymProofs.v
theories/PropsSym.v
theories/ExpMono.v
theories/PowReal.v
theories/PropsPow.v
theories/SpecExact.v
theories/ExactProofs.v
theories/PropsExact.v
theories/BenchLoop.v
theories/BenchLoopProofs.v
theories/PropsBenchLoop.v
theories/BPerf.v
theories/SpecBPerf.v
theories/BPerfProofs.v
theories/PropsBPerf.v
theories/Asin64Full.v
theories/PropsAsin.v
theories/OrderProofs.v
theories/OrderAsin.v
theories/PropsOrder.v
theories/PowOrder.v
theories/RootOrder.v
theories/Hypot64.v
theories/PropsOrder2.v
theories/RoundLaws.v
theories/LogLaws.v
theories/InvTrig.v
theories/AddThms.v
theories/AgreeProofs.v
theories/PropsLaws2.v
theories/ParseOrder.v
theories/AngleOrder.v
theories/LogGen.v
theories/LogGen2.v
theories/PropsGen.v
theories/SinGen.v
theories/SinGen2.v
theories/PropsGen2.v
theories/AtanGen.v
theories/PropsGen3.v
theories/ExpGen.v
theories/PropsGen4.v
theories/AngleGen.v
theories/PropsGen5.v
theories/SqrtGen.v
theories/AsinGen.v
theories/PropsGen6.v
theories/AngleGen2.v
theories/PropsGen7.v
theories/SinSym.v
theories/PropsGen8.v
theories/LogGen3.v
theories/LogGen4.v
theories/PropsGen9.v
theories/ExpGen2.v
theories/PropsGen10.v
theories/SinSum.v
theories/PropsGen11.v
theories/InvGen.v
theories/PropsGen12.v
theories/TanGen.v
theories/PropsGen13.v
theories/ExpLogGen.v
theories/PropsGen14.v
theories/SqrtSq.v
theories/PropsGen15.v
theories/PeriodGen.v
theories/PropsGen16.v
