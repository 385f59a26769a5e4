-Q theories Verif
theories/Base.v
theories/Num.v
theories/NumFloat.v
theories/VecModel.v
theories/VecFacts.v
theories/BaseFacts.v
theories/ParticleModel.v
theories/ParticleSpec.v
theories/ParticleProofs.v
theories/VaySpec.v
theories/VayProofs.v
theories/VayTracking.v
theories/VayTracking2.v
theories/NumChecked.v
theories/ParticleSpec2.v
theories/NumCheckedProofs.v
theories/ParticleProofs2.v
theories/ParticleProofs3.v
theories/PropTracking.v
theories/PropSerial.v
theories/TraceModel.v
theories/RetardModel.v
theories/RetardSpec.v
theories/RetardProofs.v
theories/RetardProofs2.v
theories/RetardProofs3.v
theories/PropRetard.v
theories/TraceIntSpec.v
theories/TraceIntProofs.v
theories/TraceIntProofs2.v
theories/TraceSpec.v
theories/TraceProofs.v
theories/TraceProofs2.v
theories/PropTrace.v
theories/BunchModel.v
theories/DistSpec.v
theories/DistProofs.v
theories/DistProofs2.v
theories/PropDist.v
theories/BunchModelR.v
theories/BunchSpec.v
theories/BunchProofs.v
theories/BunchProofs2.v
theories/PropBunch.v
theories/BeamSpec.v
theories/BeamProofs.v
theories/ProbeProofs.v
theories/PropBeam.v
theories/DriverModel.v
theories/DriverSpec.v
theories/DriverProofs.v
theories/DriverProofs2.v
theories/DriverProofs3.v
theories/PropDriver.v
theories/ObserverModel.v
theories/ObserverSpec.v
theories/ObserverProofs.v
theories/ObserverProofs2.v
theories/ObserverProofs3.v
theories/ObserverProofs4.v
theories/ObserverProofs5.v
theories/ObserverSpec2.v
theories/ObserverProofs6.v
theories/ObserverProofs7.v
theories/ObserverProofs8.v
theories/PropObserver.v
theories/ElementModel.v
theories/ElementSpec.v
theories/ElementProofs.v
theories/ElementProofs2.v
theories/ElementProofs3.v
theories/ElementProofs4.v
theories/PropElement.v
theories/PropagateModel.v
theories/PropagateSpec.v
theories/PropagateProofs.v
theories/PropagateProofs2.v
theories/PropagateProofs3.v
theories/PropagateProofs4.v
theories/PropagateProofs5.v
theories/PropPropagate.v
theories/LoggerModel.v
theories/LoggerSpec.v
theories/LoggerProofs.v
theories/LoggerProofs2.v
theories/LoggerProofs3.v
theories/LoggerProofs4.v
theories/PropLogger.v
theories/FelModel.v
theories/FelSpec.v
theories/FelProofs.v
theories/FelProofs2.v
theories/FelProofs3.v
theories/FelProofs4.v
theories/FelProofs5.v
theories/PropFel.v
theories/ParserModel.v
theories/ParserSpec.v
theories/ParserProofs.v
theories/ParserProofs2.v
theories/PropParser.v
theories/SddsModel.v
theories/SddsSpec.v
theories/SddsProofs.v
theories/SddsProofs2.v
theories/PropSdds.v
theories/OutputModel.v
theories/OutputSpec.v
theories/OutputProofs.v
theories/OutputProofs2.v
theories/OutputProofs3.v
theories/OutputProofs4.v
theories/PropOutput.v
theories/ParserSpec2.v
theories/ParserProofs3.v
theories/ParserProofs4.v
theories/ParserProofs5.v
theories/ParserProofs6.v
theories/PropParser2.v
theories/ProgramModel.v
theories/ProgramSpec.v
theories/ProgramProofs.v
theories/ProgramProofs2.v
theories/ProgramProofs3.v
theories/ProgramProofs4.v
theories/PropProgram.v
theories/PropWave.v
theories/PropSample.v
theories/PropEnergy.v
theories/PropFel2.v
theories/PropMesh.v
theories/FloatFacts.v
theories/FelProofs6.v
theories/FelProofs7.v
theories/PropFloat.v
theories/FloatFacts2.v
theories/FloatTrack.v
theories/FloatSum.v
theories/PropFloat2.v
theories/FloatErr.v
theories/FloatStep.v
theories/FloatStep2.v
theories/PropFloat3.v
theories/ToolsModel.v
theories/ToolsSpec.v
theories/ToolsProofs.v
theories/ToolsProofs2.v
theories/ToolsProofs3.v
theories/PropTools.v
theories/ReplaySpec.v
theories/ReplayProofs.v
theories/PropReplay.v
theories/FloatStat.v
theories/FloatStat2.v
theories/PropFloat4.v
theories/MemModel.v
theories/MemModel2.v
theories/MemSpec.v
theories/MemProofs.v
theories/MemProofs2.v
theories/MemProofs3.v
theories/MemProofs4.v
theories/PropMem.v
theories/CommModel.v
theories/CommProofs.v
theories/CommProofs2.v
theories/CommProofs3.v
theories/CommProofs4.v
theories/CommProofs5.v
theories/HybridModel.v
theories/HybridProofs.v
theories/HybridProofs2.v
theories/HybridProofs3.v
theories/HybridProofs4.v
theories/HybridProofs5.v
theories/HybridProofs6.v
theories/PropComm.v
theories/ReportModel.v
theories/PropReport.v
theories/OrbitSpec.v
theories/OrbitProofs.v
theories/PropOrbit.v
theories/ConvergeProofs.v
theories/ConvergeProofs2.v
theories/ConvergeProofs3.v
theories/ConvergeProofs4.v
theories/PropConverge.v
theories/TransFloat.v
theories/TestModel.v
theories/TestProofs.v
theories/PropTest.v
theories/MemProofs5.v
theories/ParticleProofs5.v
theories/ProbeProofs2.v
theories/TestModel2.v
theories/TestProofs2.v
theories/DistProofs3.v
theories/CalcModel.v
theories/ShippedModel.v
theories/ShippedSpec.v
theories/ShippedProofs.v
theories/ShippedProofs2.v
theories/PropShipped.v
theories/LightConeProofs.v
theories/LightConeProofs2.v
theories/PropLightCone.v
theories/RecordSpec.v
theories/RecordProofs.v
theories/PropRecord.v
theories/CalcSpec.v
theories/CalcProofs.v
theories/CalcProofs2.v
theories/CalcProofs3.v
theories/PropCalc.v
theories/ResultSpec.v
theories/ResultProofs.v
theories/PropResult.v
theories/PropPrint.v
theories/ResultSpec2.v
theories/ResultProofs2.v
theories/PropResult2.v
theories/ResultProofs3.v
theories/PropResult3.v
theories/PropTrace2.v
theories/TestProofs3.v
theories/PropTest2.v
theories/PropOutput2.v
theories/MemProofs6.v
theories/PropMem2.v
theories/TestModel3.v
theories/TestProofs4.v
theories/TestProofs5.v
theories/PropTest3.v
theories/TestProofs6.v
theories/PropTest4.v
theories/LightConeProofs3.v
theories/PropLightCone2.v
theories/DriverProofs4.v
theories/PropDriverSizes.v
theories/LightConeProofs4.v
theories/TestProofs7.v
theories/ParserSpec3.v
theories/ParserProofs7.v
theories/PropParser3.v
theories/PropResult4.v
theories/TestProofs8.v
theories/PropTest5.v
theories/TraceIntSpec2.v
theories/TraceIntProofs3.v
theories/PropTrace3.v
theories/RecordSpec2.v
theories/RecordProofs2.v
theories/RecordProofs3.v
theories/PropRecord2.v
theories/ResultSpec3.v
theories/ResultProofs4.v
theories/PropResult5.v
theories/PropOutput3.v
theories/PropProgram2.v
theories/RecordProofs4.v
theories/TraceIntSpec3.v
theories/TraceIntProofs4.v
theories/PropTrace4.v
theories/PropRecord3.v
theories/PropTrace5.v
