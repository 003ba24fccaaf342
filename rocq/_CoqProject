-Q theories Verif
theories/Num.v
theories/Mem.v
theories/SpecHeap.v
theories/ErrorModel.v
theories/ErrorProofs.v
theories/ProfileModel.v
theories/ProfileProofs.v
theories/Geometry.v
theories/SpecGeom.v
theories/HexProofs.v
theories/RingProofs.v
theories/PackProofs.v
theories/ProfileReal.v
theories/ProfileFloat.v
theories/PropError.v
theories/PropProfile.v
theories/PropGeom.v
theories/ConsModel.v
theories/HeapLib.v
theories/DescProofs.v
theories/DescProofs2.v
theories/DescOom.v
theories/SrcProofs.v
theories/SpecPhoton.v
theories/PhotProofs.v
theories/ConsReal.v
theories/PropCons.v
theories/LineModel.v
theories/LineProofs.v
theories/SourceModel.v
theories/SourceReal.v
theories/SrcPhoton.v
theories/FromFile.v
theories/FromFileProofs.v
theories/PropSource.v
theories/RM.v
theories/CapilModel.v
theories/TraceModel.v
theories/LaunchModel.v
theories/SpecRay.v
theories/CapilReal.v
theories/NormalReal.v
theories/FresnelReal.v
theories/WallNormal.v
theories/PropRay.v
theories/RMLogic.v
theories/WeightProofs.v
theories/TraceProofs.v
theories/Libm.v
theories/SafeProofs.v
theories/SpecPath.v
theories/PathProofs.v
theories/PropLaunch.v
theories/RunModel.v
theories/TeamProofs.v
theories/RunProofs.v
theories/EffectProofs.v
theories/FinalProofs.v
theories/SpecRun.v
theories/SimProofs.v
theories/ReachProofs.v
theories/PropRun.v
theories/TotalProofs.v
theories/SpecRace.v
theories/ExampleRun.v
theories/PropSched.v
theories/PropEff.v
theories/ProgressModel.v
theories/PropLimits.v
theories/SpecResult.v
theories/ResultModel.v
theories/ResultProofs.v
theories/ResultExit.v
theories/ResultLeak.v
theories/ResultLeakGet.v
theories/ResultMore.v
theories/PropResult.v
theories/H5Lib.v
theories/H5Model.v
theories/SpecH5.v
theories/H5Proofs.v
theories/H5Write.v
theories/H5Table.v
theories/H5Main.v
theories/H5File.v
theories/H5All.v
theories/PropH5.v
theories/PyModel.v
theories/PropPython.v
theories/SpecLeak.v
theories/LeakProofs.v
theories/LeakProofs2.v
theories/LeakProofs3.v
theories/LeakProofs4.v
theories/PropLeak.v
theories/LenProofs.v
theories/SimModel.v
theories/SimHeap.v
theories/SimStep.v
theories/SimRun.v
theories/SpecSim.v
theories/SimPrep.v
theories/SimPrep2.v
theories/SimEnd.v
theories/SimObj.v
theories/SimCount.v
theories/SimFinal.v
theories/PropSim.v
theories/SepLib.v
theories/FlightMem.v
theories/FlightRep.v
theories/FlightPure.v
theories/FlightHeap.v
theories/FlightHeap2.v
theories/FlightSim.v
theories/FlightLaunch.v
theories/FlightLaunch2.v
theories/SpecFlight.v
theories/FlightProp.v
theories/PropFlight.v
theories/SpecPy.v
theories/PyResult.v
theories/PyResProofs.v
theories/PyResInv.v
theories/PyResServe.v
theories/PyResEnd.v
theories/PropPyResult.v
theories/SpecPyPhoton.v
theories/PyPhoton.v
theories/PyPhProofs.v
theories/PyPhServe.v
theories/PyPhNext.v
theories/PyPhEnd.v
theories/PropPyPhoton.v
theories/SpecPyObj.v
theories/PyObjects.v
theories/PyObjHeap.v
theories/PyObjKeep.v
theories/PyObjCons.v
theories/PyObjProofs.v
theories/PyObjRun.v
theories/PySrcPhoton.v
theories/PySrcPhProofs.v
theories/PropPyObj.v
theories/PySim.v
theories/PropPySim.v
theories/SpecFiles.v
theories/ProfFile.v
theories/ProfFileProofs.v
theories/PropFiles.v
theories/SpecInput.v
theories/FileSrc.v
theories/FileSrcProofs.v
theories/FileSrcRead.v
theories/PropFileSrc.v
theories/MainModel.v
theories/MainProofs.v
theories/AxisProofs.v
theories/PropMain.v
theories/OomFile.v
theories/PropOom.v
theories/SpecNames.v
theories/FileNames.v
theories/PropNames.v
theories/RngModel.v
theories/SpecRng.v
theories/PropRng.v
theories/FuelProofs.v
theories/JunkProofs.v
theories/PropNumbers.v
theories/PropDraw.v
theories/PropPyH5.v
theories/StrModel.v
theories/SpecStr.v
theories/PropStr.v
theories/MainOom.v
theories/PropMainFail.v
