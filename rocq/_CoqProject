-Q theories Verif
theories/Num.v
theories/NumFacts.v
theories/NumQ.v
theories/Py.v
theories/PyFacts.v
theories/ModelPulse.v
theories/ModelControls.v
theories/ModelBases.v
theories/ModelLinalg.v
theories/ModelState.v
theories/ModelSearch.v
theories/ModelRun.v
theories/SpecControls.v
theories/ProofControls.v
theories/ProofLimits.v
theories/ProofShrink.v
theories/ProofTimes.v
theories/ProofIndex.v
theories/ProofPipeline.v
theories/ProofEss.v
theories/ProofBase.v
theories/ProofSI.v
theories/ProofBases.v
theories/ProofCtl.v
theories/ProofTotal.v
theories/ProofExtra.v
theories/ExampleControls.v
theories/PropControls.v
theories/SpecRun.v
theories/SpecGradient.v
theories/SpecSearch.v
theories/SpecStop.v
theories/SpecFit.v
theories/ProofSim.v
theories/ProofSimRun.v
theories/ProofRoutine.v
theories/ProofRespond.v
theories/ProofCore.v
theories/ProofPlain.v
theories/ProofAnswers.v
theories/ProofCancel.v
theories/ProofHistory.v
theories/ProofBest.v
theories/ProofDual.v
theories/ProofMean.v
theories/ProofSuper.v
theories/ProofFinal.v
theories/ProofDirect.v
theories/ProofReeval.v
theories/ProofNM.v
theories/ProofSearch.v
theories/ProofNMBound.v
theories/ProofNMValues.v
theories/ProofSearchCount.v
theories/ProofSearchMore.v
theories/ProofSearchRun.v
theories/ProofGradient.v
theories/ExampleRun.v
theories/ProofSort.v
theories/ProofStop.v
theories/ProofFit.v
theories/ProofWalk.v
theories/ProofStopRun.v
theories/ExampleSearch.v
theories/PropSearch.v
theories/PropStop.v
theories/PropRun.v
theories/PropDual.v
theories/PropSuper.v
theories/PropDirect.v
theories/PropReeval.v
theories/PropGradient.v
theories/ModelCma.v
theories/SpecCma.v
theories/ProofCma.v
theories/ProofCmaAdapt.v
theories/ProofCmaLaw.v
theories/PropCma.v
theories/SpecSimplex.v
theories/ProofSimplex.v
theories/PropSimplex.v
theories/ModelQuantum.v
theories/SpecQuantum.v
theories/ProofQuantum.v
theories/ProofGrape.v
theories/ProofProblems.v
theories/ProofIsing.v
theories/ProofWitness.v
theories/PropQuantum.v
theories/ModelTrace.v
theories/SpecTrace.v
theories/ProofTrace.v
theories/PropTrace.v
theories/ModelIsing.v
theories/SpecIsing.v
theories/ProofIsingH.v
theories/ProofIsingP.v
theories/PropIsing.v
theories/ModelDump.v
theories/SpecDump.v
theories/ProofDump.v
theories/PropDump.v
theories/ModelFolder.v
theories/SpecFolder.v
theories/ProofFolder.v
theories/PropFolder.v
theories/ModelFiles.v
theories/SpecFiles.v
theories/ProofFiles.v
theories/PropFiles.v
theories/ModelImport.v
theories/SpecImport.v
theories/ProofImport.v
theories/PropImport.v
theories/ProofEnds.v
theories/PropEnds.v
theories/PropCmaLaw.v
theories/PropCrash.v
theories/ModelLogger.v
theories/SpecLogger.v
theories/PropLogger.v
theories/ModelJson.v
theories/SpecJson.v
theories/PropJson.v
theories/ModelSession.v
theories/ProofSession.v
theories/ProofSessionDcrab.v
theories/PropSession.v
theories/ProofSpectral.v
theories/ModelFidelity.v
theories/SpecFidelity.v
theories/ProofFidelity.v
theories/PropFidelity.v
theories/ModelNoise.v
theories/SpecNoise.v
theories/PropNoise.v
theories/ModelResample.v
theories/PropResample.v
theories/ModelRosen.v
theories/PropRosen.v
theories/ModelTwoFields.v
theories/PropTwoFields.v
theories/ModelTxt.v
theories/SpecTxt.v
theories/PropTxt.v
theories/ModelCmaRun.v
theories/SpecCmaRun.v
theories/ProofCmaRun.v
theories/ProofCmaScale.v
theories/ProofCmaTotal.v
theories/PropCmaRun.v
theories/ModelLindblad.v
theories/SpecLindblad.v
theories/ProofLindblad.v
theories/PropLindblad.v
theories/ModelSampling.v
theories/PropSampling.v
theories/SpecCurves.v
theories/ProofErf.v
theories/ProofCurves.v
theories/SpecDraw.v
theories/ProofDraw.v
theories/PropCurves.v
theories/ModelConfig.v
theories/SpecConfig.v
theories/ProofConfig.v
theories/ProofConfigControls.v
theories/ProofConfigAll.v
theories/ProofConfigAgain.v
theories/ProofConfigFile.v
theories/PropConfig.v
theories/ExampleDictionaries.v
theories/ProofWhole.v
theories/SpecWhole.v
theories/PropWhole.v
theories/ModelJax.v
theories/SpecJax.v
theories/ProofJax.v
theories/PropJax.v
theories/PropJaxIsing.v
theories/SpecGrid64.v
theories/ProofGrid64.v
theories/PropGrid64.v
theories/ProofDuration64.v
theories/PropDuration64.v
theories/ProofShrink64.v
theories/PropShrink64.v
theories/ModelGrape.v
theories/SpecGrapeVector.v
theories/ProofGrapeVector.v
theories/PropGrapeVector.v
theories/RealStruct.v
theories/ProofMatrixCalculus.v
theories/ProofFrobenius.v
theories/ProofAntiderivative.v
theories/ProofSliceChange.v
theories/SpecGrapeExact.v
theories/ProofGrapeExact.v
theories/ProofExponential.v
theories/ProofHalfTurn.v
theories/PropGrapeExact.v
theories/SpecSchroedinger.v
theories/ProofSchroedinger.v
theories/ProofTurns.v
theories/PropSchroedinger.v
theories/SpecOrder.v
theories/ProofOrder.v
theories/PropOrder.v
theories/ProofGrapeIsing.v
theories/PropGrapeIsing.v
theories/SpecCoords.v
theories/ProofCoords.v
theories/PropCoords.v
theories/SpecFlat.v
theories/ProofFlat.v
theories/PropFlat.v
theories/ProofFlatRun.v
theories/PropFlatRun.v
theories/ModelCma64.v
theories/SpecCma64.v
theories/ProofCma64.v
theories/PropCma64.v
theories/ModelCma64Run.v
theories/PropCma64Run.v
