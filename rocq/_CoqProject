-Q theories Verif
theories/Spec.v
theories/MBase.v
theories/Lists.v
theories/FM.v
theories/MRle.v
theories/Runs.v
theories/RleProof.v
theories/RleSpec.v
theories/PropertiesRle.v
theories/Phi.v
theories/MConstruct.v
theories/MPhi.v
theories/MRIndex.v
theories/Util.v
theories/ConstructProof.v
theories/Nav.v
theories/PhiProof.v
theories/BaseProof.v
theories/RIndexProof.v
theories/Glue.v
theories/PropertiesRIndex.v
theories/MSrIndex.v
theories/SamplingProof.v
theories/SamplingSpec.v
theories/BackRange.v
theories/SubsProof.v
theories/ValidProof.v
theories/SrValid.v
theories/SrRuns.v
theories/SrProof.v
theories/SrGlue.v
theories/PropertiesSrIndex.v
theories/MPsi.v
theories/EncProof.v
theories/PsiSym.v
theories/PsiOps.v
theories/PsiProof.v
theories/PsiCore.v
theories/PsiSpec.v
theories/PsiText.v
theories/PropertiesPsi.v
theories/MCsa.v
theories/CsaNav.v
theories/CsaPhi.v
theories/PsiOrder.v
theories/CsaProof.v
theories/CsaGlue.v
theories/PropertiesCsa.v
theories/MSrCsa.v
theories/FwdRange.v
theories/FwdSubs.v
theories/FwdValid.v
theories/FwdRuns.v
theories/FwdQuery.v
theories/FwdBuild.v
theories/SrCsaGlue.v
theories/PropertiesSrCsa.v
theories/FwdTotal.v
theories/PropertiesEmpty.v
theories/PropertiesAll.v
theories/MOldRle.v
theories/OldRle.v
theories/OldRleSpec.v
theories/PropertiesOldRle.v
theories/MStore.v
theories/SpecStore.v
theories/StoreProof.v
theories/StoreClass.v
theories/StoreTrip.v
theories/StoreRound.v
theories/StoreBuilt.v
theories/StoreEnd.v
theories/PropertiesStore.v
theories/MBwt.v
theories/SpecBwt.v
theories/BwtProof.v
theories/PropertiesBwt.v
theories/MCache.v
theories/SpecCache.v
theories/CacheIdeal.v
theories/CacheBuilt.v
theories/CacheStep.v
theories/CacheEnd.v
theories/PropertiesCache.v
theories/CacheTwo.v
theories/CacheRaw.v
theories/CacheIdx.v
theories/PropertiesTwo.v
theories/CacheStuck.v
theories/PropertiesStuck.v
theories/SpecSweep.v
theories/SweepProof.v
theories/PropertiesSweep.v
theories/SpecCircular.v
theories/CircularProof.v
theories/CircularGlue.v
theories/PropertiesCircular.v
theories/MClosed.v
theories/ClosedProof.v
theories/ClosedGlue.v
theories/PropertiesClosed.v
theories/MWidth.v
theories/SpecWidth.v
theories/WidthProof.v
theories/PropertiesWidth.v
theories/PropertiesReload.v
theories/MLife.v
theories/SpecLife.v
theories/LifeProof.v
theories/LifeEnd.v
theories/PropertiesLife.v
theories/MFactory.v
theories/SpecFactory.v
theories/FactoryProof.v
theories/PropertiesFactory.v
theories/MParts.v
theories/SpecParts.v
theories/PartsProof.v
theories/PropertiesParts.v
theories/MBench.v
theories/SpecBench.v
theories/Base64Proof.v
theories/BenchProof.v
theories/PropertiesBench.v
theories/MBuild.v
theories/SpecBuild.v
theories/BuildSizes.v
theories/BuildProof.v
theories/PropertiesBuild.v
theories/MStream.v
theories/SpecStream.v
theories/StreamProof.v
theories/PropertiesStream.v
theories/MItems.v
theories/SpecItems.v
theories/ItemsProof.v
theories/ItemsEnd.v
theories/ItemsMarks.v
theories/PropertiesItems.v
theories/MCounter.v
theories/CounterProof.v
theories/PropertiesCounter.v
theories/MSched.v
theories/SpecSched.v
theories/SchedProof.v
theories/PropertiesSched.v
theories/MTool.v
theories/PropertiesTool.v
theories/MLinks.v
theories/PropertiesLinks.v
theories/MTrace.v
theories/SpecTrace.v
theories/TraceProof.v
theories/TraceGlue.v
theories/PropertiesTrace.v
theories/MWord.v
theories/WordProof.v
theories/WordGlue.v
theories/PropertiesWord.v
theories/MFail.v
theories/SpecFail.v
theories/FailProof.v
theories/PropertiesFail.v
theories/MNames.v
theories/SpecNames.v
theories/NamesProof.v
theories/PropertiesNames.v
theories/MShell.v
theories/SpecShell.v
theories/ShellProof.v
theories/PropertiesShell.v
theories/PropertiesEnc.v
