-Q theories Verif

theories/FArith.v
theories/Prelude.v
theories/Tab.v
theories/Composition.v
theories/DetailTables.v
theories/GergTables.v
theories/DetailModel.v
theories/GergModel.v
theories/ArithPrim.v
theories/PrimTests.v
theories/DetailPure.v
theories/DetailRefine.v
theories/DetailEval.v
theories/GergPure.v
theories/GergRefine.v
theories/GergEval.v
theories/Api.v
theories/ApiSafe.v
theories/SpecGeneric.v
theories/DensityProofs.v
theories/BasicProofs.v
theories/GenericLemmas.v
theories/Consistency.v
theories/SpecHistory.v
theories/HistoryDetail.v
theories/HistoryGerg.v
theories/Ffi.v
theories/SpecFfi.v
theories/FfiProofs.v
theories/ArithR.v
theories/RSum.v
theories/SpecReal.v
theories/CompReal.v
theories/Thermo.v
theories/DetailReal.v
theories/DetailThermo.v
theories/GergReal.v
theories/GergIdeal.v
theories/GergThermo.v
theories/ArithB64.v
theories/B64Lemmas.v
theories/SpecB64.v
theories/B64Comp.v
theories/B64Check.v
theories/B64Density.v
theories/SpecDetail.v
theories/DetailEos.v
theories/DetailLimit.v
theories/Absent.v
theories/MassReal.v
theories/SpecGerg.v
theories/GergEos.v
theories/GergLimit.v
theories/SpecTables.v
theories/TablesReal.v
theories/Newton.v
theories/NewtonReal.v
theories/Drift.v
theories/DriftReal.v
theories/DriftGerg.v
theories/Stale.v
theories/StaleMix.v
theories/StaleGerg.v
theories/PropsDrift.v
theories/StaleGBound.v
theories/StaleDBound.v
theories/PropsStale.v
theories/Steps.v
theories/NanGerg.v
theories/NanDetail.v
theories/NanMain.v
theories/Recover.v
theories/PropsNan.v
theories/PropsDensity.v
theories/PropsGeneric.v
theories/PropsHistory.v
theories/PropsReal.v
theories/PropsEos.v
theories/PropsFfi.v
theories/PropsFloat.v
theories/SpecIdeal.v
theories/SpecMass.v
theories/IdealGas.v
theories/IdealRef.v
theories/IdealMore.v
theories/MassFormula.v
theories/Crit.v
theories/CritNum.v
theories/CritMain.v
theories/PropsIdeal.v
theories/StdDetail.v
theories/StdGerg.v
theories/SpecStd.v
theories/StdDetailProof.v
theories/StdGergProof.v
theories/PropsStd.v
theories/SpecAcc.v
theories/B64Err.v
theories/AccFold.v
theories/AccMix.v
theories/AccMix2.v
theories/AccMix3.v
theories/AccMix4.v
theories/AccEos.v
theories/AccProof.v
theories/AccLibm.v
theories/GAccRed.v
theories/GAccTerms.v
theories/GAccEos.v
theories/SpecAccG.v
theories/GAccSize.v
theories/GAccProof.v
theories/PropsAcc.v
theories/SpecConv.v
theories/Converge.v
theories/ConvReal.v
theories/ConvDetail.v
theories/ConvLow.v
theories/ConvCase.v
theories/ConvGerg.v
theories/ConvLowG.v
theories/ConvCaseG.v
theories/PropsConv.v
theories/DriftDouble.v
theories/DriftCase.v
theories/DriftWit.v
theories/GDriftDouble.v
theories/GDriftWit.v
theories/PropsDriftDouble.v
theories/FalseConv.v
theories/FalseConvCase.v
theories/FalseConvCaseG.v
theories/FalseConvWit.v
theories/FalseConvWitG.v
theories/FalseConvPart.v
theories/PropsFalseConv.v
theories/SpecSlope.v
theories/AccSlope.v
theories/AccSlopeProof.v
theories/SlopeReal.v
theories/AccDens.v
theories/AccDensProof.v
theories/ConvergeEps.v
theories/ConvDouble.v
theories/ConvFin.v
theories/ConvFinLow.v
theories/AccProps.v
theories/SlopeCase.v
theories/PropsDouble.v
theories/SpecAll.v
theories/SpecAllF.v
theories/SpecRel.v
theories/GAllCoef.v
theories/GAllTerms.v
theories/GAllSize.v
theories/GAllIdeal.v
theories/GAllIdeal2.v
theories/GAllProps.v
theories/GAllFin.v
theories/GAllMain.v
theories/RelDouble.v
theories/GAllCase.v
theories/PropsDoubleG.v
theories/SpecAllD.v
theories/AccAll1.v
theories/AccAll2.v
theories/AccAllI.v
theories/AccAllF.v
theories/AccAllM.v
theories/AccAllCase.v
theories/PropsDoubleD.v
theories/SpecSlopeG.v
theories/GSlope.v
theories/GDens.v
theories/GDensProof.v
theories/GConvDouble.v
theories/GConvFin.v
theories/GConvLow.v
theories/GConvCase.v
theories/PropsDoubleGD.v
theories/SpecGas.v
theories/FixUp.v
theories/GasDetail.v
theories/GasVirial.v
theories/GasThird.v
theories/GasRed.v
theories/GasRed2.v
theories/GasGerg.v
theories/GasCase.v
theories/GasSum.v
theories/GasIdeal.v
theories/SpecGasState.v
theories/GasDerived.v
theories/GasProps.v
theories/PropsGas.v
theories/PropsGas2.v
theories/GasSumG.v
theories/GasPropsG.v
theories/PropsGas3.v
theories/SpecSession.v
theories/Session.v
theories/Session2.v
theories/PropsSession.v
theories/SpecLogger.v
theories/ReuseDetail.v
theories/ReuseGerg.v
theories/Logger.v
theories/PropsLogger.v
theories/SpecSens.v
theories/SensCore.v
theories/SensDetail.v
theories/SensGerg.v
theories/Sens.v
theories/PropsSens.v
theories/Platform.v
theories/PropsPlatform.v
theories/Scale.v
theories/PropsScale.v
theories/SpecNear.v
theories/NearIdeal.v
theories/PropsNear.v
theories/FalseDblCase.v
theories/FalseDbl.v
theories/FalseDblCaseG.v
theories/FalseDblG.v
theories/PropsFalseDbl.v
theories/StaleDouble.v
theories/PropsStaleDouble.v
theories/Tight.v
theories/SpecMed.v
theories/TightDouble.v
theories/TightFin.v
theories/TightLow.v
theories/GasVir2.v
theories/GasTight.v
theories/MedCase.v
theories/PropsMed.v
theories/GasRed3.v
theories/LinGerg.v
theories/GasGerg2.v
theories/GasGergS.v
theories/GTightDouble.v
theories/GTightFin.v
theories/GTightLow.v
theories/MedCaseG.v
theories/PropsMedG.v
theories/SpecMedState.v
theories/MedSum.v
theories/MedDerived.v
theories/MedProps.v
theories/PropsMedState.v
theories/SpecMedStateG.v
theories/MedSumG.v
theories/MedDerivedG.v
theories/MedPropsG.v
theories/PropsMedStateG.v
theories/SpecMedLogger.v
theories/MedSession.v
theories/PropsMedSession.v
theories/GasVirT.v
theories/MedSlope.v
theories/SpecMedSens.v
theories/MedSens.v
theories/PropsMedSens.v
theories/GasGergT.v
theories/MedSlopeG.v
theories/SpecMedSensG.v
theories/MedSensG.v
theories/PropsMedSensG.v
theories/SpecRound.v
theories/RoundMed.v
theories/RoundSame.v
theories/PropsRound.v
theories/SpecRise.v
theories/RisePress.v
theories/PropsRise.v
theories/SpecRoundC.v
theories/RoundC.v
theories/PropsRoundC.v
theories/SpecProp.v
theories/PropPress.v
theories/PropsProp.v
theories/Amounts.v
theories/PropsAmounts.v
