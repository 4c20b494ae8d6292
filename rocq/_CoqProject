-Q theories Verif
theories/Base.v
theories/ModelCluster.v
theories/ModelOps.v
theories/SpecUnits.v
theories/ProofsUnits.v
theories/PropUnits.v
theories/SpecFrame.v
theories/ProofsFrame.v
theories/SpecOrder.v
theories/ProofsOrder.v
theories/ProofsSort.v
theories/SpecBinUnits.v
theories/ProofsBinUnits.v
theories/ProofsFrame2.v
theories/PropFrame.v
theories/ModelConv.v
theories/SpecConv.v
theories/ProofsConv.v
theories/PropConv.v
theories/ModelEnergy.v
theories/SpecEnergy.v
theories/ProofsPot.v
theories/ProofsPar.v
theories/ProofsSees.v
theories/ProofsEnergy.v
theories/ProofsVirial.v
theories/ProofsEnergyUnits.v
theories/ProofsVR.v
theories/ProofsEnergy2.v
theories/PropEnergy.v
theories/ModelRecipes.v
theories/SpecRecipes.v
theories/ProofsRecipes.v
theories/ProofsRecipes2.v
theories/ProofsRecipes3.v
theories/ProofsRecipes4.v
theories/PropRecipes.v
theories/ModelStars.v
theories/SpecStars.v
theories/ProofsStars.v
theories/ProofsStars2.v
theories/ProofsStars3.v
theories/ProofsStars4.v
theories/ProofsStars5.v
theories/PropStars.v
theories/ModelSubset.v
theories/SpecSubset.v
theories/ProofsSubset.v
theories/ProofsSubset2.v
theories/ProofsSubset3.v
theories/ProofsSubset4.v
theories/PropSubset.v
theories/ModelCoords.v
theories/ProofsCoords.v
theories/PropCoords.v
theories/ModelCentre.v
theories/SpecCentre.v
theories/ProofsCentre.v
theories/ProofsCentre2.v
theories/ProofsCentre3.v
theories/ProofsCentre4.v
theories/ProofsCentre5.v
theories/PropCentre.v
theories/ModelLagrange.v
theories/SpecLagrange.v
theories/ProofsLagrange.v
theories/ProofsLagrange2.v
theories/PropLagrange.v
theories/ModelProfiles.v
theories/SpecProfiles.v
theories/ProofsProfiles.v
theories/ProofsProfiles2.v
theories/ProofsProfiles3.v
theories/ProofsProfiles4.v
theories/ProofsProfiles5.v
theories/ProofsProfiles6.v
theories/ProofsProfiles7.v
theories/PropProfiles.v

theories/ModelMassFunction.v
theories/SpecMassFunction.v
theories/ProofsMassFunction.v
theories/ProofsMassFunction2.v
theories/ProofsMassFunction3.v
theories/ProofsMassFunction4.v
theories/ProofsMassFunction5.v
theories/ProofsMassFunction6.v
theories/PropMassFunction.v
theories/ModelDynamics.v
theories/SpecDynamics.v
theories/ProofsDynamics.v
theories/ProofsDynamics2.v
theories/ProofsDynamics3.v
theories/ProofsDynamics4.v
theories/ProofsDynamics5.v
theories/ProofsDynamics6.v
theories/PropDynamics.v
theories/ModelLoad.v
theories/SpecLoad.v
theories/ModelOutput.v
theories/SpecOutput.v
theories/ProofsLoad.v
theories/ProofsLoad2.v
theories/ProofsLoad3.v
theories/ProofsLoad4.v
theories/ProofsLoad5.v
theories/ProofsOutput.v
theories/PropLoad.v
theories/PropOutput.v
theories/ModelGyr.v
theories/SpecGyr.v
theories/ProofsGyr.v
theories/ProofsGyr2.v
theories/ProofsGyr3.v
theories/ProofsGyr4.v
theories/ProofsGyr5.v
theories/ProofsGyr6.v
theories/PropGyr.v
theories/ModelNbody6.v
theories/SpecNbody6.v
theories/ProofsNbody6.v
theories/ProofsNbody62.v
theories/ProofsNbody63.v
theories/ProofsNbody64.v
theories/ProofsNbody65.v
theories/PropNbody6.v
theories/ModelTail.v
theories/ModelOrbit.v
theories/ModelSky.v
theories/SpecTail.v
theories/SpecOrbit.v
theories/SpecSky.v
theories/ProofsTail.v
theories/ProofsTail2.v
theories/ProofsTail3.v
theories/ProofsTail4.v
theories/ProofsTail5.v
theories/ProofsOrbit.v
theories/ProofsOrbit2.v
theories/ProofsOrbit3.v
theories/ProofsOrbit4.v
theories/ProofsOrbit5.v
theories/ProofsSky.v
theories/ProofsSky2.v
theories/PropTail.v
theories/PropOrbit.v
theories/PropSky.v
theories/ModelRadii.v
theories/SpecRadii.v
theories/ProofsRadii.v
theories/ProofsRadii2.v
theories/ProofsRadii3.v
theories/ProofsRadii4.v
theories/ProofsRadii5.v
theories/ProofsRadii6.v
theories/ProofsRadii7.v
theories/ProofsRadii8.v
theories/ProofsRadii9.v
theories/ProofsRadii10.v
theories/ProofsRadii11.v
theories/PropRadii.v
theories/ModelReset.v
theories/SpecReset.v
theories/ProofsReset.v
theories/ProofsReset2.v
theories/ProofsReset3.v
theories/ProofsReset4.v
theories/ProofsReset5.v
theories/PropReset.v
theories/ModelProject.v
theories/SpecProject.v
theories/ProofsProject.v
theories/PropProject.v
theories/ModelIds.v
theories/SpecIds.v
theories/ProofsIds.v
theories/PropIds.v
theories/ModelTapered.v
theories/SpecTapered.v
theories/ProofsTapered.v
theories/PropTapered.v
theories/ModelMeqProf.v
theories/ProofsMeqProf.v
theories/PropMeqProf.v
theories/ModelNbody6pp.v
theories/SpecNbody6pp.v
theories/ProofsNbody6pp.v
theories/ProofsNbody6pp2.v
theories/ProofsNbody6pp3.v
theories/ProofsNbody6pp4.v
theories/ProofsNbody6pp5.v
theories/ProofsNbody6pp6.v
theories/PropNbody6pp.v
theories/ModelGorbit.v
theories/SpecGorbit.v
theories/ProofsGorbit.v
theories/PropGorbit.v
theories/ModelTable.v
theories/SpecTable.v
theories/ProofsTable.v
theories/ProofsTable2.v
theories/PropTable.v
theories/ModelParticles.v
theories/SpecParticles.v
theories/ProofsParticles.v
theories/ProofsParticles2.v
theories/PropParticles.v
theories/ModelKing.v
theories/SpecKing.v
theories/ProofsKing.v
theories/PropKing.v
theories/ModelLimepy.v
theories/ProofsLimepy.v
theories/PropLimepy.v
theories/ModelHdf5.v
theories/SpecHdf5.v
theories/ProofsHdf5.v
theories/ProofsHdf52.v
theories/ProofsHdf53.v
theories/ProofsHdf54.v
theories/ProofsHdf55.v
theories/PropHdf5.v
theories/ModelSkyPath.v
theories/SpecSkyPath.v
theories/ProofsSkyPath.v
theories/ProofsSkyPath2.v
theories/ProofsSkyPath3.v
theories/ProofsSkyPath4.v
theories/ProofsSkyPath5.v
theories/PropSkyPath.v
theories/ModelKept.v
theories/SpecKept.v
theories/ProofsKept.v
theories/ProofsKept2.v
theories/PropKept.v
theories/ModelHistory.v
theories/SpecHistory.v
theories/ProofsHistory.v
theories/ProofsHistory2.v
theories/ProofsHistory3.v
theories/PropHistory.v
theories/ModelErrors.v
theories/SpecErrors.v
theories/ProofsErrors.v
theories/PropErrors.v
theories/ModelSurvey.v
theories/SpecSurvey.v
theories/ProofsSurvey.v
theories/ProofsSurvey2.v
theories/ProofsSurvey3.v
theories/PropSurvey.v
theories/ModelAbandon.v
theories/PropAbandon.v
theories/ModelCampaign.v
theories/SpecCampaign.v
theories/ProofsCampaign.v
theories/ProofsCampaign2.v
theories/PropCampaign.v
