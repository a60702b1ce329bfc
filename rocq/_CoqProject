-Q theories Verif
theories/Num.v
theories/ModelTypes.v
theories/ModelConsts.v
theories/ModelParticle.v
theories/ModelInteractions.v
theories/ModelGeometry.v
theories/ModelMaterial.v
theories/ModelBca.v
theories/ModelOutput.v
theories/ModelPhysics.v
theories/ModelFeatures.v
theories/ModelInput.v
theories/ModelToml.v
theories/SpecToml.v
theories/ModelLib.v
theories/Spec.v
theories/ProofsBase.v
theories/ProofsBca.v
theories/ProofsPanic.v
theories/NumSF.v
theories/Toy.v
theories/PropertiesTransport.v
theories/NumR.v
theories/SpecR.v
theories/ProofsStep.v
theories/ProofsKinematics.v
theories/ProofsSurface.v
theories/ProofsFlight.v
theories/ProofsEnergy.v
theories/ProofsSampling.v
theories/ProofsHalf.v
theories/ToyR.v
theories/ProofsRefute.v
theories/PropertiesKinematics.v
theories/ProofsMaterial.v
theories/PropertiesMaterial.v
theories/ProofsGeometry.v
theories/PropertiesGeometry.v
theories/SpecCollision.v
theories/ProofsInteractions.v
theories/ProofsNewton.v
theories/ProofsCollision.v
theories/PropertiesCollision.v
theories/SpecInput.v
theories/ProofsInput.v
theories/PropertiesInput.v
theories/ProofsToml.v
theories/PropertiesToml.v
theories/SpecRun.v
theories/ProofsRun.v
theories/ProofsHist.v
theories/PropertiesRun.v
theories/SpecLib.v
theories/ProofsLib.v
theories/ProofsFrame.v
theories/ProofsLibR.v
theories/ToyLibm.v
theories/ToyRun.v
theories/PropertiesLib.v
theories/SpecTwo.v
theories/SpecShift.v
theories/SpecUnits.v
theories/ProofsTwo.v
theories/ProofsShift.v
theories/ProofsSeq.v
theories/PropertiesTwo.v
theories/PropertiesSeq.v
theories/SpecEnergy.v
theories/ProofsLoss.v
theories/ToyLoss.v
theories/ProofsPush.v
theories/PropertiesEnergy.v
theories/SpecPath.v
theories/ToyFlight.v
theories/PropertiesPush.v
theories/PropertiesPath.v
theories/ProofsFollow.v
theories/PropertiesFollow.v
theories/SpecRoots.v
theories/ProofsRoots.v
theories/ProofsQuad.v
theories/PropertiesRoots.v
theories/SpecTurn.v
theories/ProofsTurn.v
theories/ToyTurn.v
theories/PropertiesTurn.v
theories/SpecPotential.v
theories/ProofsPotential.v
theories/ProofsWW.v
theories/PropertiesPotential.v
theories/SpecEntry.v
theories/ProofsEntry.v
theories/PropertiesEntry.v
theories/SpecBarrier.v
theories/ProofsBarrier.v
theories/ToyBarrier.v
theories/PropertiesBarrier.v
theories/SpecSpecies.v
theories/ProofsSpecies.v
theories/ToySpecies.v
theories/PropertiesSpecies.v
theories/NumB.v
theories/ProofsFloat.v
theories/SpecFloat64.v
theories/ProofsRounding.v
theories/ToyRounding.v
theories/PropertiesRounding.v
theories/ProofsChoose64.v
theories/PropertiesChoose64.v
theories/SpecZones.v
theories/PropertiesZones.v
theories/NumO.v
theories/SpecPartial.v
theories/ProofsPartial.v
theories/ToyAxis.v
theories/PropertiesAxis.v
theories/PropertiesHelpers.v
theories/SpecSampling64.v
theories/ProofsSampling64.v
theories/ToyInfinity.v
theories/PropertiesSampling64.v
theories/SpecMesh.v
theories/ToyMesh.v
theories/PropertiesMesh.v
theories/SpecOrder64.v
theories/ProofsOrder64.v
theories/PropertiesOrder64.v
theories/SpecDist.v
theories/PropertiesDist.v
theories/PropertiesAgree.v
theories/PropertiesAccount.v
theories/SpecAngle.v
theories/ProofsAngle.v
theories/PropertiesAngle.v
theories/SpecValid.v
theories/ProofsValid.v
theories/PropertiesValid.v
theories/SpecClassical.v
theories/ProofsClassical.v
theories/PropertiesClassical.v
theories/SpecGeoValid.v
theories/ProofsGeoValid.v
theories/PropertiesGeoValid.v
theories/PropertiesFeatures.v
theories/ProofsMonotone.v
theories/PropertiesMonotone.v
theories/ProofsFaster.v
theories/PropertiesFaster.v
theories/ModelMain.v
theories/SpecMain.v
theories/ProofsMain.v
theories/PropertiesMain.v
theories/ModelDistributions.v
theories/SpecDistributions.v
theories/PropertiesDistributions.v
theories/SpecMeans.v
theories/PropertiesMeans.v
theories/SpecBins64.v
theories/ProofsBins64.v
theories/PropertiesBins64.v
theories/SpecUnit64.v
theories/ProofsUnit64.v
theories/PropertiesUnit64.v
theories/SpecConserve64.v
theories/ProofsConserve64.v
theories/PropertiesConserve64.v
