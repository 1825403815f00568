-Q theories Verif
theories/Base/Outcome.v
theories/Base/Ops.v
theories/Inst/ER.v
theories/Model/Constants.v
theories/Model/Robust.v
theories/Model/PhotonApi.v
theories/Model/ThermalPhotons.v
theories/Model/GrayPhotons.v
theories/Model/PowerLawPhotons.v
theories/Model/EPBremsPhotons.v
theories/Model/NonCGSPhotons.v
theories/Model/ScatteringPhotons.v
theories/Model/Spiner.v
theories/Model/Vandermonde.v
theories/Model/Chebyshev.v
theories/Model/Indexers.v
theories/Model/IndexerCalls.v
theories/Model/SpinerNeutrinos.v
theories/Model/Files.v
theories/Model/MeanUtils.v
theories/Model/MeanPhotons.v
theories/Model/MeanNeutrinos.v
theories/Model/MeanVariants.v
theories/Model/Variants.v
theories/Model/RadTypes.v
theories/Model/NeutrinoApi.v
theories/Model/ThermalNeutrinos.v
theories/Model/OpacNeutrinos.v
theories/Model/NonCGSNeutrinos.v
theories/Inst/B64.v
theories/Inst/ERTac.v
theories/Spec/Physics.v
theories/Spec/Units.v
theories/Spec/Reach.v
theories/Spec/Kept.v
theories/Spec/RuntimeConstants.v
theories/Spec/Parameters.v
theories/Spec/Scattering.v
theories/Spec/Nonneg.v
theories/Spec/Growth.v
theories/Spec/Groups.v
theories/Spec/Tables.v
theories/Spec/Tabulated.v
theories/Spec/NuLib.v
theories/Spec/Alternatives.v
theories/Spec/TableShape.v
theories/Spec/Means.v
theories/Spec/Cells.v
theories/Spec/Chebyshev.v
theories/Proofs/OrderLaws.v
theories/Proofs/GroupFacts.v
theories/Proofs/InterpFacts.v
theories/Proofs/TableFacts.v
theories/Proofs/LoadFacts.v
theories/Proofs/MeanExact.v
theories/Proofs/ChebFacts.v
theories/Proofs/ChebModel.v
theories/Proofs/ChebNodes.v
theories/Proofs/ChebRoots.v
theories/Proofs/MeanTotal.v
theories/Proofs/SpinerFacts.v
theories/Proofs/SpinerExact.v
theories/Proofs/NuLibFacts.v
theories/Proofs/RiemannSum.v
theories/Proofs/MeanNodes.v
theories/Proofs/FillFacts.v
theories/Proofs/MeanFacts.v
theories/Proofs/SignLaws.v
theories/Proofs/MonoLaws.v
theories/Proofs/CrLibm.v
theories/Spec/Covariance.v
theories/Proofs/PlanckFacts.v
theories/Proofs/BoseIntegral.v
theories/Proofs/Zeta.v
theories/Proofs/ZetaNum.v
theories/Spec/Integral.v
theories/Spec/Opacities.v
theories/Spec/Arrays.v
theories/Inst/RConsts.v
theories/Proofs/ThermalIntegrals.v
theories/Proofs/ModelFacts.v
theories/Proofs/ArrayFacts.v
theories/Proofs/UnitFacts.v
theories/Proofs/B64Facts.v
theories/Spec/SinglePrecision.v
theories/Proofs/FloatFacts.v
theories/Model/Lifetime.v
theories/Spec/Values.v
theories/Spec/Writes.v
theories/Proofs/LifetimeSim.v
theories/Spec/DoublePrecision.v
theories/Spec/DoubleFormulas.v
theories/Proofs/Near.v
theories/Proofs/NearConsts.v
theories/Proofs/NearRules.v
theories/Proofs/NearPhotons.v
theories/Proofs/NearNeutrinos.v
theories/Spec/Refinement.v
theories/Proofs/Refine.v
theories/Proofs/RefineMeans.v
theories/Model/Threads.v
theories/Spec/Races.v
theories/Proofs/Interleave.v
theories/Spec/ConvertedPrecision.v
theories/Spec/DoubleMeans.v
theories/Spec/DoubleTables.v
theories/Spec/DoubleSpiner.v
theories/Spec/DoubleNuLib.v
theories/Spec/DoubleTophat.v
theories/Proofs/App.v
theories/Proofs/DoubleMeans.v
theories/Proofs/Weights.v
theories/Proofs/Perturb.v
theories/Proofs/NarrowGroup.v
theories/Proofs/DoubleTables.v
theories/Proofs/DoubleLookup.v
theories/Proofs/DoubleSpiner.v
theories/Proofs/DoubleNuLib.v
theories/Proofs/BuildTable.v
theories/Proofs/DoubleBins.v
theories/Proofs/C01.v
theories/Proofs/C02.v
theories/Proofs/C03.v
theories/Proofs/C04.v
theories/Proofs/C05.v
theories/Proofs/C06.v
theories/Proofs/C07.v
theories/Proofs/C08.v
theories/Proofs/C09.v
theories/Proofs/C10.v
theories/Proofs/C11.v
theories/Proofs/C12.v
theories/Proofs/C13.v
theories/Proofs/C14.v
theories/Proofs/C15.v
theories/Proofs/C16.v
theories/Proofs/C17.v
theories/Proofs/C18.v
theories/Proofs/C19.v
theories/Proofs/C20.v
theories/Proofs/C21.v
theories/Proofs/C22.v
theories/Proofs/C23.v
theories/Proofs/C24.v
theories/Proofs/C25.v
theories/Proofs/C26.v
theories/Proofs/C27.v
theories/Proofs/C28.v
theories/Proofs/C29.v
theories/Proofs/C30.v
theories/Proofs/C31.v
theories/Proofs/C32.v
theories/Proofs/C33.v
theories/Proofs/C34.v
theories/Proofs/C35.v
theories/Proofs/C36.v
theories/Proofs/C37.v
theories/Proofs/C38.v
theories/Proofs/C39.v
theories/Proofs/C40.v
theories/Proofs/C41.v
theories/Proofs/C42.v
theories/Proofs/C43.v
theories/Proofs/C44.v
theories/Proofs/C45.v
theories/Proofs/C46.v
theories/Proofs/C47.v
theories/Proofs/C48.v
theories/Proofs/C49.v
theories/Proofs/C50.v
theories/Proofs/C51.v
theories/Proofs/C52.v
theories/Proofs/C53.v
theories/Proofs/C54.v
theories/Proofs/C55.v
theories/Proofs/C56.v
theories/Proofs/C57.v
theories/Proofs/C58.v
theories/Proofs/C59.v
theories/Proofs/C60.v
theories/Proofs/C61.v
theories/Proofs/C62.v
theories/Proofs/C63.v
theories/Proofs/C64.v
theories/Proofs/C65.v
theories/Proofs/C66.v
theories/Proofs/C67.v
theories/Proofs/C68.v
theories/Proofs/C69.v
theories/Proofs/C70.v
theories/Props/C01.v
theories/Props/C02.v
theories/Props/C03.v
theories/Props/C04.v
theories/Props/C05.v
theories/Props/C06.v
theories/Props/C07.v
theories/Props/C08.v
theories/Props/C09.v
theories/Props/C10.v
theories/Props/C11.v
theories/Props/C12.v
theories/Props/C13.v
theories/Props/C14.v
theories/Props/C15.v
theories/Props/C16.v
theories/Props/C17.v
theories/Props/C18.v
theories/Props/C19.v
theories/Props/C20.v
theories/Props/C21.v
theories/Props/C22.v
theories/Props/C23.v
theories/Props/C24.v
theories/Props/C25.v
theories/Props/C26.v
theories/Props/C27.v
theories/Props/C28.v
theories/Props/C29.v
theories/Props/C30.v
theories/Props/C31.v
theories/Props/C32.v
theories/Props/C33.v
theories/Props/C34.v
theories/Props/C35.v
theories/Props/C36.v
theories/Props/C37.v
theories/Props/C38.v
theories/Props/C39.v
theories/Props/C40.v
theories/Props/C41.v
theories/Props/C42.v
theories/Props/C43.v
theories/Props/C44.v
theories/Props/C45.v
theories/Props/C46.v
theories/Props/C47.v
theories/Props/C48.v
theories/Props/C49.v
theories/Props/C50.v
theories/Props/C51.v
theories/Props/C52.v
theories/Props/C53.v
theories/Props/C54.v
theories/Props/C55.v
theories/Props/C56.v
theories/Props/C57.v
theories/Props/C58.v
theories/Props/C59.v
theories/Props/C60.v
theories/Props/C61.v
theories/Props/C62.v
theories/Props/C63.v
theories/Props/C64.v
theories/Props/C65.v
theories/Props/C66.v
theories/Props/C67.v
theories/Props/C68.v
theories/Props/C69.v
theories/Props/C70.v
