-Q theories Verif
theories/Base/Scalar.v
theories/Base/ScalarR.v
theories/Base/Linear3.v
theories/Base/PyDict.v
theories/Base/QcLit.v
theories/Model/MatrixParam.v
theories/Spec/ParameterSpec.v
theories/Proofs/ParameterProofs.v
theories/Proofs/DictProofs.v
theories/Base/PyString.v
theories/Base/PyText.v
theories/Model/Hamiltonian.v
theories/Properties/ParameterProps.v
theories/Properties/NotationProps.v
theories/Properties/HistoryProps.v
theories/Spec/HamSpec.v
theories/Proofs/HamBasics.v
theories/Proofs/HamSetters.v
theories/Proofs/HamDouble.v
theories/Proofs/HamDcEnergy.v
theories/Spec/NotationSpec.v
theories/Proofs/NotationProofs.v
theories/Model/History.v
theories/Proofs/HistoryProofs.v
theories/Proofs/NotationNames.v
theories/Spec/HistorySpec.v
theories/Proofs/CallProofs.v
theories/Proofs/FilterProofs.v
theories/Proofs/FrameProofs.v
theories/Proofs/HamGlue.v
theories/Proofs/HamWitness.v
theories/Proofs/HistoryWitness.v
theories/Model/EnergyInit.v
theories/Model/Energy.v
theories/Model/Optimizer.v
theories/Model/Dispersion.v
theories/Model/Colpa.v
theories/Proofs/EnergyInitProofs.v
theories/Spec/EnergySpec.v
theories/Spec/OptimizerSpec.v
theories/Spec/DispersionSpec.v
theories/Spec/ColpaSpec.v
theories/Proofs/EnergyProofs.v
theories/Proofs/ConeProofs.v
theories/Proofs/EnergyWitness.v
theories/Proofs/OptimizerProofs.v
theories/Proofs/DescentProofs.v
theories/Proofs/OptimizerCases.v
theories/Proofs/OptimizerWitness.v
theories/Proofs/DispersionMatrix.v
theories/Proofs/DispersionInit.v
theories/Proofs/DispersionAxes.v
theories/Proofs/DispersionModes.v
theories/Proofs/DispersionOmega.v
theories/Proofs/DispersionFrame.v
theories/Proofs/DispersionWitness.v
theories/Proofs/DispersionGlue.v
theories/Proofs/ColpaProofs.v
theories/Proofs/ColpaWitness.v
theories/Properties/EnergyProps.v
theories/Properties/OptimizerProps.v
theories/Properties/DispersionProps.v
theories/Properties/ColpaProps.v
theories/Model/TxtVerify.v
theories/Model/TxtRead.v
theories/Spec/TxtSpec.v
theories/Spec/TxtFormat.v
theories/Proofs/TextBasics.v
theories/Proofs/SectionProofs.v
theories/Proofs/TxtReadProofs.v
theories/Proofs/TextWitness.v
theories/Proofs/TextGlue.v
theories/Proofs/TextCases.v
theories/Proofs/VerifyProofs.v
theories/Proofs/LoadProofs.v
theories/Proofs/FileProofs.v
theories/Proofs/TotalProofs.v
theories/Proofs/TextMore.v
theories/Proofs/TextSane.v
theories/Proofs/TextCases2.v
theories/Properties/TextProps.v
theories/Model/GroundState.v
theories/Spec/GroundSpec.v
theories/Proofs/GroundProofs.v
theories/Properties/GroundProps.v
theories/Model/Dispatch.v
theories/Spec/DispatchSpec.v
theories/Proofs/DispatchProofs.v
theories/Properties/DispatchProps.v
theories/Base/PyText2.v
theories/Model/Tb2j.v
theories/Model/Vampire.v
theories/Model/Hdf5.v
theories/Model/TxtDump.v
theories/Spec/Tb2jSpec.v
theories/Spec/VampireSpec.v
theories/Spec/Hdf5Spec.v
theories/Spec/TxtDumpSpec.v
theories/Proofs/Tb2jProofs.v
theories/Proofs/Tb2jCases.v
theories/Proofs/VampireProofs.v
theories/Proofs/VampireWitness.v
theories/Proofs/Hdf5Files.v
theories/Proofs/Hdf5Write.v
theories/Proofs/Hdf5Read.v
theories/Proofs/Hdf5Proofs.v
theories/Proofs/Hdf5Order.v
theories/Proofs/Hdf5Dump.v
theories/Proofs/Hdf5Detect.v
theories/Proofs/Hdf5Witness.v
theories/Proofs/DumpText.v
theories/Proofs/DumpWords.v
theories/Proofs/DumpVerify.v
theories/Proofs/DumpLoad.v
theories/Proofs/DumpRead.v
theories/Proofs/DumpBack.v
theories/Proofs/DumpMore.v
theories/Proofs/DumpPrinter.v
theories/Proofs/DumpWitness.v
theories/Model/Settings.v
theories/Spec/SettingsSpec.v
theories/Proofs/SettingsProofs.v
theories/Model/HistoryText.v
theories/Spec/HistoryTextSpec.v
theories/Proofs/HistoryTextProofs.v
theories/Proofs/HistoryTextCases.v
theories/Properties/SettingsProps.v
theories/Properties/HistoryTextProps.v
theories/Properties/Hdf5Props.v
theories/Properties/TxtDumpProps.v
theories/Properties/Tb2jProps.v
theories/Properties/VampireProps.v
theories/Model/Minimize.v
theories/Spec/MinimizeSpec.v
theories/Proofs/MinimizeProofs.v
theories/Properties/MinimizeProps.v
theories/Model/Convert.v
theories/Spec/ConvertSpec.v
theories/Proofs/DumpSpinless.v
theories/Proofs/ConvertProofs.v
theories/Proofs/ConvertName.v
theories/Properties/ConvertProps.v
theories/Spec/AtomsSpec.v
theories/Proofs/AtomsProofs.v
theories/Proofs/AtomsCases.v
theories/Properties/AtomsProps.v
theories/Spec/SpinWaveSpec.v
theories/Proofs/EnergyFunctional.v
theories/Proofs/SpinWaveLocal.v
theories/Proofs/SpinWaveQuad.v
theories/Proofs/SpinWaveProofs.v
theories/Proofs/SpinWaveWitness.v
theories/Properties/SpinWaveProps.v
theories/Model/DispersionScript.v
theories/Spec/ScriptSpec.v
theories/Proofs/ScriptPaths.v
theories/Proofs/ScriptProofs.v
theories/Properties/ScriptProps.v
theories/Model/Logo.v
theories/Spec/LogoSpec.v
theories/Spec/Hdf5Units.v
theories/Spec/InvarianceSpec.v
theories/Proofs/LogoProofs.v
theories/Proofs/Hdf5UnitsProofs.v
theories/Proofs/Hdf5Group.v
theories/Proofs/Hdf5UnitsCases.v
theories/Proofs/InvarianceProofs.v
theories/Properties/Hdf5UnitsProps.v
theories/Properties/LogoProps.v
theories/Proofs/InvarianceCases.v
theories/Properties/InvarianceProps.v
theories/Spec/RotationSpec.v
theories/Proofs/RotationProofs.v
theories/Proofs/RotationEnergy.v
theories/Proofs/RotationCases.v
theories/Properties/RotationProps.v
theories/Base/RealField.v
theories/Spec/SpectrumSpec.v
theories/Proofs/SpectrumProofs.v
theories/Model/Solver.v
theories/Spec/OmegaSpec.v
theories/Spec/TextbookSpec.v
theories/Proofs/OmegaProofs.v
theories/Proofs/OmegaSolver.v
theories/Proofs/GoldstoneProofs.v
theories/Proofs/NumpyExists.v
theories/Proofs/OmegaCases.v
theories/Proofs/OmegaGlue.v
theories/Proofs/GoldstoneCase.v
theories/Properties/SpectrumProps.v
theories/Properties/OmegaProps.v
theories/Proofs/TextbookProofs.v
theories/Proofs/ModesProofs.v
theories/Proofs/ModesGlue.v
theories/Proofs/ModesWitness.v
theories/Properties/ModesProps.v
theories/Spec/StableSpec.v
theories/Proofs/StableWave.v
theories/Proofs/StableProofs.v
theories/Proofs/StableSolver.v
theories/Proofs/StableGlue.v
theories/Properties/StableProps.v
theories/Model/CommandLine.v
theories/Spec/CommandLineSpec.v
theories/Proofs/CommandLineProofs.v
theories/Proofs/CommandLineCases.v
theories/Proofs/CallErrors.v
theories/Properties/CommandLineProps.v
theories/Model/Constants.v
theories/Spec/PhysicsSpec.v
theories/Proofs/UnitsProofs.v
theories/Properties/UnitsProps.v
theories/Proofs/TwoBosons.v
theories/Spec/SublatticeSpec.v
theories/Proofs/SublatticeMatrix.v
theories/Proofs/SublatticeLocal.v
theories/Proofs/SublatticeProofs.v
theories/Proofs/SublatticeCases.v
theories/Properties/SublatticeProps.v
theories/Model/VerifyLog.v
theories/Spec/VerifyLogSpec.v
theories/Proofs/LogAdequate.v
theories/Proofs/LogCut.v
theories/Proofs/LogTruth.v
theories/Proofs/LogTruth2.v
theories/Proofs/LogFinal.v
theories/Proofs/LogSays.v
theories/Proofs/LogCases.v
theories/Properties/VerifyLogProps.v
theories/Model/SaveFiltered.v
theories/Spec/SaveFilteredSpec.v
theories/Proofs/SaveProofs.v
theories/Proofs/SaveLines.v
theories/Proofs/SaveCases.v
theories/Properties/SaveProps.v
theories/Spec/ParallelSpec.v
theories/Proofs/TwoFerro.v
theories/Proofs/ParallelMatrix.v
theories/Proofs/ParallelLocal.v
theories/Proofs/ParallelProofs.v
theories/Proofs/ParallelStable.v
theories/Proofs/ParallelCases.v
theories/Properties/ParallelProps.v
theories/Spec/MatSpec.v
theories/Proofs/MatProofs.v
theories/Proofs/MatWitness.v
theories/Properties/MatProps.v
theories/Spec/ConeSpec.v
theories/Proofs/ConeSymmetry.v
theories/Proofs/ConeIsotropic.v
theories/Proofs/ConeCases.v
theories/Properties/ConeProps.v
theories/Spec/EasyAxisSpec.v
theories/Proofs/EasyAxisProofs.v
theories/Proofs/EasyAxisCases.v
theories/Properties/EasyAxisProps.v
theories/Spec/ReversalSpec.v
theories/Proofs/ReversalProofs.v
theories/Properties/ReversalProps.v
theories/Spec/CollinearSpec.v
theories/Proofs/CollinearGround.v
theories/Proofs/CollinearCases.v
theories/Properties/CollinearProps.v
theories/Spec/ScaleSpec.v
theories/Proofs/ScaleProofs.v
theories/Proofs/ScaleMagnons.v
theories/Proofs/ScaleCases.v
theories/Properties/ScaleProps.v
