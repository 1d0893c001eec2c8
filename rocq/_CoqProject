-Q theories Verif
theories/Common.v
theories/PWModel.v
theories/PWSpec.v
theories/PWProofs.v
theories/PWChnProofs.v
theories/PWPropsLemmas.v
theories/PWProps.v
theories/ParamsModel.v
theories/ParamsSpec.v
theories/ParamsProofs.v
theories/ParamsProofs2.v
theories/ParamsText.v
theories/ParamsAccept.v
theories/ParamsProps.v
theories/ArrayLib.v
theories/SparseModel.v
theories/SparseProofs.v
theories/SparseProps.v
theories/SwpModel.v
theories/SwpSpec.v
theories/SwpProofs.v
theories/SwpDriverProofs.v
theories/SwpPropsLemmas.v
theories/SwpProps.v
theories/ResolventModel.v
theories/ResolventSpec.v
theories/ResolventProofs.v
theories/ResolventArrayProofs.v
theories/ResolventPropsLemmas.v
theories/ResolventProps.v
theories/GridModel.v
theories/GridSpec.v
theories/GridProofs.v
theories/GridPropsLemmas.v
theories/GridProps.v
theories/PermModel.v
theories/PermSpec.v
theories/PermProofs.v
theories/PermPropsLemmas.v
theories/PermValue.v
theories/PermProps.v
theories/NameModel.v
theories/NameProofs.v
theories/PioModel.v
theories/PioSpec.v
theories/PioProofs.v
theories/PioPropsLemmas.v
theories/PioProps.v
theories/OnShellModel.v
theories/OnShellSpec.v
theories/OnShellProofs.v
theories/OnShellBreakupProofs.v
theories/OnShellPropsLemmas.v
theories/OnShellBreakupProofs2.v
theories/OnShellWhole.v
theories/OnShellWitness.v
theories/OnShellProps.v
theories/DriverModel.v
theories/DriverSpec.v
theories/DriverProofs.v
theories/DriverProps.v
theories/OutputModel.v
theories/OutputSpec.v
theories/OutputProofs.v
theories/OutputBreakupProofs.v
theories/OutputPropsLemmas.v
theories/OutputProps.v
theories/TextModel.v
theories/TextSpec.v
theories/TextNum.v
theories/TextProofs.v
theories/TextLines.v
theories/TextFileProofs.v
theories/TextFinal.v
theories/TextProps.v
theories/RecordModel.v
theories/RecordSpec.v
theories/RecordProofs.v
theories/RecordFinal.v
theories/RecordProps.v
theories/PotentialModel.v
theories/PotentialSpec.v
theories/PotentialProofs.v
theories/PotentialMatProofs.v
theories/InteractionProofs.v
theories/InteractionSpec.v
theories/InteractionValue.v
theories/InteractionProps.v
theories/PotentialSymProofs.v
theories/PotentialPropsLemmas.v
theories/PotentialProps.v
theories/KernelModel.v
theories/KernelSpec.v
theories/KernelProofs.v
theories/KernelBlockProofs.v
theories/KernelColProofs.v
theories/KernelPropsLemmas.v
theories/KernelProps.v
theories/FaddeevModel.v
theories/FaddeevSpec.v
theories/FaddeevProofs.v
theories/FaddeevStepProofs.v
theories/FaddeevLink.v
theories/FaddeevPadeProofs.v
theories/FaddeevSolveProofs.v
theories/FaddeevRuleProofs.v
theories/PadeAlgebra.v
theories/ComplexField.v
theories/DetModel.v
theories/DetProofs.v
theories/DenseModel.v
theories/DenseProofs.v
theories/PadeSpec.v
theories/PadeLists.v
theories/PadeLink.v
theories/DensePadeLink.v
theories/FaddeevDirect.v
theories/DetLaplace.v
theories/FaddeevAcceptProofs.v
theories/FaddeevExample.v
theories/FaddeevPropsLemmas.v
theories/DetExists.v
theories/FaddeevStatements.v
theories/FaddeevComplete.v
theories/FaddeevProps.v
theories/GeoModel.v
theories/GeoSpec.v
theories/GeoProofs.v
theories/GeoProofs2.v
theories/GeoAll.v
theories/GeoPropsLemmas.v
theories/GeoProps.v
theories/PermWholeSpec.v
theories/PermWholeModel.v
theories/PermWholeProofs.v
theories/PermWholeProps.v
theories/LegendreMath.v
theories/LegendreRoots.v
theories/MatrixInverse.v
theories/LegendreQuad.v
theories/LegendreBound.v
theories/GaussModel.v
theories/GaussProofs.v
theories/GaussProps.v
theories/SwpWholeModel.v
theories/SwpWholeSpec.v
theories/SwpWholeProofs.v
theories/SwpWholeFinal.v
theories/SwpWholeProps.v
theories/SpectralSpec.v
theories/SpectralProofs.v
theories/SpectralFinal.v
theories/SpectralProps.v
theories/AgsSpec.v
theories/AgsMatrix.v
theories/AgsFinal.v
theories/AgsProps.v
theories/PRunModel.v
theories/PRunProofs.v
theories/PRunSpec.v
theories/PRunFinal.v
theories/PRunLemmas.v
theories/PRunProps.v
theories/OmpModel.v
theories/OmpProofs.v
theories/OmpRegions.v
theories/OmpCols.v
theories/OmpTables.v
theories/OmpOverlap.v
theories/OmpMerge.v
theories/OmpSerial.v
theories/OmpElements.v
theories/OmpSpec.v
theories/OmpPropsLemmas.v
theories/OmpProps.v
theories/InputModel.v
theories/InputSpec.v
theories/InputProofs.v
theories/InputFinal.v
theories/InputProps.v
theories/ChainModel.v
theories/ChainSpec.v
theories/ChainProofs.v
theories/ChainFinal.v
theories/ChainProps.v
theories/ChainExample.v
theories/IterSpec.v
theories/IterMatrix.v
theories/IterFinal.v
theories/IterProps.v
theories/UniqueProofs.v
theories/DetermineProofs.v
theories/ReproProofs.v
theories/ReproModel.v
theories/ReproSpec.v
theories/ReproFinal.v
theories/ReproProps.v
theories/ReproExample.v
theories/ProgramModel.v
theories/ProgramSpec.v
theories/ProgramProofs.v
theories/ProgramFinal.v
theories/ProgramBreakup.v
theories/ProgramBreakupProps.v
theories/ProgramProps.v
theories/ProgramExample.v
theories/RerunSpec.v
theories/RerunProofs.v
theories/RerunFinal.v
theories/RerunProps.v
theories/RerunExample.v
theories/BreakupExample.v
theories/NeumannSpec.v
theories/NeumannModel.v
theories/NeumannProofs.v
theories/NeumannText.v
theories/NeumannFinal.v
theories/NeumannProps.v
theories/BoundsSpec.v
theories/BoundsModel.v
theories/BoundsProofs.v
theories/BoundsProps.v
theories/ResumProofs.v
theories/ResumFinal.v
theories/ResumSpec.v
theories/ResumMain.v
theories/ResumProps.v
theories/ResumExample.v
theories/IndexModel.v
theories/IndexSpec.v
theories/IndexProofs.v
theories/IndexProofs2.v
theories/IndexProofs3.v
theories/IndexProps.v
