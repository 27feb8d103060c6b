-Q theories Verif
theories/Num.v
theories/PyBase.v
theories/RebinModel.v
theories/RebinSpec.v
theories/RebinProofs.v
theories/Rebin2DProofs.v
theories/Axis.v
theories/CutSpec.v
theories/MatrixModel.v
theories/MatrixSpec.v
theories/RebinFactorProofs.v
theories/IndexProofs.v
theories/CutProofs.v
theories/MatrixProofs.v
theories/MatrixRebinProofs.v
theories/RebinProps.v
theories/CutProps.v
theories/VectorModel.v
theories/VectorSpec.v
theories/VectorProofs.v
theories/VectorOpsProofs.v
theories/VectorProps.v
theories/ArithModel.v
theories/ArithSpec.v
theories/ArithProofs.v
theories/MatrixOpsProofs.v
theories/TrapezoidProofs.v
theories/AxisSpec.v
theories/AxisProofs.v
theories/ArithProps.v
theories/AxisProps.v
theories/MatrixOps2Proofs.v
theories/MatrixOpsProps.v
theories/FillModel.v
theories/FillSpec.v
theories/FillProofs.v
theories/FillProps.v
theories/ArgsortProofs.v
theories/MatrixRunModel.v
theories/MatrixRunProofs.v
theories/MatrixRunProps.v
theories/SmoothModel.v
theories/UnfoldModel.v
theories/SmoothSpec.v
theories/SmoothProofs.v
theories/UnfoldSpec.v
theories/UnfoldProofs.v
theories/UnfoldApplyProofs.v
theories/CheckModel.v
theories/CheckProofs.v
theories/CheckProps.v
theories/SmoothProps.v
theories/UnfoldProps.v
theories/FirstGenModel.v
theories/FirstGenSpec.v
theories/FirstGenProofs.v
theories/FirstGenApplyProofs.v
theories/AllgenProofs.v
theories/FirstGenProps.v
theories/DecompModel.v
theories/DecompSpec.v
theories/DecompProofs.v
theories/TransformModel.v
theories/TransformProps.v
theories/DecompNormProofs.v
theories/OsloProofs.v
theories/DecompProps.v
theories/OsloProps.v
theories/ActionModel.v
theories/ActionProps.v
theories/CalibModel.v
theories/CalibProps.v
theories/Conc.v
theories/ConcProofs.v
theories/EnsembleModel.v
theories/EnsembleSpec.v
theories/EnsembleProofs.v
theories/EnsembleGenProofs.v
theories/EnsembleProps.v
theories/ExtractorModel.v
theories/ExtractorSpec.v
theories/ExtractorProofs.v
theories/ExtractorFitProofs.v
theories/ExtractorRunProofs.v
theories/ExtractorProps.v
theories/FileModel.v
theories/FileSpec.v
theories/FileProofs.v
theories/FileProps.v
theories/InterpModel.v
theories/ResponseModel.v
theories/InterpProofs.v
theories/ResponseSpec.v
theories/ResponseProofs.v
theories/ResponseFanProofs.v
theories/ResponseProps.v
theories/ResponseDefProps.v
theories/ComptonModel.v
theories/ComptonProps.v
theories/SpinModel.v
theories/SpinSpec.v
theories/SpinProps.v
theories/SpinSumModel.v
theories/SpinSumSpec.v
theories/SpinSumProofs.v
theories/SpinSumProps.v
theories/NormModel.v
theories/NormProofs.v
theories/NormProps.v
theories/NormSpec.v
theories/ExtrapProps.v
theories/ParModel.v
theories/ParProps.v
theories/NormStateModel.v
theories/NormStateProps.v
theories/EnsNormModel.v
theories/EnsNormProps.v
theories/StatsModel.v
theories/StatsSpec.v
theories/StatsProofs.v
theories/ErfinvProofs.v
theories/StatsCdf.v
theories/StatsProps.v
theories/RhosigchiModel.v
theories/RhosigchiSpec.v
theories/RhosigchiProofs.v
theories/RhosigchiFix.v
theories/RhosigchiProps.v
theories/AliasModel.v
theories/AliasSpec.v
theories/AliasProofs.v
theories/AliasStep.v
theories/AliasRun.v
theories/AliasProps.v
theories/LikeModel.v
theories/LikeProps.v
theories/LevelsModel.v
theories/LevelsProps.v
theories/EnsRebinModel.v
theories/EnsRebinProps.v
theories/SampStatModel.v
theories/SampStatSpec.v
theories/SampStatProofs.v
theories/SampUnifyProofs.v
theories/SampStatProps.v
theories/SampTransModel.v
theories/SampTransProps.v
theories/ExtractorNonnegProps.v
theories/NormFormulaProps.v
theories/FinvModel.v
theories/FinvProofs.v
theories/FinvProps.v
theories/RscSetupModel.v
theories/RscSetupSpec.v
theories/RscSetupProofs.v
theories/RscSetupProps.v
theories/RscHelpersProps.v
theories/RscErrModel.v
theories/RscErrProps.v
theories/RscRunProps.v
theories/LikeFitProps.v
theories/RespLoadModel.v
theories/RespLoadProps.v
theories/AliasArithProps.v
theories/RscDriverModel.v
theories/RscDriverProps.v
theories/GuessModel.v
theories/GuessProps.v
theories/ErfSeries.v
theories/ErfGrid.v
theories/ErfinvGrid.v
theories/ErfinvAccProps.v
theories/TextNumModel.v
theories/TextNumProps.v
theories/MatInterpModel.v
theories/MatInterpProps.v
theories/NameModel.v
theories/NameProps.v
theories/FloatRebinModel.v
theories/FloatRebinProps.v
theories/FloatRebinQcProps.v
theories/FloatDecompModel.v
theories/FloatDecompProps.v
theories/FloatDecompQcProps.v
theories/MamaTextModel.v
theories/MamaTextProps.v
theories/MamaTextNumProps.v
theories/TxtTextModel.v
theories/TxtTextProps.v
theories/ResultsModel.v
theories/ResultsProps.v
theories/OsloUniqueProps.v
theories/EnsembleMeanProps.v
theories/LibCutProps.v
theories/SimResProps.v
theories/RejectProps.v
theories/TightenProps.v
theories/RhosigchiUpdateProps.v
theories/RhosigchiGradProps.v
theories/Tighten2Props.v
theories/FirstGenTruthProps.v
theories/Tighten3Props.v
theories/GsfGaugeProps.v
theories/Tighten4Props.v
theories/Tighten5Props.v
theories/NldTruthProps.v
theories/UnfoldTruthProps.v
theories/Tighten6Props.v
theories/Tighten7Props.v
theories/AliasNewProps.v
theories/PipeModel.v
theories/PipeProps.v
theories/OptModel.v
theories/OptProps.v
theories/ZerosModel.v
theories/ZerosProps.v
theories/ExtStatModel.v
theories/ExtStatProps.v
theories/Tighten8Props.v
theories/FitWinModel.v
theories/FitWinProps.v
theories/ReportModel.v
theories/ReportProps.v
theories/Tighten9Props.v
theories/SimStateModel.v
theories/SimStateProps.v
theories/Tighten10Props.v
theories/RhosigchiReachProps.v
theories/PlotModel.v
theories/PlotProps.v
theories/FloatShiftModel.v
theories/FloatShiftProps.v
theories/Tighten11Props.v
theories/Tighten12Props.v
theories/EnsPlotModel.v
theories/EnsPlotProps.v
theories/Tighten13Props.v
theories/VersionModel.v
theories/VersionProps.v
theories/Tighten14Props.v
theories/Tighten15Props.v
theories/ActPatchModel.v
theories/ActPatchProps.v
theories/Tighten16Props.v
theories/StdPlotModel.v
theories/StdPlotProps.v
theories/Tighten17Props.v
