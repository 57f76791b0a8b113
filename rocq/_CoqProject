-Q theories Verif
theories/Lib/PyBase.v
theories/Lib/PyStr.v
theories/Lib/RSum.v
theories/Lib/Fl.v
theories/Lib/PySlice.v
theories/Lib/DFT.v
theories/Lib/Arr.v
theories/Model/RfftToFft.v
theories/Proofs/RfftToFft_Proofs.v
theories/Model/StatsUtils.v
theories/Spec/Blank.v
theories/Spec/Grid.v
theories/Proofs/Fl_Proofs.v
theories/Proofs/StatsUtils_Proofs.v
theories/Proofs/StatsUtils2_Proofs.v
theories/Properties/P_Fourier.v
theories/Proofs/StatsUtils3_Proofs.v
theories/Properties/P_StatsUtils.v
theories/Spec/Bins.v
theories/Lib/Bins.v
theories/Lib/Trig2.v
theories/Model/Psds.v
theories/Spec/Freq.v
theories/Proofs/Psds_Proofs.v
theories/Spec/Annulus.v
theories/Proofs/Psds2_Proofs.v
theories/Spec/Direction.v
theories/Proofs/Azim_Proofs.v
theories/Spec/Cube.v
theories/Proofs/Psds3_Proofs.v
theories/Properties/P_Pspec.v
theories/Model/Scf.v
theories/Proofs/Scf_Proofs.v
theories/Spec/Correlation.v
theories/Proofs/Scf2_Proofs.v
theories/Properties/P_Scf.v
theories/Spec/Energy.v
theories/Model/Cramer.v
theories/Proofs/Cramer_Proofs.v
theories/Properties/P_Cramer.v
theories/Lib/DFT2.v
theories/Model/Pca.v
theories/Lib/ListMore.v
theories/Spec/Components.v
theories/Proofs/Pca_Proofs.v
theories/Proofs/Pca2_Proofs.v
theories/Proofs/Pca3_Proofs.v
theories/Model/Formats.v
theories/Spec/Covariance.v
theories/Proofs/Cov_Proofs.v
theories/Properties/P_Pca.v
theories/Model/DeltaVar.v
theories/Spec/DeltaVar.v
theories/Proofs/DeltaVar_Proofs.v
theories/Proofs/DeltaVar2_Proofs.v
theories/Proofs/DeltaVar3_Proofs.v
theories/Model/ScfDistance.v
theories/Proofs/ScfDistance_Proofs.v
theories/Proofs/DeltaVar4_Proofs.v
theories/Properties/P_DeltaVar.v
theories/Model/Units.v
theories/Model/BaseStat.v
theories/Model/InputData.v
theories/Spec/Units.v
theories/Proofs/Units_Proofs.v
theories/Spec/Input.v
theories/Proofs/BaseStat_Proofs.v
theories/Proofs/InputData_Proofs.v
theories/Properties/P_Base.v
theories/Model/Distances.v
theories/Model/FitUtils.v
theories/Model/LmSeg.v
theories/Model/FitState.v
theories/Spec/Segmented.v
theories/Proofs/LmSeg_Proofs.v
theories/Proofs/Distances_Proofs.v
theories/Proofs/FitUtils_Proofs.v
theories/Properties/P_Fitting.v
theories/Spec/Taper.v
theories/Model/Apodize.v
theories/Model/EllipPlaw.v
theories/Proofs/Apodize_Proofs.v
theories/Proofs/EllipPlaw_Proofs.v
theories/Spec/EllipFit.v
theories/Proofs/EllipFit_Proofs.v
theories/Spec/Fields.v
theories/Model/GenField.v
theories/Lib/DFT3.v
theories/Proofs/GenField_Proofs.v
theories/Proofs/GenField3_Proofs.v
theories/Proofs/FieldsEx_Proofs.v
theories/Properties/P_Fields.v
theories/Spec/Regions.v
theories/Model/Genus.v
theories/Proofs/Regions_Proofs.v
theories/Proofs/Genus_Proofs.v
theories/Spec/GenusSpec.v
theories/Properties/P_Genus.v
theories/Lib/Hist.v
theories/Model/StatMoments.v
theories/Model/Pdf.v
theories/Spec/Distrib.v
theories/Proofs/Hist_Proofs.v
theories/Proofs/Moments_Proofs.v
theories/Proofs/Moments2_Proofs.v
theories/Proofs/Pdf_Proofs.v
theories/Properties/P_Moments.v
theories/Model/MomentErrs.v
theories/Model/MakeMoments.v
theories/Proofs/FlAlg_Proofs.v
theories/Spec/MomentSpec.v
theories/Proofs/MomentErrs_Proofs.v
theories/Proofs/MomentErrs2_Proofs.v
theories/Proofs/MakeMoments_Proofs.v
theories/Properties/P_MomentErrs.v
theories/Spec/Masking.v
theories/Model/Masking.v
theories/Proofs/Masking_Proofs.v
theories/Properties/P_Masking.v
theories/Model/MakeCube.v
theories/Spec/Ppv.v
theories/Proofs/MakeCube_Proofs.v
theories/Proofs/MakeCube2_Proofs.v
theories/Proofs/MakeCube3_Proofs.v
theories/Proofs/MakeCube4_Proofs.v
theories/Model/ThreeD.v
theories/Proofs/ThreeD_Proofs.v
theories/Proofs/MakeCube5_Proofs.v
theories/Spec/Modes.v
theories/Properties/P_MakeCube.v
theories/Model/Bispec.v
theories/Spec/Waves.v
theories/Proofs/Bispec_Proofs.v
theories/Proofs/Bispec2_Proofs.v
theories/Proofs/Bispec3_Proofs.v
theories/Proofs/Bispec4_Proofs.v
theories/Proofs/Bispec5_Proofs.v
theories/Properties/P_Bispec.v
theories/Properties/P_BispecTurned.v
theories/Model/Tsallis.v
theories/Spec/Lag.v
theories/Proofs/Tsallis_Proofs.v
theories/Proofs/Tsallis2_Proofs.v
theories/Proofs/Tsallis3_Proofs.v
theories/Proofs/Tsallis4_Proofs.v
theories/Proofs/Tsallis5_Proofs.v
theories/Properties/P_Tsallis.v
theories/Model/Dendro.v
theories/Spec/Tree.v
theories/Proofs/Dendro_Proofs.v
theories/Proofs/Dendro2_Proofs.v
theories/Proofs/Dendro3_Proofs.v
theories/Proofs/Dendro4_Proofs.v
theories/Proofs/Dendro5_Proofs.v
theories/Properties/P_Dendro.v
theories/Model/Beam.v
theories/Model/Mvc.v
theories/Spec/Velocity.v
theories/Proofs/Beam_Proofs.v
theories/Proofs/Mvc_Proofs.v
theories/Proofs/Mvc2_Proofs.v
theories/Proofs/Mvc3_Proofs.v
theories/Properties/P_Mvc.v
theories/Model/Wavelet.v
theories/Spec/MexHat.v
theories/Proofs/Wavelet_Proofs.v
theories/Proofs/Wavelet2_Proofs.v
theories/Proofs/Wavelet3_Proofs.v
theories/Properties/P_Wavelet.v
theories/Model/SliceThickness.v
theories/Spec/Spectral.v
theories/Proofs/SliceThickness_Proofs.v
theories/Properties/P_SliceThickness.v
theories/Model/PcaFit.v
theories/Spec/SizeWidth.v
theories/Proofs/PcaFit_Proofs.v
theories/Proofs/PcaFit2_Proofs.v
theories/Proofs/PcaFit3_Proofs.v
theories/Proofs/PcaFit4_Proofs.v
theories/Properties/P_PcaFit.v
theories/Lib/Mat3.v
theories/Model/Ellipse.v
theories/Spec/Conic.v
theories/Proofs/Ellipse_Proofs.v
theories/Proofs/Ellipse2_Proofs.v
theories/Proofs/Ellipse3_Proofs.v
theories/Proofs/Ellipse4_Proofs.v
theories/Proofs/Ellipse5_Proofs.v
theories/Spec/EllipseFit.v
theories/Proofs/EllipseEx_Proofs.v
theories/Properties/P_Ellipse.v
theories/Spec/EigenImage.v
theories/Proofs/EigenImage_Proofs.v
theories/Model/Construct.v
theories/Spec/Construct.v
theories/Proofs/Construct_Proofs.v
theories/Properties/P_Construct.v
theories/Model/ScfSpectrum.v
theories/Spec/ScfSpectrum.v
theories/Proofs/ScfSpectrum_Proofs.v
theories/Proofs/ScfSpectrum2_Proofs.v
theories/Proofs/ScfSpectrum3_Proofs.v
theories/Properties/P_ScfSpectrum.v
theories/Model/PspecFit.v
theories/Spec/PspecFit.v
theories/Proofs/PspecFit_Proofs.v
theories/Proofs/PspecFit2_Proofs.v
theories/Proofs/PspecFit3_Proofs.v
theories/Proofs/PspecFit4_Proofs.v
theories/Proofs/PspecFit5_Proofs.v
theories/Proofs/PspecFit6_Proofs.v
theories/Proofs/PspecFit7_Proofs.v
theories/Properties/P_PspecFit.v
theories/Proofs/LmSeg2_Proofs.v
theories/Proofs/GenField4_Proofs.v
theories/Proofs/Tighten_Proofs.v
theories/Model/Kwargs.v
theories/Spec/Kwargs.v
theories/Spec/VcsFit.v
theories/Proofs/Kwargs_Proofs.v
theories/Proofs/Kwargs2_Proofs.v
theories/Proofs/Kwargs3_Proofs.v
theories/Proofs/Kwargs4_Proofs.v
theories/Model/VcsFit.v
theories/Proofs/VcsFit_Proofs.v
theories/Properties/P_Kwargs.v
theories/Model/CramerDistance.v
theories/Spec/CramerCubes.v
theories/Proofs/CramerDistance_Proofs.v
theories/Proofs/CramerDistance2_Proofs.v
theories/Properties/P_CramerCubes.v
theories/Model/PdfDistance.v
theories/Spec/PdfPairs.v
theories/Proofs/PdfDistance_Proofs.v
theories/Proofs/PdfDistance2_Proofs.v
theories/Proofs/PdfDistance3_Proofs.v
theories/Proofs/PdfDistance4_Proofs.v
theories/Properties/P_PdfPairs.v
theories/Model/ScfPairs.v
theories/Spec/ScfPairs.v
theories/Proofs/ScfPairs_Proofs.v
theories/Proofs/ScfPairs2_Proofs.v
theories/Proofs/ScfPairs3_Proofs.v
theories/Properties/P_ScfPairs.v
theories/Model/PcaRun.v
theories/Spec/PcaRun.v
theories/Proofs/PcaRun_Proofs.v
theories/Proofs/PcaRun2_Proofs.v
theories/Proofs/PcaRun3_Proofs.v
theories/Properties/P_PcaRun.v
theories/Model/DeltaVarRun.v
theories/Spec/DeltaVarRun.v
theories/Proofs/DeltaVarRun_Proofs.v
theories/Properties/P_DeltaVarRun.v
theories/Model/RunOptions.v
theories/Spec/RunOptions.v
theories/Proofs/RunOptions_Proofs.v
theories/Proofs/RunOptions2_Proofs.v
theories/Properties/P_RunOptions.v
theories/Spec/Quantile.v
theories/Proofs/Quantile_Proofs.v
theories/Proofs/PcaRanges_Proofs.v
theories/Properties/P_PcaRanges.v
theories/Proofs/Weights_Proofs.v
theories/Properties/P_Weights.v
theories/Model/ScfLags.v
theories/Spec/ScfLags.v
theories/Proofs/ScfLags_Proofs.v
theories/Properties/P_ScfLags.v
theories/Model/DendroRun.v
theories/Spec/DendroRun.v
theories/Proofs/DendroRun_Proofs.v
theories/Properties/P_DendroRun.v
theories/Spec/BreakFit.v
theories/Model/BreakFit.v
theories/Proofs/Ols_Proofs.v
theories/Proofs/BreakFit_Proofs.v
theories/Proofs/BreakFit2_Proofs.v
theories/Proofs/BreakFit3_Proofs.v
theories/Proofs/BreakFit4_Proofs.v
theories/Properties/P_BreakFit.v
theories/Proofs/BreakFit5_Proofs.v
theories/Proofs/BreakFit6_Proofs.v
theories/Properties/P_BreakRun.v
theories/Model/BispecRun.v
theories/Spec/BispecRun.v
theories/Proofs/BispecRun_Proofs.v
theories/Proofs/BispecRun2_Proofs.v
theories/Properties/P_BispecRun.v
theories/Model/GenusRun.v
theories/Spec/GenusRun.v
theories/Proofs/GenusRun_Proofs.v
theories/Proofs/GenusRun2_Proofs.v
theories/Proofs/GenusRun3_Proofs.v
theories/Proofs/GenusRun4_Proofs.v
theories/Properties/P_GenusRun.v
theories/Proofs/DeltaVarRun3_Proofs.v
theories/Proofs/DendroRun3_Proofs.v
theories/Model/MomentsRun.v
theories/Proofs/MomentsRun_Proofs.v
theories/Spec/MomentsRun.v
theories/Proofs/MomentsRun2_Proofs.v
theories/Proofs/MomentsRun3_Proofs.v
theories/Proofs/MomentsRun4_Proofs.v
theories/Proofs/MomentsRun5_Proofs.v
theories/Proofs/MomentsRun6_Proofs.v
theories/Proofs/MomentsRun7_Proofs.v
theories/Proofs/MomentsRun8_Proofs.v
theories/Properties/P_MomentsRun.v
theories/Model/WaveletRun.v
theories/Spec/WaveletRun.v
theories/Proofs/WaveletRun_Proofs.v
theories/Proofs/WaveletRun2_Proofs.v
theories/Proofs/WaveletRun3_Proofs.v
theories/Proofs/WaveletRun4_Proofs.v
theories/Proofs/WaveletRun5_Proofs.v
theories/Proofs/WaveletRun6_Proofs.v
theories/Properties/P_WaveletRun.v
theories/Spec/VcsRun.v
theories/Model/VcsRun.v
theories/Proofs/Straight_Proofs.v
theories/Proofs/VcsRun_Proofs.v
theories/Proofs/VcsRun2_Proofs.v
theories/Proofs/VcsRun3_Proofs.v
theories/Proofs/VcsRun4_Proofs.v
theories/Properties/P_VcsRun.v
theories/Spec/TsallisRun.v
theories/Model/TsallisRun.v
theories/Proofs/TsallisRun_Proofs.v
theories/Proofs/TsallisRun2_Proofs.v
theories/Properties/P_TsallisRun.v
theories/Spec/PdfRun.v
theories/Model/PdfRun.v
theories/Proofs/PdfRun_Proofs.v
theories/Proofs/PdfRun2_Proofs.v
theories/Properties/P_PdfRun.v
theories/Spec/Asked.v
theories/Proofs/Asked_Proofs.v
theories/Proofs/Asked2_Proofs.v
theories/Properties/P_Asked.v
theories/Model/MomentsObj.v
theories/Spec/MomentsObj.v
theories/Proofs/MomentsObj_Proofs.v
theories/Proofs/MomentsObj2_Proofs.v
theories/Properties/P_MomentsObj.v
theories/Model/WidthMethods.v
theories/Spec/WidthMethods.v
theories/Proofs/WidthMethods_Proofs.v
theories/Proofs/WidthMethods2_Proofs.v
theories/Properties/P_WidthMethods.v
theories/Model/WidthImages.v
theories/Spec/WidthImages.v
theories/Proofs/WidthImages_Proofs.v
theories/Proofs/WidthImages2_Proofs.v
theories/Proofs/WidthImages3_Proofs.v
theories/Properties/P_WidthImages.v
theories/Model/Odr.v
theories/Spec/Odr.v
theories/Proofs/Odr_Proofs.v
theories/Proofs/Odr2_Proofs.v
theories/Proofs/Odr3_Proofs.v
theories/Proofs/Odr4_Proofs.v
theories/Properties/P_Odr.v
theories/Model/PlotStyle.v
theories/Spec/PlotStyle.v
theories/Proofs/PlotStyle_Proofs.v
theories/Proofs/PlotStyle2_Proofs.v
theories/Proofs/PlotStyle3_Proofs.v
theories/Properties/P_PlotStyle.v
theories/Model/Wcs.v
theories/Spec/Wcs.v
theories/Proofs/Wcs_Proofs.v
theories/Properties/P_Wcs.v
theories/Model/Figures.v
theories/Spec/Figures.v
theories/Proofs/Figures_Proofs.v
theories/Proofs/Figures2_Proofs.v
theories/Properties/P_Figures.v
theories/Model/PlotFit.v
theories/Spec/PlotFit.v
theories/Proofs/PlotFit_Proofs.v
theories/Properties/P_PlotFit.v
theories/Model/PlotPanels.v
theories/Spec/PlotPanels.v
theories/Proofs/PlotPanels_Proofs.v
theories/Properties/P_PlotPanels.v
theories/Spec/Orders.v
theories/Proofs/Orders_Proofs.v
theories/Spec/Turned.v
theories/Proofs/Turned_Proofs.v
theories/Proofs/TurnedScf_Proofs.v
theories/Spec/TurnedMoments.v
theories/Proofs/TurnedMoments_Proofs.v
theories/Spec/TurnedTsallis.v
theories/Proofs/TurnedTsallis_Proofs.v
theories/Spec/TurnedDeltaVar.v
theories/Proofs/TurnedDeltaVar_Proofs.v
theories/Spec/TurnedDeltaVarRun.v
theories/Proofs/TurnedDeltaVarRun_Proofs.v
theories/Spec/DeltaVarFrame.v
theories/Proofs/DeltaVarFrame_Proofs.v
theories/Proofs/WaveletFrame_Proofs.v
theories/Spec/ScfFrame.v
theories/Proofs/ScfFrame_Proofs.v
theories/Spec/TsallisFrame.v
theories/Proofs/TsallisFrame_Proofs.v
theories/Spec/MomentsFrame.v
theories/Proofs/MomentsFrame_Proofs.v
theories/Spec/VcsFrame.v
theories/Proofs/VcsFrame_Proofs.v
theories/Spec/PcaFrame.v
theories/Proofs/PcaFrame_Proofs.v
theories/Spec/PdfArranged.v
theories/Proofs/PdfArranged_Proofs.v
theories/Spec/GenusFrame.v
theories/Proofs/GenusFrame_Proofs.v
theories/Spec/CramerFrame.v
theories/Proofs/CramerFrame_Proofs.v
theories/Spec/Bootstrap.v
theories/Model/Bootstrap.v
theories/Proofs/Bootstrap_Proofs.v
theories/Spec/PspecFrame.v
theories/Proofs/PspecFrame_Proofs.v
theories/Spec/MvcFrame.v
theories/Proofs/MvcFrame_Proofs.v
theories/Model/SonicUnits.v
theories/Spec/SonicUnits.v
theories/Proofs/SonicUnits_Proofs.v
theories/Spec/PdfPairsArranged.v
theories/Proofs/PdfPairsArranged_Proofs.v
theories/Proofs/TurnedMvc_Proofs.v
theories/Proofs/TurnedVcs_Proofs.v
theories/Properties/P_Orders.v
theories/Properties/P_Turned.v
theories/Properties/P_TurnedMoments.v
theories/Properties/P_TurnedDeltaVar.v
theories/Properties/P_DeltaVarFrame.v
theories/Properties/P_WaveletFrame.v
theories/Properties/P_ScfFrame.v
theories/Properties/P_TsallisFrame.v
theories/Properties/P_MomentsFrame.v
theories/Properties/P_VcsFrame.v
theories/Properties/P_PcaFrame.v
theories/Properties/P_PdfArranged.v
theories/Properties/P_GenusFrame.v
theories/Properties/P_CramerFrame.v
theories/Properties/P_Bootstrap.v
theories/Properties/P_PspecFrame.v
theories/Properties/P_MvcFrame.v
theories/Properties/P_SonicUnits.v
theories/Properties/P_PdfPairsArranged.v
theories/Properties/P_TurnedTsallis.v
