-Q theories Verif
theories/F64Facts.v
theories/F64Ops.v
theories/F64Pi.v
theories/F64Round.v
theories/F64Sqrt.v
theories/M_Analysis.v
theories/M_Analyze.v
theories/M_Api.v
theories/M_Arrays.v
theories/M_BaObject.v
theories/M_BondAngle.v
theories/M_Cache.v
theories/M_Chi4Object.v
theories/M_Chi4Run.v
theories/M_Collective64.v
theories/M_Correlation.v
theories/M_Dynamics.v
theories/M_Expo64.v
theories/M_Filter.v
theories/M_Fkt.v
theories/M_Fkt64.v
theories/M_Fourier.v
theories/M_GrObject.v
theories/M_Groups.v
theories/M_Header.v
theories/M_Helpers.v
theories/M_KGrid.v
theories/M_LinkedCells.v
theories/M_Logx64.v
theories/M_Memory.v
theories/M_Neighbors.v
theories/M_Norm64.v
theories/M_Output.v
theories/M_Partial.v
theories/M_Path.v
theories/M_Realspace.v
theories/M_Repeat.v
theories/M_Report.v
theories/M_Run.v
theories/M_Slice.v
theories/M_Spectral.v
theories/M_Text.v
theories/M_VarCell.v
theories/M_Weights.v
theories/Num.v
theories/NumFacts.v
theories/P_Acf.v
theories/P_Analyze.v
theories/P_Analyze2.v
theories/P_Angle64.v
theories/P_Angle64b.v
theories/P_Arrays.v
theories/P_BaObject.v
theories/P_BondAngle.v
theories/P_Cache.v
theories/P_Center64.v
theories/P_Chi4.v
theories/P_Collective64.v
theories/P_Correlation.v
theories/P_Count.v
theories/P_Density64.v
theories/P_Dynamics.v
theories/P_Dynamics2.v
theories/P_Expo.v
theories/P_Expo64.v
theories/P_F64Alpha.v
theories/P_F64Bins.v
theories/P_F64Chi4.v
theories/P_F64Dist.v
theories/P_F64Dot.v
theories/P_F64Mean.v
theories/P_F64Msd.v
theories/P_F64Order.v
theories/P_F64Overlap.v
theories/P_F64Time.v
theories/P_Feqc64.v
theories/P_Filter.v
theories/P_FilterText.v
theories/P_Fit.v
theories/P_Fit64.v
theories/P_FixCM.v
theories/P_Fkt.v
theories/P_Fkt2.v
theories/P_Fkt3.v
theories/P_Fkt64.v
theories/P_FktDim.v
theories/P_Gr.v
theories/P_Gr2.v
theories/P_Gr3.v
theories/P_GrDouble.v
theories/P_GrFast.v
theories/P_GrFast2.v
theories/P_GrLinked.v
theories/P_GrLinked2.v
theories/P_GrObject.v
theories/P_GrObject2.v
theories/P_GrObject3.v
theories/P_GrObject4.v
theories/P_GrObject5.v
theories/P_GrObject6.v
theories/P_GrObject7.v
theories/P_GrObject8.v
theories/P_Grid64.v
theories/P_Groups.v
theories/P_Helpers.v
theories/P_Image.v
theories/P_Images.v
theories/P_KBound.v
theories/P_KGrid.v
theories/P_KGrid2.v
theories/P_KGrid3.v
theories/P_KGrid4.v
theories/P_KGrid64.v
theories/P_KGrid64b.v
theories/P_Linked64.v
theories/P_LinkedCells.v
theories/P_LinkedCells2.v
theories/P_LinkedCells3.v
theories/P_LinkedCells4.v
theories/P_LinkedCells5.v
theories/P_Logx64.v
theories/P_Neighbors.v
theories/P_Neighbors2.v
theories/P_Norm64.v
theories/P_Overlap.v
theories/P_Pairs.v
theories/P_Partial.v
theories/P_Peak64.v
theories/P_Positions.v
theories/P_Relations.v
theories/P_Relations2.v
theories/P_Relations3.v
theories/P_Shell.v
theories/P_Sk.v
theories/P_Sk2.v
theories/P_Sk3.v
theories/P_Sk64.v
theories/P_SkVar.v
theories/P_Skip.v
theories/P_Spectral.v
theories/P_Stress64.v
theories/P_Suscept.v
theories/P_Suscept64.v
theories/P_Symmetry.v
theories/P_Symmetry2.v
theories/P_Symmetry3.v
theories/P_Tcf.v
theories/P_Tcf64.v
theories/P_Text.v
theories/P_Time.v
theories/P_Uniform.v
theories/P_Vacf.v
theories/P_VarCell.v
theories/P_Weights.v
theories/PyBase.v
theories/PyBaseFacts.v
theories/Spec_Alpha.v
theories/Spec_Analyze.v
theories/Spec_Angle64.v
theories/Spec_BaObject.v
theories/Spec_BondAngle.v
theories/Spec_Border.v
theories/Spec_Center64.v
theories/Spec_Collective64.v
theories/Spec_Correlation.v
theories/Spec_Decimal.v
theories/Spec_Dist.v
theories/Spec_Dot.v
theories/Spec_Doubles.v
theories/Spec_Dynamics.v
theories/Spec_Expo64.v
theories/Spec_Feqc64.v
theories/Spec_FilterText.v
theories/Spec_Fit.v
theories/Spec_Fit64.v
theories/Spec_Fkt.v
theories/Spec_FktDim.v
theories/Spec_Fourier.v
theories/Spec_GrDouble.v
theories/Spec_GrObject.v
theories/Spec_Grid64.v
theories/Spec_KBound.v
theories/Spec_KCopy64.v
theories/Spec_KGrid.v
theories/Spec_KGrid64.v
theories/Spec_Linked64.v
theories/Spec_LinkedCells.v
theories/Spec_Lists.v
theories/Spec_Logx64.v
theories/Spec_Neighbors.v
theories/Spec_Norm64.v
theories/Spec_Pair.v
theories/Spec_Pairs.v
theories/Spec_Parts.v
theories/Spec_Peak64.v
theories/Spec_Positions.v
theories/Spec_Relations.v
theories/Spec_Spectral.v
theories/Spec_Stats.v
theories/Spec_Stress64.v
theories/Spec_Suscept64.v
theories/Spec_Symmetry.v
theories/Spec_Time.v
theories/Spec_Velocity.v
theories/Spec_Weights.v
theories/T_Alpha.v
theories/T_Analysis.v
theories/T_Analyze.v
theories/T_Angle64.v
theories/T_Angle64b.v
theories/T_Api.v
theories/T_Api2.v
theories/T_ApiOptions.v
theories/T_BondAngle.v
theories/T_Border.v
theories/T_Cache.v
theories/T_Center64.v
theories/T_Chi4Object.v
theories/T_Chi4Run.v
theories/T_Collective64.v
theories/T_Cosine.v
theories/T_Distances.v
theories/T_Dot.v
theories/T_Doubles.v
theories/T_Doubles2.v
theories/T_Doubles3.v
theories/T_Dynamics.v
theories/T_Expo64.v
theories/T_Feqc64.v
theories/T_Filter.v
theories/T_Fit64.v
theories/T_Fkt.v
theories/T_Fkt64.v
theories/T_FktDim.v
theories/T_Fourier.v
theories/T_Frozen.v
theories/T_Frozen2.v
theories/T_GrDouble.v
theories/T_GrLinked.v
theories/T_GrObject.v
theories/T_Grid64.v
theories/T_Header.v
theories/T_Helpers.v
theories/T_Images.v
theories/T_KBound.v
theories/T_KCopy64.v
theories/T_KGrid.v
theories/T_KGrid64.v
theories/T_KOrder.v
theories/T_Linked64.v
theories/T_LinkedCells.v
theories/T_Logx64.v
theories/T_Memory.v
theories/T_Neighbors.v
theories/T_Norm64.v
theories/T_Object.v
theories/T_Object2.v
theories/T_Output.v
theories/T_OverlapTau.v
theories/T_Pair.v
theories/T_Partial.v
theories/T_Parts.v
theories/T_Path.v
theories/T_Peak64.v
theories/T_Positions.v
theories/T_Psd.v
theories/T_Realspace.v
theories/T_Relations.v
theories/T_Report.v
theories/T_Reversal.v
theories/T_Reversal2.v
theories/T_Run.v
theories/T_Sk64.v
theories/T_Slice.v
theories/T_Spectral.v
theories/T_Stress64.v
theories/T_Suscept64.v
theories/T_Symmetry.v
theories/T_Symmetry2.v
theories/T_Tau64.v
theories/T_Time.v
theories/T_Total.v
theories/T_VarCell.v
theories/T_Velocity.v
theories/T_Weights.v
theories/T_Weights64.v
