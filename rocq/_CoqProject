-Q theories Verif
theories/F_Arange.v
theories/F_Areas.v
theories/F_Below.v
theories/F_Lakes.v
theories/F_Lengths.v
theories/F_Mean.v
theories/F_Require.v
theories/F_Round.v
theories/F_Share.v
theories/F_Simplify.v
theories/F_Stats.v
theories/F_Volumes.v
theories/F_Widths.v
theories/Fixed.v
theories/L_Cells.v
theories/L_Export.v
theories/L_Fixed.v
theories/L_Ini.v
theories/L_IniPrint.v
theories/L_Json.v
theories/L_List.v
theories/L_Network.v
theories/L_Num.v
theories/L_Profile.v
theories/L_Require.v
theories/L_Rows.v
theories/L_Same.v
theories/L_SameGeometry.v
theories/L_SameReduce.v
theories/L_Simplify.v
theories/L_Text.v
theories/M_Chain.v
theories/M_Classify.v
theories/M_Cli.v
theories/M_Compare.v
theories/M_Correction.v
theories/M_Data.v
theories/M_Envelope.v
theories/M_Export.v
theories/M_Figures.v
theories/M_Friction.v
theories/M_Geometry.v
theories/M_Import.v
theories/M_Ini.v
theories/M_Json.v
theories/M_Levels.v
theories/M_Log.v
theories/M_Longitudinal.v
theories/M_Network.v
theories/M_Params.v
theories/M_Pipeline.v
theories/M_Polygon.v
theories/M_Reader.v
theories/M_Rolling.v
theories/M_Run.v
theories/M_Sections.v
theories/M_Simplify.v
theories/M_Style.v
theories/M_Visual.v
theories/M_VolumeFile.v
theories/Num.v
theories/PyBase.v
theories/Spec.v
theories/Spec_Real.v
theories/Spec_Same.v
theories/Spec_Simplify.v
theories/T_Affine.v
theories/T_Attributes.v
theories/T_Balance.v
theories/T_Broken.v
theories/T_Cache.v
theories/T_Cells.v
theories/T_Centre.v
theories/T_Chain.v
theories/T_Chezy.v
theories/T_Cli.v
theories/T_Correction.v
theories/T_Data.v
theories/T_Definitions.v
theories/T_Details.v
theories/T_Dry.v
theories/T_Elsewhere.v
theories/T_Ends.v
theories/T_Envelope.v
theories/T_Errors.v
theories/T_Exceptions.v
theories/T_Figures.v
theories/T_Friction.v
theories/T_Generate.v
theories/T_Geometry.v
theories/T_Handwritten.v
theories/T_Import.v
theories/T_Ini.v
theories/T_IniPrint.v
theories/T_InputFiles.v
theories/T_Interval.v
theories/T_Json.v
theories/T_Levels.v
theories/T_Limb.v
theories/T_Locations.v
theories/T_Log.v
theories/T_Longitudinal.v
theories/T_Mesh.v
theories/T_Motion.v
theories/T_Neighbour.v
theories/T_NetFile.v
theories/T_Order.v
theories/T_Params.v
theories/T_Parts.v
theories/T_Pipeline.v
theories/T_Polygon.v
theories/T_Profile.v
theories/T_Rating.v
theories/T_Reach.v
theories/T_ReachDike.v
theories/T_Reader.v
theories/T_Reorder.v
theories/T_Repeat.v
theories/T_Report.v
theories/T_Require.v
theories/T_Rerun.v
theories/T_Roles.v
theories/T_Rolling.v
theories/T_RoughChain.v
theories/T_Roughness.v
theories/T_Route.v
theories/T_RuleOrder.v
theories/T_Rules.v
theories/T_Run.v
theories/T_Same.v
theories/T_SameDike.v
theories/T_SameRun.v
theories/T_Sections.v
theories/T_Select.v
theories/T_Selection.v
theories/T_Settings.v
theories/T_Shuffle.v
theories/T_Simplify.v
theories/T_Skip.v
theories/T_Sobek.v
theories/T_SobekChain.v
theories/T_SobekRough.v
theories/T_Speed.v
theories/T_Split.v
theories/T_Start.v
theories/T_Stats.v
theories/T_Style.v
theories/T_Switches.v
theories/T_Threshold.v
theories/T_Variance.v
theories/T_Velocity.v
theories/T_Visual.v
theories/T_VolumeFile.v
theories/T_Volumes.v
theories/T_Water.v
theories/T_Whole.v
theories/T_Window.v
theories/Text.v
