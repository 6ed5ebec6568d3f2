-Q theories Verif
theories/PyStr.v
theories/Range.v
theories/Scan.v
theories/CmdLine.v
theories/Properties_Run.v
theories/Expr.v
theories/ExprSem.v
theories/ExprFacts.v
theories/ExprTotal.v
theories/ExprTags.v
theories/ExprEq.v
theories/Properties_Expr.v
theories/Orient.v
theories/Placement.v
theories/Euler.v
theories/Properties_Orient.v
theories/InstrModel.v
theories/Properties_Instr.v
theories/SplitPlace.v
theories/Properties_Split.v
theories/Refs.v
theories/Properties_Refs.v
theories/Flags.v
theories/Properties_Flags.v
theories/InstanceText.v
theories/Properties_Text.v
theories/Raytrace.v
theories/RaySpec.v
theories/RayFacts.v
theories/RayJumps.v
theories/RaySplit.v
theories/JumpTargets.v
theories/Properties_Trace.v
theories/RayUnits.v
theories/Properties_RayUnits.v
theories/DatFile.v
theories/DatFacts.v
theories/Properties_Data.v
theories/SimCombine.v
theories/Properties_Sim.v
theories/TextLines.v
theories/SimText.v
theories/Properties_SimText.v
theories/Registry.v
theories/Properties_Registry.v
theories/Reader.v
theories/Properties_Reader.v
theories/Stash.v
theories/Properties_Stash.v
theories/Includes.v
theories/Properties_Includes.v
theories/Print.v
theories/Signs.v
theories/Properties_Print.v
theories/CText.v
theories/Properties_CText.v
theories/UserVars.v
theories/Properties_UserVars.v
theories/CompDef.v
theories/Properties_CompDef.v
theories/Target.v
theories/Properties_Target.v
theories/Assembler.v
theories/Properties_Assembler.v
theories/Hdf5.v
theories/Hdf5Facts.v
theories/Properties_Hdf5.v
theories/Mcpl.v
theories/Properties_Mcpl.v
theories/Setpos.v
theories/Properties_Setpos.v
theories/Visit.v
theories/Properties_Visit.v
theories/EvalShare.v
theories/Properties_EvalShare.v
theories/Literal.v
theories/Properties_Literal.v
theories/Lexer.v
theories/ExprChars.v
theories/Properties_ExprText.v
theories/InstrChars.v
theories/InstrCharsFacts.v
theories/Properties_InstrText.v
theories/Declares.v
theories/Properties_Declares.v
theories/ParamTable.v
theories/Properties_ParamTable.v
theories/Particle.v
theories/Properties_Particle.v
theories/Life.v
theories/Properties_Life.v
theories/DatText.v
theories/Properties_DatText.v
theories/RunCmd.v
theories/Properties_RunCmd.v
theories/MetaTable.v
theories/Properties_MetaTable.v
theories/DeclNames.v
theories/Properties_DeclNames.v
theories/InclMerge.v
theories/Properties_InclMerge.v
theories/Keywords.v
theories/Properties_Keywords.v
theories/CompParam.v
theories/Properties_CompParam.v
theories/AsmParam.v
theories/Properties_AsmParam.v
theories/CopyInst.v
theories/Properties_CopyInst.v
theories/ConfigFile.v
theories/Properties_ConfigFile.v
theories/Search.v
theories/Properties_Search.v
theories/Manage.v
theories/Properties_Manage.v
theories/InstrParams.v
theories/Properties_InstrParams.v
theories/SourceFiles.v
theories/Properties_SourceFiles.v
theories/HtmlView.v
theories/Properties_HtmlView.v
theories/RaySplits.v
theories/Properties_Splits.v
theories/LibTag.v
theories/Properties_LibTag.v
theories/Category.v
theories/Properties_Category.v
theories/Compile.v
theories/Properties_Compile.v
theories/ErrorReport.v
theories/Properties_ErrorReport.v
theories/RangeText.v
theories/Properties_RangeText.v
theories/TypeCode.v
theories/Properties_TypeCode.v
theories/EmbedSource.v
theories/Properties_EmbedSource.v
theories/AxisAngle.v
theories/Properties_AxisAngle.v
theories/SameRegistry.v
theories/Properties_SameRegistry.v
theories/Answers.v
theories/Properties_Answers.v
theories/Copies.v
theories/Properties_Copies.v
theories/EulerSymbolic.v
theories/Properties_EulerSymbolic.v
theories/ParamNames.v
theories/Properties_ParamNames.v
