-Q theories Verif
theories/Base.v
theories/CursorModel.v
theories/CursorSpec.v
theories/CursorHist.v
theories/CursorProofs.v
theories/CursorSim.v
theories/CursorVbr.v
theories/CursorMain.v
theories/CursorTwin.v
theories/CursorExact.v
theories/FloatModel.v
theories/FloatProofs.v
theories/P_Cursor.v
theories/StreamModel.v
theories/StreamSpec.v
theories/StreamHist.v
theories/StreamProofs.v
theories/StreamPres.v
theories/StreamEffect.v
theories/StreamRound.v
theories/StreamMain.v
theories/StreamEnd.v
theories/StreamBox.v
theories/StreamExt.v
theories/StreamAbb.v
theories/StreamTrace.v
theories/StreamApi.v
theories/StreamExact.v
theories/GrammarSpec.v
theories/CursorGap.v
theories/GrammarProofs.v
theories/GrammarStopSpec.v
theories/GrammarStops.v
theories/P_Grammar.v
theories/P_Stream.v
theories/EnumModel.v
theories/Strings.v
theories/StringsProofs.v
theories/Utf8Proofs.v
theories/SupportModel.v
theories/SupportSpec.v
theories/SupportProofs.v
theories/SupportMain.v
theories/LayoutModel.v
theories/LayoutSpec.v
theories/LayoutProofs.v
theories/LayoutMain.v
theories/RuleSpec.v
theories/Rules.v
theories/LayoutStopSpec.v
theories/LayoutStops.v
theories/SupportApi.v
theories/LayoutDefaults.v
theories/P_Support.v
theories/UnrollModel.v
theories/UnrollSpec.v
theories/UnrollProofs.v
theories/UnrollMain.v
theories/UnrollApi.v
theories/UnrollStopSpec.v
theories/UnrollStops.v
theories/P_Unroll.v
theories/AttributeModel.v
theories/AttributeSpec.v
theories/AttributeProofs.v
theories/AttributeMain.v
theories/TablesModel.v
theories/TablesSpec.v
theories/TablesProofs.v
theories/TypeTableModel.v
theories/TypeTableSpec.v
theories/TypeTableProofs.v
theories/RecursionSpec.v
theories/TypeTableMain.v
theories/TypeTableExact.v
theories/RecordModel.v
theories/ModuleModel.v
theories/P_Mapper.v
theories/TypeApi.v
theories/P_Types.v
theories/RecordSpec.v
theories/RecordProofs.v
theories/ModuleSpec.v
theories/ModuleProofs.v
theories/ModuleBodies.v
theories/TypeStopSpec.v
theories/TypeStops.v
theories/P_Module.v
theories/StreamBounds.v
theories/StreamSize.v
theories/PipelineSpec.v
theories/PipelineProofs.v
theories/PipelinePanics.v
theories/PipelineExact.v
theories/P_Pipeline.v
theories/VerdictSpec.v
theories/Verdicts.v
theories/VerdictAttributes.v
theories/VerdictModules.v
theories/P_Verdict.v
theories/OpenSpec.v
theories/Opens.v
theories/InputSpec.v
theories/Inputs.v
theories/P_Input.v
theories/UnitTests.v
theories/ExtraModel.v
theories/ExtraSpec.v
theories/ExtraProofs.v
theories/P_Extra.v
theories/ResourceModel.v
theories/ResourceSpec.v
theories/ResourceProofs.v
theories/ResourceTypes.v
theories/ResourceParser.v
theories/P_Resource.v
theories/SourceSpec.v
theories/SourceProofs.v
theories/SourceWriter.v
theories/AmplifySpec.v
theories/AmplifyProofs.v
theories/AmplifyFiles.v
theories/P_Amplify.v
theories/P_Source.v
theories/ProfileProofs.v
theories/P_Profile.v
theories/MessageModel.v
theories/MessageSpec.v
theories/MessageProofs.v
theories/P_Message.v
theories/WordModel.v
theories/WordSpec.v
theories/WordCursor.v
theories/WordStream.v
theories/WordMapper.v
theories/WordSmall.v
theories/WordReduce.v
theories/WordEqual.v
theories/WordWitness.v
theories/P_Word.v
theories/DebugModel.v
theories/DebugSpec.v
theories/DebugProofs.v
theories/DebugMain.v
theories/DebugTypes.v
theories/P_Debug.v
theories/ChainModel.v
theories/ChainSpec.v
theories/ChainProofs.v
theories/ChainRepeats.v
theories/P_Chain.v
theories/ConstantsModel.v
theories/ConstantsProofs.v
theories/P_Constants.v
theories/CompatSpec.v
theories/CompatProofs.v
theories/P_Compat.v
theories/InfoSpec.v
theories/InfoProofs.v
theories/P_Info.v
theories/ToleranceSpec.v
theories/ToleranceProofs.v
theories/P_Tolerance.v
theories/FileSpec.v
theories/FileProofs.v
theories/P_File.v
theories/FitSpec.v
theories/FitProofs.v
theories/P_Fit.v
theories/ReaderSpec.v
theories/ReaderProofs.v
theories/P_Reader.v
theories/TypeReaderSpec.v
theories/TypeReaderProofs.v
theories/P_TypeReader.v
theories/AttributeReaderSpec.v
theories/AttributeReaderProofs.v
theories/P_AttributeReader.v
theories/AliasReaderSpec.v
theories/AliasReaderProofs.v
theories/P_AliasReader.v
theories/ModuleReaderSpec.v
theories/ModuleReaderProofs.v
theories/P_ModuleReader.v
theories/LayoutReaderSpec.v
theories/LayoutReaderProofs.v
theories/P_LayoutReader.v
theories/P_ModuleLayout.v
theories/P_Whole.v
