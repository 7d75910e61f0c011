-Q theories Verif
theories/PyStr.v
theories/Json.v
theories/Regex.v
theories/Node.v
theories/Utils.v
theories/Traverse.v
theories/Reader.v
theories/MiniYaml.v
theories/Edit.v
theories/Access.v
theories/Lemmas.v
theories/PathSpec.v
theories/PathProofs.v
theories/PathProofs2.v
theories/Samples.v
theories/PropPaths.v
theories/PatchSpec.v
theories/PatchProofs.v
theories/PatchProofs2.v
theories/PatchProofs3.v
theories/SelSpec.v
theories/SelProofs.v
theories/SelProofs2.v
theories/SelProofs3.v
theories/HistProofs.v
theories/PropEdit.v
theories/Selector.v
theories/SelectorSpec.v
theories/SelectorProofs.v
theories/SelectorProofs2.v
theories/PropSelector.v
theories/JinjaSpec.v
theories/LayoutSpec.v
theories/RenderSpec.v
theories/LayoutProofs.v
theories/RegexProofs.v
theories/RenderProofs.v
theories/JinjaProofs.v
theories/LayoutProofs2.v
theories/LayoutProofs3.v
theories/LayoutProofs4.v
theories/LayoutProofs5.v
theories/LayoutProofs6.v
theories/LayoutProofs7.v
theories/LayoutProofs8.v
theories/RenderProofs2.v
theories/RenderProofs3.v
theories/RenderProofs4.v
theories/PropRender.v
theories/Deps.v
theories/DepsSpec.v
theories/DepsProofs.v
theories/DepsProofs2.v
theories/DepsProofs3.v
theories/DepsSpec2.v
theories/DepsProofs4.v
theories/PropDeps.v
theories/Messages.v
theories/Spdx.v
theories/Fetch.v
theories/Scan.v
theories/Graph.v
theories/Cbc.v
theories/ServiceSpec.v
theories/ServiceProofs.v
theories/LicenseSpec.v
theories/LicenseProofs.v
theories/FetchSpec.v
theories/FetchProofs.v
theories/PropService.v
theories/GraphSpec.v
theories/GraphProofs.v
theories/PropGraph.v
theories/Commands.v
theories/FrameSpec.v
theories/FrameProofs.v
theories/AnswerSpec.v
theories/AnswerProofs.v
theories/PropPatch.v
theories/WriteSpec.v
theories/FrameProofs2.v
theories/CommandsSpec.v
theories/CommandsProofs.v
theories/CommandsProofs2.v
theories/CommandsProofs3.v
theories/CommandsProofs4.v
theories/CommandsProofs5.v
theories/CommandsProofs7.v
theories/PropCommands.v
theories/Convert.v
theories/ConvertSpec.v
theories/ConvertProofs.v
theories/ConvertProofs2.v
theories/ConvertProofs3.v
theories/ConvertProofs4.v
theories/ConvertProofs5.v
theories/ConvertProofs6.v
theories/ConvertProofs7.v
theories/ConvertProofs8.v
theories/ConvertProofs9.v
theories/ConvertProofs10.v
theories/PropConvert.v
theories/WellSpec.v
theories/WellProofs.v
theories/WellProofs2.v
theories/WellProofs3.v
theories/PropParse.v
theories/PhaseSpec.v
theories/PhaseProofs.v
theories/PhaseProofs2.v
theories/PhaseProofs3.v
theories/PhaseProofs4.v
theories/PhaseProofs5.v
theories/PropPhase.v
theories/SectionSpec.v
theories/SectionProofs.v
theories/SectionProofs2.v
theories/SectionProofs3.v
theories/SectionProofs4.v
theories/ContextSpec.v
theories/ContextProofs.v
theories/PropSection.v
theories/KeepSpec.v
theories/KeepProofs.v
theories/KeepProofs2.v
theories/PropKeep.v
theories/GraphCmd.v
theories/GraphCmdSpec.v
theories/GraphCmdProofs.v
theories/GraphCmdProofs2.v
theories/PropGraphCmd.v
theories/TextSpec.v
theories/TextProofs.v
theories/PropText.v
theories/HashSpec.v
theories/HashProofs.v
theories/ReportSpec.v
theories/ReportProofs.v
theories/ReportProofs2.v
theories/PropReport.v
theories/Scripts.v
theories/ScriptsSpec.v
theories/ScriptsProofs.v
theories/ScriptsProofs2.v
theories/ScriptsProofs3.v
theories/LogSpec.v
theories/LogProofs.v
theories/PropScripts.v
theories/ConvertCmd.v
theories/ConvertCmdSpec.v
theories/ConvertCmdProofs.v
theories/PropConvertCmd.v
theories/PlainSpec.v
theories/PlainProofs.v
theories/PropPlain.v
theories/AgainProofs.v
theories/SimpleSpec.v
theories/SimpleProofs.v
theories/PropAgain.v
theories/GoesSpec.v
theories/GoesProofs.v
theories/PropGoes.v
theories/PreSpec.v
theories/PreProofs.v
theories/PreSpec2.v
theories/PreProofs2.v
theories/PySpec.v
theories/PyProofs.v
theories/PropPre.v
theories/RefSpec.v
theories/RefProofs.v
theories/PropRefs.v
theories/ValueSpec.v
theories/ValueProofs.v
theories/PropValue.v
theories/SubstSpec.v
theories/SubstProofs.v
theories/SubstProofs2.v
theories/SubstProofs3.v
theories/PropSubst.v
theories/SetSpec.v
theories/SetProofs.v
theories/SetProofs2.v
theories/PropSet.v
theories/CutSpec.v
theories/CutProofs.v
theories/PropCut.v
theories/Debug.v
theories/DebugSpec.v
theories/DebugProofs.v
theories/DebugProofs2.v
theories/PropDebug.v
theories/BlockSpec.v
theories/BlockProofs.v
theories/PropBlock.v
theories/VarsSpec.v
theories/VarsProofs.v
theories/VarsProofs2.v
theories/VarsProofs3.v
theories/VarsProofs4.v
theories/VarsSpec2.v
theories/VarsProofs5.v
theories/PropVars.v
theories/AboutSpec.v
theories/AboutProofs.v
theories/AboutProofs2.v
theories/AboutProofs3.v
theories/AboutProofs4.v
theories/PropAbout.v
theories/RenameSpec.v
theories/RenameProofs.v
theories/RenameProofs2.v
theories/RenameProofs3.v
theories/RenameProofs4.v
theories/RenameProofs5.v
theories/RenameProofs6.v
theories/PropRename.v
theories/CanProofs.v
theories/CanProofs2.v
theories/CanProofs3.v
theories/CanProofs4.v
theories/PropCan.v
theories/CanSpec.v
theories/CanProofs5.v
theories/PropCan2.v
theories/RepeatSpec.v
theories/RepeatProofs.v
theories/PropRepeat.v
theories/BumpSpec.v
theories/BumpProofs.v
theories/PropBump.v
theories/EditSpec.v
theories/EditProofs.v
theories/PropEditFile.v
theories/BumpSpec2.v
theories/BumpProofs2.v
theories/PropBump2.v
theories/DepFileSpec.v
theories/DepFileProofs.v
theories/PropDepFile.v
theories/NewFileSpec.v
theories/NewFileProofs.v
theories/PropNewFile.v
theories/UndoSpec.v
theories/UndoProofs.v
theories/PropUndo.v
theories/TwiceSpec.v
theories/TwiceProofs.v
theories/PropTwice.v
theories/CommentFileSpec.v
theories/CommentFileProofs.v
theories/PropCommentFile.v
theories/SessionSpec.v
theories/SessionProofs.v
theories/PropSession.v
theories/CommentPathProofs.v
theories/QuerySpec.v
theories/QueryProofs.v
theories/PropQuery.v
theories/AskSpec.v
theories/AskProofs.v
theories/PropAsk.v
theories/LineSpec.v
theories/LineProofs.v
theories/PropLine.v
theories/EntrySpec.v
theories/EntryProofs.v
theories/PropEntry.v
theories/DepListSpec.v
theories/DepListProofs.v
theories/PropDepList.v
theories/DepPathSpec.v
theories/DepPathProofs.v
theories/PropDepPath.v
theories/AgreeSpec.v
theories/AgreeProofs.v
theories/PropAgree.v
theories/PackageSpec.v
theories/PackageProofs.v
theories/PropPackage.v
theories/SourceSpec.v
theories/SourceProofs.v
theories/PropSource.v
theories/MentionSpec.v
theories/MentionProofs.v
theories/PropMention.v
theories/SweepSpec.v
theories/SweepProofs.v
theories/PropSweep.v
theories/FileDiffSpec.v
theories/FileDiffProofs.v
theories/PropFileDiff.v
theories/RefusalSpec.v
theories/RefusalProofs.v
theories/PropRefusal.v
