-Q theories Verif

theories/Base.v
theories/State.v
theories/Filter.v
theories/Tree.v
theories/Output.v
theories/Scode.v
theories/Label.v
theories/Operator.v
theories/Parse.v
theories/Tables.v
theories/Cpu6800.v
theories/Cpu6502.v
theories/CpuZ80.v
theories/Pseudos.v
theories/Macro.v
theories/Xref.v
theories/Crasm.v
theories/Regress.v
theories/BaseFacts.v
theories/SpecRecords.v
theories/RecordFacts.v
theories/SpecObject.v
theories/Walk.v
theories/TreeFacts.v
theories/LineFacts.v
theories/Frame.v
theories/Run.v
theories/SpecReports.v
theories/CountFacts.v
theories/ObjFacts.v
theories/PropRecords.v
theories/ObjRun.v
theories/Witness.v
theories/PropObject.v
theories/PropCounts.v
theories/FilterFacts.v
theories/ParseFacts.v
theories/SpecNumbers.v
theories/NumberFacts.v
theories/QuoteFacts.v
theories/PropNumbers.v
theories/SpecSplit.v
theories/SplitFacts.v
theories/SpecText.v
theories/TextFacts.v
theories/PropTexts.v
theories/SpecEmit.v
theories/Eval.v
theories/EmitFacts.v
theories/PseudoFacts.v
theories/PropPseudos.v
theories/SpecInput.v
theories/InputFacts.v
theories/CallFacts.v
theories/PropInput.v
theories/SpecExpr.v
theories/TokenFacts.v
theories/ExprFacts.v
theories/ExprEval.v
theories/GroupFacts.v
theories/SpecOps.v
theories/OpFacts.v
theories/ExprCases.v
theories/PropExpr.v
theories/PropOps.v
theories/SpecSymbols.v
theories/SymFacts.v
theories/PropSymbols.v
theories/SpecForms.v
theories/FormFacts.v
theories/SpecCpu.v
theories/CpuFacts.v
theories/Cpu65Facts.v
theories/PropCpu.v
theories/SpecZ80.v
theories/Z80Facts.v
theories/Z80Inst.v
theories/PropZ80.v
theories/SpecSkip.v
theories/SkipFacts.v
theories/SpecCond.v
theories/CondFacts.v
theories/PropIf.v
theories/Local.v
theories/SpecEnd.v
theories/EndFacts.v
theories/ParseEnd.v
theories/LineEnd.v
theories/OrderFacts.v
theories/TermFacts.v
theories/TermRun.v
theories/TermProg.v
theories/PropEnd.v
theories/SpecStar.v
theories/StarFacts.v
theories/PropStar.v
theories/SpecTable.v
theories/TableFacts.v
theories/PropTable.v
theories/TwinFacts.v
theories/JoinFacts.v
theories/FuelFacts.v
theories/SpecTwin.v
theories/TwinProg.v
theories/PropTwin.v
theories/SpecRef.v
theories/RefFacts.v
theories/PropRef.v
theories/SpecChoice.v
theories/ChoiceFacts.v
theories/PropChoice.v
theories/SpecPage.v
theories/PageFacts.v
theories/PageRun.v
theories/PropPage.v
theories/SpecKeep.v
theories/KeepFacts.v
theories/PropKeep.v
theories/JoinFeed.v
theories/SpecJoin.v
theories/JoinLine.v
theories/JoinRun.v
theories/JoinProg.v
theories/PropJoin.v
theories/SpecAccept.v
theories/AcceptFacts.v
theories/PropAccept.v
theories/SpecAcceptZ.v
theories/AcceptZFacts.v
theories/PropAcceptZ.v
theories/SpecMacro.v
theories/MacroFacts.v
theories/PropMacro.v
theories/JoinIdle.v
theories/PropIdle.v
theories/SpecGrammar.v
theories/GrammarFacts.v
theories/PropGrammar.v
theories/SpecLine.v
theories/LineText.v
theories/LineRun.v
theories/AssignFacts.v
theories/OthersFacts.v
theories/SwitchFacts.v
theories/PropLine.v
theories/SpecListing.v
theories/StoreWalk.v
theories/ListRun.v
theories/ListLine.v
theories/PropListing.v
theories/SpecLayout.v
theories/LayoutFacts.v
theories/LayoutRel.v
theories/LayoutOps.v
theories/LayoutCpu.v
theories/LayoutPseudo.v
theories/LayoutLine.v
theories/LayoutSrc.v
theories/LayoutRun.v
theories/LayoutRef.v
theories/LayoutCheck.v
theories/PropLayout.v
theories/SpecPlace.v
theories/PlaceFacts.v
theories/PlaceEnd.v
theories/PropPlace.v
theories/SpecSheet.v
theories/SheetFacts.v
theories/PropSheet.v
theories/SpecReason.v
theories/ReasonFacts.v
theories/PropReason.v
theories/SpecBlock.v
theories/BlockFacts.v
theories/PropBlock.v
theories/ChosenFacts.v
theories/PropChosen.v
theories/SpecExpand.v
theories/ExpandFacts.v
theories/PropExpand.v
theories/SpecImage.v
theories/ImageFacts.v
theories/PropImage.v
theories/SpecProper.v
theories/ProperFacts.v
theories/PropProper.v
