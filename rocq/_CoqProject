-Q theories Verif
theories/Base.v
theories/Helpers.v
theories/HelpersSpec.v
theories/HelpersProofs.v
theories/Props_Helpers.v
theories/Utf8.v
theories/Utf8Spec.v
theories/Utf8Proofs.v
theories/Stream.v
theories/StreamSpec.v
theories/StreamRun.v
theories/StreamProofs.v
theories/Props_Stream.v
theories/Native.v
theories/NativeSpec.v
theories/NativeProofs.v
theories/Props_Native.v
theories/Engine.v
theories/EngSpec.v
theories/EngInv.v
theories/EngMon.v
theories/Toy.v
theories/Peg.v
theories/PegProofs.v
theories/PegRep.v
theories/PegInv.v
theories/PegBody.v
theories/PegCases.v
theories/PegRules.v
theories/PegGrow.v
theories/PegMain.v
theories/PegStd.v
theories/PegStdProofs.v
theories/FinishProofs.v
theories/Report.v
theories/Fuel.v
theories/RunSpec.v
theories/PegRun.v
theories/PegLaws.v
theories/IndirectSpec.v
theories/Indirect.v
theories/Props_Peg.v
theories/CombSpec.v
theories/CombProofs.v
theories/TermSpec.v
theories/Term.v
theories/ShapeSpec.v
theories/ShapeProofs.v
theories/Props_Comb.v
theories/Pre.v
theories/LogSpec.v
theories/LogProofs.v
theories/Stages.v
theories/Origin.v
theories/Linear.v
theories/SkipSpec.v
theories/Skip.v
theories/Props_Log.v
theories/KeepSpec.v
theories/Keep.v
theories/Props_Keep.v
theories/SimSpec.v
theories/Sim.v
theories/SimTop.v
theories/Props_Sim.v
theories/Trace.v
theories/TraceSpec.v
theories/TraceProofs.v
theories/Props_Trace.v
theories/Access.v
theories/AccessProofs.v
theories/Props_Access.v
theories/Build.v
theories/BuildSpec.v
theories/BuildWalk.v
theories/BuildLines.v
theories/BuildMono.v
theories/BuildPrep.v
theories/BuildProofs.v
theories/BuildMain.v
theories/BuildRef.v
theories/MeansSpec.v
theories/MeansBuild.v
theories/Means.v
theories/MeansLaws.v
theories/MeansRun.v
theories/Props_Means.v
theories/JoinSpec.v
theories/Joins.v
theories/Props_Joins.v
theories/BuildOpts.v
theories/Erase.v
theories/Joeson.v
theories/JoesonSpec.v
theories/JoesonRun.v
theories/JoesonMark.v
theories/TextSpec.v
theories/Props_Joeson.v
theories/Calc.v
theories/CalcRun.v
theories/Props_Build.v
theories/CalcSpec.v
theories/CalcPeg.v
theories/Brave.v
theories/CalcMain.v
theories/Props_Calc.v
theories/Gives.v
theories/TextNodes.v
theories/TextPrim.v
theories/TextHeads.v
theories/TextMain.v
theories/TextRun.v
theories/PrintSpec.v
theories/PrintProofs.v
theories/Props_Text.v
theories/Moss.v
theories/MossRun.v
theories/MossSpec.v
theories/MossPeg.v
theories/MossRank.v
theories/MossRight.v
theories/MossLevels.v
theories/MossDeep.v
theories/Props_Moss.v
theories/Lisp.v
theories/LispSpec.v
theories/LispProofs.v
theories/Props_Lisp.v
theories/LispRead.v
theories/LispReadRun.v
theories/LispReadSpec.v
theories/LispReadPeg.v
theories/LispReadText.v
theories/LispReadMain.v
theories/LispReadTop.v
theories/LispReadWhole.v
theories/LispRepl.v
theories/LispReplSpec.v
theories/LispReplProofs.v
theories/Props_LispRead.v
theories/Props_Engine.v
theories/CalcAllSpec.v
theories/CalcAll.v
theories/Print.v
theories/ShownSpec.v
theories/ShownProofs.v
theories/WfSpec.v
theories/Wf.v
theories/Total.v
theories/WfCheck.v
theories/WfGrams.v
theories/Props_Wf.v
theories/Props_Print.v
theories/Color.v
theories/Readers.v
theories/ColorRun.v
theories/Games.v
theories/GamesRun.v
theories/GamesSpec.v
theories/ColorSpec.v
theories/ColorPeg.v
theories/ColorMain.v
theories/GamesPeg.v
theories/GamesMain.v
theories/Greeting.v
theories/GreetingRun.v
theories/GreetingSpec.v
theories/GreetingMain.v
theories/ReadmeGames.v
theories/ReadmeGamesRun.v
theories/ReadmeGamesSpec.v
theories/ReadmeGamesPeg.v
theories/ReadmeGamesMain.v
theories/GoTokens.v
theories/GoTokensSpec.v
theories/GoTokensProofs.v
theories/Props_Examples.v
theories/Props_GoTokens.v
theories/Props_Readme.v
theories/LookSpec.v
theories/LookMain.v
theories/LookOpen.v
theories/CallMain.v
theories/PipeSpec.v
theories/PipeMain.v
theories/Props_Look.v
theories/Ansi.v
theories/AnsiSpec.v
theories/AnsiProofs.v
theories/AnsiExact.v
theories/ErrMsg.v
theories/ErrMsgSpec.v
theories/ErrMsgProofs.v
theories/LispPrint.v
theories/LispPrintSpec.v
theories/LispPrintProofs.v
theories/Props_Shape.v
theories/Props_Ansi.v
theories/Props_ErrMsg.v
theories/IndirectGram.v
theories/IndirectMain.v
theories/Props_Indirect.v
theories/Replay.v
theories/ReplayGram.v
theories/Small.v
theories/SmallSpec.v
theories/SmallProofs.v
theories/Props_Small.v
theories/StreamExact.v
theories/Props_Exact.v
theories/Life.v
theories/Again.v
theories/Props_Again.v
theories/BuildsSpec.v
theories/Builds.v
theories/BuildFuel.v
theories/RewriteSpec.v
theories/Rewrite.v
theories/Props_Builds.v
theories/Props_Rewrite.v
theories/ReadsSpec.v
theories/Reads.v
theories/Props_Reads.v
theories/RenameSpec.v
theories/Rename.v
theories/Props_Rename.v
theories/UnusedSpec.v
theories/Unused.v
theories/Props_Unused.v
theories/Inline.v
theories/Props_Inline.v
theories/TwinSpec.v
theories/Twin.v
theories/TwinLines.v
theories/Props_Twin.v
theories/Props_TwinLines.v
theories/LineText.v
theories/LineTextSpec.v
theories/LineTextProofs.v
theories/Props_LineText.v
theories/RenumSpec.v
theories/Renum.v
theories/RenumCheck.v
theories/Props_Renum.v
theories/RenumLinesSpec.v
theories/RenumLines.v
theories/Props_RenumLines.v
