-Q theories Verif

theories/Base.v
theories/BaseFacts.v
theories/Lexer.v
theories/LexerSpec.v
theories/CoreSpec.v
theories/LexerFacts.v
theories/LexerLaws.v
theories/PropertiesLexer.v
theories/Ast.v
theories/Grammar.v
theories/Parser.v
theories/ParserFacts.v
theories/GrammarSpec.v
theories/GrammarFacts.v
theories/PropertiesGrammar.v
theories/Context.v
theories/ContextSpec.v
theories/ContextFacts.v
theories/ContextLaws.v
theories/PropertiesContext.v
theories/Alias.v
theories/Expand.v
theories/ExpandSpec.v
theories/ExpandFacts.v
theories/ExpandLaws.v
theories/PropertiesExpand.v
theories/Jobs.v
theories/JobsSpec.v
theories/JobsFacts.v
theories/JobsLaws.v
theories/JobsWait.v
theories/JobsPipe.v
theories/JobsReports.v
theories/PropertiesJobs.v
theories/Shell.v
theories/Builtins.v
theories/Eval.v
theories/EvalSpec.v
theories/EvalFacts.v
theories/EvalLaws.v
theories/EvalKeeps.v
theories/EvalStack.v
theories/EvalHistory.v
theories/EvalJobs.v
theories/EvalForked.v
theories/RunSpec.v
theories/RunLaws.v
theories/PropertiesEval.v
theories/PipeSpec.v
theories/PipeLaws.v
theories/ChildLaws.v
theories/PipeRun.v
theories/EvalFds.v
theories/PropertiesPipe.v
theories/PropertiesStatus.v
theories/PropertiesExec.v
theories/PropertiesCrash.v
theories/Main.v
theories/MainSpec.v
theories/MainLaws.v
theories/MainKeeps.v
theories/PropertiesMain.v
theories/PropertiesSession.v
theories/Completion.v
theories/PropertiesCompletion.v
theories/Trap.v
theories/Queue.v
theories/PropertiesTrap.v
theories/Borrow.v
theories/PropertiesBorrow.v
theories/PropertiesBuiltins.v
theories/PropertiesRun.v
theories/PropertiesTyped.v
theories/PropertiesNamespace.v
theories/PropertiesProgram.v
theories/Subst.v
theories/PropertiesSubst.v
theories/Async.v
theories/AsyncLaws.v
theories/AsyncRun.v
theories/PropertiesWait.v
theories/AsyncPipe.v
theories/AsyncDeaf.v
theories/PropertiesAsync.v
theories/SubstSignal.v
theories/PropertiesInterrupt.v
theories/PropertiesFg.v
theories/PropertiesCore.v
theories/CoreExitSpec.v
theories/PropertiesCoreExit.v
theories/CoreFunSpec.v
theories/PropertiesCoreFun.v
theories/PropertiesBgFun.v
theories/PropertiesCoreQuit.v
theories/PropertiesCoreRc.v
theories/PropertiesCoreAsync.v
theories/PropertiesCoreFunAsync.v
theories/PropertiesCoreQuitAsync.v
theories/PropertiesCoreRcAsync.v
theories/PropertiesReuse.v
theories/EvalEnv.v
theories/PropertiesPersist.v
theories/EvalKill.v
theories/PropertiesKill.v
theories/EvalOpens.v
theories/EvalSaved.v
theories/EvalEnds.v
theories/PropertiesFiles.v
theories/PropertiesHistory.v
theories/TextSpec.v
theories/GrammarShape.v
theories/TextLaws.v
theories/PropertiesText.v
theories/Net.v
theories/PropertiesNet.v
theories/PropertiesEnds.v
theories/Groups.v
theories/PropertiesGroup.v
theories/PropertiesBgPipe.v
theories/PropertiesQueue.v
theories/PropertiesHangup.v
theories/EvalPids.v
theories/EvalExact.v
theories/EvalSame.v
theories/CoreJobsSpec.v
theories/PropertiesCoreJobs.v
theories/PropertiesNumber.v
theories/EvalExactAsync.v
theories/PropertiesPids.v
theories/PropertiesOwn.v
