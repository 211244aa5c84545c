-Q theories Verif
theories/PyStr.v
theories/PyStrFacts.v
theories/Names.v
theories/NamesSpec.v
theories/NamesProofs.v
theories/PropsNames.v
theories/ImportInfo.v
theories/ImportInfoProofs.v
theories/AstScan.v
theories/AstSpec.v
theories/AstProofs.v
theories/PropsAst.v
theories/Bytecode.v
theories/BytecodeSpec.v
theories/BytecodeProofs.v
theories/BytecodeChunks.v
theories/BytecodeTree.v
theories/PropsBytecode.v
theories/Callbacks.v
theories/PropsCallbacks.v
theories/Dists.v
theories/DistsProofs.v
theories/DistsGen.v
theories/PropsDists.v
theories/DataFiles.v
theories/PropsDataFiles.v
theories/Graph.v
theories/Machine.v
theories/SpecNode.v
theories/Builder.v
theories/BuilderSpec.v
theories/BuilderNames.v
theories/BuilderSteps.v
theories/BuilderChain.v
theories/BuilderWp.v
theories/BuilderPass.v
theories/BuilderClose.v
theories/ReachSpec.v
theories/BuilderReach.v
theories/BuilderHist.v
theories/BuilderInv.v
theories/BuilderWhy.v
theories/BuilderOrder.v
theories/BuilderKinds.v
theories/BuilderCalls.v
theories/BuilderFuel.v
theories/BuilderAbsent.v
theories/BuilderKeep.v
theories/BuilderPackage.v
theories/BuiltinHooks.v
theories/World.v
theories/EndSpec.v
theories/BuilderEnd.v
theories/BuilderEndCalls.v
theories/BuilderHooks.v
theories/SourceSpec.v
theories/BuilderSource.v
theories/PropsBuilder.v
theories/PropsNodes.v
theories/PropsCalls.v
theories/PropsImports.v
theories/PropsAbsent.v
theories/PropsPackage.v
theories/PropsSpec.v
theories/PropsHooks.v
theories/PropsRoots.v
theories/PropsSwig.v
theories/PropsEnd.v
theories/PropsHookRuns.v
theories/PropsSource.v
theories/PropsReach.v
theories/Report.v
theories/ReportSpec.v
theories/HtmlSpec.v
theories/ReportProofs.v
theories/PropsReport.v
theories/PropsHtml.v
theories/Cli.v
theories/PropsCli.v
theories/SameSpec.v
theories/BuilderSame.v
theories/PropsSame.v
theories/ModulesSpec.v
theories/BuilderModules.v
theories/PropsModules.v
theories/PropsRaise.v
theories/AttrSpec.v
theories/BuilderAttr.v
theories/PropsAttr.v
theories/CompileSpec.v
theories/CompileProofs.v
theories/PropsCompile.v
theories/NodeAttrs.v
theories/RunSpec.v
theories/PropsRun.v
theories/StarSpec.v
theories/BuilderStar.v
theories/PropsStar.v
theories/LoadSpec.v
theories/PropsLoad.v
theories/NeedSpec.v
theories/PropsNeed.v
theories/MovesSpec.v
theories/BuilderOrigin.v
theories/PropsMoves.v
theories/TextSpec.v
theories/PropsText.v
theories/FineSpec.v
theories/BuilderFine.v
theories/PropsFine.v
theories/PropsStart.v
theories/ErrSpec.v
theories/BuilderErr.v
theories/PropsErr.v
theories/ExcludeSpec.v
theories/PropsExclude.v
theories/DepthSpec.v
theories/BuilderDepth.v
theories/PropsDepth.v
theories/SeedSpec.v
theories/PropsSeed.v
theories/PropsRepeat.v
theories/PropsRefuse.v
theories/ImplySpec.v
theories/PropsImply.v
theories/IdleSpec.v
theories/BuilderIdle.v
theories/PropsIdle.v
theories/OtherSpec.v
theories/BuilderOther.v
theories/PropsOther.v
theories/NextSpec.v
theories/BuilderNext.v
theories/PropsNext.v
theories/RestSpec.v
theories/BuilderRest.v
theories/PropsRest.v
theories/PropsDefault.v
theories/UnionSpec.v
theories/PropsUnion.v
theories/MoreSpec.v
theories/PropsMore.v
theories/PropsMoreDefault.v
theories/InstallSpec.v
theories/PropsInstall.v
theories/PropsInstallDefault.v
theories/MustSpec.v
theories/PropsMust.v
theories/PropsMustDefault.v
theories/WithinSpec.v
theories/PropsWithin.v
theories/BundleSpec.v
theories/PropsBundle.v
theories/LeaveSpec.v
theories/PropsLeave.v
theories/UsedSpec.v
theories/PropsUsed.v
theories/ShownSpec.v
theories/PropsShown.v
theories/AlwaysSpec.v
theories/PropsAlways.v
theories/FaceSpec.v
theories/PropsFace.v
theories/PropsTold.v
theories/TakeSpec.v
theories/PropsTake.v
theories/NamedSpec.v
theories/PropsNamed.v
