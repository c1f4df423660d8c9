-Q theories Verif
theories/Base.v
theories/Vocab.v
theories/SpecVocab.v
theories/VocabProofs.v
theories/PropertiesVocab.v
theories/Ast.v
theories/Lexer.v
theories/SpecLexer.v
theories/LexerProofs.v
theories/LexerMain.v
theories/PropertiesLexer.v
theories/Grammar.v
theories/Parser.v
theories/SpecGrammar.v
theories/GrammarLemmas.v
theories/FirstProofs.v
theories/FollowProofs.v
theories/TableProofs.v
theories/ParserProofs.v
theories/GrammarMain.v
theories/PropertiesGrammar.v
theories/Orders.v
theories/OrdersProofs.v
theories/PropertiesOrders.v
theories/Walker.v
theories/SpecTree.v
theories/TreeProofs.v
theories/PropertiesTree.v
theories/SerdeAst.v
theories/SpecSerde.v
theories/SerdeProofs.v
theories/PropertiesSerde.v
theories/Drawer.v
theories/SpecDrawer.v
theories/DrawerProofs.v
theories/DrawerExact.v
theories/PropertiesDrawer.v
theories/SpecDisplay.v
theories/DisplayProofs.v
theories/PropertiesDisplay.v
theories/Context.v
theories/Visitors.v
theories/SpecEbnf.v
theories/SpecVisitor.v
theories/Generate.v
theories/VisitorLemmas.v
theories/SymbolProofs.v
theories/ProductionProofs.v
theories/VisitorMain.v
theories/CollectProofs.v
theories/ExampleTree.v
theories/PropertiesVisitors.v
theories/EbnfTree.v
theories/EbnfSymbols.v
theories/EbnfProofs.v
theories/EbnfMain.v
theories/EbnfRefuted.v
theories/PropertiesEbnf.v
theories/Regex.v
theories/LexerInst.v
theories/SpecRegex.v
theories/RegexProofs.v
theories/LexerInstProofs.v
theories/LexerInstMain.v
theories/SpecReads.v
theories/ReadsProofs.v
theories/PropertiesReads.v
theories/SpecAuthor.v
theories/AuthorProofs.v
theories/PropertiesAuthor.v
theories/SpecHand.v
theories/HandProofs.v
theories/PropertiesHand.v
theories/PropertiesLexerInst.v
theories/ShippedJson.v
theories/Main.v
theories/SpecShipped.v
theories/V1Context.v
theories/ShippedProofs.v
theories/ShippedMain.v
theories/BootstrapProofs.v
theories/PropertiesShipped.v
theories/SpecShape.v
theories/ShapeProofs.v
theories/PropertiesShape.v
theories/SpecForest.v
theories/ForestProofs.v
theories/PropertiesForest.v
theories/EntryProofs.v
theories/PropertiesEntry.v
theories/Reentrant.v
theories/SpecReentrant.v
theories/ReentrantProofs.v
theories/PropertiesReentrant.v
theories/Overrides.v
theories/SpecOverrides.v
theories/OverridesProofs.v
theories/PropertiesOverrides.v
theories/TokenDisplay.v
theories/SpecTreeDisplay.v
theories/SpecFormat.v
theories/FormatProofs.v
theories/TreeDisplayProofs.v
theories/PropertiesTreeDisplay.v
theories/SpecLiteral.v
theories/LiteralProofs.v
theories/PropertiesLiteral.v
theories/Page.v
theories/Parser2Html.v
theories/SpecHtml.v
theories/HtmlProofs.v
theories/JsReadProofs.v
theories/SpecPage.v
theories/PageProofs.v
theories/PropertiesPage.v
theories/LexerTera.v
theories/LexerRs.v
theories/SpecRust.v
theories/RustProofs.v
theories/RustExact.v
theories/PropertiesRust.v
theories/JsonText.v
theories/SpecJson.v
theories/JsonProofs.v
theories/ShippedText.v
theories/JsonTrees.v
theories/PropertiesJson.v
theories/Accept.v
theories/AcceptProofs.v
theories/PropertiesAccept.v
theories/SpecBounds.v
theories/BoundsProofs.v
theories/PropertiesBounds.v
theories/SpecRecursion.v
theories/RecursionProofs.v
theories/PropertiesRecursion.v
theories/ColumnProofs.v
theories/PropertiesColumns.v
theories/SpecMismatch.v
theories/MismatchProofs.v
theories/PropertiesMismatch.v
theories/Recorded.v
theories/RecordedJson.v
theories/SpecRecorded.v
theories/ConflictProofs.v
theories/RecordedProofs.v
theories/PropertiesRecorded.v
theories/SpecSource.v
theories/EbnfLookup.v
theories/SourceProofs.v
theories/SpellProofs.v
theories/PropertiesSource.v
theories/SpecUtf8.v
theories/Utf8Proofs.v
theories/PropertiesUtf8.v
theories/View.v
theories/SpecView.v
theories/ViewProofs.v
theories/ViewPanes.v
theories/ViewRun.v
theories/ViewMain.v
theories/ViewLabels.v
theories/PropertiesView.v
theories/SpecClash.v
theories/EbnfClash.v
theories/EbnfClashMain.v
theories/PropertiesClash.v
theories/Foo.v
theories/SpecFoo.v
theories/FooProofs.v
theories/PropertiesFoo.v
theories/SpecNames.v
theories/NamesProofs.v
theories/PropertiesNames.v
theories/Files.v
theories/SpecFiles.v
theories/FilesProofs.v
theories/PropertiesFiles.v
theories/Output.v
theories/SpecOutput.v
theories/OutputProofs.v
theories/OutputMain.v
theories/PropertiesOutput.v
theories/SpecRewrite.v
theories/RewriteProofs.v
theories/SameProofs.v
theories/SameMain.v
theories/PropertiesRewrite.v
theories/SpecReport.v
theories/ReportProofs.v
theories/PropertiesReport.v
theories/Chain.v
theories/SpecChain.v
theories/ChainProofs.v
theories/ChainMain.v
theories/SpecEarliest.v
theories/GroupsProofs.v
theories/EarliestProofs.v
theories/ChainText.v
theories/ChainEvery.v
theories/ChainEarliest.v
theories/PropertiesEarliest.v
theories/PropertiesChain.v
theories/Crash.v
theories/SpecCrash.v
theories/CrashProofs.v
theories/ChainCrash.v
theories/MainCrash.v
theories/MainCrashExample.v
theories/PropertiesCrash.v
theories/SpecAny.v
theories/ReadsAll.v
theories/ChainAny.v
theories/PropertiesAny.v
theories/ChainNames.v
theories/PropertiesChainNames.v
theories/Program.v
theories/SpecProgram.v
theories/ProgramProofs.v
theories/ProgramMain.v
theories/PropertiesProgram.v
theories/ProgramOrders.v
theories/ProgramOrdersProofs.v
theories/PropertiesProgramOrders.v
theories/Cost.v
theories/CostProofs.v
theories/PropertiesCost.v
theories/Session.v
theories/SpecSession.v
theories/SessionProofs.v
theories/PropertiesSession.v
theories/SameLines.v
theories/PropertiesLines.v
theories/SpecReorder.v
theories/ReorderProofs.v
theories/PropertiesReorder.v
theories/SpecShapeOnly.v
theories/ShapeOnlyProofs.v
theories/PropertiesShapeOnly.v
theories/SpecRename.v
theories/RenameProofs.v
theories/RenameChain.v
theories/PropertiesRename.v
theories/SpecMixed.v
theories/MixedProofs.v
theories/MixedMain.v
theories/PropertiesMixed.v
theories/SpecGrow.v
theories/GrowProofs.v
theories/GrowMain.v
theories/PropertiesGrow.v
theories/SpecShuffle.v
theories/ShuffleProofs.v
theories/ShuffleMain.v
theories/PropertiesShuffle.v
theories/SpecMore.v
theories/MoreProofs.v
theories/MoreMain.v
theories/PropertiesMore.v
theories/SpecTokens.v
theories/TokensProofs.v
theories/TokensMain.v
theories/PropertiesTokens.v
theories/SpecUnused.v
theories/UnusedProofs.v
theories/UnusedMain.v
theories/PropertiesUnused.v
theories/SpecNamed.v
theories/NamedProofs.v
theories/NamedMain.v
theories/PropertiesNamed.v
