-Q theories Verif
theories/Base.v
theories/Deque.v
theories/DequeSpec.v
theories/DequeProofs.v
theories/PropertiesDeque.v
theories/PrioQ.v
theories/PrioQProofs.v
theories/Recognizer.v
theories/PubHistory.v
theories/PubHistoryProofs.v
theories/PropertiesPublisher.v
theories/RuneWrite.v
theories/Segmenter.v
theories/SimpleWord.v
theories/SegSim.v
theories/SegSpec.v
theories/SegProofs.v
theories/SegInv.v
theories/SegNext.v
theories/SegCut.v
theories/SegFacade.v
theories/SimpleWordProofs.v
theories/SegTheorems.v
theories/SegCor.v
theories/SegBlank.v
theories/PropertiesSegmenter.v
theories/Grapheme.v
theories/GraphemeSpec.v
theories/BreakSpec.v
theories/BreakSpecProofs.v
theories/BreakFacade.v
theories/GraphemeProofs.v
theories/GraphemeCor.v
theories/PropertiesGrapheme.v
theories/Words.v
theories/WordSpec.v
theories/Bag.v
theories/SegWeak.v
theories/Rows.v
theories/WordProofs.v
theories/WordVerdict.v
theories/WordCor.v
theories/PropertiesWords.v
theories/Ucd.v
theories/UcdProofs.v
theories/PropertiesUcd.v
theories/Utf8.v
theories/Utf8Proofs.v
theories/GString.v
theories/GStringProofs.v
theories/LongCluster.v
theories/Width.v
theories/WidthProofs.v
theories/WidthSpec.v
theories/PropertiesStrings.v
theories/Scrap.v
theories/Brackets.v
theories/Bd16Spec.v
theories/BracketProofs.v
theories/PropertiesBrackets.v
theories/Trie.v
theories/Rules.v
theories/RuleProofs.v
theories/PropertiesRules.v
theories/Reorder.v
theories/ReorderSpec.v
theories/ReorderProofs.v
theories/SplitProofs.v
theories/IterProofs.v
theories/PropertiesReorder.v
theories/Scanner.v
theories/ScannerProofs.v
theories/TextScan.v
theories/PropertiesScanner.v
theories/Resolver.v
theories/RepoTests.v
theories/ResolverProofs.v
theories/ResolverFlat.v
theories/ResolverNested.v
theories/ResolverText.v
theories/Uax9Spec.v
theories/Uax9Proofs.v
theories/Uax9Rewrite.v
theories/Uax9Resolve.v
theories/Uax9Text.v
theories/NestedText.v
theories/ScanContext.v
theories/BracketText.v
theories/Uax9N0Spec.v
theories/Uax9Brackets.v
theories/Uax9BracketText.v
theories/ResolverFuel.v
theories/ResolverRefuted.v
theories/PropertiesResolver.v
theories/RuleSpec.v
theories/RuleSpecProofs.v
theories/PropertiesUax9.v
theories/PropertiesNested.v
theories/PropertiesContext.v
theories/PropertiesUax9N0.v
theories/PropertiesActions.v
theories/Pipe.v
theories/PipeProofs.v
theories/PropertiesPipe.v
theories/SegEager.v
theories/Line.v
theories/LineSum.v
theories/LineVerdict.v
theories/LineSpec.v
theories/LineCor.v
theories/LineAgree.v
theories/LineTests.v
theories/PropertiesLine.v
theories/LineBuf.v
theories/UcdSpec.v
theories/LineBufProofs.v
theories/UcdParse.v
theories/UcdParseProofs.v
theories/UcdItemProofs.v
theories/UcdFileProofs.v
theories/UcdFailProofs.v
theories/UcdGenProofs.v
theories/UcdTests.v
theories/PropertiesUcdParse.v
theories/ClassTables.v
theories/Classes.v
theories/ClassProofs.v
theories/ClusterWords.v
theories/ClassCor.v
theories/GraphemeTests.v
theories/WordTests.v
theories/PropertiesClasses.v
theories/Generator.v
theories/GoSource.v
theories/GeneratorProofs.v
theories/GeneratorFileProofs.v
theories/GeneratorRepo.v
theories/PropertiesGenerator.v
theories/TrieProofs.v
theories/TrieSteps.v
theories/TrieMove.v
theories/TrieWords.v
theories/PropertiesTrie.v
theories/RangeTable.v
theories/RangeTableProofs.v
theories/ShapingRepo.v
theories/PropertiesShaping.v
theories/PropertiesPrimes.v
theories/Options.v
theories/OptionsProofs.v
theories/Show.v
theories/ShowProofs.v
theories/WidthContext.v
theories/PropertiesOptions.v
theories/MarkupSpec.v
theories/MarkupProofs.v
theories/PropertiesMarkup.v
theories/Uax9IsoSpec.v
theories/Uax9IsoResolve.v
theories/Uax9IsoText.v
theories/PropertiesIso.v
theories/BufferSpec.v
theories/LinePenalty.v
theories/PropertiesBuffer.v
theories/NestedRunsSpec.v
theories/NestedRuns.v
theories/NestedL2.v
theories/NestedLength.v
theories/ResolvedRuns.v
theories/PropertiesRuns.v
theories/Resume.v
theories/ResumeGrapheme.v
theories/ResumeWords.v
theories/ResumeLine.v
theories/PropertiesResume.v
theories/Shared.v
theories/SharedProofs.v
theories/SharedMixed.v
theories/PropertiesShared.v
theories/SequenceSpec.v
theories/SequenceProofs.v
theories/PropertiesSequence.v
theories/Append.v
theories/PropertiesAppend.v
theories/Causal.v
theories/PropertiesCausal.v
theories/Isolates.v
theories/IsolateText.v
theories/PropertiesIsolate.v
theories/SegText.v
theories/SegTextProofs.v
theories/PropertiesSegText.v
theories/SegBusy.v
theories/PropertiesSegBuffer.v
theories/SegBound.v
theories/PropertiesSegBound.v
theories/DirectionProofs.v
theories/PropertiesDirection.v
theories/InPlace.v
theories/InPlaceProofs.v
theories/IterHistory.v
theories/PropertiesInPlace.v
theories/BracketExact.v
theories/PropertiesBracketExact.v
theories/GoTables.v
theories/GoTablesProofs.v
theories/TableExact.v
theories/PropertiesTables.v
theories/Ahead.v
theories/AheadBreakers.v
theories/AheadWords.v
theories/AheadLines.v
theories/PropertiesAhead.v
theories/TestFileExact.v
theories/TestFileWords.v
theories/PropertiesTestFile.v
theories/TrieLive.v
theories/PropertiesTrieLive.v
theories/LineBufLong.v
theories/UcdExact.v
theories/UcdExactGen.v
theories/PropertiesUcdExact.v
theories/GStringExact.v
theories/PropertiesStringsExact.v
theories/Setup.v
theories/SetupProofs.v
theories/SetupMain.v
theories/PropertiesSetup.v
theories/Pool.v
theories/PoolProofs.v
theories/PoolMain.v
theories/PoolKeep.v
theories/PoolRace.v
theories/PoolBreakers.v
theories/PoolBreakersProofs.v
theories/PropertiesPool.v
theories/Active.v
theories/ActiveProofs.v
theories/PropertiesActive.v
theories/AnyBreaker.v
theories/SegPair.v
theories/SegLate.v
theories/LineSettled.v
theories/PairSpec.v
theories/SimplePair.v
theories/PairProofs.v
theories/PropertiesPair.v
theories/SegPens.v
theories/LineMustSpec.v
theories/LineMust.v
theories/PropertiesLineMust.v
theories/GraphemeMust.v
theories/PropertiesGraphemeMust.v
theories/SegFirst.v
theories/WordMust.v
theories/PropertiesWordMust.v
theories/SegOnline.v
theories/PropertiesOnline.v
