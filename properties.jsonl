{"id": "C01", "title": "Look-ahead buffer is a lossless double-ended queue", "statement": "Whatever sequence of push/pop at front/back, indexed read, indexed write, rotate, clear and length queries the segmenter performs on its look-ahead buffer, every result is the one an ideal unbounded sequence would give; nothing is lost, duplicated or reordered when the ring grows, wraps or shrinks. Reading or popping an empty buffer, or an index outside [0,len), panics and nothing else does.", "quantifier": "every finite sequence of queue operations from the empty queue, every element value, every length", "why_tests_cant": "growth, wrap-around and shrink interact with the head/tail position; there are unboundedly many op histories and each table size multiplies the alignments", "anchors": ["segment/deque.go: PushBack, PushFront, PopFront, PopBack, At, SetAt, AtomAt, LastRune, Rotate, Clear, resize"]}
{"id": "C02", "title": "Segments tile the input in order", "statement": "For any breakers, the code points of the successive segments delivered by Next(), concatenated in order, are a prefix of the code points read from the input: nothing is skipped, duplicated, reordered or invented between two delivered segments.", "quantifier": "every rune sequence, every set of breakers (any class function, any penalties, any look-ahead), any number of Next() calls", "why_tests_cant": "breakers and look-ahead are client supplied; the space of penalty patterns and texts is infinite", "anchors": ["segment/segment.go: Next, next, readEnoughInputAndFindBreak, getFrontSegment, findBreakOpportunity"]}
{"id": "C03", "title": "No text is lost at the end of input", "statement": "If the primary breaker marks end-of-text as a feasible break (as all breakers of this module do), the segments delivered until Next() returns false concatenate to the whole input.", "quantifier": "every input and every breaker state with a feasible break after the last code point", "why_tests_cant": "depends on how look-ahead, end-of-text marker and pending break position interact for every text length", "anchors": ["segment/segment.go: next, readRune, getFrontSegment"]}
{"id": "C04", "title": "Segments are never empty and never contain the end marker", "statement": "Every segment delivered by Next() contains at least one code point, and every code point in it was read from the input (the internal end-of-text marker is never delivered).", "quantifier": "every input, every breaker whose penalties at the end-of-text position are not negative enough to cancel the marker's infinite penalty, every number of calls", "why_tests_cant": "must hold for all histories of the look-ahead buffer", "anchors": ["segment/segment.go: getFrontSegment, isPossibleBreak, eotAtom"]}
{"id": "C05", "title": "A break is placed exactly where the accumulated penalty permits one", "statement": "For breakers that never add a penalty further back than their announced longest active match, Next() splits the text after code point i exactly when the sum of all penalties the breakers assigned to that position is a possible break (below the infinite penalty and, unless break-on-zero is set, not zero), and Penalties() reports exactly these sums.", "quantifier": "every text, every conforming breaker pair, every setting of BreakOnZero", "why_tests_cant": "penalties arrive late and out of phase with the buffer; correctness depends on every interleaving of look-ahead lengths", "anchors": ["segment/segment.go: insertPenalties, findBreakOpportunity, isPossibleBreak, Penalties, BreakOnZero"]}
{"id": "C06", "title": "Primary and secondary breakers do not interfere", "statement": "Adding a secondary breaker never removes or moves a break of the primary one; the primary penalty reported at a break is the same with and without secondary breakers.", "quantifier": "every text, every pair of breakers", "why_tests_cant": "quantifies over pairs of arbitrary breakers", "anchors": ["segment/segment.go: readEnoughInputAndFindBreak, insertPenalties"]}
{"id": "C07", "title": "A bounded segment search never exceeds its bound", "statement": "BoundedNext(bound) never delivers a segment that ends beyond the bound; if no break opportunity lies within the bound it returns false and Err() reports the bound.", "quantifier": "every text, every bound, every breaker", "why_tests_cant": "off-by-one and byte/rune confusion appear only for particular positions of the bound relative to look-ahead and multi-byte text", "anchors": ["segment/segment.go: BoundedNext, next, findBreakOpportunity, ErrBoundReached"]}
{"id": "C08", "title": "Using an uninitialised segmenter is reported as an error", "statement": "Calling Next() on a segmenter that has not been initialised with input returns false and Err() yields ErrNotInitialized.", "quantifier": "every uninitialised segmenter, every set of breakers", "why_tests_cant": "it is the documented contract of the error value; the test-suite never calls it", "anchors": ["segment/segment.go: ErrNotInitialized, Next, next"]}
{"id": "C09", "title": "Re-initialising a segmenter starts a fresh run", "statement": "After Init the segmenter behaves as a newly created one: no pending input, no break position and no error of an earlier text influence it.", "quantifier": "every history of earlier Init/Next/BoundedNext calls", "why_tests_cant": "histories are unbounded; leftovers show only after specific earlier texts", "anchors": ["segment/segment.go: Init, InitFromSlice, init, Err, setErr"]}
{"id": "C10", "title": "Reader and slice input give the same segmentation", "statement": "For the same code points Init(reader) and InitFromSlice(runes) yield the same sequence of segments and penalties.", "quantifier": "every rune sequence and every breaker", "why_tests_cant": "the two output paths (copying vs. slicing) diverge only for long segments", "anchors": ["segment/segment.go: Init, InitFromSlice, runewrite.WriteRune, runewrite.Bytes, runewrite.SetMark"]}
{"id": "C11", "title": "Long segments are either complete or reported as an error", "statement": "A segment longer than the maximum segment length is reported through Err() (ErrTooLong); a segment is never silently cut.", "quantifier": "every segment length, every buffer handed to RuneBuffer", "why_tests_cant": "needs segments longer than every internal buffer; no test has one", "anchors": ["segment/segment.go: RuneBuffer, MaxSegmentSize, startBufSize, ErrTooLong, runewrite.WriteRune"]}
{"id": "C12", "title": "Simple word breaker yields maximal runs", "statement": "With the simple word breaker, the segments of a text are exactly its maximal runs of white space and of non-white-space, in order; the penalty reported after a word is +100 and after white space -100.", "quantifier": "every text without NUL characters", "why_tests_cant": "all alternations, run lengths and end conditions", "anchors": ["segment/simplewordbreak.go: SimpleWordBreaker"]}
{"id": "C13", "title": "Every subscriber sees every rune exactly once", "statement": "PublishRuneEvent delivers the rune event exactly once to each subscribed recogniser, whatever order they were subscribed in and whichever of them finish on this event; the internal queue check never panics.", "quantifier": "every publisher content, every behaviour of the subscribers, every rune", "why_tests_cant": "finishing subscribers are moved within the queue during iteration; every subset of finishing subscribers is a different swap pattern", "anchors": ["automata.go: PublishRuneEvent, SubscribeMe", "prioq.go: Push, Fix, PopDone, bubbleUp, bubbleDown"]}
{"id": "C14", "title": "Finished subscribers are released exactly once, unfinished ones are kept", "statement": "After PublishRuneEvent no finished subscriber is left in the publisher, each finished one was told Unsubscribed() exactly once, and all others remain subscribed with their state.", "quantifier": "every publisher content and subscriber behaviour", "why_tests_cant": "same swap patterns; also lengthwise unbounded", "anchors": ["automata.go: PublishRuneEvent", "prioq.go: PopDone, Pop, Fix"]}
{"id": "C15", "title": "Aggregated penalties are the position-wise sum and independent of order", "statement": "The penalties returned by PublishRuneEvent are, at every look-back distance, the sum of the penalties contributed by the individual recognisers, and the first result is the longest match length of those still active; both are independent of the subscription order.", "quantifier": "every multiset of subscribers and penalties", "why_tests_cant": "order of iteration changes with queue swaps", "anchors": ["automata.go: PublishRuneEvent, SetPenaltyAggregator"]}
{"id": "C16", "title": "Publisher queue keeps active subscribers in front of finished ones", "statement": "Whatever Push, Pop, PopDone and Fix calls are made (Fix being called after a subscriber changed its state), the queue keeps the same subscribers, all unfinished before all finished; PopDone returns a finished subscriber if there is one and nil otherwise.", "quantifier": "every sequence of queue operations and of state changes", "why_tests_cant": "op histories are unbounded", "anchors": ["prioq.go: DefaultRunePublisher, Push, Pop, PopDone, Fix, Len, Top"]}
{"id": "C17", "title": "A recogniser contributes penalties exactly once, on acceptance", "statement": "A recogniser returns penalties only for the rune on which it accepts; an aborted recogniser contributes nothing, and a finished recogniser does not react to further runes.", "quantifier": "every rule (state function), every rune sequence", "why_tests_cant": "rules are arbitrary functions", "anchors": ["automata.go: Recognizer, RuneEvent, DoAccept, DoAbort, NewPooledRecognizer, Unsubscribed"]}
{"id": "C18", "title": "Grapheme breaking follows UAX#29 extended grapheme cluster rules", "statement": "For every text, the segmenter with the grapheme breaker places a boundary between two code points exactly where rules GB3-GB5, GB6-GB8, GB9, GB9a, GB11, GB12/GB13 and GB999 of UAX#29 demand one (all rules except GB9b).", "quantifier": "every sequence of code-point classes without NUL and without Prepend characters", "why_tests_cant": "the conformance test file has 672 lines of at most a handful of code points; rule interaction is unbounded (RI parity, Extend* runs)", "anchors": ["grapheme/grapheme.go: Breaker, rule_*", "segment/segment.go: Next"]}
{"id": "C19", "title": "No break after a Prepend character (GB9b)", "statement": "The grapheme breaker does not break between a Prepend character and the following non-control character.", "quantifier": "every text containing a Prepend character", "why_tests_cant": "the repository's own test accepts up to 11 failing cases without saying which", "anchors": ["grapheme/grapheme.go: rule_GB9b, setPenalty1, GlueJOIN, penalty999"]}
{"id": "C20", "title": "Regional indicators pair up from the left", "statement": "In any run of regional-indicator characters the grapheme and the word breaker break after every second one and nowhere else inside the run.", "quantifier": "every run length and any context", "why_tests_cant": "parity must hold for unbounded runs", "anchors": ["grapheme/grapheme.go: rule_GB12, rule_GB12Cont, block, unblock", "uax29/uax29.go: rule_WB15, blockedRI"]}
{"id": "C21", "title": "grapheme.String indexes the text losslessly", "statement": "For a grapheme string g built from a valid UTF-8 text s within the size limit, Len() is the number of grapheme clusters, Nth(0)...Nth(Len-1) are the clusters in order and concatenate to s; Nth never reads out of range for indices in [0,Len).", "quantifier": "every valid UTF-8 text up to the documented maximum byte length", "why_tests_cant": "8-bit and 16-bit break tables switch at a length threshold and could overflow only near it", "anchors": ["grapheme/string.go: StringFromString, StringFromBytes, Nth, Len, shortString, midString"]}
{"id": "C22", "title": "Grapheme strings can be built from any byte sequence", "statement": "StringFromString and StringFromBytes terminate without panicking for every input up to the documented maximum length, returning a string of length 0 if the input has no legal code point.", "quantifier": "every byte sequence", "why_tests_cant": "ill-formed UTF-8 and the empty string are not in the tests", "anchors": ["grapheme/string.go: StringFromString, StringFromBytes, prepareBreaking", "uax.go: PositionOfFirstLegalRune"]}
{"id": "C23", "title": "First legal rune is located", "statement": "PositionOfFirstLegalRune returns the byte position of the first legal rune of a string together with the skipped prefix, or -1 if there is none.", "quantifier": "every byte string", "why_tests_cant": "byte strings are unbounded; ill-formed prefixes are not tested", "anchors": ["uax.go: PositionOfFirstLegalRune"]}
{"id": "C24", "title": "Word breaking follows UAX#29 word boundary rules", "statement": "For every text, the segmenter with the word breaker places a boundary between two code points exactly where rules WB3-WB16 and WB999 of UAX#29 (as listed in the source) demand one.", "quantifier": "every sequence of code-point classes without NUL", "why_tests_cant": "Format/Extend/ZWJ may be interspersed without bound; the test file has finitely many lines", "anchors": ["uax29/uax29.go: WordBreaker, rule_*, ProceedWithRune, StartRulesFor"]}
{"id": "C25", "title": "Line wrapping respects mandatory breaks", "statement": "With the line-wrap breaker a break is always delivered after a hard line break (BK, LF, NL, or CR not followed by LF) and never between CR and LF nor before a hard line break character (LB4-LB6).", "quantifier": "every sequence of line-breaking classes without NUL", "why_tests_cant": "all contexts left and right of the line end", "anchors": ["uax14/uax14.go: LineWrap", "uax14/rules.go: rule_05_NewLine, rule_06_HardBreak"]}
{"id": "C26", "title": "Line wrapping never breaks before spaces or inside combining sequences", "statement": "With the line-wrap breaker there is never a break opportunity before a space or zero-width space (LB7) nor between a base character and a following combining mark or ZWJ (LB9).", "quantifier": "every sequence of line-breaking classes without NUL", "why_tests_cant": "the combining sequence may be arbitrarily long", "anchors": ["uax14/uax14.go: ProceedWithRune, resolveSomeClasses, substitueSomeClasses", "uax14/rules.go: rule_LB7, rule_LB9"]}
{"id": "C27", "title": "Display width is additive over grapheme clusters", "statement": "Width of a grapheme is 0, 1 or 2, and StringWidth is the sum of the widths of the grapheme clusters of the string: it is additive over concatenation of grapheme strings.", "quantifier": "every grapheme string and every context", "why_tests_cant": "strings are unbounded", "anchors": ["uax11/width.go: Width, StringWidth, Context"]}
{"id": "C28", "title": "Bracket pairing conforms to BD16", "statement": "The bracket pairs recorded while scanning an isolating run sequence are exactly the pairs identified by definition BD16 of UAX#9, and a bracket is found in exactly the pairs it belongs to.", "quantifier": "every sequence of opening and closing brackets", "why_tests_cant": "nesting and crossing patterns are unbounded; overflow needs more than 63 open brackets", "anchors": ["bidi/brackets.go: pushOpening, findPair, popWith, FindBracketPairing, BD16MaxNesting"]}
{"id": "C29", "title": "The rule dictionary finds exactly the rules that were stored", "statement": "After the Bidi rules have been stored in the prefix trie and it has been frozen, looking up a sequence of Bidi classes finds a rule exactly if the sequence is the left-hand side of a rule, and finds that rule.", "quantifier": "every sequence of Bidi classes", "why_tests_cant": "hash positions collide and families are relocated while inserting; a wrong relocation loses an earlier entry", "anchors": ["bidi/trie/hashtrie.go: TinyHashTrie, AllocPositionForWord, Iterator.Next, moveFamily", "bidi/resolver.go: prepareRulesTrie, matchRulesLHS"]}
{"id": "C30", "title": "Resolved levels cover the whole paragraph", "statement": "The runs returned after ResolveParagraph together cover every byte position of the paragraph exactly once, in logical order before reordering.", "quantifier": "every paragraph text", "why_tests_cant": "rule applications collapse and replace runs of scraps; any rule that drops a scrap loses text only in particular contexts", "anchors": ["bidi/resolver.go: ResolveParagraph, pass1, pass2, reduce", "bidi/actions.go: rule*", "bidi/reordering.go: flatten"]}
{"id": "C31", "title": "Bidi resolution terminates", "statement": "ResolveParagraph returns for every input.", "quantifier": "every paragraph text", "why_tests_cant": "termination of the rewriting loop for all class sequences cannot be tested", "anchors": ["bidi/resolver.go: pass1, pass2, reduce", "bidi/actions.go: makeMidSwapRule, rule*"]}
{"id": "C32", "title": "Reordering is a permutation that reverses exactly the right runs", "statement": "Reorder delivers every directional run exactly once, and the order is obtained from the logical order by reversing each maximal sequence of runs whose direction is opposite to the embedding.", "quantifier": "every list of resolved scraps without nested isolates, both embedding directions", "why_tests_cant": "number and alternation of runs is unbounded", "anchors": ["bidi/reordering.go: Reorder, reorder, reverse, level"]}
{"id": "C33", "title": "Splitting a paragraph into lines preserves the text", "statement": "Split(at, false) yields two parts whose scraps together cover the same text positions as before, the first part exactly the positions before 'at' and the second exactly those from 'at' on; with shift to zero the second part's positions are lowered by 'at'. Splitting never panics.", "quantifier": "every resolved paragraph and every position, repeatedly", "why_tests_cant": "positions inside, before and after nested isolates, at the ends, and repeated splitting", "anchors": ["bidi/reordering.go: Split, split, irsContains, shiftzero"]}
{"id": "C34", "title": "Run lengths add up", "statement": "The lengths of the runs delivered by Reorder sum up to the length of the text covered by the resolved levels.", "quantifier": "every resolved paragraph", "why_tests_cant": "isolates nested in runs of equal direction", "anchors": ["bidi/reordering.go: flatten, appendRuns, extendRuns, concat, Run"]}
{"id": "C35", "title": "Iterating over segments visits everything once", "statement": "A segment iterator of an ordering yields each text segment of each run exactly once and in order, then reports the end for ever; iterating in reverse does not change what other iterators see.", "quantifier": "every ordering, every number of calls and of iterators", "why_tests_cant": "histories of iterator calls are unbounded", "anchors": ["bidi/reordering.go: SegmentIterator, Next, Segment"]}
{"id": "C36", "title": "Scanner delivers scraps that tile the text and carry its classes", "statement": "The Bidi scanner delivers to the parser a sequence of scraps whose intervals are contiguous from position 0 to the end of the paragraph; the scraps are the maximal runs of equal Bidi class after the rules W1 to W3.", "quantifier": "every sequence of characters with their Bidi classes", "why_tests_cant": "joining of equal classes, brackets, marks and isolates interact in unbounded ways", "anchors": ["bidi/scanner.go: Scan, post, stop", "bidi/scrap.go", "bidi/scanner.go: applyRulesW1to3"]}
{"id": "C37", "title": "The scanner goroutine terminates", "statement": "After ResolveParagraph has returned, the scanner goroutine it started has terminated as well: no goroutine is left blocked.", "quantifier": "every paragraph and every schedule of the two goroutines", "why_tests_cant": "depends on the number of messages sent and received on an unbuffered channel for every input", "anchors": ["bidi/scanner.go: Scan, stop", "bidi/resolver.go: read, parseIRS"]}
{"id": "C38", "title": "Range-table collection represents exactly the collected code points", "statement": "After feeding sorted, non-overlapping code-point ranges to the UCD range collector, the emitted range table contains a code point exactly if it was in one of the ranges.", "quantifier": "every sorted sequence of ranges", "why_tests_cant": "adjacency and final-range handling depend on the whole sequence", "anchors": ["internal/ucdparse/gentables.go: RangeTableCollector, Append, Output"]}
{"id": "C39", "title": "Line breaking conforms to UAX#14", "statement": "With the line-wrap breaker the delivered segments are exactly those that the rules LB2-LB31 of UAX#14 (Unicode 10, numbers as regular expressions) determine from the line-breaking classes of the text.", "quantifier": "every text and every assignment of line-breaking classes to runes", "why_tests_cant": "rules look across unbounded runs of spaces, combining marks, regional indicators and digits", "anchors": ["uax14/uax14.go: LineWrap, CodePointClassFor, StartRulesFor, ProceedWithRune", "uax14/rules.go"]}
{"id": "C40", "title": "Lines of a UCD file do not depend on how the reader delivers them", "statement": "The scanner of the UCD parser returns exactly the lines of the file, where lines end with LF, CR or CR LF, however the reader cuts the bytes into pieces, and then reports the reader's error.", "quantifier": "every file, every sequence of read sizes, every way the reader ends", "why_tests_cant": "the position of a CR relative to the end of a read decides; the combinations are unbounded", "anchors": ["internal/ucdparse/linebuf.go: newLineBuffer (split function)"]}
{"id": "C41", "title": "Parsing a UCD file yields its data items", "statement": "For a file of comments, blank lines and data items, the parser calls back once for each item, in order, with its code point or range, its fields, its comment and its position.", "quantifier": "every well-formed file", "why_tests_cant": "files and fields are unbounded", "anchors": ["internal/ucdparse/scan.go: Parse, Next, scanRuneRange, scanItemBody", "internal/ucdparse/linebuf.go"]}
{"id": "C42", "title": "Parsing terminates on every input", "statement": "Parse returns for every input, without a panic, and reports an error of the reader.", "quantifier": "every byte sequence, every way the reader ends", "why_tests_cant": "arbitrary bytes and I/O errors cannot be enumerated", "anchors": ["internal/ucdparse/scan.go: Parse, Next", "internal/ucdparse/linebuf.go: AdvanceLine, AdvanceCursor, match"]}
{"id": "C43", "title": "The table generator emits for each category exactly its code points", "statement": "For a well-formed UCD file, the generated table of a category contains a code point exactly if an item with this category covers it.", "quantifier": "every well-formed file, every field position and prefix", "why_tests_cant": "files are unbounded", "anchors": ["internal/tablegen/main.go: main, append", "internal/ucdparse/gentables.go"]}
{"id": "C44", "title": "The bracket generator pairs each opening bracket with its partner", "statement": "For a file in the format of BidiBrackets.txt the generated table lists for each opening bracket its partner, in the order of the file; the table in the repository is the one generated from the file in the repository.", "quantifier": "every well-formed file", "why_tests_cant": "files are unbounded", "anchors": ["bidi/internal/gen/brackgen.go: readBrackets, readHexRune", "bidi/bracketpairs.go"]}
{"id": "C45", "title": "Break tests are read as written", "statement": "A line of a Unicode break test gives the text and the list of its segments; scanning a test file visits each test once, with its comment.", "quantifier": "every test, every file", "why_tests_cant": "tests and files are unbounded", "anchors": ["internal/ucdparse/testfiles.go: BreakTestInput, Scan"]}
{"id": "C46", "title": "Display width follows UAX#11", "statement": "A grapheme is two cells wide exactly if its first character is wide or fullwidth, or is ambiguous and the context is East Asian; every other grapheme, neutral characters included, is one cell wide.", "quantifier": "every grapheme, every context, every classification of the characters", "why_tests_cant": "contexts and graphemes are unbounded; the existing tests look at a handful of characters", "anchors": ["uax11/width.go: Width, graphemeWidth, resolveToNarrow, resolveToWide, evaluateContext, findResolver", "emoji/emoji.go: EmojisClassForRune"]}
{"id": "C47", "title": "Resolved classes follow UAX#9", "statement": "ResolveParagraph gives every character the class which the rules W1 to W7, N0, N1 and N2 of UAX#9 give it in its isolating run sequence, and the runs of the ordering have the directions of these classes.", "quantifier": "every paragraph whose isolates are closed, every assignment of Bidi classes, both paragraph directions", "why_tests_cant": "the rules interact over unbounded distances; the result of rewriting depends on the order in which rules are applied", "anchors": ["bidi/resolver.go: ResolveParagraph, pass1, pass2, reduce", "bidi/actions.go: rule*", "bidi/scanner.go: applyRulesW1to3, inheritStrongTypes", "bidi/reordering.go: flatten, directionFromBidiClass"]}
{"id": "C48", "title": "Each rule rewrites the stack as UAX#9 says", "statement": "Applying a rule to the scraps at the stack pointer replaces exactly these scraps; every position they cover gets the class that the section of UAX#9 the rule is named after gives it, and everything else on the stack is unchanged.", "quantifier": "every rule, every stack, every position of the stack pointer", "why_tests_cant": "stacks are unbounded, and damage behind the matched scraps shows only in combination with later rules", "anchors": ["bidi/actions.go: rule*, squash, makeMidSwapRule, collapse", "bidi/resolver.go: reduce, pass1, pass2"]}
{"id": "C49", "title": "Every code point has one break class", "statement": "The class tables are exclusive: no code point is in two grapheme classes or in two word classes; ClassForRune finds that class. The Hangul classes are those given by the syllable index, the regional indicators are U+1F1E6 to U+1F1FF, every Extended_Pictographic is found by the rules for emoji sequences, and U+FFFD, which stands for undecodable bytes, is an ordinary character.", "quantifier": "every code point; every text of Hangul syllables", "why_tests_cant": "1.1 million code points times pairs of classes; the tests use about 25 of them", "anchors": ["grapheme/graphemeclasses.go: tables", "uax29/uax29classes.go: tables", "emoji/emojiclasses.go: tables", "grapheme/grapheme.go: ClassForRune", "uax29/uax29.go: ClassForRune"]}
{"id": "C50", "title": "Word boundaries do not divide grapheme clusters", "statement": "Every boundary that the word breaker finds in a text is also found by the grapheme breaker: a word consists of whole grapheme clusters.", "quantifier": "every text", "why_tests_cant": "it relates two breakers and two class tables on all texts; the repository tests each breaker alone", "anchors": ["uax29/uax29.go: WordBreaker", "grapheme/grapheme.go: Breaker", "uax29/uax29classes.go", "grapheme/graphemeclasses.go"]}
{"id": "C51", "title": "ASCII text", "statement": "The grapheme clusters of an ASCII text are its characters, CR LF counting as one; the words of a line of ASCII letters, digits, underscores and blanks are the maximal runs of blanks and of other characters.", "quantifier": "every ASCII text", "why_tests_cant": "texts are unbounded", "anchors": ["grapheme/grapheme.go: Breaker", "uax29/uax29.go: WordBreaker", "grapheme/graphemeclasses.go", "uax29/uax29classes.go"]}
{"id": "C52", "title": "Emoji classes", "statement": "EmojisClassForRune returns an emoji class that the code point has, -1 exactly if it has none, and every emoji class is returned for some code point; the tables satisfy the inclusions of UTS#51.", "quantifier": "every code point", "why_tests_cant": "six overlapping tables over 1.1 million code points; the repository has no test of it", "anchors": ["emoji/emoji.go: EmojisClassForRune", "emoji/emojiclasses.go: tables"]}
{"id": "C53", "title": "Generated class tables", "statement": "The class-table generators write a Go function that, for every class of the data file, sets the range table of the class to exactly the code points listed for it, whatever the order in which the classes are written; errors in the file are reported.", "quantifier": "every well-formed data file", "why_tests_cant": "files, classes and map orders are unbounded; the generators have no tests", "anchors": ["grapheme/internal/generator/generator.go: loadUnicodeGraphemeBreakFile, generateRanges", "uax29/internal/generator/generator.go", "uax14/internal/generator/generator.go", "emoji/internal/generator/generator.go"]}
{"id": "C54", "title": "Class names", "statement": "The generated function String gives every class its name, distinct classes have distinct names, the i-th class has number i, and no index is out of range; the files in the repository agree with the generators.", "quantifier": "every list of class names, every int64", "why_tests_cant": "lists of names and class numbers are unbounded", "anchors": ["grapheme/internal/generator/generator.go: templateClassStringer, startinxs", "grapheme/graphemeclasses.go: String", "uax29/uax29classes.go: String", "emoji/emojiclasses.go: String"]}
{"id": "C55", "title": "Hash trie", "statement": "After any sequence of words has been stored in a TinyHashTrie, exactly the prefixes of these words (and the single categories) are found, different words at different positions; the position handed out for a word is the one that is found later; a frozen trie is not changed by lookups, and both ways of looking up agree.", "quantifier": "every size up to 255, every number of categories up to 50 that fits, every list of words", "why_tests_cant": "lists of words are unbounded; collisions and relocations of families depend on the whole history of insertions", "anchors": ["bidi/trie/hashtrie.go: NewTinyHashTrie, AllocPositionForWord, advanceToChild, insertFirstbornChildAndProgress, insertChildIntoFamily, moveFamily, Freeze, Iterator, Next"]}
{"id": "C56", "title": "Range tables for package unicode", "statement": "The range tables that the table generator prints obey the contract of unicode.RangeTable, so that unicode.Is finds exactly their code points, and the tables of package shaping put every code point into at most one class of each property.", "quantifier": "every sorted list of ranges, every int32", "why_tests_cant": "the lists of ranges and the code points are unbounded; package shaping has no tests", "anchors": ["internal/ucdparse/gentables.go: Append, Output", "internal/tablegen/main.go: printPreamble, printVarSection", "shaping/arabictables.go", "shaping/uipctables.go", "shaping/uisctables.go"]}
{"id": "C57", "title": "Primes for trie sizes", "statement": "The table of primes of package trie lists exactly the primes below 10000 in ascending order, and the size of the bidi rule dictionary is a prime, as its comment demands.", "quantifier": "every integer", "why_tests_cant": "the table is unused and has no tests; that no prime is missing is a statement about all numbers below the bound", "anchors": ["bidi/trie/primes.go: primes", "bidi/resolver.go: dictsize"]}
{"id": "C58", "title": "Directional context of scraps", "statement": "Every scrap that the Bidi scanner sends carries the direction of the innermost isolate around it (at top level, of the paragraph) and the last strong class before it in its isolating run sequence.", "quantifier": "every sequence of characters with their Bidi classes", "why_tests_cant": "contexts are not exported, and depend on everything before; nesting of isolates and lengths are unbounded", "anchors": ["bidi/scanner.go: Scan, inheritStrongTypes, initialOuterScrap", "bidi/scrap.go: SetStrongType, SetEmbedding, StrongContext"]}
{"id": "C59", "title": "Bracket pairs get the class of rule N0", "statement": "Both brackets of a pair get the class that rule N0 of UAX#9 gives them, from the strong classes between them and the strong class before the opening bracket, in their isolating run sequence; a pair without strong classes between them is neutral.", "quantifier": "every paragraph with brackets, both paragraph directions", "why_tests_cant": "the code decides by distances kept in the contexts of the scraps, updated by everything before; patterns of brackets and strong characters are unbounded", "anchors": ["bidi/resolver.go: performRuleN0, findCorrespondingBracket, changeBracketBidiClass", "bidi/scrap.go: HasEmbeddingMatchAfter, HasOppositeAfter, StrongContext, SetStrongType", "bidi/brackets.go: FindBracketPairing, changeOpeningBracketClass"]}
{"id": "C60", "title": "Options of the Bidi resolver", "statement": "Options are applied in order and a later option overrides an earlier one for the same setting: the mode after any list of options is, for each setting, the value of the last option that names it, and off if none does; nil options and RecognizeLegacy change nothing.", "quantifier": "every list of options, in every order", "why_tests_cant": "tests pass one or two fixed options; the claim is about all sequences, including repeated and contradictory ones", "anchors": ["bidi/scanner.go: RecognizeLegacy, DefaultDirection, TestMode, IgnoreParagraphSeparators, hasMode, newScanner"]}
{"id": "C61", "title": "Readable forms are faithful", "statement": "Every Bidi class and token type has its own name, and the text of resolved levels, of a run and of a scrap determines the classes and boundaries it shows; none of the String methods panics.", "quantifier": "all values of the types, scraps and runs of any length with positions below 2^63", "why_tests_cant": "tests compare a few printed values (and the repository's tests compare results through these texts: two different results with one text would pass); faithfulness is about all pairs of values", "anchors": ["bidi/scrap.go: String, ClassString", "bidi/reordering.go: ResolvedLevels.String, Run.String", "bidi/doc.go: Direction.String", "internal/ucdparse/tokentype_string.go: String"]}
{"id": "C62", "title": "Contexts for widths", "statement": "The width of a grapheme in the context made from the environment is that in a fresh context with the detected locale (en-US if none); the predefined contexts behave like fresh contexts with their fields; a context always counts with the values of its fields at the time of the call.", "quantifier": "every grapheme, every locale and script, every detection result, any oracle tables", "why_tests_cant": "tests run in one environment; the claim relates contexts for all locales, and calls before and after a change of the fields", "anchors": ["uax11/width.go: ContextFromEnvironment, EastAsianContext, LatinContext, Width, findResolver"]}
{"id": "C63", "title": "Out-of-line markup is the same as delimiters in the text", "statement": "Scanning and resolving a text with a markup function gives the same scraps, and the same resolved levels, as the text with delimiters LRI, RLI, PDI of length zero inserted at the positions for which the function returns them.", "quantifier": "every text with its Bidi classes, every markup function with the documented return values, every mode", "why_tests_cant": "the repository has one test with markup; positions, nesting, combinations with characters of the text and lengths are unbounded", "anchors": ["bidi/scanner.go: OutOfLineBidiMarkup, nextRune, Scan", "bidi/resolver.go: ResolveParagraph"]}
{"id": "C64", "title": "The buffer of the current segment", "statement": "After any use, Runes gives the runes written since the last mark (or the corresponding part of the given text), up to the limit; WriteRune reports ErrTooLong exactly if the limit is reached and then changes nothing; the buffer never allocates more than the larger of the initial size and the maximal segment length.", "quantifier": "every sequence of WriteRune, SetMark, Reset and Runes calls, every maximal length, every text", "why_tests_cant": "the repository tests one write to a backed buffer; growing, limits and changes between the two modes depend on histories and lengths without bound", "anchors": ["segment/segment.go: runewrite, WriteRune, Runes, SetMark, Reset"]}
{"id": "C65", "title": "Weights of the line-break rules", "statement": "A rule of lower number never weighs less than one of higher number, no rule gives the default penalty of an ordinary break, none reaches the penalty of a suppressed break, every rule gives the weight of its own number, and the penalties of a match cover exactly the match.", "quantifier": "every rule number from 1 to 31, every match length", "why_tests_cant": "tests compare break positions, which depend only on sums of penalties at some places", "anchors": ["uax14/uax14.go: p, ps"]}
{"id": "C66", "title": "Segmentation can be resumed at every boundary", "statement": "However many segments have been delivered, the text up to there, segmented alone, gives exactly these segments, and a new segmenter for the rest of the text gives exactly the remaining ones; in particular every segment taken alone is one segment.", "quantifier": "every text, every number of segments delivered, for graphemes, words, lines and simple words", "why_tests_cant": "the state carried over a boundary depends on the whole past; tests segment a text once", "anchors": ["segment/segment.go", "grapheme/grapheme.go", "uax29/uax29.go", "uax14/rules.go", "segment/simplewordbreak.go"]}
{"id": "C67", "title": "Scanner and parser do not interfere", "statement": "The levels that ResolveParagraph computes do not depend on how the scanner goroutine and the parser are scheduled, although they share the bracket handlers and the map of isolating run sequences; the map is never written by one while the other reads it.", "quantifier": "every paragraph and every schedule of the two goroutines", "why_tests_cant": "a test sees one schedule; the number of schedules grows with the text", "anchors": ["bidi/resolver.go: ResolveLevels, findCorrespondingBracket, changeBracketBidiClass, pass1", "bidi/scanner.go: Scan, handleIsolatingRunSwitch, prepareRuleBD16, findBD16ForPos", "bidi/brackets.go: bracketPairHandler"]}
{"id": "C68", "title": "Brackets are paired within their isolating run sequence", "statement": "The bracket that the parser finds for a bracket is the one that BD16 pairs with it in the isolating run sequence both belong to, whatever isolates are open, closed or nested before, between or after them; brackets of different sequences are never paired.", "quantifier": "every text with any nesting of isolates, every bracket in it", "why_tests_cant": "which handler is found depends on all initiators and PDIs of the text; nesting and order are unbounded, and the repository has no test of brackets with isolates", "anchors": ["bidi/scanner.go: handleIsolatingRunSwitch, findBD16ForPos, prepareRuleBD16", "bidi/brackets.go: makeBracketPairHandler, FindBracketPairing"]}
{"id": "C69", "title": "Appended text changes only the last segments", "statement": "When text is appended to a text, all segments but the last one (graphemes, simple words) or the last two (words, lines) are delivered unchanged.", "quantifier": "every text, every appended text, every class table", "why_tests_cant": "the rules look ahead over any number of ignored characters; texts and continuations are unbounded", "anchors": ["segment/segment.go: Next", "grapheme/grapheme.go", "uax29/uax29.go", "uax14/uax14.go", "segment/simplewordbreak.go"]}
{"id": "C70", "title": "Delivered segments do not depend on unread input", "statement": "Whatever calls have been made on a segmenter, the segments and penalties delivered and the state it is in do not depend on what its reader would deliver behind the runes read so far: other text, the end, or an error.", "quantifier": "all sequences of Next and BoundedNext in every state, all breakers, all continuations of the input", "why_tests_cant": "quantifies over all pairs of inputs with a common prefix and all histories of calls", "anchors": ["segment/segment.go: Next, BoundedNext, readRune, readEnoughInputAndFindBreak, getFrontSegment"]}
{"id": "C71", "title": "The bytes of the segments are the bytes of the text", "statement": "Bytes() and Text() are the same bytes. For a text read from a reader, the bytes of the segments, in order and put together, are the text (graphemes, words, lines, simple words) if it is valid UTF-8 and no segment exceeds the 4096 runes of the buffer; in any text exactly the undecodable bytes are replaced, each by EF BF BD.", "quantifier": "every byte string, every class table", "why_tests_cant": "byte strings are unbounded, and the encodings that are cut, overlong or out of range are many", "anchors": ["segment/segment.go: Init, Next, Bytes, Text, Runes", "segment/segment.go: runewrite.WriteRune"]}
{"id": "C72", "title": "Look-ahead of Next", "statement": "When Next delivers a segment from a reader, the segmenter has read no further than it needs. Grapheme clusters and simple words: exactly one rune (or the end of the text) behind the segment. Lines: exactly one, or two if an opening bracket or hyphen that is not followed by a digit comes after a number prefix or postfix. Words: everything read ahead, except for its first and its last rune, is Extend, Format or ZWJ. The runes read ahead are in the queue.", "quantifier": "every text, every class table, after every number of calls of Next", "why_tests_cant": "the look-ahead depends on match lengths and on penalties for every prefix of every text, and too much reading is not visible in the segments", "anchors": ["segment/segment.go: Next, readEnoughInputAndFindBreak, readRune", "grapheme/grapheme.go, segment/simplewordbreak.go, uax29/uax29.go, uax14/uax14.go: LongestActiveMatch"]}
{"id": "C73", "title": "The buffer of a segmenter", "statement": "RuneBuffer and Buffer panic exactly if Next or BoundedNext has been called since the last Init. Segments read from a reader are shown up to the larger of max and cap(buf) of the last RuneBuffer call with a non-empty buffer (4096 runes by default), whether it was made before or after Init. The capacity stays between cap(buf) and the larger of the two, so that nothing is allocated if max <= cap(buf).", "quantifier": "every history of calls, every set of breakers that obey the contract, every text", "why_tests_cant": "the state of the buffer depends on unbounded histories of Init, Next and RuneBuffer and on the lengths of earlier segments", "anchors": ["segment/segment.go: RuneBuffer, Buffer, Init, init, next", "segment/segment.go: runewrite"]}
{"id": "C74", "title": "A bounded search delivers the next segment cut at the bound, and loses nothing", "statement": "Let the next segment of a slice reach from position c to position e. BoundedNext(b) delivers it as Next does if e <= b, nothing if b <= c, and otherwise the part of the segment up to b, or sets ErrBoundReached. Whatever has not been delivered is delivered by the calls of Next that follow: first the rest of the segment, then the other segments as without the bounded search.", "quantifier": "every text, every number of segments delivered before, every bound, every set of breakers that obey the contract", "why_tests_cant": "which part is delivered depends on the bound, on the look-ahead of the breakers at that moment and on the distance to the end of the text", "anchors": ["segment/segment.go: BoundedNext, next, readEnoughInputAndFindBreak", "segment/segment.go: findBreakOpportunity, getFrontSegment"]}
{"id": "C75", "title": "DirectionAt gives the direction of the run with a position", "statement": "DirectionAt(pos) of resolved levels returns the text direction at byte position pos: that of the run of the ordering in which the position is, which is the direction UAX#9 gives to its character. It stays the same when the paragraph is split into lines.", "quantifier": "every resolved paragraph, every byte position", "why_tests_cant": "it depends on the class of the scrap with the position, on the direction of the paragraph and on isolates", "anchors": ["bidi/reordering.go: DirectionAt, directionFromBidiClass, Reorder, Split"]}
{"id": "C76", "title": "Class tables are set up once, before use, also by concurrent goroutines", "statement": "Setting up the class tables is safe for concurrent use and happens once. A goroutine that has called a set-up function (or a constructor that calls it) finds the complete tables: look-ups do not panic and give the class of the rune, whatever other goroutines do at the same time. There is no deadlock and no data race.", "quantifier": "every number of goroutines, every sequence of calls in each, every schedule, every content of the tables", "why_tests_cant": "a test runs a few schedules in one process, where the tables are already set up after the first test", "anchors": ["emoji/emoji.go: SetupEmojisClasses, EmojisClassForRune", "emoji/emojiclasses.go: setupEmojisClasses", "grapheme/grapheme.go: SetupGraphemeClasses, ClassForRune, NewBreaker, Breaker.CodePointClassFor", "grapheme/string.go: StringFromString", "uax29/uax29.go: SetupUAX29Classes, ClassForRune, NewWordBreaker, WordBreaker.CodePointClassFor", "uax14/uax14.go: SetupClasses, ClassForRune, NewLineWrap", "uax11/width.go: Width, graphemeWidth"]}
{"id": "C77", "title": "Breakers do not interfere through the shared pool of recognisers", "statement": "All breakers of a program take their recognisers from one global pool and return them to it. A recogniser is in use by at most one breaker at a time, comes out of the pool as a new one, and works on the breaker that took it. Hence grapheme, word and line breakers at work at the same time give the answers each would give alone, and none of them panics or gets stuck.", "quantifier": "any number of breakers of the three kinds, any texts, any class tables, any interleaving of their steps, any choice of the pool which object it hands out or throws away; also any rules", "why_tests_cant": "a wrong hand-over shows only in particular interleavings of breakers with particular pool contents", "anchors": ["automata.go: NewPooledRecognizer, releaseIntoPool, Unsubscribed, RuneEvent, PublishRuneEvent", "prioq.go: Push, Fix, PopDone", "grapheme/grapheme.go: StartRulesFor, ProceedWithRune", "uax29/uax29.go: StartRulesFor, ProceedWithRune", "uax14/uax14.go: StartRulesFor, ProceedWithRune"]}
{"id": "C78", "title": "Bounded work per rune and bounded penalties", "statement": "However long the text, a breaker has a bounded number of active recognisers, so that the work per rune is bounded and the work for a text is linear in its length; the penalties it answers are bounded, too, and never overflow an int.", "quantifier": "all texts of any length, all class tables, graphemes, words and lines", "why_tests_cant": "test texts are short; a recogniser that is never released costs time only, and shows in no answer", "anchors": ["automata.go: PublishRuneEvent, RuneEvent", "prioq.go: PopDone", "grapheme/grapheme.go: StartRulesFor, ProceedWithRune", "uax29/uax29.go: StartRulesFor, ProceedWithRune", "uax14/uax14.go: StartRulesFor, ProceedWithRune", "uax14/rules.go: rule_LB25"]}
{"id": "C79", "title": "A segmenter with several breakers ends a segment wherever one of them does", "statement": "A segmenter with a primary and further breakers for graphemes, words, lines or white space delivers exactly the segments that end where at least one of its breakers, each on its own, would end one; the order of the breakers makes no difference to the segments.", "quantifier": "all texts of any length, from a slice or a reader, all class tables, all combinations of breakers", "why_tests_cant": "the breakers decide after different numbers of runes and change penalties afterwards, so that what one of them sees depends on how long the others hold a position open; tests combine two breakers on one text", "anchors": ["segment/segment.go: NewSegmenter, Next, readEnoughInputAndFindBreak, inxForBreaker, insertPenalties", "grapheme/grapheme.go: ProceedWithRune", "uax29/uax29.go: ProceedWithRune", "uax14/uax14.go: ProceedWithRune", "segment/simplewordbreak.go: SimpleWordBreaker"]}
{"id": "C80", "title": "Penalties tell mandatory line breaks from optional ones", "statement": "The line breaker delivers a mandatory break, behind a hard line break or at the end of the text, with a penalty of at most -10000, and an optional break with more than that, so that a client can tell the two apart by the penalty alone.", "quantifier": "all texts of any length, all class tables, every delivered line break", "why_tests_cant": "the penalty of a break is the sum of what several overlapping rules add to it, and which rules meet depends on the classes on both sides; the tests compare positions, not penalties", "anchors": ["doc.go: Penalties (1)", "uax14/uax14.go: ProceedWithRune, setPenalty1, PenaltyForMustBreak", "uax14/rules.go: rule_LB3, rule_05_NewLine, rule_05_CRLF, rule_06_HardBreak, rule_LB7", "segment/segment.go: Penalties, insertPenalties"]}
{"id": "C81", "title": "Grapheme breaks at line ends and control characters are marked as mandatory", "statement": "The grapheme breaker delivers the breaks of the rules GB4 and GB5 of UAX#29, behind and before line ends and control characters, with a penalty of at most -10000, and all other breaks with more than that.", "quantifier": "all texts of any length, from a slice or a reader, all class tables, every delivered grapheme break", "why_tests_cant": "the tests compare the clusters, not the penalties; the penalty of a break is a sum over several rules and over the time until the break is delivered", "anchors": ["doc.go: Penalties (1)", "grapheme/grapheme.go: rule_NewLine, rule_CRLF, rule_Control, setPenalty1, ProceedWithRune", "segment/segment.go: Penalties, insertPenalties"]}
{"id": "C82", "title": "Word breaks at line ends are marked as mandatory", "statement": "The word breaker delivers the breaks of the rules WB3a and WB3b of UAX#29, behind and before line ends, with a penalty of at most -10000, and all other breaks with more than that.", "quantifier": "all texts of any length, from a slice or a reader, all class tables, every delivered word break", "why_tests_cant": "the tests compare the words, not the penalties; the penalty of a break is a sum over several rules and over the time until the break is delivered, which varies with the active rules", "anchors": ["doc.go: Penalties (1)", "uax29/uax29.go: rule_NewLine, rule_CRLF, setPenalty1, ProceedWithRune", "segment/segment.go: Penalties, insertPenalties"]}
{"id": "C83", "title": "A segment is delivered as soon as its end can be seen, with the penalties known then", "statement": "With any breakers, also such as do not keep to the contract, Next() delivers the segment that ends at the first visible break at the earliest time there is one: a break is visible when no active match reaches back to it and its penalties permit it. The penalties delivered are the sums known at that time. This determines all segments and penalties of a text.", "quantifier": "any number of breakers with arbitrary answers that leave the end of the text unbroken, every text from a slice or a reader, every history of calls before", "why_tests_cant": "the breakers of the library mostly keep to the contract, and the tests use no others; when a break is found depends on the whole sequence of answers", "anchors": ["segment/segment.go: Next, next, readEnoughInputAndFindBreak, readRune, insertPenalties, findBreakOpportunity, getFrontSegment, Penalties"]}
