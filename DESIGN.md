# Formal model of npillmayer/uax in Coq

Source under verification: `/repo` (Go, read as text, never built or run).
Model and proofs: `/verif/rocq/theories`, logical name `Verif`, Coq 8.16.1, standard library only.

## 1. Method

* The Go code is transcribed function by function into small, total, computable Gallina functions
  (`*.v` files without suffix, e.g. `Deque.v`).  Every definition cites file and lines in `/repo`.
* Panics, errors, `nil` and divergence are values of the model (`option`/`result` types, explicit
  fuel with a distinguished out-of-fuel value).  Loops that the Go code runs without a bound are
  fuelled; theorems state that a sufficient fuel exists and that the result does not depend on it,
  or that *no* fuel suffices (divergence).
* Fixed-width arithmetic is written out (`mod 2^8`, `mod 2^16`, `mod 2^32`) where a value can
  wrap; Go `int` is modelled by `Z`/`nat` without wrap (64-bit overflow needs > 2^60 runes; for the penalties: `C78_no_overflow`).
* Specifications are separate definitions (`*Spec.v` or a section headed "Specification") that do not
  mention model helpers.  `Properties*.v` contain the final statements, each with `Print Assumptions`
  and a non-vacuity `Example` beside it.
* Where the code violates the property as documented, the property is kept at full strength and
  refuted by `..._refuted : exists ..., ...` with a concrete witness; the strongest true
  variant is proved beside it.  Partial results carry the suffix `_partial`.

## 2. What is modelled, and how each property is proved

| Property | Model | Specification and proofs |
|---|---|---|
| C01 | `Deque.v`: ring buffer with capacity, head, tail, count (`segment/deque.go`) | refinement to `list`: representation invariant, one lemma per operation, induction over op sequences (`DequeProofs.v`) |
| C02-C06 | `Segmenter.v`: state machine of `segment/segment.go`, breakers are abstract records (state, step) universally quantified | `SegSpec`/`BreakSpec.v` (penalty matrix, `segmentation`); invariant "consumed input = delivered ++ buffer" (`SegInv.v`, `SegNext.v`, `SegProofs.v`, ...) |
| C07-C09 | `Segmenter.v`, bounded search and life-cycle | position invariant; witnesses by computation |
| C10, C11 | `RuneWrite.v`: output buffer | invariant on capacity; witness of a segment of more than 4096 runes |
| C12 | `SimpleWord.v` | induction over the text, refinement to "maximal runs" |
| C13-C16 | `PrioQ.v`, `PubHistory.v` | gap invariant, permutation (`Bag.v`), loop invariant over the index (`PrioQProofs.v`) |
| C17 | `Recognizer.v` | invariant over `RuneEvent` for arbitrary rules |
| C18-C20 | `Grapheme.v` | reduction of the recogniser pool to a finite summary of the left context; equality with a declarative UAX#29 |
| C21-C23 | `Utf8.v`, `GString.v`, `GStringExact.v` | induction over break tables, no overflow; byte lengths of truncated clusters; witnesses for ill-formed input |
| C20, C24 | `Words.v` | as for graphemes, with a declarative word-boundary specification |
| C25, C26, C39 | `Line.v` | `LineSpec.v` (declarative LB2-LB31); summary of the left context `LineSum.v`, finite case analysis `LineVerdict.v`, agreement `LineCor.v`, `LineAgree.v`; `SegEager.v` for the negative penalties; `LineTests.v` runs all 7282 cases of the Unicode file LineBreakTest.txt through specification and model |
| C27 | `Width.v`; East-Asian-Width, emoji and category tables are oracles | structural |
| C28 | `Brackets.v` | refinement to a declarative BD16; for texts of any depth and mixture to a variant of it that skips (`BracketExact.v`) |
| C29 | `Trie.v`, `Rules.v` | the frozen trie is a closed term: complete case analysis over the finite alphabet by computation, unbounded sequences by induction |
| C30, C31 | `Scrap.v`, `Resolver.v` | coverage invariant of each rule; counter-examples by computation; divergence by an invariant of the loop; isolates: invariant of both passes for balanced lists, by mutual induction with `parseIRS` (`ResolverNested.v`), from the text `NestedText.v` |
| C32-C35 | `Reorder.v` | induction over scrap lists; with isolates: order and view of a tree (`NestedRunsSpec.v`), refinement `NestedRuns.v`, lost lengths `NestedLength.v`, rule L2 by levels `NestedL2.v`, trees delivered by the resolver `ResolvedRuns.v`; the loops in place, index by index (`InPlace.v`), refined to the list functions (`InPlaceProofs.v`); iterators: answers as a function of the calls so far (`IterHistory.v`) |
| C36 | `Scanner.v`, `TextScan.v` | tiling invariant of the scanner loop |
| C37 | `Pipe.v`: scanner and parser as two processes on an unbuffered channel, every schedule; bracket lookups are an oracle (see C67) | step invariant |
| C38 | `Ucd.v` | invariant over `Append` |
| C40 | `LineBuf.v`: `bufio.Scanner` with the line splitter of the parser, any sizes of reads | `lines_of` in `UcdSpec.v`; `LineBufProofs.v`, lines that are too long in `LineBufLong.v` |
| C41, C42 | `UcdParse.v`: parser state machine of `internal/ucdparse` | file format as relations (`numeral`, `written`, `contents`) in `UcdSpec.v`; `UcdParseProofs.v`, `UcdItemProofs.v`, `UcdFileProofs.v`, `UcdFailProofs.v`; for every file, in the format or not, the tokens as a function of the lines in `UcdExact.v` (`file_tokens`, `line_token`), and what the generators of C43, C44, C53 make of them in `UcdExactGen.v` |
| C43, C44 | `UcdParse.v`: `tablegen`, `readBrackets` | `UcdGenProofs.v`; the bracket table of the repository is computed from the file of the repository |
| C45 | `UcdParse.v`: `BreakTestInput`, test-file scanner | `test_words`, `spaced` in `UcdSpec.v`; `UcdTests.v`; every call of `Scan` as a function of the lines before it, every text given to `BreakTestInput`: `TestFileExact.v`; its words and numbers without the model's loops: `TestFileWords.v`.  The lines and words are those of the text; a single line or word of 64K bytes, at which `bufio.Scanner` stops, is not modelled here (it is for C40) |
| C46 | `Width.v`, `EmojisClassForRune` | `WidthSpec.v` (UAX#11 section 5) |
| C36 (classes), C47 | `Scanner.v`, `Resolver.v`, `Reorder.v` | `Uax9Spec.v`: W1 to W7, N1, N2 as functions on the list of classes; confluence of the rewriting with them `Uax9Proofs.v`, `Uax9Rewrite.v`; invariant of the two passes `Uax9Resolve.v`; from the text to the runs `Uax9Text.v`; runs with isolates `NestedText.v`; N0 in `Uax9N0Spec.v`, brackets in the second pass `Uax9Brackets.v`, from the text with brackets to the runs `Uax9BracketText.v`; isolating run sequences in `Uax9IsoSpec.v`, both passes with isolates `Uax9IsoResolve.v`, from the text with isolates to the classes `Uax9IsoText.v` |
| C29 (sheet), C48 | `Rules.v`, `Resolver.v` | `RuleSpec.v`: which section of UAX#9 governs a sequence of classes and what it makes of it; `RuleSpecProofs.v` |
| C49-C52, C46 | `ClassTables.v`: the tables of `graphemeclasses.go`, `uax29classes.go` and `emojiclasses.go`, generated from the Go source, neighbouring code points merged; `Classes.v`: lookup | decision procedures for disjointness and inclusion of tables with soundness lemmas (`ClassProofs.v`), Hangul arithmetic, comparison of the two sets of rules (`ClusterWords.v`), ASCII (`ClassCor.v`) |
| C53, C54 | `Generator.v`: the four programs `internal/generator` (loading, quoting of runes, templates for tables, constants, names, start indices, `String`) | `GoSource.v`: tokens of the Go specification and an interpreter for the generated set-up function, written from the language specification; `GeneratorProofs.v`, `GeneratorFileProofs.v`; texts of the repository in `GeneratorRepo.v` |
| C55 | `Trie.v` | the set of prefixes of the stored words (`expected`, `PropertiesTrie.v`); invariant of the trie and the relation word-node in `TrieProofs.v`, insertion in `TrieSteps.v`, relocation in `TrieMove.v`, words and lookup in `TrieWords.v`; lookups before `Freeze`, which store what they look for, in `TrieLive.v` |
| C56 | `Ucd.v`, `RangeTable.v`: text printed by `Output` and `tablegen`; `unicode.Is` and `isExcludingLatin` of the Go library with their binary search | contract of `unicode.RangeTable` (`legal`) and membership in `RangeTableProofs.v`; the three files of package shaping in `ShapingRepo.v`, compared byte by byte; meaning of a Go source file of range tables, from the language specification: tokens with semicolon insertion, declarations, constants within the types of the fields, names declared once (`GoTables.v`); the printed text has this meaning (`GoTablesProofs.v`); all sorted data, also around U+10000: `TableExact.v` |
| C58, C59, C28 (texts) | `Scanner.v`, `Resolver.v`, `Brackets.v` | exact relation between the contexts of neighbouring scraps (`chain`), from it `nesting`, `last_strong` and the distances `knows` (`ScanContext.v`); handler of the scanner = BD16 run over the brackets of the text, `n0` (`BracketText.v`); with isolates: the same facts `known` per isolating run sequence (`seats`, `fellows`), saved contexts included, by induction over the scraps (`Isolates.v`, `IsolateText.v`) |
| C60 | `Options.v`: options as functions on the mode bits (`bidi/scanner.go`) | last option that names a setting (`wanted`); bits by computation (`OptionsProofs.v`) |
| C61 | `Show.v`: names of classes, directions and token types, texts of scraps, levels and runs | independent table of names; injectivity by reading the text back (`ShowProofs.v`) |
| C62 | `Width.v`, `WidthContext.v` | result depends on a context only through `east_asian` (`PropertiesOptions.v`) |
| C63 | `Scanner.v` (`nextRune` with a markup function), `Resolver.v` | `MarkupSpec.v`: the text with delimiters woven in; simulation of the scanner, round by round, including its final state (`MarkupProofs.v`) |
| C64 | `RuneWrite.v` | refinement to an abstract buffer (`BufferSpec.v`) |
| C65 | `Line.v`: `p`, `ps`, `lstep` | monotonicity of truncated powers; each state function gives the weight of its rule, by cases (`LinePenalty.v`) |
| C66 | the segmenter with each of the four breakers | concatenation law for segmentations that forget their past at a boundary (`Resume.v`), shown for the rules of UAX#29 (`ResumeGrapheme.v`, `ResumeWords.v`) and, on the finite summary of the left context, for the line breaker (`ResumeLine.v`) |
| C67 | `Shared.v`: the processes of C37 with the bracket handlers and the map `IRS` of the scanner as shared memory; one lookup is one step | sequential run on all messages in which a lookup before the last message is an error; step invariant; the classes that can occur are an invariant of scanner and parser (`SharedProofs.v`); for isolates mixed with brackets, the nesting depth of the unread text is followed through both passes (`SharedMixed.v`) |
| C68 | `Scanner.v`: the chain of handlers, `findBD16ForPos`; the scanner at rest | `SequenceSpec.v`: brackets with the isolates around them; invariant of the chain (a handler covers exactly the brackets inside its isolate), followed through the scanner (`SequenceProofs.v`); then as C28 |
| C69 | the segmenter with each of the four breakers | segmentations by a predicate: segments stay as long as the verdicts before their end do (`Append.v`), with the look-ahead of the rules of each breaker |
| C70 | `Segmenter.v`: any queue, any breakers, any calls | relation between two runs whose readers agree up to what has been read (`Causal.v`) |
| C71 | `SegText.v`: `Bytes`, `Text`, the runes read from bytes (contract of `io.RuneReader` in the standard library) | relation `repaired` between byte strings, in terms of encoded characters only; a function, the identity exactly on UTF-8 (`SegTextProofs.v`) |
| C72 | `Segmenter.v` and the four breakers (no new model) | number of runes taken from the reader and of runes in the queue, against the pieces of the independent segmentations; `Ahead*.v` |
| C73 | `Segmenter.v`, `RuneWrite.v`, `SegText.v` (Buffer) | folds over the history of calls (`busy`, `buffer_of`) against the fields of the state; `SegBusy.v` |
| C74 | `Segmenter.v`, `Deque.v`, `RuneWrite.v` | the cut of the text at the permitted positions (`spec_of`), of one piece its runes up to the bound; `SegBound.v` |
| C75 | `Reorder.v` | class of the scrap with the position; runs of `Reorder`; `Uax9Spec.v`, `Uax9IsoSpec.v` (`uax9_around`); `DirectionProofs.v` |
| C76 | `Setup.v`: goroutines as programs of single accesses to shared memory, `sync.Once` as a state (not used, run by t, done), any schedule | complete tables (the class functions of `Grapheme.v`, `Words.v`, `Line.v`, `WidthSpec.v`); which tables a call gives and needs; `SetupProofs.v`, `SetupMain.v` |
| C77 | `Pool.v`: recognisers as objects with addresses, one pool, any number of breakers whose steps interleave (start one rule, one event, release one recogniser); `PoolBreakers.v`: the three kinds of breakers | simulation of each breaker by one with private recognisers (`PoolProofs.v`), whose steps make up the rounds of `PrioQ.v` and of `Grapheme.v`, `Words.v`, `Line.v` (`PoolMain.v`, `PoolBreakersProofs.v`) |
| C78 | `Active.v`: recognisers told about a rune, all events of a text; the breakers of `Grapheme.v`, `Words.v`, `Line.v` | numbers; run of characters of a number at the end of the text; `ActiveProofs.v` on the summaries of the past of C18, C24, C39 |
| C79 | `AnyBreaker.v`: the four breakers (graphemes, words, lines, simple words) behind the interface, with `Segmenter.v` | `PairSpec.v`: union of the rules of C18, C24, C39 and of the white space rule; segmentation by it; `SegPair.v` (contract `decides` for one breaker, two of them in the loop), `SegLate.v` (two breakers that need not keep a rune open), `LineSettled.v`, `SimplePair.v`, `PairProofs.v` |
| C80 | `Line.v`, `Segmenter.v` | `LineMustSpec.v`: mandatory breaks by LB3, LB4, LB5; threshold of doc.go; classes that hide a hard break; `SegPens.v` (segments with their penalties), `LineMust.v`, `PropertiesLineMust.v` |
| C81 | `Grapheme.v`, `Segmenter.v` | `PropertiesGraphemeMust.v`: breaks of GB4, GB5 by the classes on both sides, threshold of `LineMustSpec.v`; `SegPens.v`, `GraphemeMust.v` |
| C82 | `Words.v`, `Segmenter.v` | `PropertiesWordMust.v`: breaks of WB3a, WB3b by the classes on both sides, threshold of `LineMustSpec.v`; `SegFirst.v`: the round of penalties a delivered segment gets, for any breaker; `WordMust.v` |
| C83 | `Segmenter.v` | `online` in `SegOnline.v`: a relation over the answers of the breakers, without queue, buffer and calls; `SegFirst.v` |
| C57 | `PropertiesPrimes.v`: the table `primes`, unused so far; `dictsize` of `Rules.v` | `prime` of the standard library (`Znumtheory`) |

Validation of the model itself: `RepoTests.v` replays the inputs and expectations of the repository's own
tests on the model by computation, `LineTests.v` the Unicode line-break test file, `GraphemeTests.v` and
`WordTests.v` the test files for clusters and words (these with the tables of the repository).

## 3. Not modelled

* Tracing/logging, `String()` methods other than those of C54 and C61, the set-up of class tables outside of C76 (class functions are
  parameters of the model, i.e. universally quantified, unless stated otherwise).  C76 takes memory as sequentially consistent, each access one step; that is
  what Go gives to programs without data races (C76_race_free), the trace message of the remaining race is not modelled.
* The tables of `golang.org/x/text` (oracle).  The tables of the repository are modelled for graphemes, words and
  emoji (C49-C52); all other theorems about these packages hold for any tables.  The generated file `uax14classes.go` is missing from the repository, so for line breaking the
  class function can only be an oracle.
* of the command-line table generators everything but the collection of the
  data (C43, C44) and the printed text (C56): flags, downloads; of the four programs `internal/*/generator` flags, timing and the
  fixed texts between the generated parts (C53, C54); `golang.org/x/text/unicode/rangetable`.
* Memory/GC, time.  The object pool of `automata.go` is modelled in C77 only; elsewhere a rule starts with a new recogniser, which C77 shows to be the same.

## 4. Trusted base

* Coq's kernel (including `vm_compute`).
* The faithfulness of the transcription as documented by the citations at every definition.  Parts of the Go library are
  transcribed from its documentation and published source, which is not in `/repo`: UTF-8 decoding, `bufio.Scanner`,
  `unicode.Is`, the formatting verbs in use, and the lexical rules of Go.
* The declarative specifications: UAX#9 (BD16, L2), UAX#14, UAX#29 as restated in the `*Spec.v` files.
* What `Print Assumptions` lists for each theorem: "Closed under the global context" for all of them.
  The independent checker lists seven axioms of the standard library (`Coq.ssr.ssrunder.Under_rel.*`)
  because the library is loaded; no theorem of this development depends on them.

### How to read `seeded/LOG.jsonl`

* Entries written by hand: `claim_broken` is the claim the edit was meant to break.  `theorems_failed` lists the theorems of the rebuilt files that depend on
  a proof which no longer goes through; the proof that fails first may be a lemma, and a failed script alone does not show that the statement is false.
  Only the files concerned were rebuilt.  `theorems_not_built` lists theorems that were not reached, with the reason in `run_incomplete`
  (time limit, limit of iterations, or an edit that Coq rejects); these are no evidence.
* Entries `auto-...`: single-token edits made by a script.  The build was stopped at the first failing proof, which is given.  Which claim such an edit breaks
  was not determined unless a theorem was tightened because of it; `claims_of_file` only names the claims whose row in section 2 or 5 mentions the edited file.

## 5. Assumptions per theorem

No theorem uses an axiom.  The table lists the hypotheses that appear in the statements, i.e. the
scope in which the claim is proved.

| Property | Hypotheses of the positive theorems |
|---|---|
| C01 | none (every history; operations that panic in Go panic in the model) |
| C02 | operations allowed by the API in any order (`op_ok`); for slice input length < MaxInt and `eot_safe` (breakers never make the position after the end marker a break) |
| C03 | as C02; breakers obey their announced longest match; a break is permitted after the last rune; enough fuel (length + 1) |
| C04 | unbounded `Next` only |
| C05, C06 | `breaker_obeys`; `eot_safe` for slices; rune sizes of the reader >= 1, their sum < MaxInt |
| C07 | rune sizes >= 1 |
| C08-C11 | see the statements; refutations are closed terms |
| C12 | U+0000 is not white space, the text has no NUL; runs of at most 4096 runes for the reader |
| C13-C16 | queue invariant `Inv` (established by construction, preserved by every operation); subscribers keep their identity |
| C17 | `well_behaved` rule, distinct recognisers |
| C18, C19, C20, C24, C39 | arbitrary class tables; length < MaxInt; enough fuel; C18 no Prepend character; C24 `plain_quotes`; C39 `calm_marks`; C20 run not preceded by a regional indicator |
| C21 | valid UTF-8 without U+FFFD, fewer than 65535 bytes, clusters of at most 4096 runes; `C21_every_string`, `C21_lossless_iff`, `C21_right_iff`: fewer than 65535 bytes that begin with a legal rune other than U+FFFD |
| C22, C23 | as in the statements |
| C25, C26 | arbitrary class table, no NUL |
| C27 | oracles for the tables; clusters of at most 4096 runes (`C27_every_string`: every byte sequence below the limit that begins with a legal rune) |
| C28 | characters are brackets of the table; `C28_recorded`, `C28_lookup_exact`: nothing else but ascending positions; comparison with BD16: no mixing of canonically equivalent brackets, at most 63 open, ascending positions |
| C29 | arguments are Bidi classes |
| C30, C31, C37 | consistent oracle `x/text` properties (`props_ok`, `lens_ok`), text shorter than 2^32, first character no non-spacing mark, `calm` classes (no isolates, no numbers in right-to-left context); with isolates (C30, C31, C33): `quiet` classes, every initiator `closed` by its PDI, and `roomy` (an initiator after k others is followed by 3k+2 scraps) |
| C32-C34 | flat, well-formed scrap lists; C33 also trees with cuts outside of isolates |
| C32, C34 (isolates) | well-formed trees (`node`: what the resolver delivers for the texts of C30 without FSI), no isolate begins in the direction of the text before it (`all_fit`); comparison with L2: isolates against the direction of the paragraph, in text of this direction, one deep (`shallow`, `spaced`) |
| C35 | as in the statements; `C35_history`: no assumption |
| C36 | `props_ok`, `lens_ok`, text shorter than 2^32, first character no non-spacing mark |
| C38 | sorted disjoint ranges |
| C40-C44 | no 64K bytes without line feed (`short_lines`); reader ends with EOF (C40 for any end, `C40_every_file` for every file); C41, C43, C44 a file in the format of `UcdSpec.contents` (not `C41_tokens`, `C43_any`, `C44_any`, `C53_any`: every file); C43 field position at least 2 |
| C45 | code points below 2^31; test files: no empty line, every test has a comment; `C45_scans`, `C45_reported_iff`, `C45_break_any`: none |
| C46 | the grapheme begins with a legal character other than U+FFFD; for UAX#11: neither emoji nor neutral |
| C47 | as C30; classes L, R, AL, EN, ES, ET, CS, S, WS, ON, NSM only; numbers only in left-to-right context; `tidy` groups of neutrals |
| C47 (brackets) | as C28 (texts) and C59; classes L, R, S, WS, ON, NSM and brackets only; every bracket in a pair that gets a class, which is the one computed from the text (`settled`); neutrals before brackets get the embedding direction (`quiet`) |
| C47 (isolates) | left-to-right paragraphs; as C30 with isolates, LRI and RLI only, none inside an RLI, none directly behind another; classes as C47; `tidy` groups at every level |
| C48 | the matched scraps have the left-hand side of the rule and cover a contiguous range |
| C49, C51, C52 | none but the length of the text |
| C50 | no SARA AM, none of the six letter-pictographics, no mark behind a regional indicator |
| C53 | as C41, numbers below 2^31-1; for the program: keys are identifiers behind blanks, different ones |
| C54 | start indices below 2^16, names that are identifiers |
| C55 | `fits`: at least one category, `2*(categories+1) < size` (a smaller size divides by zero or wraps around); letters are categories; words are not empty; the trie may give up (panic "abort find"); position kept as long as no later word relocates a family |
| C58 | as C36; directions: no PDI directly before an initiator; strong classes: no isolates, no AL (`simple`), or no AL and no FSI, and every initiator behind a run that is neither strong nor an isolate character (`roomy`) |
| C59, C28 (texts) | as C36, `simple`, no character of length 0; C59 text shorter than 64 KB, with isolates as C58 (`roomy`) and C68 (`matched`); C28 as above, and no mark after a bracket |
| C60 | `C60_last_option_partial`: no setting is switched off after it has been on |
| C61 | positions below 2^63, classes that occur in the package |
| C62 | predefined contexts: Latin and en-US are not East Asian for package `language` |
| C63 | tables know the three delimiters; documented return values; nothing to insert at position 0; no character of length 0; text shorter than 2^32; corollary for trees as C30 with isolates |
| C56 | ranges sorted, above U+0001, below 2^31; the table is legal if no range touches U+10000 (refuted there by C38), and found by `unicode.Is` if no block but the last one ends at U+10000 (otherwise the file does not compile: `C56_compiles_iff`); names of the categories and of the package are ASCII identifiers, no keywords, all different, none is another one behind an underscore |
| C67 | resolution on the list of messages ends; no isolates, or no brackets, or no numbers and brackets only outside of isolates |
| C68 | no character of length 0, text shorter than 2^32 bytes; every PDI has an initiator, none is at position 0; brackets outside of the last isolate; in their sequence as C28 |
| C69 | texts of less than 2^63 runes; simple words: no NUL, which is not a space |
| C73 | slices given to RuneBuffer have length <= capacity; limit: as C05 (breakers obey the contract) |
| C74 | slices; as C05; the slice has no spare capacity (panic) |
| C75 | from the text: the texts of C47; the position is taken as an integer, the code converts to 64 bits |
| C76 | the missing file `uax14classes.go` assigns the tables of all line breaking classes; `sync.Once.Do` as documented |
| C77 | the pool hands out an object that is idle or new, to one borrower (go-commons-pool is not in `/repo`); a step (subscribe one rule, one event with Fix, release one recogniser) is atomic for other goroutines, which is no restriction as it depends on and touches nothing of theirs but the pool (`C77_footprint`, `C77_race_free`); the three breakers only, not own implementations of `RuneSubscriber` |
| C78 | no overflow: fewer than 2^60 runes |
| C79 | any two breakers (`fit`); with lines: the runes of line class CR are CR for the other breaker too (met by the tables of the repository if U+000D is the only CR: `C79_repository_tables`); lines with simple words: no CR directly behind a hard break; simple words: U+0000 is no white space and not in the text |
| C80 | none for: -10000 or less only for mandatory breaks, others above -1000. Mandatory breaks within the text: exactly those of `seen_hard` are reported. End of the text: reported if the last class is not in `hides_end`, below -8000 in any case. From a reader the same penalties (`C80_reader`) |
| C81 | none for: -10000 or less only at breaks of GB4, GB5. Which of these have it: all but those before a CR |
| C82 | none for: -10000 or less only at breaks of WB3a, WB3b, all others 10. Which of these have it: all but those before a CR |
| C83 | the end of the text is not a break (`eot_safe`); text shorter than MaxInt; readers that end without an error |
| C70 | input from a reader; the end has not been read |
| C71 | fewer than 2^63 bytes; the reader decodes as the standard library does; for the whole text: segments of at most 4096 runes; simple words: no NUL, which is not a space |
| C72 | as C18, C24, C39; simple words: no NUL, which is not a space |
| C66 | texts of less than 2^63 runes; simple words: no NUL, which is not a space; words: no ignored character behind a double quote |

## 6. Disagreements between code and property

Each of these is a theorem `..._refuted` (or a counter-example `Example`) in the named `Properties*.v`.

**Segmenter** (`PropertiesSegmenter.v`)
* C04: `BoundedNext` may deliver an empty segment and a segment that contains the end-of-text marker.
* C07: the bound is exceeded by one position at the end of the text; the search may return `false` without an error.
* C74 (`PropertiesSegBound.v`): a bound within a segment loses the rest of the text if the end of the text has been read; a bound at the end of the text lets the next `Next` return true and `Text` panic; the bound of one call may cut the segment of the next call of `Next`; after `ErrBoundReached` the segments of a slice are limited by the buffer.
* C75 (`PropertiesDirection.v`): `DirectionAt` does not look into isolates, every position in an isolate gets the direction of the text around; in a right-to-left paragraph a character of a class without direction (BN, embeddings) is left-to-right, while its run is right-to-left.
* C76 (`PropertiesSetup.v`): `NewWordBreaker` and `NewLineWrap` read the table variable outside of the `sync.Once`, a data race with another goroutine that creates the table (only a trace message depends on it); `uax11.Width` panics as long as nobody has set up the emoji classes, which its documentation does not mention; a new grapheme breaker panics without `SetupGraphemeClasses` (documented); if another goroutine does the set-up, a look-up may panic or miss the class.
* C08: an uninitialised segmenter panics instead of reporting `ErrNotInitialized`.
* C09: `Init` keeps an old error and the state of the breakers.
* C71: undecodable bytes come out as EF BF BD, so the segments of such a text are not its bytes.
* C10, C11: a segment of more than 4096 runes read from a reader is silently cut; from a slice it is complete.

**Publisher and recogniser** (`PropertiesPublisher.v`)
* C17: a finished recogniser that receives another rune returns its penalties again.

**Graphemes and words** (`PropertiesGrapheme.v`, `PropertiesWords.v`)
* C19: rule GB9b is never effective: there is a break after a Prepend character.
* C24: WB7b fails if ignorable characters follow the double quote; WB3c fails for U+2139.
* C18: NUL is treated as an ordinary character.
* C66 (`PropertiesResume.v`): because of the deviation in WB7b, a word taken alone may consist of two words.

**Grapheme strings, width** (`PropertiesStrings.v`)
* C21: U+FFFD truncates the string; a cluster of more than 4096 runes shifts all later indices. `C21_lossless_iff`: these are the only two ways to lose text.
* C22: empty and ill-formed input panics; input starting with a continuation byte never returns;
  up to 65534 bytes are accepted where 32766 are documented.
* C27: zero-width runes count at least 1.
* C62 (`PropertiesOptions.v`): a context that has been used keeps its resolver, changes of its fields have no effect.
* C46: digits, `#` and `*` have width 2 (they are in the Emoji table); neutral characters have width 2 in an
  East Asian context.

**Line breaking** (`PropertiesLine.v`), five deviations from UAX#14, all with CM or ZWJ
* C39: LB8a is never effective; `HL (HY|BA) CM x` breaks (LB21a); `RI RI CM RI` does not break;
  `(PR|PO) (OP|HY) CM NU` breaks (LB25); `NU .. (CL|CP) CM (PR|PO)` breaks (LB25).
* C26: "BK SP" breaks, as LB4 has precedence over LB7 (the property as worded is too strong there).
* C78 (`PropertiesActive.v`): within a number one recogniser stays for every digit, so the work for n digits grows with n^2 and the penalty within the number with n.
* C79 (`PropertiesPair.v`): with two secondary breakers their penalties are added before they are judged, so that one of them suppresses breaks of the other ("1.2" with lines and graphemes). With tables that disagree about CR a hard break can get lost between lines and words. With lines and simple words the hard break inside of LF CR LF is lost although the tables agree about CR (`C79_lines_and_spaces_refuted`; computed with the sample table `PropertiesLine.ltab`, which gives LF, CR and letters their classes of UAX#14).
* C80 (`PropertiesLineMust.v`): doc.go:133 promises at most -10000 for every mandatory break. The penalties of rules that forbid a break are added to that of the hard break, so that the break behind LF, BK or NL has 1000 if an empty or indented line or a zero width space follows, and about -9000 before 11 further classes such as closing punctuation; behind CR it has -9000 before BK, CR, NL, SP, ZW. At the end of the text the break has about -9000 behind QU, BB, GL, WJ and some HY, BA. An optional break ("a b": -29) can thus have a lower penalty than a mandatory one: no threshold tells them apart. The segments themselves are right (C39).
* C81 (`PropertiesGraphemeMust.v`): the break before a CR is delivered with -10 (behind a prepended character with 9990), unlike the breaks before LF and other control characters with -10000 or less: `rule_CRLF` waits for the rune behind CR before it gives its merit to the position before CR, which has been delivered by then.
* C82 (`PropertiesWordMust.v`): the break before a CR is delivered with 10 like an ordinary word break, those before LF and other line ends with -10000: `rule_CRLF` of uax29.go waits like that of C81.
* C65 (`PropertiesBuffer.v`): the rules LB24 have the weight of LB23.
* The repository's test tolerates up to 10 failures and does not notice missing trailing segments.

**Bidi** (`PropertiesBrackets.v`, `PropertiesRules.v`, `PropertiesScanner.v`, `PropertiesResolver.v`, `PropertiesReorder.v`, `PropertiesPipe.v`, `PropertiesUax9.v`, `PropertiesActions.v`, `PropertiesNested.v`, `PropertiesContext.v`, `PropertiesIsolate.v`, `PropertiesUax9N0.v`, `PropertiesShared.v`)
* C28: more than 63 open brackets, canonically equivalent brackets, and the order of the pairs deviate from BD16;
  `UpdateClosingBrackets` has no effect.
* C29: rules N1_5, N1_6, N1_8, N1_9 are lost: their left-hand sides find other rules or none.
* C55 (`PropertiesTrie.v`): an insertion that relocates a family always invalidates a position handed out before (for every
  trie and word: `C55_stable`); the rules N1_5, N1_6, N1_8, N1_9 are lost for that reason.  Before `Freeze` a lookup stores the word and never
  answers 0 (`C55_lookup_stores_refuted`).
* C30: "R NI EN" and "R NI AN" drop the number; LRI PDI at the end doubles the PDI; an unmatched PDI at
  top level stops early; of two isolates at the end of the text the second is doubled (`PropertiesNested.v`).
* C31: "R WS EN WS EN" never terminates in pass 1.
* C33: splitting with an empty rest or in a gap panics; isolates right of the cut stay in the prefix; an initiator
  is copied to both sides; children are not shifted; the embedding is lost.
* C34: run lengths are lost; a leading LRI panics.  C32/C34: adjacent EN AN are ordered differently from L2.
  `PropertiesRuns.v`: the text around an isolate in R text of a left-to-right paragraph is not exchanged; the contents
  of an RLI inside an RLI are not reversed (L2).
* C35: a reversing iterator reverses the segments shared with other iterators.
* C36: a leading non-spacing mark is dropped; an empty text sends the end marker twice; invalid bytes count 3;
  a mark after an FSI becomes another FSI (W1).
* C37: an unmatched PDI, an empty text and a text of marks only leave the scanner goroutine blocked.
* C67 (`PropertiesShared.v`): the parser looks up brackets inside an isolate while the scanner is still at work: the levels
  depend on the schedule.  After rule W7 it reads the map `IRS` while the scanner may write it (Go: concurrent map
  read and map write, a fatal error).  C59: `findBD16ForPos` never finds the last handler of the chain, so brackets
  in the last isolate of a text are not resolved.
* C68 (`PropertiesSequence.v`): no bracket in the last isolate of a text finds its partner.  After a PDI without initiator, brackets
  behind the next isolate are given to the handler of that isolate; an initiator at position 0 overwrites the top-level
  sequence, and brackets inside its isolate are paired with brackets behind it.
* C47 (`PropertiesUax9.v`): the strong class before a right-to-left paragraph is L (W7); EN directly after AL does not become
  AN, and after an AL a number behind L and a neutral is not in left-to-right context (W2); `AN CS CS AN` is joined
  (W4); neutrals between two AN get the embedding direction (N1); a group of neutrals ending with a separator is
  not treated as one (N1).  `PropertiesNested.v`: in a right-to-left paragraph a trailing isolate becomes L (N2); a neutral and
  an isolate between R and R become L (N1); a number after an isolate does not see the R before the isolate (W7).
  `PropertiesUax9N0.v`: a neutral before a bracket is resolved by N2 before N0 is applied to the bracket, `A (A)` left to right.
* C58 (`PropertiesContext.v`): a PDI directly before an initiator leaves the context of its isolate in place; an FSI has the
  direction around it; the strong class at the beginning is L in right-to-left paragraphs too; after an AL it is R forever.
  `PropertiesIsolate.v`: a strong run directly before an isolate is forgotten after the isolate; after an isolate at the very
  beginning of another one the strong class is that before the outer isolate.
* C59 (`PropertiesContext.v`): as a consequence, pairs before the first strong character of a right-to-left paragraph, and
  after an AL, get the wrong class; an earlier pair does not count as strong class before a later one; numbers between
  brackets do not count as R, and A(0)a loses its number; brackets without partner, and closing brackets
  of pairs without strong characters, are not resolved by N1 and N2; a mark after a bracket gets the class of the bracket
  and is not resolved.  `PropertiesIsolate.v`: after a strong run and an isolate directly behind it, the pair gets the class of
  the strong run before that.
* C48 (`PropertiesActions.v`): W7 outside left-to-right context, N1_6, N1_7, N1_9 and N1_10 double the rest of the stack; N1_3, N1_4,
  N1_5 and N1_8 lose the third scrap and do not set R.
* C60 (`PropertiesOptions.v`): an option that has been switched on cannot be switched off by a later one.
* C63 (`PropertiesMarkup.v`): markup for position 0 is never inserted.

**Shaping tables** (`PropertiesShaping.v`)
* C56: NUL is in all 56 tables of package shaping; ten of them, among them `UISC_Joiner` and `UISC_Non_Joiner`, contain
  nothing else, as the last block of every category is lost (C38).  `LatinOffset` is missing for tables within Latin-1.
* C56 (`PropertiesTables.v`): a range that ends at U+10000 (and is not in the last block) is printed under `R16`, where
  the constant 0x10000 does not fit: the generated file does not compile.  Nor does the file for no category at all, as
  the import is not used.

**Class tables** (`PropertiesClasses.v`)
* C49: the generator printed the surrogates U+D800-U+DFFF as U+FFFD, which therefore is a Control character: a mark
  after an undecodable byte is a cluster of its own.  (It also makes the break tests with U+D800 pass, as Go converts
  it to U+FFFD.)  NUL is taken for the end of text.  U+2139, U+24C2, U+1F170, U+1F171, U+1F17E, U+1F17F are letters
  and pictographic; WB3c does not apply to them.
* C50: KO KAI + SARA AM (Thai, Lao), pictographic + ZWJ + one of these six, and `RI mark RI RI` have a word boundary in
  a grapheme cluster.  The first and the last are so in UAX#29 itself.
* C52: three of the six emoji classes are never returned.  C46: ASCII digits, `#` and `*` are two cells wide.

**Range collector** (`PropertiesUcd.v`)
* C38: the last block is lost, NUL is added, the switch to 32-bit ranges happens too late.

**Parser of the Unicode data files, generators** (`PropertiesUcdParse.v`)
* C40: 64K bytes without a line feed stop the scanner, even if carriage returns divide them into short lines
  (`C40_too_long_refuted`).
* C41: an empty first field is dropped; the last digit is lost if a line ends behind it; a
  number in front of a character of several bytes is an error (`C41_single` says exactly when a code point is read as
  written); a comment is cut off at a
  second `#`; an indented item is reported as NUL or not at all.
* C42: with a failing reader or an over-long line `Parse` never returns (panic, or tokens for ever).
* C43: the printed tables lack their last block and contain NUL; field position 1 panics.
* C45: a break test without closing sign loses its last segment; after an empty line the previous test is reported
  again; a test without comment gets the previous comment; a word that is no number is read as U+0000, one that is too
  large as U+FFFD.
* C53 (`PropertiesGenerator.v`): the token for the document is taken for an item; every file with an item gives a class without name
  and the generated text is not Go.  Surrogates are written as U+FFFD.  A class spelled with and without a blank loses code
  points.  Errors are never reported, since the error of the last token (end of file) is checked.

## 7. Further files

Files that are not named above (headers of the files):

| file | contents |
|---|---|
| `Base.v` | common vocabulary of the model: Go-like indexing and Go integer helpers |
| `DequeSpec.v` | specification of the look-ahead queue: an unbounded list |
| `PropertiesDeque.v` | C01: the look-ahead buffer is a lossless double-ended queue |
| `PubHistoryProofs.v` | lemmas on the history of the publisher |
| `SegSim.v` | the segmenter over the ring buffer behaves like the segmenter over lists |
| `SegCut.v` | the loop of Next() calls cuts the text exactly at the breakable positions |
| `SegFacade.v` | whole sessions of the segmenter: construct, initialise, iterate, re-use |
| `SimpleWordProofs.v` | the simple word breaker obeys the breakers' contract and marks exactly the ends of maximal runs |
| `SegTheorems.v` | the segmenter over the real ring buffer: statements about whole sessions |
| `SegCor.v` | corollaries used by PropertiesSegmenter.v |
| `SegBlank.v` | what a segmenter shows before the first segment of a text |
| `GraphemeSpec.v` | extended grapheme cluster boundaries, UAX#29 (Unicode 13) section 3.1.1, rules GB3-GB999 in the order of the standard, on code-point classes |
| `BreakSpecProofs.v` | basic facts about segmentations |
| `BreakFacade.v` | the segmenter with one breaker realises a segmentation given by a boundary predicate, when the breaker's penalties agree with the predicate |
| `GraphemeProofs.v` | the grapheme breaker realises the GB rules except GB9b |
| `GraphemeCor.v` | consequences for Prepend characters and regional indicators |
| `WordSpec.v` | word boundaries, UAX#29 (Unicode 13) section 4.1.1, rules WB3-WB999 in the order of the standard, on code-point classes |
| `SegWeak.v` | the loop of Next() calls for breakers that may still turn a settled non-break into a break (word and line breakers announce a longest match of 0). |
| `Rows.v` | penalties of a breaker that is summarised by a state machine |
| `WordProofs.v` | one round of the word breaker as a step on a summary of the past |
| `WordVerdict.v` | the word breaker realises the WB rules, up to WB7b with ignored characters |
| `WordCor.v` | consequences: WB7b without ignored characters, regional indicators |
| `UcdProofs.v` | lemmas on the range-table collector |
| `Utf8Proofs.v` | decoding inverts encoding; behaviour of PositionOfFirstLegalRune |
| `GStringProofs.v` | grapheme strings index their clusters |
| `LongCluster.v` | a text with a cluster of 4101 runes (witness for C21). |
| `WidthProofs.v` | display widths |
| `Bd16Spec.v` | definition BD16 of UAX#9 (version 13), written down without reference to the code |
| `BracketProofs.v` | the bracket handler records the pairs of BD16 |
| `RuleProofs.v` | what the rule dictionary finds |
| `ReorderSpec.v` | what reordering, splitting and iterating should do, independent of the code |
| `ReorderProofs.v` | reordering and run building for lists of scraps without nested isolates |
| `SplitProofs.v` | splitting resolved levels into lines |
| `IterProofs.v` | segment iterators behave like independent cursors |
| `ScannerProofs.v` | the scanner terminates without panic and its scraps tile the text |
| `ResolverProofs.v` | the two passes of the bidi parser on texts without isolates: they terminate, and what they leave on the stack tiles the text |
| `ResolverFlat.v` | resolving texts without isolates: the resolved runs tile the text |
| `ResolverText.v` | from the text to the resolved runs, for texts without isolates |
| `ResolverFuel.v` | the bound on the rounds of the resolver does not matter once it suffices |
| `ResolverRefuted.v` | numbers after right-to-left letters: the first pass does not end |
| `PipeProofs.v` | every schedule of the two goroutines ends in the same way |
| `PropertiesIso.v` | C47 for texts with isolates |
| `PropertiesAppend.v` | C69: appended text changes the segments at the end only |
| `PropertiesCausal.v` | C70: what has been delivered does not depend on input that has not been read |
| `PropertiesSegText.v` | C71: the bytes of the segments are the bytes of the text |
| `PropertiesSegBuffer.v` | C73: the buffer of a segmenter |
| `PropertiesInPlace.v` | C32: the loops of the reordering as they are in the code, in place (model: InPlace.v); C35: what every call on the iterators answers, as a function of the calls before it (IterHistory.v). |
| `PropertiesBracketExact.v` | C28: the pairs recorded for every text, however deep and however mixed |
| `AheadBreakers.v` | graphemes and simple words: one rune is read ahead |
| `AheadWords.v` | words: what is read ahead, except for its first and its last rune, is ignored by rule WB4 |
| `AheadLines.v` | lines: one rune is read ahead, or two if the second decides whether a number begins |
| `PropertiesAhead.v` | C72: how far Next() has read when it delivers a segment |
| `PropertiesTestFile.v` | C45: test files of any contents, break tests of any text |
| `PropertiesTrieLive.v` | C55: lookups before the trie is frozen |
| `PropertiesUcdExact.v` | C40: the lines of every file; C41: the tokens of every file, and when the code point of a line is read as it is written; C43, C44, C53: the generators on every file |
| `PropertiesStringsExact.v` | C21 and C27 for every byte sequence: the graphemes, exactly when they make up the text, and the width |
| `PoolKeep.v` | no object of the pool gets lost: it is idle, or a breaker holds it, or the pool has thrown it away |
| `PoolRace.v` | which objects a step of a breaker looks at and changes, and that breakers at work at the same time share none |
| `PropertiesPool.v` | C77: breakers that share the pool of recognisers do not disturb each other |
