{"id": "C01", "title": "A compiled expression matches exactly its language", "statement": "Build an Fsm by any nesting of the documented building calls (default constructor, MakeFalse, Append, AppendSpecial, AppendDot, AppendStrings, operator+, operator|, operator*, operator~, operator&, operator*(n), Surround, Reverse). If no call throws and the result is compiled, the scanner's Final() after feeding a string equals membership of that string in the language denoted by the expression. Stated on the documented subset where the right operand of + is not a bare empty-string automaton and Append is not called on an already letter-compressed automaton; outside it the claim is refuted with witnesses (C04, C02).", "quantifier": "every expression tree of building calls, of any depth, and every input string over bytes and begin/end marks", "why_tests_cant": "infinitely many expressions and strings; tests sample a few dozen patterns and short strings", "anchors": ["pire/fsm.h: Fsm", "pire/fsm.cpp", "pire/determine.h: Determine", "pire/minimize.h: Minimize", "pire/scanners/simple.h: SimpleScanner"]}
{"id": "C02", "title": "Append adds exactly one letter", "statement": "After f.Append(c) (resp. AppendSpecial(c), Append(str), AppendDot()), f accepts exactly the words w+c (resp. w+str, w+any single byte) with w accepted before. Holds for every automaton whose letters have not been compressed into classes; it is refuted for automata returned by operator~, operator& or Canonize, where the appended letter is silently lost.", "quantifier": "every automaton in every reachable internal state, every byte / special letter / string", "why_tests_cant": "the failing states arise only from particular call histories (complement, then append)", "anchors": ["pire/fsm.cpp: Fsm::Append, Fsm::AppendSpecial, Fsm::AppendDot, Fsm::Unsparse"]}
{"id": "C03", "title": "AppendStrings appends the union of the given strings", "statement": "After f.AppendStrings(S) f accepts exactly w+s with w accepted before and s in S; an empty string in S is rejected with an exception and f is unchanged.", "quantifier": "every automaton, every list of strings, including strings that are prefixes of each other and duplicates", "why_tests_cant": "the shared prefix tree has unboundedly many shapes", "anchors": ["pire/fsm.cpp: Fsm::AppendStrings"]}
{"id": "C04", "title": "operator+ is concatenation", "statement": "a += b accepts exactly the words u+v with u accepted by a and v accepted by b, provided b's initial state is not itself final. When b's initial state is final (for instance b is Fsm(), or x*0) the claim is refuted: a + Fsm() accepts nothing.", "quantifier": "all pairs of automata and all words", "why_tests_cant": "depends on the internal shape of both operands, for all words", "anchors": ["pire/fsm.cpp: Fsm::operator+=, Fsm::Import"]}
{"id": "C05", "title": "operator| is union whatever the history of the operands", "statement": "a |= b accepts exactly the words accepted by a or by b, for each of the four combinations of the internal 'is already an alternation' hint, for any automata produced by the building calls.", "quantifier": "all pairs of automata reachable by any sequence of building calls, all words", "why_tests_cant": "the hint is set and cleared by a history of earlier calls; all interleavings matter", "anchors": ["pire/fsm.cpp: Fsm::operator|=, Fsm::Connect"]}
{"id": "C06", "title": "Iterate is Kleene star", "statement": "f.Iterate() accepts exactly the concatenations of zero or more words accepted by f.", "quantifier": "all automata, all words, any number of repetitions", "why_tests_cant": "unbounded repetition count", "anchors": ["pire/fsm.cpp: Fsm::Iterate"]}
{"id": "C07", "title": "operator*(n) is n-fold repetition", "statement": "f * n accepts exactly concatenations of n words accepted by f (f's initial state not final); f * 0 accepts only the empty word.", "quantifier": "all automata, all n, all words", "why_tests_cant": "n and the words are unbounded", "anchors": ["pire/fsm.cpp: Fsm::operator*"]}
{"id": "C08", "title": "operator~ is complement", "statement": "If f.Complement() does not throw, the result accepts a word over the scanner alphabet iff f rejected it.", "quantifier": "all automata, all words over the 263 non-epsilon letters", "why_tests_cant": "quantifies over all rejected words", "anchors": ["pire/fsm.cpp: Fsm::Complement, Fsm::Determine, Fsm::Minimize"]}
{"id": "C09", "title": "operator& is intersection", "statement": "If a &= b does not throw, the result accepts exactly the words accepted by both a and b.", "quantifier": "all pairs of automata, all words", "why_tests_cant": "three determinisations are chained; all words matter", "anchors": ["pire/fsm.cpp: Fsm::operator&="]}
{"id": "C10", "title": "Surround, PrependAnything and AppendAnything", "statement": "After Surround() f accepts exactly the words having some accepted word as an infix; PrependAnything gives suffix-match, AppendAnything prefix-match.", "quantifier": "all automata, all words", "why_tests_cant": "all words and all split points", "anchors": ["pire/fsm.cpp: Fsm::Surround, Fsm::PrependAnything, Fsm::AppendAnything"]}
{"id": "C11", "title": "Reverse accepts the mirrored language", "statement": "f.Reverse() accepts w iff f accepted the mirror image of w; reversing twice restores the language.", "quantifier": "all automata, all words", "why_tests_cant": "all words", "anchors": ["pire/fsm.cpp: Fsm::Reverse"]}
{"id": "C12", "title": "MakePrefix accepts exactly the prefixes", "statement": "After MakePrefix() f accepts exactly the prefixes of the words it accepted before.", "quantifier": "all automata, all words", "why_tests_cant": "all words and all continuations", "anchors": ["pire/fsm.cpp: Fsm::MakePrefix, Fsm::RemoveDeadEnds"]}
{"id": "C13", "title": "MakeSuffix accepts exactly the suffixes", "statement": "After MakeSuffix() f accepts exactly the suffixes of the words it accepted before. Holds for automata all of whose states are reachable and whose initial state has no incoming transition; otherwise only completeness holds (no suffix is missed): unreachable states leak non-suffixes, and a transition back into the initial state lets a word re-enter the middle (PrependAnything of ab, then MakeSuffix, accepts xb).", "quantifier": "all automata, all words", "why_tests_cant": "depends on unreachable states left over by earlier calls", "anchors": ["pire/fsm.cpp: Fsm::MakeSuffix"]}
{"id": "C14", "title": "RemoveEpsilons preserves the language and removes every epsilon", "statement": "After RemoveEpsilons() no state has an epsilon transition and exactly the same words are accepted.", "quantifier": "all automata including epsilon cycles, all words", "why_tests_cant": "closure over arbitrary epsilon graphs", "anchors": ["pire/fsm.cpp: Fsm::RemoveEpsilons, Fsm::ShortCutEpsilon, Fsm::MergeEpsilonConnection"]}
{"id": "C15", "title": "Letter classes are exact", "statement": "After Sparse() every letter is in exactly one class, two letters share a class iff every state treats them identically, class indices are 0..n-1 without gaps, and Unsparse() restores the per-letter transitions.", "quantifier": "all transition tables, all pairs of letters", "why_tests_cant": "all pairs over all tables", "anchors": ["pire/partition.h: Partition", "pire/fsm.cpp: Fsm::Sparse, Fsm::Unsparse, Fsm::LettersEquality"]}
{"id": "C16", "title": "Determine preserves the language and yields a complete deterministic automaton", "statement": "If Determine(maxSize) returns true, each state has exactly one successor per letter and exactly the same words are accepted; it has at most maxSize+1 states.", "quantifier": "all automata, all maxSize, all words", "why_tests_cant": "subset construction over all automata", "anchors": ["pire/determine.h: Determine", "pire/fsm.cpp: Impl::FsmDetermineTask, Fsm::Determine"]}
{"id": "C17", "title": "Determine terminates and fails only when the limit is exceeded", "statement": "Determine always terminates; it returns false only if more than maxSize+1 distinct subsets are discovered, and the automaton still accepts the same language after a failed call.", "quantifier": "all automata, all maxSize", "why_tests_cant": "termination and tightness of the limit for all inputs", "anchors": ["pire/determine.h: Determine", "pire/fsm.cpp: Fsm::Determine"]}
{"id": "C18", "title": "Minimize preserves the language and merges every pair of equivalent states", "statement": "After Minimize() on a deterministic complete automaton the same words are accepted and any two distinct states are told apart by some word; the refinement loop terminates.", "quantifier": "all deterministic complete automata, all words", "why_tests_cant": "minimality quantifies over all words for all pairs of states", "anchors": ["pire/minimize.h: Minimize", "pire/fsm.cpp: Impl::FsmMinimizeTask, Fsm::Minimize"]}
{"id": "C19", "title": "Canonize yields a minimal automaton", "statement": "The automaton produced by Canonize() has no more states than any complete deterministic automaton for the same language; hence two equivalent automata canonize to the same number of states.", "quantifier": "all pairs of automata with equal languages", "why_tests_cant": "quantifies over all competing automata", "anchors": ["pire/fsm.cpp: Fsm::Canonize"]}
{"id": "C20", "title": "DeadStates is exact and RemoveDeadEnds is harmless", "statement": "DeadStates() is exactly the set of states unreachable from the initial state or from which no final state can be reached; RemoveDeadEnds() never changes the accepted language.", "quantifier": "all automata, all states, all words", "why_tests_cant": "reachability over arbitrary graphs", "anchors": ["pire/fsm.cpp: Fsm::DeadStates, Fsm::RemoveDeadEnds"]}
{"id": "C21", "title": "Table scanners simulate the automaton and never leave their table", "statement": "For SimpleScanner, Scanner and NonrelocScanner (with and without masks), after any input the scanner's state pointer is the row address of the automaton state reached, so every table read is in bounds, and Final() is acceptance; for relocatable tables this needs the table to be smaller than 2^31 bytes.", "quantifier": "all compiled automata, all input words, all load addresses", "why_tests_cant": "all inputs and load addresses; overflow only at sizes tests never build", "anchors": ["pire/scanners/simple.h", "pire/scanners/multi.h", "pire/scanners/common.h", "pire/fsm.h: BuildScanner"]}
{"id": "C22", "title": "SlowScanner simulates the nondeterministic automaton", "statement": "For every automaton and every input SlowScanner::Final() is acceptance by the automaton; hence SlowScanner, Scanner and SimpleScanner compiled from the same Fsm always agree.", "quantifier": "all automata, all words", "why_tests_cant": "all automata and words", "anchors": ["pire/scanners/slow.h"]}
{"id": "C23", "title": "Run equals stepping byte by byte for every alignment and every split", "statement": "Run(scanner, state, begin, end) leaves the same state as calling Step on each byte in order, whatever the alignment of begin and end; hence feeding a text in one call or in any number of pieces gives the same result, and no byte outside the words overlapping the range is read.", "quantifier": "all scanners, all start states, all texts, all addresses, all ways to split", "why_tests_cant": "alignment, length and split combinations are unbounded", "anchors": ["pire/run.h: Impl::DoRun, RunChunk, SafeRunChunk, AlignedRunner, Run"]}
{"id": "C24", "title": "Skipping with exit masks changes nothing", "statement": "Running a Scanner with exit-mask shortcuts leaves the same state as stepping through every byte, for both 8-byte and 16-byte words.", "quantifier": "all compiled scanners, all texts, all alignments", "why_tests_cant": "the skip loop depends on every byte of every word", "anchors": ["pire/scanners/multi.h: ExitMasks, AlignedRunner, BuildShortcuts"]}
{"id": "C25", "title": "The word-parallel byte test is exact", "statement": "CheckBytes(FillSizeT(c), word) is non-zero iff some byte of the 64-bit word equals c.", "quantifier": "all bytes c and all 2^64 words", "why_tests_cant": "2^72 combinations", "anchors": ["pire/platform.h: Impl::BasicInstructionSet::CheckBytes", "pire/defs.h", "pire/align.h"]}
{"id": "C26", "title": "ShortestPrefix and LongestPrefix return the right boundary", "statement": "ShortestPrefix returns the end of the shortest accepted prefix, LongestPrefix the end of the longest accepted prefix, or null if there is none. Proved for every scanner for ShortestPrefix and for scanners without shortcuts for LongestPrefix; refuted for LongestPrefix on a mask-equipped Scanner, which returns a too short prefix.", "quantifier": "all scanners, all texts, all alignments, both mark flags", "why_tests_cant": "depends on text alignment and on which words are skipped", "anchors": ["pire/run.h: LongestPrefix, ShortestPrefix", "pire/scanners/multi.h: AlignedRunner"]}
{"id": "C27", "title": "ShortestSuffix and LongestSuffix return the right boundary", "statement": "Scanning right to left with a scanner for the reversed language, LongestSuffix returns the start of the longest suffix whose mirror image is accepted, or null if there is none, with and without the marks; ShortestSuffix returns the start of the shortest one, or null, when throughBeginMark is not set. Refuted for ShortestSuffix with throughBeginMark: it feeds the begin mark even after stopping at an accepted suffix inside the text and can return null although an accepted suffix exists.", "quantifier": "all scanners, all texts", "why_tests_cant": "all texts", "anchors": ["pire/run.h: LongestSuffix, ShortestSuffix"]}
{"id": "C28", "title": "Dead() is sound and exact", "statement": "Scanner::Dead(state) holds iff no continuation of the input can ever be accepted; so stopping early on Dead never changes a result.", "quantifier": "all compiled scanners, all reachable states, all continuations", "why_tests_cant": "quantifies over all continuations", "anchors": ["pire/fsm.h: BuildScanner", "pire/run.h"]}
{"id": "C29", "title": "Glue runs both scanners at once", "statement": "If Glue(a,b) succeeds, then after any text AcceptedRegexps of the glued scanner is AcceptedRegexps(a) followed by AcceptedRegexps(b) shifted by a.RegexpsCount(); Final is the disjunction, Dead the conjunction, and RegexpsCount the sum.", "quantifier": "all pairs of scanners (including glued ones), all texts", "why_tests_cant": "all texts over all products", "anchors": ["pire/scanners/multi.h: ScannerGlueTask, Scanner::Glue", "pire/glue.h", "pire/determine.h"]}
{"id": "C30", "title": "Glue limits", "statement": "Glue with an empty operand returns the other; if the product needs more than maxSize+1 states the result is Empty(); otherwise it is never Empty(). The glued-state hash table behaves like a map as long as fewer than its capacity of states are stored; refuted beyond (lookup yields an out-of-range slot).", "quantifier": "all pairs of scanners, all limits", "why_tests_cant": "needs products with hundreds of thousands of states", "anchors": ["pire/glue.h: GluedStateLookupTable", "pire/scanners/multi.h: Scanner::Glue"]}
{"id": "C31", "title": "Running a pair equals running each alone", "statement": "Run(scanner1, scanner2, state1, state2, begin, end) leaves each state as if its scanner had been run alone on the text.", "quantifier": "all pairs of scanners, states, texts and alignments", "why_tests_cant": "all texts and alignments", "anchors": ["pire/scanners/pair.h: ScannerPair", "pire/run.h"]}
{"id": "C32", "title": "Save then Load restores the scanner", "statement": "Loading what Save wrote yields a scanner with the same behaviour, consumes exactly the bytes written, and leaves the stream word-aligned. Saving a scanner that was itself mapped is refuted.", "quantifier": "all scanners of each serialisable type, any trailing stream content", "why_tests_cant": "all table contents and sizes", "anchors": ["pire/scanner_io.cpp", "pire/scanners/common.h: Header, SavePodType", "pire/align.h"]}
{"id": "C33", "title": "Load rejects foreign images", "statement": "Loading an image whose magic, version, pointer size, word size, scanner type or header size differs from the expected ones throws, and throws on a stream that ends early, provided the stream itself throws at its end; on a stream that does not, a cut image is accepted (refuted).", "quantifier": "all byte streams", "why_tests_cant": "all corruptions", "anchors": ["pire/scanners/common.h: Header::Validate", "pire/scanner_io.cpp"]}
{"id": "C34", "title": "Mmap agrees with Load and checks the buffer size", "statement": "Mmap on a word-aligned saved image yields a scanner equal to the loaded one and returns the address just past the image. The claim that a truncated image is always rejected is refuted: padding after a 1-byte flag is not deducted, so images up to 7 bytes short are accepted.", "quantifier": "all images, all truncation points", "why_tests_cant": "the missing check only matters at particular truncation offsets", "anchors": ["pire/align.h: Impl::AlignPtr, AdvancePtr, MapPtr", "pire/scanners/simple.h: Mmap", "pire/scanners/multi.h: Mmap"]}
{"id": "C35", "title": "Mmap of an empty image empties the scanner", "statement": "After Mmap of an image saved from an empty scanner the object is Empty(). Holds for Scanner; refuted for SimpleScanner and SlowScanner, which keep their previous contents.", "quantifier": "all previous contents of the target object", "why_tests_cant": "depends on the history of the target object", "anchors": ["pire/scanners/simple.h: SimpleScanner::Mmap", "pire/scanners/slow.h: SlowScanner::Mmap", "pire/scanners/multi.h: Scanner::Mmap"]}
{"id": "C36", "title": "UTF-8 encoding round trip", "statement": "For every code point below 0x200000, decoding the bytes produced by the UTF-8 encoding returns the code point and consumes exactly those bytes; the encoding is injective and prefix-free.", "quantifier": "all code points, any following bytes", "why_tests_cant": "over two million code points times all contexts", "anchors": ["pire/encoding.cpp: Utf8", "pire/stub/codepage_h.h: utf8_put_rune, utf8_read_rune", "pire/stub/utf8.cpp"]}
{"id": "C37", "title": "Dot in UTF-8 matches one encoded sequence", "statement": "Utf8::AppendDot extends the automaton by exactly the byte sequences consisting of a lead byte followed by the number of continuation bytes it announces; every encoded code point is matched.", "quantifier": "all automata, all byte strings", "why_tests_cant": "all byte strings", "anchors": ["pire/encoding.cpp: Utf8::AppendDot"]}
{"id": "C38", "title": "Counted repetition in patterns", "statement": "x{n}, x{n,}, x{n,m}, x*, x+, x? denote the usual languages in the parsed pattern, for n <= m; refuted for x{n,m} with n > m, where the construction asks for 2^64-(n-m) copies.", "quantifier": "all sub-automata, all n and m", "why_tests_cant": "all counts", "anchors": ["pire/re_parser.y: iteration", "pire/re_lexer.cpp: RepetitionCountReader"]}
{"id": "C39", "title": "Regexp::Matches is substring search", "statement": "Regexp::Matches(text) holds iff the marked text (begin mark, text, end mark) has an infix accepted by the pattern automaton, whether or not the leading-anchor optimisation or the slow fallback is taken.", "quantifier": "all pattern automata, all texts", "why_tests_cant": "the optimisation decision depends on the pattern's epsilon closure", "anchors": ["pire/easy.h: Regexp", "pire/easy.cpp: Regexp::BeginsWithCircumflex"]}
{"id": "C40", "title": "Counters depend only on the stream of actions", "statement": "For CountingScanner and AdvancedCountingScanner, Result(i) after any text shorter than 2^32 letters equals the maximum run length computed by an independent specification over the sequence of increment/reset events for regexp i; events of other regexps never influence it.", "quantifier": "all scanners, all event sequences, all regexps", "why_tests_cant": "all event sequences", "anchors": ["pire/extra/count.h: CountingScanner, AdvancedCountingScanner, PerformIncrement, PerformReset"]}
{"id": "C41", "title": "Glued counters count independently", "statement": "After Glue(a,b) of counting scanners with at most 16 regexps in total (and at most 256 classes of letters), Result(i) equals a.Result(i) for i < a.RegexpsCount() and b.Result(i - a.RegexpsCount()) otherwise, after any text. The result is empty exactly if more pairs of states than the limit are reachable. Refuted beyond 256 classes: letters an operand tells apart are then the same to the result.", "quantifier": "all pairs of counting scanners, all texts", "why_tests_cant": "all texts over all products", "anchors": ["pire/extra/count.cpp: CountingScannerGlueTask, CountingScanner::Glue, AdvancedCountingScanner::Glue"]}
{"id": "C42", "title": "Lexer: every item of a pattern is read as documented", "statement": "A pattern text made of documented items (plain characters, escaped special characters, \\xHH and \\x{H..}, classes \\l\\c\\w\\d\\s\\n\\r\\t and their negations, bracket sets with ranges, counts, operators; & and ~ with ANDNOT) is read as exactly the tokens the items stand for, up to case under the option I, whatever items stand around; so a literal pattern in UTF-8 or Latin-1 matches exactly its own text. On any other text the lexer stops with tokens, a syntax error or an overflowing count; no internal control code gets into a token; unknown escapes are errors. Refuted for code points whose bits 8..15 equal 0xF0 (they collide with control codes) and in the cases of the refuted theorems.", "quantifier": "all code points, all patterns", "why_tests_cant": "the colliding code points are rare and untested", "anchors": ["pire/re_lexer.cpp: Lexer::GetChar, Lexer::DoLex", "pire/re_lexer.h"]}
{"id": "C43", "title": "Patterns are parsed by the grammar, with the documented precedence", "statement": "The parser accepts a token sequence iff the grammar (counts bind tightest, then concatenation, ~, &, |) derives it, the tree it builds is the only one, and every other token sequence is rejected with an exception.", "quantifier": "all token sequences, any nesting depth", "why_tests_cant": "Ambiguity and precedence mistakes show only in particular nestings; no finite set of patterns covers all of them.", "anchors": ["pire/re_parser.y:82-159", "pire/re_lexer.cpp:379-387"]}
{"id": "C44", "title": "A parsed pattern matches exactly what it denotes", "statement": "For every pattern tree in the documented subset (counts in order, nothing void concatenated or repeated), in Latin-1 and UTF-8, the automaton the parser returns, and the scanners compiled from it, accept exactly the denotation of the pattern: character ranges, their negation, dot, marks, grouping, counts, concatenation, ~, & and |. The only other outcome is the 'too complicated' exception, and only when the pattern has ~, & or a negated range. Refuted outside the subset: a()b does not match ab.", "quantifier": "all patterns of any size and nesting, all words", "why_tests_cant": "The claim is about every composition of operators; tests check a few patterns on a few texts.", "anchors": ["pire/re_parser.y:82-243", "pire/fsm.cpp"]}
{"id": "C45", "title": "CountingScanner(re, sep) counts chains of separated matches", "statement": "A piece is a word of sep in which no word of re occurs, followed by a word of re. Result(0) of CountingScanner(re, sep) after a text never exceeds the number of consecutive pieces that can be found in it, provided a longer piece starting with two pieces goes through a piece before the second is over; if a piece can be continued only by pieces, Result(0) is the longest uninterrupted run of pieces read greedily; and if sep is any bytes and words of re neither contain nor overlap one another, Result(0) over a text with marks at its ends is the greatest number of words of re that follow one another in it. Without such conditions the documented meaning is refuted both ways: re = a|aaa with an empty separator counts 4 in aabbbb and 2 in abaaaaX.", "quantifier": "all regexps, all separators, all texts", "why_tests_cant": "The scanner decides with two states of lookahead what belongs to which piece; tests try a handful of pairs of regexps.", "anchors": ["pire/extra/count.cpp: CountingScanner::CountingScanner", "pire/extra/count.h: CountingScanner"]}
{"id": "C46", "title": "Approximate matching finds what is at most the given number of edits away", "statement": "CreateApproxFsm(fsm, d) accepts only words that are at most d edits (a letter replaced, inserted or removed, two adjacent letters exchanged) away from a word fsm accepts. It accepts every such word as far as the edits are not insertions behind the last letter where fsm ends, nor exchanges in an fsm that has Epsilon transitions. After Surround the end is no exception: Scanner, SimpleScanner and SlowScanner constructed with distance d from a surrounded string say of every text whether it contains the string with at most d edits. Without those guards it is refuted: 'ab' with distance 1 rejects 'abx'; a(b|c) with distance 1 rejects 'ba'; a second scanner with a distance constructed from the same Fsm object throws.", "quantifier": "all automata built by the public calls with uncompressed letters, all distances, all texts", "why_tests_cant": "Tests try distances 1 and 2 on a few words; the claim is over all edit scripts, automata and distances, and its exceptions lie in combinations the tests do not try.", "anchors": ["pire/approx_matching.cpp: CreateApproxFsm", "pire/scanners/multi.h: Scanner(Fsm&, size_t)", "pire/scanners/simple.h: SimpleScanner(Fsm&, size_t)", "pire/scanners/slow.h: SlowScanner(Fsm&, bool, bool, size_t)"]}
{"id": "C47", "title": "Half-final scanners match like Scanner and count matches exactly", "statement": "HalfFinalScanner(fsm) (and any Glue, copy, conversion, saved or mapped image of such scanners): after a text and EndMark, AcceptedRegexps lists exactly the regexps whose automaton accepts the text with EndMark, provided an automaton that ignores what follows a match also ignores what precedes it (e.g. after Surround). Without the proviso it is refuted, although the header promises no restrictions. A counter made by MakeNonGreedyCounter counts in State::Result: (intersects, not simplified) the positions of the text at which a match ends; (intersects, simplified) those at which a match ends with no match ending earlier inside it; (not intersecting) the largest number of matches that do not overlap, or 1 if the regexp matches the empty string. The constructors succeed or throw 'too complicated'; no counter wraps, no array is overrun.", "quantifier": "all automata built by the public calls, all sequences of compiling, gluing, copying, saving and loading, all texts shorter than 2^64 - 2", "why_tests_cant": "Tests count a few patterns in a few strings; the claim compares the running count with a maximum over all ways of choosing disjoint matches, for every automaton and text.", "anchors": ["pire/scanners/half_final.h: HalfFinalScanner", "pire/half_final_fsm.cpp: HalfFinalFsm::MakeScanner, MakeNonGreedyCounter, MakeHalfFinal, DisconnectFinals", "pire/half_final_fsm.h"]}
{"id": "C48", "title": "AdvancedCountingScanner never counts matches that are not there", "statement": "Result(0) of AdvancedCountingScanner(re, sep) after a text of bytes and marks never exceeds the number of words of re, consecutive ones separated by a word of sep, that can be found in the text, also when the constructor falls back on the simplified automaton. If sep matches something, the simplified automaton was not used and a non-empty word of re occurs in the text, Result(0) is at least 1. The constructor returns a scanner or throws 'too complicated', provided the determined automaton has fewer than 2^32 states; the scanner then runs over every text. That Result(0) reaches the largest such number is refuted (re = a|aab, sep = b, aaba gives 1), as is finding a match with a separator that matches nothing.", "quantifier": "all regexps and separators built by the public calls, all texts shorter than 2^32 with at most 256 classes of letters", "why_tests_cant": "The constructor determines a tagged automaton whose states are four groups of tagged states rearranged by ad hoc rules; the claim relates every action it emits on every text to actual factorizations of the text.", "anchors": ["pire/extra/count.cpp: CountingFsm, BasicCountingFsmDetermineTask, CountingFsmDetermineTask, SimpleCountingFsmDetermineTask, CountingFsmMinimizeTask, MakeAdvancedCountingScanner", "pire/extra/count.h: AdvancedCountingScanner"]}
{"id": "C49", "title": "NoGlueLimitCountingScanner counts each regexp as AdvancedCountingScanner does", "statement": "However a NoGlueLimitCountingScanner was obtained by constructing, copying and gluing, Result(i) after a text is what AdvancedCountingScanner gives for the i-th regexp and separator alone, for any number of regexps. So it never exceeds the number of separated matches to be found in the text, and is at least 1 if a non-empty match occurs (full automaton, separator that matches something). It runs over every text without leaving its tables and has a Result for each regexp. Glue returns a scanner for the regexps of both, or an empty one exactly if there are more reachable pairs of states than allowed.", "quantifier": "all scanners constructed, copied or glued by the public calls, any number of regexps, all texts shorter than 2^32 (running: all texts)", "why_tests_cant": "The glued transitions point into a table of variable-length action lists that is built up while gluing and re-read, shifted, by the next gluing; the claim covers every tree of gluings and every text.", "anchors": ["pire/extra/count.h: NoGlueLimitCountingState, NoGlueLimitCountingScanner", "pire/extra/count.cpp: NoGlueLimitCountingScannerGlueTask, NoGlueLimitCountingScanner::Glue"]}
{"id": "C50", "title": "Counting scanners survive saving, loading and mapping", "statement": "Load of what a CountingScanner, AdvancedCountingScanner or NoGlueLimitCountingScanner saved reads exactly that from the stream, and Mmap returns the pointer behind it; the scanner then gives the same Result for every regexp and every text as the one saved, wherever the tables are, and can itself be saved, copied and glued. An image in the old version 6 format loads the same as the version 7 one. NoGlueLimitCountingScanner loads what AdvancedCountingScanner saved and counts the same.", "quantifier": "all counting scanners obtained by the public calls (constructing, copying, gluing, loading, mapping) that are not empty and have at most 256 classes of letters, all padding bytes, buffer addresses, memories and following data, all texts", "why_tests_cant": "A round trip can be checked for chosen scanners; that the 64-bit relative state addresses, the packed transitions, the padding and the appended action table fit together for every table size, and that a mode without update masks counts the same on every text, is a claim about all of them.", "anchors": ["pire/scanner_io.cpp: LoadedScanner::Save, LoadedScanner::Load", "pire/scanners/loaded.h: Mmap", "pire/extra/count.cpp: NoGlueLimitCountingScanner::Save, Load, Mmap", "pire/extra/count.h: AdvancedScannerCompatibilityMode"]}
{"id": "C51", "title": "SlowCapturingScanner finds the matches there are and captures what the group matched", "statement": "For a surrounded regexp A(B)C, with or without marked repetitions, the scanner runs over every text without leaving its tables; the state IsMatched, and GetCapture returns true, exactly when the text contains a match; and GetBegin and GetEnd are the positions of the part of the text that B matches in one of these matches. In general what GetCapture writes are the positions where one run of the automaton over the text first passed the marks of the capture. Unless a greedy repetition can end before any letter is read, this match begins as early in the text as any. The marks do not change what the automaton accepts.", "quantifier": "all automata made of pieces without ^ and $, appended strings and dots, one or more captures, greedy and non-greedy repetition marks, concatenation, alternative and iteration, with less than 2^32 states; all texts shorter than 2^64 - 1", "why_tests_cant": "The scanner keeps one entry per state, drops entries once a match is seen, and merges the runs that meet in a state by a priority order; that no match is lost and no entry mixes the positions of two runs is a claim about all automata and all texts.", "anchors": ["pire/extra/capture.h: SlowCapturingScanner", "pire/extra/capture.cpp: CaptureImpl::SetCaptureMark, CaptureImpl::SetRepetitionMark", "pire/scanners/slow.h: SlowScanner(Fsm&, bool, bool, size_t)"]}
{"id": "C52", "title": "CapturingScanner decides matches and keeps its first capture", "statement": "A CapturingScanner compiled from a surrounded regexp runs over every text, and Final is true exactly when the text contains a match. Begin and End are the last beginning and the last end noted up to the first letter at which both are there; once Captured, they never change. Without a group in the regexp the state is never Captured.", "quantifier": "all automata made of pieces without ^ and $, captures, repetition marks, concatenation, alternative and iteration whose minimal automaton has less than 2^32 states and at most 256 letters and fits into memory; all texts shorter than 2^64 - 1", "why_tests_cant": "The scanner goes through RemoveEpsilons, Determine and Minimize, each of which moves or merges outputs; that the language survives and that noting is stable is a claim about all automata and texts.", "anchors": ["pire/extra/capture.h: CapturingScanner", "pire/scanners/loaded.h", "pire/fsm.h: BuildScanner", "pire/fsm.cpp: Fsm::Minimize, Fsm::Determine, Fsm::RemoveEpsilons"]}
{"id": "C53", "title": "Parsing with the feature Capture(pos) captures the group with that number", "statement": "A pattern parsed with the lexer feature Capture(pos) and compiled into a SlowCapturingScanner, surrounded, matches the texts that contain a word of the pattern, whatever pos is and whichever counts are greedy. If GetCapture returns true, GetBegin and GetEnd bound a part of the text that the group with number pos matches, groups being numbered from 1 by their open parentheses; the positions are those of that group in one match of the whole pattern, in its first round if the group is repeated, and GetCapture returns false when the group took no part in this match. If the pattern has no group with that number, GetCapture returns false. Unless a greedy count of the pattern can end before any letter has been read, the match begins as early in the text as any; in particular if every count is followed by a question mark.", "quantifier": "all patterns the grammar derives without ^, $, & and ~, and in UTF-8 without the dot, whose counts are in order and which concatenate and repeat nothing void; all pos; all choices of greedy and non-greedy counts; Latin-1 and UTF-8; automata with less than 2^32 states and texts shorter than 2^64 - 1", "why_tests_cant": "The feature counts parentheses in the lexer and puts the marks in when the parser reduces; that the two agree on which group is meant, through nested groups, alternatives and counts, is a claim about all patterns.", "anchors": ["pire/extra/capture.cpp: CaptureImpl::Lex, CaptureImpl::Parenthesized, Features::Capture", "pire/re_parser.y", "pire/extra/capture.h: SlowCapturingScanner"]}
{"id": "C54", "title": "With the feature Capture a question mark behind *, + or ? makes it non-greedy and changes nothing else", "statement": "A lexer with the feature Capture reads every item of a pattern as the token it stands for without the feature. A question mark right behind *, + or ? is no token of its own but makes that count non-greedy; every other count is greedy. If every count of a pattern is so marked, what SlowCapturingScanner captures belongs to a match that begins as early in the text as any. On every text the lexer stops, and it notes exactly one kind, greedy or not, for each count the parser meets.", "quantifier": "all patterns written with the documented items, with the options I and ANDNOT in any combination, in which a greedy *, + or ? is not followed by a further ?", "why_tests_cant": "The feature reads ahead, eats a character and puts another back before other features see it; that this disturbs no item in any context is a claim about all patterns.", "anchors": ["pire/extra/capture.cpp: CaptureImpl::Accepts, CaptureImpl::Lex", "pire/re_lexer.cpp: Lexer::DoLex, Lexer::AddFeature, RepetitionCountReader"]}
