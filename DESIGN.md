# Formal model of yandex/pire in Rocq (Coq 8.16.1)

Nothing in /repo is compiled or run.  The model is written by reading the C++
text, function by function; every model definition cites the file and lines it
models, and says where it simplifies.  Only Coq's standard library is used.

## Layout (rocq/theories)

| files | content |
|---|---|
| `Util.v` | sorted sets and maps (std::set / std::map), the result type `res` |
| `Spec.v`, `EncSpec.v`, `RunSpec.v`, `ScannerSpec.v`, `RegexSpec.v`, `LexSpec.v`, `IoSpec.v`, `CountSpec.v`, `ApproxSpec.v`, `HalfSpec.v`, `AdvSpec.v`, `CapSpec.v`, `MarkSpec.v`, `Expr.v` | the independent specification vocabulary: languages, UTF-8 text, runs over memory, machines, what expressions, patterns and pattern items denote |
| `PartitionModel.v`, `FsmModel.v`, `DetermineModel.v`, `MinimizeModel.v` | partition.h, fsm.h/fsm.cpp, determine.h, minimize.h |
| `RunModel.v` | run.h |
| `ScannerModel.v`, `GlueModel.v`, `SimpleModel.v` | scanners/multi.h with platform.h and align.h, glue.h, scanners/simple.h, scanners/slow.h |
| `EncModel.v` | encoding.h/.cpp and the UTF-8 routines of stub/codepage_h.h |
| `RegexModel.v` | re_parser.y: grammar and actions |
| `EasyModel.v` | easy.h: Regexp |
| `IoModel.v` | saving, loading and mapping: scanners/common.h, scanner_io.cpp, align.h, stub/saveload.h |
| `CountModel.v` | scanners/loaded.h, extra/count.{h,cpp} |
| `AdvModel.v` | extra/count.cpp: CountingFsm and its tasks, AdvancedCountingScanner |
| `NgModel.v` | extra/count.{h,cpp}: NoGlueLimitCountingScanner, its state and its gluing |
| `CountIoModel.v` | scanner_io.cpp, scanners/loaded.h, extra/count.cpp: saving, loading and mapping of counting scanners |
| `CapModel.v` | extra/capture.h: SlowCapturingScanner; extra/capture.cpp: SetCaptureMark, SetRepetitionMark |
| `FcapModel.v` | extra/capture.h: CapturingScanner |
| `MarkModel.v` | extra/capture.cpp: CaptureImpl, and the parser's actions with it |
| `MarkLexModel.v` | extra/capture.cpp: CaptureImpl::Lex on the text of the pattern, and the lexer with it |
| `ApproxModel.v`, `ApproxScan.v` | approx_matching.cpp and the constructors that take a distance |
| `HalfModel.v` | scanners/half_final.h, half_final_fsm.{h,cpp} |
| `UniData.v` (generated), `UniModel.v` | stub/unidata_cpp.h tables, stub/unidata_h.h |
| `LexModel.v` | re_lexer.{h,cpp}, classes.cpp, read_unicode.cpp, extra/... ANDNOT and case-insensitivity features |
| `FsmSem.v`, `Api.v`, `ScannerApi.v`, `SimpleApi.v`, `CountApi.v`, `NgApi.v`, `CapApi.v` | what an automaton accepts; the inductive closures of the public calls: `built f`, `obtained k s Ls`, `obtained_simple`, `obtained_slow`; `captures f L`: the automata of a regexp with a capture and their marked words |
| `Prop_*.v` | property theorems only, `exact lemma` (or a short combination of lemmas), each followed by `Print Assumptions`, with `Example`s that the hypotheses are met by non-trivial cases |
| everything else | proofs |

Model and specification files contain no proofs.

## Modelling conventions

* `Char` is `N`; states are `nat` (indices into the transition vector).
* `std::set<size_t>` is a strictly sorted `list nat`, `std::map` a key-sorted association list.
* Methods mutating `*this` become functions returning the new value.
* Exceptions, undefined behaviour and fuel exhaustion are distinct outcomes of a
  result type `res` (`Ok | Throw err | UB | OutOfFuel`); a theorem excludes them
  only by an explicit hypothesis or by proving they cannot happen.
* Loops without an obvious structural measure take fuel computed from the input;
  the proofs show that it never runs out.
* `size_t` arithmetic is written modulo 2^64 where the property depends on it
  (scanner state addresses, jump shifts, word tests, buffer sizes); container
  sizes and state numbers are unbounded `nat`.
* An fsm has the effective edge `p --c--> q` when `q` is in the row of `p` under
  the representative of `c` in the current letter partition (or under `c` itself
  when `c` is in no class); this is the reading `Unsparse` (the first thing
  compilation does) gives to the table.

## Properties: what is modelled and how it is proved

* C01: inductive type of building expressions, `build` by the model functions,
  denotation by the specification; induction on the expression using C02..C11 and
  the scanner theorems.
* C02..C13: each operation of fsm.cpp on the transition table; characterise the
  effective edges of the result, then path decomposition by induction on paths.
* C14: Floyd-Warshall invariant (edge iff path through smaller intermediates).
* C15: invariant of `Partition::Append` over the letters 0..263.
* C16, C17: generic worklist `Determine` proved once for an abstract task
  (invariant: processed rows are exactly the successor function), instantiated
  with the subset task; fuel is shown sufficient.
* C18, C19: Hopcroft invariant; coarsest stable partition = Nerode equivalence.
* C20: breadth-first search invariant against inductive reachability.
* C21, C22: table layout as words at addresses; simulation by induction on input.
* C23, C24, C31: memory as a function from addresses to bytes; induction on the
  word loop.
* C25: bit-level argument on bytes with borrow, for all 64-bit words.
* C26, C27, C28: from C23 with predicate-carrying runs.
* C29, C30: generic `Determine` on the product task; hash table refinement.
* C32..C35: byte model of streams and mapped memory.  Saved bytes are shown to
  be the header, the Locals, the flag and the tables; Load and Mmap of those
  bytes are computed symbolically.  Rejection: every load is shown to be a
  reader (it looks only at what it consumes, and on a stream that throws, every
  proper prefix throws).
* C36, C37: bit arithmetic on code points; edge characterisation of AppendDot.
* C38: parser actions on automata.
* C31: pairs are scanners in the sense of the run theorems.
* C39: from C10, C21, C22, C42, C44 and the closure computed by
  BeginsWithCircumflex, for the automata the parser produces (an automaton in
  which letter classes have other representatives than 0 would defeat it).
* C40, C41: counter state machine; product construction.
* C45: witnesses against the unconditional claim.  For the conditional one: the
  states of the constructor's automaton stand for words (CountAuto), its pairs
  of states for pairs of words whose moves are described without automata
  (CountScan, CountPairs), and the table of the scanner for those moves
  (CountTable, CountMeans).
* C46: edges of the levelled automaton described without the loops; induction on
  paths one way, on edit scripts the other.
* C47: the automata made by MakeScanner and MakeNonGreedyCounter accept the
  languages `half_lang` and `counter_lang` (HalfCut, HalfLang, HalfTurn,
  HalfMake); the table built from them is one of the `obtained` scanners; the
  counters by induction on the text (HalfRun); maximality of the disjoint
  matches by cutting off the shortest one (HalfUser).
* C48: every tagged state in a determined state is reached by a path that reads a
  factor of the text and stands for the matches and separators read so far
  (AdvNfa, AdvSound); the determined and minimized tables follow those states
  (AdvRun, AdvMain); a word of re keeps its state alive until it is counted as
  long as nothing has been counted (AdvFinds).
* C49: the ids an action index stands for in the table of actions (NgTable,
  NgGlue); every glued transition stands for the actions of both sides with the
  ids of the right one shifted (NgGlued); so each counter does what the counter of
  that regexp's AdvancedCountingScanner does (NgSem, NgRun).
* C50: the image is a header, the Locals, and three padded arrays (CountIo); reading
  it back gives the same tables at another address (CountIoOk, NgIo), and what is
  counted depends on the actions met only (CountIoUser).  In compatibility mode
  the update mask is not kept; a counter that has none is 0.
* C51: the recursion of the scanner over transitions by epsilon is a search with one
  vector of flags; after a text its states are ends of runs of the automaton
  which noted where they first passed a mark, and all such ends as long as nothing
  matched (CapTable, CapRun).  The runs of an automaton built with marks spell the
  marked words of its regexp (CapMarks, CapMarks2, CapUser).  As long as no greedy
  repetition can end in front of the first letter, the entries are in the order in
  which their runs left the first state, so the match is a leftmost one (CapLeft,
  CapLeftUser).
* C52: tags stay empty through Canonize, so that BuildScanner writes the final flag
  only; the table of the Loaded scanner takes the transitions of the minimal automaton
  with their outputs (FcapProofs); what is noted follows by induction over the text.
  Which outputs the minimal automaton has is not related to the marks of the
  regexp, and the refutations show why it cannot be (FcapUser).
* C53: induction over the tree the parser builds, with the members of CaptureImpl as
  the state: before the group is met, the number left is the number of the group in
  what follows; inside it, the level says how deep we are.  The values of the parser
  are automata of `captures f L` with L inside the marked words of the subtree
  (MarkProofs), and their language is that of the subtree (MarkLang); a marked word
  has the marks 1 and 2 around a word of the group or not at all (MarkUser).
  A greedy mark that the automaton can pass before a letter is a greedy count at the
  front of the pattern, by induction again (MarkCalm, MarkFront), so that C51 gives
  leftmost matches; (a*b) on bab shows that the condition is needed (refuted without).
  In this model the characters read by CaptureImpl::Lex are replaced by what they do:
  a parenthesis counts, a count is greedy or not as a list of flags tells.
* C54: where that list comes from.  The items of C42, each of *, + and ? possibly with a
  question mark behind it; the lexer with Capture is compared with the one without it
  one item at a time (MarkLex).  On any text it stops, with one flag for each count
  (MarkLexTotal).  A question mark behind a count in braces does not make
  it non-greedy (refuted).  That lexing, parsing and marking are interleaved is not
  modelled: the tokens and flags are read first, as in C42.
* C42: the documented syntax as a list of items with their texts; the lexer is
  shown to read each item, in any context, as the token it stands for.  Facts
  about the character tables by a computation over all 65536 entries.
* C43: the grammar as an inductive relation; soundness and completeness of the
  shift-reduce parser, unambiguity as a corollary.
* C44: induction on the tree, from C02..C11 and C36..C38.

## What is modelled and what is not

Modelled (the non-debug build on a 64-bit little-endian machine): all of
partition.h, fsm.h/fsm.cpp except `DumpState`/`DumpTo` and `Fsm::Import` into a
self-alias; approx_matching.cpp; determine.h, minimize.h, run.h, glue.h;
scanners/multi.h (Scanner, NonrelocScanner, with and without exit masks,
including the aligned memory layout and the Basic/MMX/SSE2 word paths),
scanners/simple.h, scanners/slow.h; saving, loading and mapping of these
(scanners/common.h, scanner_io.cpp, align.h, stub/saveload.h); encoding.cpp; re_parser.y (the grammar and
its actions); re_lexer, classes, read_unicode, case and ANDNOT features, the
Unicode tables; scanners/pair.h; easy.h (Regexp from a pattern text, Matches);
scanners/loaded.h and of extra/count.* CountingScanner, AdvancedCountingScanner and
NoGlueLimitCountingScanner (constructors, copying, counters, Glue, Save, Load and
Mmap; not what an object is after a Load that threw);
SlowCapturingScanner and CapturingScanner compiled in memory with distance 0 (not
mapped, loaded or default-constructed), SetCaptureMark and SetRepetitionMark; the
feature Capture, the characters its Lex reads and what it does to its members separately;
scanners/half_final.h and half_final_fsm.* except MakeGreedyCounter, the printing
of HalfFinalFsm and saving of a State.

Not modelled: HalfFinalFsm::MakeGreedyCounter, saving of a counting State,
extra/glyphs.cpp,
minimize.h's debug output, static_assert.h, the inline
preprocessor (inline.lpp), memory exhaustion, threads.  Bison's generated tables
are represented by the reductions they perform on this grammar (trusted); that
those reductions follow the grammar is proved (C43).

## Trusted base

* Coq's kernel, including its `vm_compute` machine (used by examples, witnesses,
  and the table checks of `UniFacts.v`).
* Print Assumptions says "Closed under the global context" for every theorem of
  every `Prop_*.v`: no axiom, of the standard library or any other, is used.
* The reading of the C++ text embodied in the model files, and in `UniData.v`
  the transcription of the tables by a script (the script reads the literal
  array initialisers; the result is committed).
* Bison, as said above.

## Findings (theorems with the suffix `_refuted`, with witnesses)

* C01/C04/C07: `a += b` loses the empty word of `b` when the initial state of `b`
  is final; `a()b` does not match "ab" (`C01_empty_operand_refuted`,
  `C04_*_refuted`, `C07_*_refuted`, `C44_void_refuted`).
* C02: appending a letter after Complement/Canonize, which compress the letters,
  builds the wrong language.
* C13: MakeSuffix.
* C22: a copy of a default-constructed SlowScanner dereferences a null pointer.
* C26: LongestPrefix with exit masks misses a longer match.
* C27: ShortestSuffix with throughBeginMark.
* C30: gluing with a limit of 262144 or more overruns the lookup table.
* C32: saving a mapped scanner reads through a null pointer.
* C33: an image cut short is accepted from a stream that does not throw.
* C34: a mapped range up to 7 bytes short (SlowScanner: 10) is accepted.
* C35: mapping an empty image leaves SimpleScanner and SlowScanner as they were.
* C36: code points from 0x200000 on are encoded lossily; overlong forms decode.
* C38: x{5,2} asks for 2^64 - 3 copies.
* C45: CountingScanner counts too much and too little when a match can be the
  beginning of a longer match.  (C41: more than 256 classes of letters.)
* C46: approximate matching does not tolerate a letter inserted after the end of
  a word, nor the exchange of letters across a transition that reads nothing
  (alternatives, iterations); a second scanner with a distance made from the same
  Fsm object throws, because the first one has canonized it.
* C47: HalfFinalScanner reports an automaton that is closed under appending but
  not under prepending as if it were closed under both, contrary to its comment.
* C48: AdvancedCountingScanner counts 1 in aaba with re = a|aab and sep = b, where
  a b a is to be found; with a separator that matches nothing it counts nothing.
  (Letters no regexp mentions are given the action NotMatched, which is the
  increment action; texts of bytes and marks do not meet them.)
* C50: an empty counting scanner, saved and loaded, is not empty any more;
  AdvancedCountingScanner loads the images of NoGlueLimitCountingScanner and
  miscounts; the latter, having loaded an image of the former once, writes out of
  bounds after loading one of its own, and can be neither saved nor glued; its images
  are not whole words, so that the next one cannot be mapped; a truncated one is read
  beyond the end.
* C51: a surrounded b|^a does not match a, nor does (a$); in (^a) the beginning is lost;
  an automaton that is not surrounded may report a capture where nothing was
  captured; with a greedy repetition at the front, (a*b) captures ab in bab, not the b
  before it.
* C52: (a)bc on abdabc captures the a of the attempt that failed; x(a* )y on xaay is
  Final and captures nothing, because Minimize merges states without regard to
  outputs and keeps the first of them; (x(a)|ya)z on yaz captures a though the group
  took no part; x(a)*y on xay notes an end without a beginning.
* C42: raw characters U+xxF0xx are taken for control codes; `[\Da]` does not
  contain a; `\x{100000041}` is A; an escaped character above U+00FF becomes
  another one, an escaped U+00FF disappears; titlecase letters under I do not
  match themselves; `a{9999999999}` overflows an int; `[a-]` is an error.
