{
 "claims": [
  {
   "property": "C01",
   "status": "proved",
   "theorems": [
    "C01_build",
    "C01_scanner",
    "C01_simple_scanner",
    "C01_slow_scanner",
    "C01_empty_operand_refuted"
   ],
   "note": "Every expression of building calls in the documented subset, compiled to any of the four Scanner classes, SimpleScanner or SlowScanner: Final after any word iff the word is in the denoted language; building throws only if a ~ or & gave up determinizing. Outside the subset: C01_empty_operand_refuted, C02, C04."
  },
  {
   "property": "C02",
   "status": "proved",
   "theorems": [
    "C02_append_letter",
    "C02_append_string",
    "C02_append_dot",
    "C02_append_compressed_refuted"
   ],
   "note": "For automata whose letters are not compressed; on a compressed one the claim is false (refuted theorem)."
  },
  {
   "property": "C03",
   "status": "proved",
   "theorems": [
    "C03_append_strings",
    "C03_append_strings_empty"
   ],
   "note": ""
  },
  {
   "property": "C04",
   "status": "proved",
   "theorems": [
    "C04_concatenation",
    "C04_concatenation_sound",
    "C04_concatenation_nonempty",
    "C04_empty_operand_refuted"
   ],
   "note": "Exact when the right operand's initial state is not final; in general sound, and complete for non-empty right words; the empty right word is refuted."
  },
  {
   "property": "C05",
   "status": "proved",
   "theorems": [
    "C05_union"
   ],
   "note": ""
  },
  {
   "property": "C06",
   "status": "proved",
   "theorems": [
    "C06_star"
   ],
   "note": ""
  },
  {
   "property": "C07",
   "status": "proved",
   "theorems": [
    "C07_power",
    "C07_power_zero",
    "C07_power_refuted"
   ],
   "note": "For operands whose initial state is not final; refuted otherwise."
  },
  {
   "property": "C08",
   "status": "proved",
   "theorems": [
    "C08_complement",
    "C08_complement_small"
   ],
   "note": ""
  },
  {
   "property": "C09",
   "status": "proved",
   "theorems": [
    "C09_intersection"
   ],
   "note": ""
  },
  {
   "property": "C10",
   "status": "proved",
   "theorems": [
    "C10_surround",
    "C10_prepend_anything",
    "C10_append_anything"
   ],
   "note": ""
  },
  {
   "property": "C11",
   "status": "proved",
   "theorems": [
    "C11_reverse",
    "C11_reverse_twice"
   ],
   "note": ""
  },
  {
   "property": "C12",
   "status": "proved",
   "theorems": [
    "C12_make_prefix"
   ],
   "note": ""
  },
  {
   "property": "C13",
   "status": "proved",
   "theorems": [
    "C13_make_suffix",
    "C13_make_suffix_complete",
    "C13_make_suffix_loop_refuted",
    "C13_make_suffix_unreachable_refuted"
   ],
   "note": "Exact under the two premises of the statement; completeness for every automaton; both premises are shown necessary."
  },
  {
   "property": "C14",
   "status": "proved",
   "theorems": [
    "C14_remove_epsilons"
   ],
   "note": ""
  },
  {
   "property": "C15",
   "status": "proved",
   "theorems": [
    "C15_every_letter_has_a_class",
    "C15_same_class_iff_same_columns",
    "C15_no_empty_class",
    "C15_unsparse_restores"
   ],
   "note": ""
  },
  {
   "property": "C16",
   "status": "proved",
   "theorems": [
    "C16_determine"
   ],
   "note": ""
  },
  {
   "property": "C17",
   "status": "proved",
   "theorems": [
    "C17_determine_total",
    "C17_determine_fails",
    "C17_determine_succeeds"
   ],
   "note": ""
  },
  {
   "property": "C18",
   "status": "proved",
   "theorems": [
    "C18_minimize"
   ],
   "note": ""
  },
  {
   "property": "C19",
   "status": "proved",
   "theorems": [
    "C19_canonize_minimal",
    "C19_canonize_unique"
   ],
   "note": ""
  },
  {
   "property": "C20",
   "status": "proved",
   "theorems": [
    "C20_dead_states",
    "C20_remove_dead_ends"
   ],
   "note": ""
  },
  {
   "property": "C21",
   "status": "proved",
   "theorems": [
    "C21_scanner_follows_languages",
    "C21_regexps_count",
    "C21_compile_total",
    "C21_relative_jump",
    "C21_simple_follows_language",
    "C21_simple_count",
    "C21_simple_compile_total",
    "C21_simple_run",
    "C21_simple_prefixes"
   ],
   "note": "Scanner, NonrelocScanner (with and without exit masks) and SimpleScanner, for everything obtainable by compiling, default construction, copying, converting and gluing. The 2^31 limit of relative jumps is exact (C21_relative_jump)."
  },
  {
   "property": "C22",
   "status": "proved",
   "theorems": [
    "C22_slow_follows_language",
    "C22_slow_compile_total",
    "C22_slow_count",
    "C22_slow_run",
    "C22_slow_prefixes",
    "C22_scanners_agree",
    "C22_copy_of_empty_refuted"
   ],
   "note": "SlowScanner for everything obtainable by compiling and copying; C22_copy_of_empty_refuted: a copy of a default-constructed SlowScanner dereferences a null pointer."
  },
  {
   "property": "C23",
   "status": "proved",
   "theorems": [
    "C23_run_is_stepping",
    "C23_run_split",
    "C23_run_pieces"
   ],
   "note": "For every scanner that uses the generic run loop; mask-equipped scanners are C24."
  },
  {
   "property": "C24",
   "status": "proved",
   "theorems": [
    "C24_masks_are_transparent",
    "C24_matches"
   ],
   "note": "Basic, MMX and SSE2 words; every scanner obtained by compile/copy/convert/Glue."
  },
  {
   "property": "C25",
   "status": "proved",
   "theorems": [
    "C25_check_bytes",
    "C25_check_bytes_all"
   ],
   "note": ""
  },
  {
   "property": "C26",
   "status": "partial",
   "theorems": [
    "C26_shortest_prefix",
    "C26_longest_prefix",
    "C26_shortest_prefix_scanner",
    "C26_longest_prefix_noshortcuts",
    "C26_longest_prefix_masks_partial",
    "C26_longest_prefix_masks_refuted"
   ],
   "note": "ShortestPrefix for every scanner; LongestPrefix exact for scanners without shortcuts; with exit masks it is refuted, and the partial theorem says what does hold."
  },
  {
   "property": "C27",
   "status": "proved",
   "theorems": [
    "C27_longest_suffix",
    "C27_shortest_suffix",
    "C27_shortest_suffix_mark_refuted"
   ],
   "note": "For every scanner satisfying the works interface; ShortestSuffix with throughBeginMark is refuted."
  },
  {
   "property": "C28",
   "status": "proved",
   "theorems": [
    "C28_dead_is_exact"
   ],
   "note": ""
  },
  {
   "property": "C29",
   "status": "proved",
   "theorems": [
    "C29_glue"
   ],
   "note": "Limits up to 262141 (the default is 80000)."
  },
  {
   "property": "C30",
   "status": "proved",
   "theorems": [
    "C30_empty_left",
    "C30_empty_right",
    "C30_limit_exceeded",
    "C30_within_limit",
    "C30_table_capacity",
    "C30_table_capacity_refuted"
   ],
   "note": "Limits up to 262141; for limits from 262144 on undefined behaviour is proved reachable (refuted theorem)."
  },
  {
   "property": "C31",
   "status": "proved",
   "theorems": [
    "C31_run_pair",
    "C31_pair_is_a_scanner"
   ],
   "note": ""
  },
  {
   "property": "C32",
   "status": "proved",
   "theorems": [
    "C32_scanner",
    "C32_nonrelocatable",
    "C32_simple",
    "C32_slow",
    "C32_mapped_refuted"
   ],
   "note": "Scanner (relocatable and not), SimpleScanner, SlowScanner. C32_mapped_refuted: a mapped scanner cannot be saved."
  },
  {
   "property": "C33",
   "status": "proved",
   "theorems": [
    "C33_accepts_only",
    "C33_rejects",
    "C33_ends_early",
    "C33_lenient_refuted"
   ],
   "note": "For Load; C34_foreign for Mmap. C33_lenient_refuted: a stream that does not throw at its end lets a cut image through."
  },
  {
   "property": "C34",
   "status": "proved",
   "theorems": [
    "C34_scanner",
    "C34_simple",
    "C34_slow",
    "C34_rejects",
    "C34_misaligned",
    "C34_foreign",
    "C34_short_refuted"
   ],
   "note": "C34_short_refuted: up to 7 missing bytes (SlowScanner: 10 shown, 18 the bound) are not noticed."
  },
  {
   "property": "C35",
   "status": "proved",
   "theorems": [
    "C35_scanner",
    "C35_simple_refuted",
    "C35_slow_refuted"
   ],
   "note": "For Scanner; refuted for SimpleScanner and SlowScanner."
  },
  {
   "property": "C36",
   "status": "proved",
   "theorems": [
    "C36_form",
    "C36_round_trip",
    "C36_prefix_free",
    "C36_decode",
    "C36_text",
    "C36_text_total",
    "C36_text_round_trip",
    "C36_latin1",
    "C36_unbounded_refuted",
    "C36_overlong_refuted"
   ],
   "note": "Round trip, prefix-freeness and exact decoding for all code points below 0x200000 and all byte strings; larger wchar32 values refuted; overlong forms accepted."
  },
  {
   "property": "C37",
   "status": "proved",
   "theorems": [
    "C37_utf8_dot",
    "C37_matches_encoded"
   ],
   "note": "For every built automaton with uncompressed letters, and every word."
  },
  {
   "property": "C38",
   "status": "proved",
   "theorems": [
    "C38_repeat",
    "C38_order_refuted"
   ],
   "note": "For all automata and counts in order (with the side condition that the automaton's initial state is not final when it must be repeated by concatenation); counts out of order refuted: the construction asks for 2^64-(n-m) copies."
  },
  {
   "property": "C39",
   "status": "proved",
   "theorems": [
    "C39_matches",
    "C39_search"
   ],
   "note": "C39_matches: for every pattern made of documented items whose grammar tree has no operator precedence trap, Regexp either throws (only when a negation or conjunction blows up) or Matches decides infix search between the marks, through the fast and the slow scanner. C39_search: literal patterns with and without anchors. The size hypothesis is 2^32-2 states."
  },
  {
   "property": "C40",
   "status": "proved",
   "theorems": [
    "C40_counts_longest_run",
    "C40_counts_any_table"
   ],
   "note": "Scanners made by the constructor of CountingScanner, by default, by copying and by Glue; the order of events of AdvancedCountingScanner is covered by the same theorems, its constructor is not modelled (C40_counts_any_table holds for whatever table it makes)."
  },
  {
   "property": "C41",
   "status": "proved",
   "theorems": [
    "C41_glued_counters",
    "C41_glue_limit",
    "C41_too_many_regexps",
    "C41_many_classes"
   ],
   "note": "C41_many_classes: what goes wrong beyond 256 classes of letters."
  },
  {
   "property": "C42",
   "status": "proved",
   "theorems": [
    "C42_lex",
    "C42_language",
    "C42_literal",
    "C42_utf8",
    "C42_latin1",
    "C42_total",
    "C42_no_control_codes",
    "C42_unknown_escape",
    "C42_reserved_refuted",
    "C42_set_class_refuted",
    "C42_hex_wraps_refuted",
    "C42_escape_high_refuted",
    "C42_titlecase_refuted",
    "C42_count_overflow_refuted",
    "C42_set_refuted"
   ],
   "note": "All patterns made of documented items, all options of easy.h, both shipped encodings, over the real Unicode tables; total on arbitrary text. Collisions with control codes, negated classes in sets, wrapping hex escapes, high escapes, titlecase letters and overflowing counts are refuted theorems."
  },
  {
   "property": "C43",
   "status": "proved",
   "theorems": [
    "C43_parse",
    "C43_unambiguous",
    "C43_rejects"
   ],
   "note": "The shift-reduce parser against the grammar as an inductive relation; bison's generated tables are represented by the reductions they perform (trusted)."
  },
  {
   "property": "C44",
   "status": "proved",
   "theorems": [
    "C44_pattern",
    "C44_scanner",
    "C44_slow_scanner",
    "C44_void_refuted"
   ],
   "note": "All trees of the grammar in the regular subset, both shipped encodings; with corollaries for Scanner-like and SlowScanner; the void operands excluded are refuted."
  },
  {
   "property": "C45",
   "status": "proved",
   "theorems": [
    "C45_never_too_many_refuted",
    "C45_never_too_few_refuted",
    "C45_never_too_many",
    "C45_counts_greedily",
    "C45_counts_pieces",
    "C45_counts_occurrences"
   ],
   "note": "Under the conditions of the statement, success of the two determinizations (the constructor ignores their results), at most 256 classes of letters and texts below 2^32 letters. The documented meaning without conditions is refuted both ways."
  },
  {
   "property": "C46",
   "status": "proved",
   "theorems": [
    "C46_only_close",
    "C46_all_close",
    "C46_still_an_automaton",
    "C46_search",
    "C46_scanner_search",
    "C46_simple_search",
    "C46_slow_search",
    "C46_inserted_at_the_end_refuted",
    "C46_exchanged_refuted",
    "C46_second_scanner_refuted"
   ],
   "note": "For automata with uncompressed letters (not yet through Determine); the exceptions named in the statement are refuted with witnesses."
  },
  {
   "property": "C47",
   "status": "proved",
   "theorems": [
    "C47_counts",
    "C47_run",
    "C47_constructor",
    "C47_constructor_distance",
    "C47_matches",
    "C47_search",
    "C47_counter_constructor",
    "C47_every_end",
    "C47_simplified_ends",
    "C47_disjoint",
    "C47_disjoint_empty",
    "C47_any_automaton_refuted"
   ],
   "note": "Matching under the proviso of the statement (refuted without it); MakeGreedyCounter is not modelled."
  },
  {
   "property": "C48",
   "status": "proved",
   "theorems": [
    "C48_never_too_many",
    "C48_never_too_few_refuted",
    "C48_finds_one",
    "C48_finds_one_refuted",
    "C48_constructor",
    "C48_runs"
   ],
   "note": "Soundness for both automata; that something is found only for the full one and a separator that matches something (refuted otherwise). At most 256 classes of letters and texts below 2^32 letters. That the maximum is reached is refuted."
  },
  {
   "property": "C49",
   "status": "proved",
   "theorems": [
    "C49_counts_as_advanced",
    "C49_never_too_many",
    "C49_finds_one",
    "C49_runs",
    "C49_glue"
   ],
   "note": "Includes scanners loaded or mapped; those in compatibility mode are in C50. Comparison with AdvancedCountingScanner, soundness and finding: texts below 2^32 letters, at most 256 classes of letters."
  },
  {
   "property": "C50",
   "status": "proved",
   "theorems": [
    "C50_load",
    "C50_mmap",
    "C50_version6",
    "C50_no_glue_limit_load",
    "C50_no_glue_limit_mmap",
    "C50_compatibility",
    "C50_compatibility_mmap",
    "C50_empty_refuted",
    "C50_other_type_refuted",
    "C50_stale_mode_refuted",
    "C50_compatibility_save_refuted",
    "C50_compatibility_glue_refuted",
    "C50_sequence_refuted",
    "C50_short_refuted"
   ],
   "note": "Non-empty scanners with at most 256 classes of letters; compatibility mode by Load (the object loaded into may be in any mode). That empty scanners stay empty, that images of another type are rejected, that images can follow each other in memory, and that truncated ones are rejected is refuted."
  },
  {
   "property": "C51",
   "status": "proved",
   "theorems": [
    "C51_group",
    "C51_captures",
    "C51_leftmost",
    "C51_no_front",
    "C51_group_leftmost",
    "C51_language",
    "C51_any",
    "C51_begin_refuted",
    "C51_front_refuted",
    "C51_end_refuted",
    "C51_nothing_refuted",
    "C51_leftmost_refuted"
   ],
   "note": "Scanners compiled in memory with distance 0; pieces without ^ and $. That ^ and $ inside the regexp, or a capture around them, work is refuted, and so is that the match is a leftmost one when a greedy repetition can end before any letter is read; otherwise that is proved."
  },
  {
   "property": "C52",
   "status": "proved",
   "theorems": [
    "C52_final",
    "C52_kept",
    "C52_bare",
    "C52_attempt_refuted",
    "C52_lost_refuted",
    "C52_other_refuted",
    "C52_begin_refuted"
   ],
   "note": "Scanners compiled in memory with distance 0. The claim is what does hold: Final decides matches, the noted places are those of the outputs of the minimal automaton, a capture is kept, and nothing is captured without a group. That a capture belongs to a match, that the group of a match is captured, that a captured group took part, and that an end comes with a beginning are refuted."
  },
  {
   "property": "C53",
   "status": "proved",
   "theorems": [
    "C53_pattern",
    "C53_group",
    "C53_none",
    "C53_lazy",
    "C53_leftmost",
    "C53_words",
    "C53_front_refuted"
   ],
   "note": "Patterns without ^, $, conjunction and negation, and without the dot in UTF-8. Which counts are greedy is a parameter of the theorem; C54 says how it is read from the text. That the first round of a repeated group is captured is C51 (mark_at is the first mark). That the match is a leftmost one also with a greedy count at the front is refuted."
  },
  {
   "property": "C54",
   "status": "proved",
   "theorems": [
    "C54_lex",
    "C54_total",
    "C54_flags",
    "C54_lazy",
    "C54_braces_refuted"
   ],
   "note": "The tokens and flags are read before parsing, as in C42. That a question mark behind a count in braces makes it non-greedy is refuted: it is read as a further count."
  }
 ]
}