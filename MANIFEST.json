{
 "claims": [
  {
   "property": "C01",
   "status": "partial",
   "theorems": [
    "C01_constructible_iff_exists",
    "C01_otherwise_invalid_partial",
    "C01_no_table_refuted"
   ],
   "note": "Proved for every book that has a table of last verses. Refuted for a book without one: chapter 0 raises TypeError (C01_no_table_refuted)."
  },
  {
   "property": "C02",
   "status": "proved",
   "theorems": [
    "C02_verse_order",
    "C02_verse_order_any",
    "C02_positions",
    "C02_bible_is_constructible"
   ],
   "note": ""
  },
  {
   "property": "C03",
   "status": "proved",
   "theorems": [
    "C03_setter",
    "C03_setter_duplicate",
    "C03_next_prev",
    "C03_left_out",
    "C03_inverse",
    "C03_book_comparison"
   ],
   "note": ""
  },
  {
   "property": "C04",
   "status": "proved",
   "theorems": [
    "C04_on_track",
    "C04_add",
    "C04_add_negative"
   ],
   "note": ""
  },
  {
   "property": "C05",
   "status": "partial",
   "theorems": [
    "C05_subtract_partial",
    "C05_subtract_negative",
    "C05_subtract_exact",
    "C05_subtract_refuted"
   ],
   "note": "Proved when global flags and call agree about verse 0s (C05_subtract_partial); refuted otherwise (ref.py 530 ignores flags). C05_subtract_exact and C05_subtract_negative give the result for all flags and all n."
  },
  {
   "property": "C06",
   "status": "partial",
   "theorems": [
    "C06_add_subtract_partial",
    "C06_add_add",
    "C06_add_subtract_refuted",
    "C06_add_add_refuted"
   ],
   "note": "Proved when global flags, call and verse agree about verse 0s; refuted otherwise."
  },
  {
   "property": "C07",
   "status": "partial",
   "theorems": [
    "C07_distance_partial",
    "C07_multibook",
    "C07_antisymmetric",
    "C07_add_back_partial",
    "C07_flags_refuted",
    "C07_add_back_refuted"
   ],
   "note": "Proved when the verses are in one book or the global flags allow several books, with verse 0s as the global flags say; refuted for flags arguments, which ref.py 505-508 ignores."
  },
  {
   "property": "C08",
   "status": "proved",
   "theorems": [
    "C08_two_verses",
    "C08_two_verses_result",
    "C08_positional",
    "C08_exact_ends",
    "C08_exact_ends_result",
    "C08_unordered"
   ],
   "note": "Ranges from two verses and from positional parts, for books in the order, are legal, normalised and in one book unless MULTIBOOK is in effect; with all six parts given the ends are exactly the given verses. Books without a place in the order raise TypeError when compared (C08_unordered)."
  },
  {
   "property": "C09",
   "status": "partial",
   "theorems": [
    "C09_units_partial",
    "C09_condition",
    "C09_cannot_start",
    "C09_multibook",
    "C09_invalid",
    "C09_units_refuted",
    "C09_either_order_partial",
    "C09_either_order_refuted"
   ],
   "note": "Units are completed as claimed when the first verse of the starting unit is also known to the global flags (can_start); otherwise InvalidRef (refuted witness: Psalm 3 with flags=VERSE_0 and global NONE). Either order: proved for units one of which is wholly before the other, refuted for nested units."
  },
  {
   "property": "C10",
   "status": "partial",
   "theorems": [
    "C10_iteration_partial",
    "C10_iteration_exact",
    "C10_iteration_refuted",
    "C10_default_refuted"
   ],
   "note": "Exact behaviour of iteration proved for every legal range (C10_iteration_exact); equals the verses of the range when global flags agree; refuted for multi-book ranges or verse 0 ranges with default global flags."
  },
  {
   "property": "C11",
   "status": "proved",
   "theorems": [
    "C11_verse_count",
    "C11_verses",
    "C11_list_verse_count"
   ],
   "note": "For all legal ranges, counted in the universe of verses that the global flags or the range's ends select; for lists the sum over the items."
  },
  {
   "property": "C12",
   "status": "proved",
   "theorems": [
    "C12_split",
    "C12_groups"
   ],
   "note": "fuel >= number of verses. C12_split: the pieces; C12_groups: the groups of the returned list with regroup=True and False."
  },
  {
   "property": "C13",
   "status": "partial",
   "theorems": [
    "C13_terminates_partial",
    "C13_without_size",
    "C13_size_0",
    "C13_terminates_refuted"
   ],
   "note": "Exact for every n: ranges for n >= 1, InvalidReferenceError for n < 0 (C13_terminates_partial); n = 0 does not end unless the range begins a chapter (C13_size_0, C13_terminates_refuted)."
  },
  {
   "property": "C14",
   "status": "partial",
   "theorems": [
    "C14_chap_count",
    "C14_book_count",
    "C14_whole_chap_count_partial",
    "C14_whole_book_count_partial",
    "C14_whole_refuted",
    "C14_list_counts",
    "C14_whole_chap_exact",
    "C14_whole_book_exact"
   ],
   "note": "chap_count and book_count for all legal ranges; whole counts equal the English where the flags agree about verse 0s at the ends (partial), and C14_whole_chap_exact / C14_whole_book_exact say what is counted for every legal range under all flags. For lists the sum over the items."
  },
  {
   "property": "C15",
   "status": "partial",
   "theorems": [
    "C15_is_disjoint",
    "C15_contains",
    "C15_surrounds",
    "C15_is_adjacent",
    "C15_no_verse_between_partial",
    "C15_is_adjacent_refuted",
    "C15_order"
   ],
   "note": "is_disjoint, contains, surrounds and the order: exact for all legal ranges. is_adjacent: exact behaviour C15_is_adjacent; no verse between is equivalent only for universes that agree about verse 0s and with MULTIBOOK or one book; refuted otherwise (C15_is_adjacent_refuted)."
  },
  {
   "property": "C16",
   "status": "partial",
   "theorems": [
    "C16_union_verses",
    "C16_union_joined_partial",
    "C16_hull",
    "C16_union_apart",
    "C16_union_fails",
    "C16_never_fails_refuted"
   ],
   "note": "Verses of the union proved for every success; joining two touching ranges across books raises without MULTIBOOK (exact failure condition proved)."
  },
  {
   "property": "C17",
   "status": "partial",
   "theorems": [
    "C17_intersection_verses",
    "C17_intersection_overlap_partial",
    "C17_meet",
    "C17_intersection_apart",
    "C17_intersection_fails",
    "C17_never_fails_refuted"
   ],
   "note": "As C16: exact failure condition proved, never-fails refuted."
  },
  {
   "property": "C18",
   "status": "partial",
   "theorems": [
    "C18_difference_verses_partial",
    "C18_disjoint",
    "C18_covered",
    "C18_parts_partial",
    "C18_nothing_before_fails",
    "C18_nothing_after_fails",
    "C18_never_raises_refuted",
    "C18_verses_refuted"
   ],
   "note": "Proved with the exact conditions; refuted at the first and last verse of a book, where ref.py evaluates the neighbour verse eagerly."
  },
  {
   "property": "C19",
   "status": "partial",
   "theorems": [
    "C19_sym_difference_verses_partial",
    "C19_equal",
    "C19_disjoint",
    "C19_overlap",
    "C19_never_raises_refuted"
   ],
   "note": "As C18."
  },
  {
   "property": "C20",
   "status": "partial",
   "theorems": [
    "C20_merge",
    "C20_fails_iff",
    "C20_unique_partial",
    "C20_shortest_partial",
    "C20_unique_refuted",
    "C20_fails_refuted"
   ],
   "note": "Exact result on all lists (C20_merge), exact failure condition (C20_fails_iff); uniqueness and minimality for lists without multi-book ranges or with MULTIBOOK; both refuted otherwise, see C20_statement."
  },
  {
   "property": "C21",
   "status": "partial",
   "theorems": [
    "C21_union",
    "C21_fails_iff",
    "C21_order_partial",
    "C21_refuted"
   ],
   "note": "Exact result and exact failure condition on all lists; order independence for lists without multi-book ranges or with MULTIBOOK; never-fails refuted. The argument is a list other than self."
  },
  {
   "property": "C22",
   "status": "partial",
   "theorems": [
    "C22_intersection_partial",
    "C22_fails",
    "C22_refuted"
   ],
   "note": "Proved whenever no common part spans books (or MULTIBOOK); fails exactly otherwise."
  },
  {
   "property": "C23",
   "status": "partial",
   "theorems": [
    "C23_ends",
    "C23_difference_partial",
    "C23_exact_partial",
    "C23_succeeds_partial",
    "C23_self_refuted",
    "C23_raises_refuted"
   ],
   "note": "a - a = a (refuted): items wholly inside a range of b are kept. Exact result proved for b without touching ranges; bounds for all b; termination; success under the stated conditions. Needs the call's flags to agree with the global flags about verse 0s."
  },
  {
   "property": "C24",
   "status": "partial",
   "theorems": [
    "C24_sym_difference_partial",
    "C24_succeeds_partial",
    "C24_self_refuted"
   ],
   "note": "a ^ a = a (refuted). Exact result of every successful call proved; success under the stated conditions."
  },
  {
   "property": "C25",
   "status": "partial",
   "theorems": [
    "C25_contains_partial",
    "C25_is_disjoint",
    "C25_contains_refuted"
   ],
   "note": "is_disjoint exact for all lists; contains exact for lists without multi-book ranges or with MULTIBOOK, refuted otherwise."
  },
  {
   "property": "C26",
   "status": "partial",
   "theorems": [
    "C26_range_value",
    "C26_empty",
    "C26_range_partial",
    "C26_list_units_partial",
    "C26_range_units_partial",
    "C26_range_refuted",
    "C26_range_units_exact",
    "C26_list_units_exact"
   ],
   "note": "Exact value of list.range(); it is the least cover only if the ranges end in the order in which they begin (refuted otherwise: max(self).end). chap_range/book_range of ranges and lists: least covers with can_start (partial); their exact values for all legal ranges and lists and all flags in C26_range_units_exact, C26_list_units_exact."
  },
  {
   "property": "C27",
   "status": "partial",
   "theorems": [
    "C27_history_partial",
    "C27_construction",
    "C27_construction_groups",
    "C27_construction_items",
    "C27_search",
    "C27_index"
   ],
   "note": "Node-by-node heap model (MGroup.v). Every history of operations gives exactly the results, exceptions and contents of the specification on lists of groups; excluded is insert_group_at on the head of a later group, which corrupts the structure (C29_refuted also refutes C27_statement)."
  },
  {
   "property": "C28",
   "status": "partial",
   "theorems": [
    "C28_get_item",
    "C28_get_item_partial",
    "C28_set_item_partial",
    "C28_pop_partial",
    "C28_pop_beside",
    "C28_groups_partial",
    "C28_refuted"
   ],
   "note": "True for indices >= -len; false below: lst[-len-1] is the first item, pop(-len-1) removes the last one (C28_refuted). C28_get_item and the spot/spot_twice clauses of C27_history_partial give the exact behaviour for all indices."
  },
  {
   "property": "C29",
   "status": "partial",
   "theorems": [
    "C29_insert_group_at_partial",
    "C29_cut",
    "C29_refuted",
    "C29_cycle"
   ],
   "note": "True for items that do not begin a later group; otherwise the list of group heads becomes cyclic and iteration over groups does not end for any fuel (C29_refuted; C29_cycle for the head of every later group of every list)."
  },
  {
   "property": "C30",
   "status": "proved",
   "theorems": [
    "C30_range_list_sort",
    "C30_sort"
   ],
   "note": "Heap level: merge sort on the nodes is a stable sort for every total transitive order. Range lists: C30_range_list_sort."
  },
  {
   "property": "C31",
   "status": "proved",
   "theorems": [
    "C31_equals",
    "C31_equals_plain",
    "C31_copy"
   ],
   "note": "Equality with and without groups, equality with other sequences (never equal with groups compared), and copies."
  },
  {
   "property": "C32",
   "status": "partial",
   "theorems": [
    "C32_extend_self",
    "C32_refuted"
   ],
   "note": "False: extend(self) terminates only for the empty list; for every other list and every fuel it diverges."
  },
  {
   "property": "C33",
   "status": "partial",
   "theorems": [
    "C33_operators",
    "C33_refuted"
   ],
   "note": "Refuted: the in-place operators return None. The list object itself is updated as by the methods."
  },
  {
   "property": "C34",
   "status": "partial",
   "theorems": [
    "C34_regroup_partial",
    "C34_regroup_global",
    "C34_recursion",
    "C34_flags_refuted",
    "C34_reads_as_regroup_partial",
    "C34_reads_as_regroup_default"
   ],
   "note": "Items, order, non-empty groups, idempotence and the exact group boundaries; printing without groups and parsing gives exactly the regrouped list after every parse history (C34_reads_as_regroup_*, for flags that agree with the global ones about verse 0s). Refuted for a flags argument with VERSE_0 that the global flags lack."
  },
  {
   "property": "C35",
   "status": "partial",
   "theorems": [
    "C35_partial",
    "C35_default_partial",
    "C35_str",
    "C35_nospace_refuted",
    "C35_empty_refuted",
    "C35_flags_refuted",
    "C35_force_refuted"
   ],
   "note": "Proved for every list with non-empty groups, all options and every parse history, when the flags of printing and of parsing agree with the global flags about verse 0s, the printed names can be read, ranges over several books are parsed with MULTIBOOK, and (with forced start verses) no book of several chapters begins with a verse 0. With the default data the only exception left is the title of the Song of Songs without spaces (C35_default_partial, C35_str). Refuted for: the empty list, nospace SongofSongs, flags other than the global ones, a verse 0 at the start of a book with forced start verses."
  },
  {
   "property": "C36",
   "status": "partial",
   "theorems": [
    "C36_range_partial",
    "C36_verse_partial",
    "C36_default_partial",
    "C36_str",
    "C36_nospace_refuted",
    "C36_flags_refuted"
   ],
   "note": "Proved for every range and verse, all options and every parse history, when the flags agree with the global ones about verse 0s and the printed names can be read; with the default data all names can be read but SongofSongs (C36_default_partial, C36_str). Refuted for nospace SongofSongs and for flags other than the global ones."
  },
  {
   "property": "C37",
   "status": "partial",
   "theorems": [
    "C37_refuted",
    "C37_failed_parse_refuted",
    "C37_partial",
    "C37_context",
    "C37_settings_refuted",
    "C37_dropped_refuted"
   ],
   "note": "False in general: the transformer object keeps the book and chapter of earlier parses, also of failed ones (C37_refuted, C37_failed_parse_refuted). Proved for every history: the result is independent of it when the first reference names its book or the text has no reading (C37_partial), and otherwise depends only on the book, and the chapter after a verse (C37_context)."
  },
  {
   "property": "C38",
   "status": "proved",
   "theorems": [
    "C38_word_table",
    "C38_digit_table",
    "C38_ignored_table",
    "C38_reading_unique",
    "C38_reading_found",
    "C38_tokens_unique",
    "C38_longest_match"
   ],
   "note": "For every text and every data whose separators are distinct punctuation; Lark's contract is SpecParse.reads. Uniqueness of the tree and of the tokens, existence is found, longest matches."
  },
  {
   "property": "C39",
   "status": "proved",
   "theorems": [
    "C39_white_table",
    "C39_case_table",
    "C39_name_of",
    "C39_no_name",
    "C39_one_book",
    "C39_denotes",
    "C39_letter_case",
    "C39_white_space",
    "C39_title",
    "C39_own_names",
    "C39_all_named",
    "C39_raises",
    "C39_verse"
   ],
   "note": "One book per name, own title and abbreviation: default data (all strings). Exact set of accepted names, letter case, white space: any data."
  },
  {
   "property": "C40",
   "status": "proved",
   "theorems": [
    "C40_verse_0_to_1",
    "C40_verse_1_to_0",
    "C40_idempotent",
    "C40_order",
    "C40_ranges",
    "C40_lists"
   ],
   "note": "Verses, ranges and lists."
  },
  {
   "property": "C41",
   "status": "partial",
   "theorems": [
    "C41_verses_partial",
    "C41_ranges_partial",
    "C41_split_partial",
    "C41_none_ignored",
    "C41_none_refuted",
    "C41_subtract_refuted",
    "C41_first_verse_refuted",
    "C41_difference_refuted",
    "C41_count_refuted",
    "C41_distance_refuted"
   ],
   "note": "Proved for a non-NONE argument on the listed methods; refuted for NONE and for subtract, first_verse, difference, the counts and the distance between verses."
  },
  {
   "property": "C42",
   "status": "partial",
   "theorems": [
    "C42_book_range_partial",
    "C42_chap_range_partial",
    "C42_chap_ranges_partial",
    "C42_no_chapter",
    "C42_first_verse_partial",
    "C42_last_verse",
    "C42_counts",
    "C42_whole_bible_partial",
    "C42_verse_ranges_partial",
    "C42_refuted",
    "C42_chap_list_partial",
    "C42_raises",
    "C42_bible_raises"
   ],
   "note": "Exact when the unit's first verse is known to the global flags; refuted otherwise, where C42_raises and C42_bible_raises show that the methods raise. Counts and last verses are unconditional."
  },
  {
   "property": "C43",
   "status": "partial",
   "theorems": [
    "C43_is_whole_chap_partial",
    "C43_is_whole_book_partial",
    "C43_spans_chap_partial",
    "C43_spans_book_partial",
    "C43_is_first_partial",
    "C43_is_last",
    "C43_is_single_verse",
    "C43_spans_refuted",
    "C43_raises_refuted",
    "C43_start_exact",
    "C43_end_exact",
    "C43_raises",
    "C43_is_first_raises"
   ],
   "note": "C43_start_exact, C43_end_exact, C43_raises, C43_is_first_raises give every result for every legal range under all flags. The English claim holds for ranges in the universe of the flags in effect; refuted for ranges with a verse 0 when verse 0s are off, and where first_verse raises."
  },
  {
   "property": "C44",
   "status": "partial",
   "theorems": [
    "C44_current",
    "C44_views_partial",
    "C44_after_clear",
    "C44_refuted"
   ],
   "note": "A view of a current group is right after every history; any other view raises GroupViewError if the history has no clear(); after clear() stale views go on showing the old items (C44_after_clear, C44_refuted)."
  },
  {
   "property": "C45",
   "status": "partial",
   "theorems": [
    "C45_counts_split_partial",
    "C45_iteration_partial",
    "C45_union_fails",
    "C45_union_refuted",
    "C45_intersection_refuted",
    "C45_difference_refuted"
   ],
   "note": "Counting, splitting and iterating multi-book ranges do not depend on MULTIBOOK; union, intersection and difference raise MultibookRangeNotAllowedError (refuted)."
  },
  {
   "property": "C46",
   "status": "partial",
   "theorems": [
    "C46_error_partial",
    "C46_result",
    "C46_next_state",
    "C46_blamed_means_nothing",
    "C46_blame_unique",
    "C46_meaning_unique",
    "C46_list_from_str",
    "C46_range_from_str",
    "C46_verse_from_str",
    "C46_constructors_refuted",
    "C46_no_other_exception",
    "C46_after_history",
    "C46_digits_refuted"
   ],
   "note": "For the parser: no other exception than SyntaxErr and ParseErr for any data, state and string (C46_no_other_exception) and after any history of settings and parses (C46_after_history). The blamed text: for distinct punctuation as separators, named books in the order and a transformer state left by parses under the same data, SyntaxErr iff there is no reading, else the position of exactly the tokens blamed by SpecMean (C46_error_partial); for states left under other settings see C69. Not covered: the blamed text with other separators and when a remembered book is no longer in the order. The constructors of verses and ranges also raise InvalidReferenceError without a position (C46_constructors_refuted). Positions of syntax errors: C85. Under Python's limit on the digits of int() a ValueError escapes (C46_digits_refuted; C80 says exactly when). For any tables and any state the error of a readable text delimits a book name, reference or range of its reading (C86_text)."
  },
  {
   "property": "C47",
   "status": "partial",
   "theorems": [
    "C47_is_disjoint",
    "C47_contains",
    "C47_surrounds",
    "C47_is_adjacent",
    "C47_union_intersection",
    "C47_difference_fails",
    "C47_difference_refuted"
   ],
   "note": "Predicates exact for all lists; difference and symmetric difference of a range with a list raise AttributeError/TypeError (refuted)."
  },
  {
   "property": "C48",
   "status": "proved",
   "theorems": [
    "C48_verse",
    "C48_parts",
    "C48_nothing",
    "C48_unnamed"
   ],
   "note": "Exact text for every verse, every look, every combination of requested parts and every separator characters (C48_verse, C48_parts, C48_nothing). Usable names: each book has a title and an abbreviation that are not empty and have no white space at their ends; a book without names is called None (C48_unnamed)."
  },
  {
   "property": "C49",
   "status": "partial",
   "theorems": [
    "C49_range",
    "C49_total",
    "C49_range_partial",
    "C49_default",
    "C49_refuted"
   ],
   "note": "C49_range, C49_total: exact text for every range (also with verses 0 unknown to the flags), any separators, every flags argument that agrees with the global flags about verse 0s. The text is two joined references for all ranges of the default tables (C49_default) and all ranges legal under the flags (C49_range_partial). Refuted: a book that begins with a verse 0 unknown to the flags prints as 'Genesis 1:0-'."
  },
  {
   "property": "C50",
   "status": "partial",
   "theorems": [
    "C50_list",
    "C50_total",
    "C50_separator_partial",
    "C50_separator_refuted"
   ],
   "note": "C50_list, C50_total: exact text for every list of legal ranges, any separators, every flags argument that agrees with the global flags about verse 0s. Refuted only for white-space separators, which are stripped (C50_separator_refuted)."
  },
  {
   "property": "C51",
   "status": "proved",
   "theorems": [
    "C51_str",
    "C51_repr",
    "C51_repr_verse"
   ],
   "note": "All three classes. C51_repr_verse: every verse; C51_repr gives the text by SpecShow for well-formed data."
  },
  {
   "property": "C52",
   "status": "partial",
   "theorems": [
    "C52_partial",
    "C52_least",
    "C52_refuted"
   ],
   "note": "Proved for preserve_groups=False and as a lower bound always, for distinct punctuation as separators; refuted for preserve_groups=True (force_dual_ref is never reset)."
  },
  {
   "property": "C53",
   "status": "partial",
   "theorems": [
    "C53_verse",
    "C53_range",
    "C53_list",
    "C53_str",
    "C53_groups_refuted"
   ],
   "note": "Proved for readable names (all default names in the default look) and all flags that agree with the global ones about verse 0s, with or without MULTIBOOK; refuted for lists printed without groups."
  },
  {
   "property": "C54",
   "status": "partial",
   "theorems": [
    "C54_separators",
    "C54_names",
    "C54_verses",
    "C54_start",
    "C54_order_partial",
    "C54_order_fails",
    "C54_order_refuted"
   ],
   "note": "Separators, names, verse tables and flags: proved for every history. Order of the books: proved for lists without repetition; refuted otherwise: the setter raises KeyError after changing part of the order (exact effect: C54_order_fails)."
  },
  {
   "property": "C55",
   "status": "partial",
   "theorems": [
    "C55_syntax_partial",
    "C55_calls"
   ],
   "note": "Proved for separators that are distinct punctuation characters; others are not covered. re.compile and Lark are assumed not to fail."
  },
  {
   "property": "C56",
   "status": "partial",
   "theorems": [
    "C56_list_partial",
    "C56_range_partial",
    "C56_verse_partial",
    "C56_settings",
    "C56_default_partial",
    "C56_refuted"
   ],
   "note": "Proved for non-empty lists of non-empty groups, flags arguments that agree with the global flags about verse 0s, readable names, distinct punctuation as separators and no forced start at a verse 0. The remaining cases fail: C56_refuted after a history, and as in C35 and C36."
  },
  {
   "property": "C57",
   "status": "proved",
   "theorems": [
    "C57_accepted",
    "C57_histories"
   ],
   "note": "Every history, also those that drop books from the order (the range constructors raise TypeError for such books, C08_unordered). Texts that do not name their book: C37_settings_refuted, C37_dropped_refuted."
  },
  {
   "property": "C58",
   "status": "proved",
   "theorems": [
    "C58_add",
    "C58_subtract",
    "C58_distance",
    "C58_in_range",
    "C58_range",
    "C58_references",
    "C58_list"
   ],
   "note": "C58_add, C58_distance and C58_in_range also give the values by the specifications of C04, C07 and C15; what the methods do wrong (C05-C07, C18, C23, C47) the operators do too."
  },
  {
   "property": "C59",
   "status": "proved",
   "theorems": [
    "C59_history",
    "C59_new_lists"
   ],
   "note": "Node by node on the heap of MGroup.v; the contents of failed merge, union_update and difference_update are given as items (their groups are not specified). eqb is any equality, used by remove."
  },
  {
   "property": "C60",
   "status": "partial",
   "theorems": [
    "C60_unchanged_partial",
    "C60_refuted",
    "C60_verses_partial",
    "C60_difference_partial"
   ],
   "note": "False: merge raises after sorting and merging part of the list (C60_refuted). Unchanged when GroupedList operations, intersection_update or symmetric_difference_update raise (C60_unchanged_partial). What is kept by a broken-off sort, regroup, merge, union_update: the same verses (C60_verses_partial); by difference_update: between the difference and the list (C60_difference_partial). verse_0_to_1 and verse_1_to_0: only the items are described (C59)."
  },
  {
   "property": "C61",
   "status": "partial",
   "theorems": [
    "C61_diverges",
    "C61_refuted"
   ],
   "note": "False for every non-empty list: C61_diverges."
  },
  {
   "property": "C62",
   "status": "partial",
   "theorems": [
    "C62_copy",
    "C62_numbers_partial",
    "C62_refuted",
    "C62_unknown_name",
    "C62_otherwise",
    "C62_string_partial"
   ],
   "note": "Exact for all arguments. Partial: books without a table (TypeError, C62_refuted), and for one string the tables, names and separators must be sound (C46)."
  },
  {
   "property": "C63",
   "status": "partial",
   "theorems": [
    "C63_copy",
    "C63_two_verses",
    "C63_parts",
    "C63_string_partial",
    "C63_wrong_number",
    "C63_one_wrong",
    "C63_raised",
    "C63_no_book",
    "C63_wrong_refuted",
    "C63_equal_parts",
    "C63_later_parts"
   ],
   "note": "Positive part exact (C63_copy, C63_two_verses, C63_parts, C63_string_partial; what the parts give is C08/C09). More than six arguments or one wrong argument: ValueError. The docstring's ValueError is false for other wrong arguments (C63_wrong_refuted): which exceptions are possible is C63_raised."
  },
  {
   "property": "C64",
   "status": "partial",
   "theorems": [
    "C64_int_white",
    "C64_int_text",
    "C64_text_order",
    "C64_same_range_partial",
    "C64_same_range_refuted"
   ],
   "note": "False: the texts are compared as texts before int() (C64_same_range_refuted: BibleRange('Matt','9',None,None,'10') is Matt 10:1-9:38). True when the texts are ordered as the numbers are (C64_same_range_partial). C64_int_text pins what int() takes."
  },
  {
   "property": "C65",
   "status": "partial",
   "theorems": [
    "C65_positional_partial",
    "C65_ordered_partial",
    "C65_keywords_partial",
    "C65_refuted"
   ],
   "note": "False: start=3, end=4 with MULTIBOOK makes a range of ints, and numbers as strings can make a range that ends before it starts (C65_refuted). Positional arguments of any classes always give verses of the Bible in one book or with MULTIBOOK (C65_positional_partial); ordered if the numbers are ints (C65_ordered_partial); keyword arguments without MULTIBOOK must be verses (C65_keywords_partial)."
  },
  {
   "property": "C66",
   "status": "proved",
   "theorems": [
    "C66_items",
    "C66_groups_unique",
    "C66_none",
    "C66_copy",
    "C66_string",
    "C66_others"
   ],
   "note": "C66_items covers no argument, several arguments, and one iterable. A range as the only argument raises TypeError unless it ends before it starts (then it has no verses to iterate)."
  },
  {
   "property": "C67",
   "status": "partial",
   "theorems": [
    "C67_ranges",
    "C67_lists",
    "C67_updates",
    "C67_references",
    "C67_plain_ranges",
    "C67_not_iterable",
    "C67_lists_refuted"
   ],
   "note": "True of all methods but BibleRangeList.is_disjoint and contains (C67_lists_refuted); what these do is C67_plain_ranges and C67_not_iterable."
  },
  {
   "property": "C68",
   "status": "partial",
   "theorems": [
    "C68_refused",
    "C68_taken",
    "C68_no_items",
    "C68_all_ranges",
    "C68_stops",
    "C68_texts",
    "C68_one_range",
    "C68_unchanged_refuted"
   ],
   "note": "True of the methods that take one item (C68_refused). False of extend and append_group (C68_unchanged_refuted): the ranges before the wrong item stay (C68_stops)."
  },
  {
   "property": "C69",
   "status": "partial",
   "theorems": [
    "C69_context",
    "C69_recall_partial",
    "C69_default",
    "C69_next_partial"
   ],
   "note": "C69_default has no hypotheses but the tables of the package and separators that are distinct punctuation whenever a text is read. With other tables (C69_recall_partial, C69_context) every text must have been read under sound tables that contain the remembered book. C69_next_partial gives the result of the text after a text that names its first book."
  },
  {
   "property": "C70",
   "status": "proved",
   "theorems": [
    "C70_keeps",
    "C70_apart"
   ],
   "note": "C70_keeps for all lists, C70_apart for lists without common verses. The exceptions that are possible are those of the difference of two ranges (C18) and of merge (C20)."
  },
  {
   "property": "C71",
   "status": "proved",
   "theorems": [
    "C71_list",
    "C71_view",
    "C71_views",
    "C71_ranges",
    "C71_exists"
   ],
   "note": "Items are of any type with a repr that may raise. The texts of nodes contain addresses and are not modelled."
  },
  {
   "property": "C72",
   "status": "partial",
   "theorems": [
    "C72_range_partial",
    "C72_list_partial",
    "C72_fewer_zeros",
    "C72_no_zeros",
    "C72_same_zeros",
    "C72_texts",
    "C72_range_refuted",
    "C72_dangling_refuted",
    "C72_list_refuted",
    "C72_forced_refuted"
   ],
   "note": "False: BibleRange.str (ref.py 1145-1148) and the forced start verses of lists (ref.py 1739) do not pass the flags on, and VERSE_0 as an argument alone raises. True for flags that agree about verse 0s (C72_same_zeros), for references without verse 0s at the start of their chapters and books (C72_no_zeros), for lists without forced start verses if the argument adds no VERSE_0 (C72_fewer_zeros, exact text C72_texts), and whenever the tests made without flags have the same results (C72_range_partial, C72_list_partial)."
  },
  {
   "property": "C73",
   "status": "proved",
   "theorems": [
    "C73_value",
    "C73_same",
    "C73_laws"
   ],
   "note": "C73_value and C73_same for all expressions, C73_laws for the named laws. Ranges over several books without MULTIBOOK: see C21, C22."
  },
  {
   "property": "C74",
   "status": "proved",
   "theorems": [
    "C74_letter_case",
    "C74_letter_case_all",
    "C74_white_space",
    "C74_white_space_all",
    "C74_same_tokens",
    "C74_same_tokens_all",
    "C74_numbers"
   ],
   "note": "C74_letter_case, C74_white_space, C74_same_tokens for the parser, ..._all for the three constructors. The positions of texts without a reading (SyntaxErr) are Lark's and are not modelled. White space inside names: C39."
  },
  {
   "property": "C75",
   "status": "partial",
   "theorems": [
    "C75_sort",
    "C75_torn",
    "C75_kinds",
    "C75_ranges",
    "C75_ranges_torn",
    "C75_union_update",
    "C75_refuted"
   ],
   "note": "sort_x is the merge sort of util.py with a comparison that may raise, with the links it leaves. When it succeeds is exact (C75_sort, C75_kinds; ranges: C75_ranges, C75_union_update). 'Leaves the list as it was' is false (C75_refuted): C75_torn and C75_ranges_torn prove that every sort that raises tears the list, so that it shows fewer items than it counts in both directions and its groups cannot be read."
  },
  {
   "property": "C76",
   "status": "proved",
   "theorems": [
    "C76_sound",
    "C76_exact",
    "C76_raises",
    "C76_iter",
    "C76_alone"
   ],
   "note": "C76_exact and C76_raises: comparisons, predicates and set operations with the exact comparisons of Python (MOrder) for all ranges with comparable ends, which all ranges made by the constructor have (C76_sound). C76_iter needs that the books listed in book_order are those with an order (order_ok). C76_alone for all verses and ranges of a book without an order."
  },
  {
   "property": "C77",
   "status": "proved",
   "theorems": [
    "C77_spans",
    "C77_list",
    "C77_methods",
    "C77_range",
    "C77_list_raises",
    "C77_union_raises",
    "C77_intersection",
    "C77_difference",
    "C77_disjoint",
    "C77_contains",
    "C77_range_raises",
    "C77_alone"
   ],
   "note": "The methods of MOrder2 use the exact comparisons of Python. C77_spans, C77_list, C77_methods and C77_range: equal to those of MList and MNode where all ranges can be compared; order_ok says that the books listed in book_order are those with an order. C77_list_raises, C77_union_raises, C77_intersection, C77_difference, C77_disjoint, C77_contains, C77_range_raises: what happens otherwise, for ranges with comparable ends (all that the constructor makes, C76_sound). An example shows that difference_update may have changed the list before it raises. C77_alone: one book without an order."
  },
  {
   "property": "C78",
   "status": "proved",
   "theorems": [
    "C78_one_book",
    "C78_verses",
    "C78_compare",
    "C78_ranges",
    "C78_lists",
    "C78_walks",
    "C78_text",
    "C78_reading",
    "C78_reading_multi",
    "C78_unlisted"
   ],
   "note": "alone e b is the Bible of which b is the only book; C78_one_book says that it does not depend on the order, so that equality with it (C78_verses, C78_compare, C78_ranges, C78_lists, C78_walks) makes any two orders agree. C78_text, C78_reading and C78_reading_multi compare two orders directly. C78_walks holds with any flags for legal ranges, and for any sufficient number of steps. C78_unlisted and an example show why the same books must be listed."
  },
  {
   "property": "C79",
   "status": "partial",
   "theorems": [
    "C79_exact",
    "C79_enough",
    "C79_too_long",
    "C79_sharp",
    "C79_ranges",
    "C79_union_contains",
    "C79_refuted"
   ],
   "note": "The two general sentences (any length can be sorted; the list is left as it was) are refuted by C79_refuted and by C79_exact: for every room a long enough list of any one range cannot be sorted, merged, extended by union_update or asked for its contents, and the list is torn as in C75 whenever there was room for the first cut. The precise sentences are proved; C79_exact gives the least room for every list and every depth of comparisons. For lists of ranges only the calls that lead to the sort are counted, and the ranges are comparable ones."
  },
  {
   "property": "C80",
   "status": "proved",
   "theorems": [
    "C80_exact",
    "C80_unreadable",
    "C80_short",
    "C80_exceptions",
    "C80_state",
    "C80_sane",
    "C80_constructors",
    "C80_no_limit",
    "C80_every_limit"
   ],
   "note": "parse_l, list_from_str_l, range_from_str_l and verse_from_str_l (MDigits) are the functions of MParse with the limit as an argument; read is Lark's part. C80_sane adds that the state left behind is again one to which the theorems on reading apply. int() on string arguments of BibleRange (ref.py 734-756) has no limit in the model."
  },
  {
   "property": "C81",
   "status": "proved",
   "theorems": [
    "C81_next",
    "C81_reversed",
    "C81_start",
    "C81_live",
    "C81_removed",
    "C81_unchanged",
    "C81_filter",
    "C81_endless"
   ],
   "note": "Iterators are nodes (MIter); remembered (SpecIter) is the last place of every item in the contents of the list after each operation. Loops are given for all sufficient numbers of rounds; C81_endless: for every number of rounds."
  },
  {
   "property": "C82",
   "status": "proved",
   "theorems": [
    "C82_groups",
    "C82_groups_start",
    "C82_view",
    "C82_view_start"
   ],
   "note": "After clear() nodes keep their marks; see C44."
  },
  {
   "property": "C83",
   "status": "partial",
   "theorems": [
    "C83_loop_partial",
    "C83_refuted"
   ],
   "note": "False: a body that deletes the first item of the current group ends the loop (C83_refuted). C83_loop_partial: true, with exactly the groups of the list in order, if the body, a sequence of operations for each group, leaves the first items of the groups as they are."
  },
  {
   "property": "C84",
   "status": "partial",
   "theorems": [
    "C84_list_partial",
    "C84_value_partial",
    "C84_laws_partial",
    "C84_refuted"
   ],
   "note": "Proved where the flags agree with the global flags about verse 0s: verse_count ignores its flags argument and counts verse 0s by the global flags (see C11), so the laws fail otherwise (C84_refuted: 3 and 9 verses, 2 in common, 11 together)."
  },
  {
   "property": "C85",
   "status": "proved",
   "theorems": [
    "C85_place",
    "C85_parse",
    "C85_before",
    "C85_char",
    "C85_unfinished"
   ],
   "note": "Lark's contract about pos_in_stream (Earley parser with the dynamic lexer) is SpecPlace.error_at; the theorems hold for every text and separators that are distinct punctuation."
  },
  {
   "property": "C86",
   "status": "partial",
   "theorems": [
    "C86_text",
    "C86_partial",
    "C86_refuted"
   ],
   "note": "False for an unfinished text: \"Gen 1:\" gives -1 and 0 (C86_refuted). True of all other errors, for all tables and remembered states and separators that are distinct punctuation (C86_partial); C86_text: the error delimits a book name, a reference or a range of the reading, or is that of C85."
  },
  {
   "property": "C87",
   "status": "proved",
   "theorems": [
    "C87_continue",
    "C87_place",
    "C87_final"
   ],
   "note": "For all texts and separators that are distinct punctuation."
  },
  {
   "property": "C88",
   "status": "partial",
   "theorems": [
    "C88_join_partial",
    "C88_books_partial",
    "C88_count_partial",
    "C88_refuted"
   ],
   "note": "C88_join_partial and C88_books_partial: merge() must track verse 0s if and only if split() did (true if the flags are the same and the range does not begin or end with a verse 0 without ALLOW_VERSE_0), and the range lies in one book, or MULTIBOOK is given, or the pieces respect books. C88_count_partial: for ranges legal under the global flags. Without these it is false (C88_refuted): e.g. the pieces of Psalm 3:0-4:2 by chapters are not rejoined, and the counts of its pieces of 7 verses add up to 11 instead of 12."
  },
  {
   "property": "C89",
   "status": "proved",
   "theorems": [
    "C89_readable",
    "C89_compose",
    "C89_trailing",
    "C89_printed_partial",
    "C89_default"
   ],
   "note": "C89_readable, C89_compose, C89_trailing: any tables, flags and states, separators that are distinct punctuation. C89_default: the printed texts with the package's tables; C89_printed_partial is the same for other tables, options and either separator, under the conditions of C35."
  },
  {
   "property": "C90",
   "status": "proved",
   "theorems": [
    "C90_pieces"
   ],
   "note": "For all legal ranges and flags."
  },
  {
   "property": "C91",
   "status": "proved",
   "theorems": [
    "C91_order",
    "C91_lattice",
    "C91_bible"
   ],
   "note": "Lists with ranges over several books, without MULTIBOOK: see C21, C22 and C25."
  },
  {
   "property": "C92",
   "status": "proved",
   "theorems": [
    "C92_int",
    "C92_range",
    "C92_string",
    "C92_no_limit",
    "C92_every_limit"
   ],
   "note": "Limit of int() as documented for Python 3.11 and later."
  },
  {
   "property": "C93",
   "status": "proved",
   "theorems": [
    "C93_nexts",
    "C93_same"
   ],
   "note": "That verse 0s after the first verse are left out even with VERSE_0 is the defect of C10."
  },
  {
   "property": "C94",
   "status": "partial",
   "theorems": [
    "C94_book_numbers",
    "C94_book_verses_partial",
    "C94_chap_range_partial",
    "C94_chap_range_none_partial",
    "C94_chap_range_refuted",
    "C94_verse_numbers_partial",
    "C94_verse_verses_partial",
    "C94_verse_otherwise",
    "C94_max_verse_num_refuted",
    "C94_in_book_partial",
    "C94_in_book_otherwise",
    "C94_in_book_verse_partial",
    "C94_in_book_refuted"
   ],
   "note": "Exact as the theorems say; three parts of the statement fail: BibleVerse.max_verse_num needs its argument though its documentation gives a default (C94_max_verse_num_refuted), chap_range(None) of a book is the whole book (C94_chap_range_refuted), and the tests for a book take a verse for its chapter (C94_in_book_refuted). As in C42, a first verse 0 must be allowed by the global flags too (can_start)."
  },
  {
   "property": "C95",
   "status": "partial",
   "theorems": [
    "C95_numbers",
    "C95_entries",
    "C95_assigned",
    "C95_changed",
    "C95_again",
    "C95_in_step_partial",
    "C95_wf_partial",
    "C95_order_lost",
    "C95_entries_refuted",
    "C95_order_refuted"
   ],
   "note": "The last sentence is C95_again and C95_assigned, for orders without repetitions. The first sentence holds for changes inside the lists of verse numbers and the sets of chapters (C95_numbers, C95_in_step_partial), fails for entries put into or removed from the dictionaries (C95_entries, C95_entries_refuted) and for every change inside the list of books (C95_order_lost, C95_order_refuted). Name data are not covered."
  },
  {
   "property": "C96",
   "status": "partial",
   "theorems": [
    "C96_equal",
    "C96_symmetric",
    "C96_not_equal",
    "C96_raises",
    "C96_total_partial",
    "C96_refuted"
   ],
   "note": "A list of ranges compared with an object that has no length (None, an int, a verse, a book) raises TypeError instead of giving False (C96_refuted; exactly then, C96_raises); the rest holds. Iterables of other classes are supposed to have a length."
  },
  {
   "property": "C97",
   "status": "partial",
   "theorems": [
    "C97_ints",
    "C97_places_partial",
    "C97_groups_partial",
    "C97_otherwise",
    "C97_limit",
    "C97_start",
    "C97_limit_refuted",
    "C97_insert_group_at",
    "C97_insert_group_at_refuted",
    "C97_del_refuted"
   ],
   "note": "insert_group_at has the default None and raises TypeError for it (C97_insert_group_at_refuted); del l[None] deletes the last item (C97_del_refuted); index() with a range or a list of ranges as limit raises ValueError, as if the value were not in the list (C97_limit_refuted; C97_limit: every other class gives TypeError, a verse as limit if it is in the Bible; C97_start: a start outside the list is an IndexError first). Indexes below -len: C28_refuted."
  },
  {
   "property": "C98",
   "status": "proved",
   "theorems": [
    "C98_greater",
    "C98_not",
    "C98_strict",
    "C98_transitive",
    "C98_when",
    "C98_otherwise",
    "C98_total",
    "C98_constructor",
    "C98_meaning",
    "C98_places",
    "C98_same_place"
   ],
   "note": "C98_when, C98_otherwise: what can be compared; C98_greater, C98_not, C98_strict, C98_transitive, C98_total: the laws; C98_meaning: the order. C98_constructor: the comparison in the constructor of ranges (C63) is the same. Two books have the same position only after an assignment of a list of books with a repetition, which raises (C98_places, C98_same_place, C54). Two sequences are both lists or both tuples."
  },
  {
   "property": "C99",
   "status": "partial",
   "theorems": [
    "C99_groups",
    "C99_items",
    "C99_raises",
    "C99_answers_partial",
    "C99_refuted",
    "C99_nodes"
   ],
   "note": "'Neither raises' is false: an argument without a length, or without groups an item that is itself a list of ranges, raises TypeError (C99_refuted; nothing else does, C99_raises, C99_answers_partial). The rest holds (C99_groups, C99_items; on nodes after any history: C99_nodes). Collections of other classes are supposed to have a length; an empty list equals every empty collection, also the empty string."
  },
  {
   "property": "C100",
   "status": "proved",
   "theorems": [
    "C100_hash",
    "C100_fields",
    "C100_equal",
    "C100_in",
    "C100_set",
    "C100_lists"
   ],
   "note": "The hash functions of ints, strings, tuples and Enum members are variables of the theorems. That frozen dataclasses hash the tuple of their fields and that a class with __eq__ and no __hash__ cannot be hashed is Python's contract (MHash). The order of iteration of a set is not modelled; the model keeps the order of insertion, as in a dictionary."
  }
 ]
}