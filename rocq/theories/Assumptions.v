(** * Assumptions: what the kernel reports for the theorems of the Prop files, together for each property (printed during
    the build). *)
From Verif Require PropChars PropVerse PropRange PropUnit PropList PropLaws PropWhole PropGroup PropCycle PropNode PropSort PropOrder PropAlone PropParse PropAlike PropStr PropShow PropShow2 PropWorld PropRecall PropOps PropNew PropSelf PropText PropStack PropDigits PropIter PropNumber PropPlace PropTyping PropJoin PropCompose PropPieces PropLattice PropDigits2 PropIter2 PropArgs PropTables PropEq PropCmp PropEq2 PropHash.
Definition of_C01 := (PropVerse.C01_constructible_iff_exists,
  PropVerse.C01_otherwise_invalid_partial,
  PropVerse.C01_no_table_refuted).
Print Assumptions of_C01.
Definition of_C02 := (PropVerse.C02_verse_order,
  PropVerse.C02_verse_order_any,
  PropVerse.C02_positions,
  PropVerse.C02_bible_is_constructible).
Print Assumptions of_C02.
Definition of_C03 := (PropVerse.C03_setter,
  PropVerse.C03_setter_duplicate,
  PropVerse.C03_next_prev,
  PropVerse.C03_left_out,
  PropVerse.C03_inverse,
  PropVerse.C03_book_comparison).
Print Assumptions of_C03.
Definition of_C04 := (PropVerse.C04_on_track,
  PropVerse.C04_add,
  PropVerse.C04_add_negative).
Print Assumptions of_C04.
Definition of_C05 := (PropVerse.C05_subtract_partial,
  PropVerse.C05_subtract_negative,
  PropVerse.C05_subtract_exact,
  PropVerse.C05_subtract_refuted).
Print Assumptions of_C05.
Definition of_C06 := (PropVerse.C06_add_subtract_partial,
  PropVerse.C06_add_add,
  PropVerse.C06_add_subtract_refuted,
  PropVerse.C06_add_add_refuted).
Print Assumptions of_C06.
Definition of_C07 := (PropRange.C07_distance_partial,
  PropRange.C07_multibook,
  PropRange.C07_antisymmetric,
  PropRange.C07_add_back_partial,
  PropRange.C07_flags_refuted,
  PropRange.C07_add_back_refuted).
Print Assumptions of_C07.
Definition of_C08 := (PropUnit.C08_two_verses,
  PropUnit.C08_two_verses_result,
  PropUnit.C08_positional,
  PropUnit.C08_exact_ends,
  PropUnit.C08_exact_ends_result,
  PropUnit.C08_unordered).
Print Assumptions of_C08.
Definition of_C09 := (PropUnit.C09_units_partial,
  PropUnit.C09_condition,
  PropUnit.C09_cannot_start,
  PropUnit.C09_multibook,
  PropUnit.C09_invalid,
  PropUnit.C09_units_refuted,
  PropUnit.C09_either_order_partial,
  PropUnit.C09_either_order_refuted).
Print Assumptions of_C09.
Definition of_C10 := (PropRange.C10_iteration_partial,
  PropRange.C10_iteration_exact,
  PropRange.C10_iteration_refuted,
  PropRange.C10_default_refuted).
Print Assumptions of_C10.
Definition of_C100 := (PropHash.C100_hash,
  PropHash.C100_fields,
  PropHash.C100_equal,
  PropHash.C100_in,
  PropHash.C100_set,
  PropHash.C100_lists).
Print Assumptions of_C100.
Definition of_C11 := (PropRange.C11_verse_count,
  PropRange.C11_verses,
  PropList.C11_list_verse_count).
Print Assumptions of_C11.
Definition of_C12 := (PropRange.C12_split,
  PropList.C12_groups).
Print Assumptions of_C12.
Definition of_C13 := (PropRange.C13_terminates_partial,
  PropRange.C13_without_size,
  PropRange.C13_size_0,
  PropRange.C13_terminates_refuted).
Print Assumptions of_C13.
Definition of_C14 := (PropRange.C14_chap_count,
  PropRange.C14_book_count,
  PropRange.C14_whole_chap_count_partial,
  PropRange.C14_whole_book_count_partial,
  PropRange.C14_whole_refuted,
  PropList.C14_list_counts,
  PropWhole.C14_whole_chap_exact,
  PropWhole.C14_whole_book_exact).
Print Assumptions of_C14.
Definition of_C15 := (PropRange.C15_is_disjoint,
  PropRange.C15_contains,
  PropRange.C15_surrounds,
  PropRange.C15_is_adjacent,
  PropRange.C15_no_verse_between_partial,
  PropRange.C15_is_adjacent_refuted,
  PropRange.C15_order).
Print Assumptions of_C15.
Definition of_C16 := (PropRange.C16_union_verses,
  PropRange.C16_union_joined_partial,
  PropRange.C16_hull,
  PropRange.C16_union_apart,
  PropRange.C16_union_fails,
  PropRange.C16_never_fails_refuted).
Print Assumptions of_C16.
Definition of_C17 := (PropRange.C17_intersection_verses,
  PropRange.C17_intersection_overlap_partial,
  PropRange.C17_meet,
  PropRange.C17_intersection_apart,
  PropRange.C17_intersection_fails,
  PropRange.C17_never_fails_refuted).
Print Assumptions of_C17.
Definition of_C18 := (PropRange.C18_difference_verses_partial,
  PropRange.C18_disjoint,
  PropRange.C18_covered,
  PropRange.C18_parts_partial,
  PropRange.C18_nothing_before_fails,
  PropRange.C18_nothing_after_fails,
  PropRange.C18_never_raises_refuted,
  PropRange.C18_verses_refuted).
Print Assumptions of_C18.
Definition of_C19 := (PropRange.C19_sym_difference_verses_partial,
  PropRange.C19_equal,
  PropRange.C19_disjoint,
  PropRange.C19_overlap,
  PropRange.C19_never_raises_refuted).
Print Assumptions of_C19.
Definition of_C20 := (PropList.C20_merge,
  PropList.C20_fails_iff,
  PropList.C20_unique_partial,
  PropList.C20_shortest_partial,
  PropList.C20_unique_refuted,
  PropList.C20_fails_refuted).
Print Assumptions of_C20.
Definition of_C21 := (PropList.C21_union,
  PropList.C21_fails_iff,
  PropList.C21_order_partial,
  PropList.C21_refuted).
Print Assumptions of_C21.
Definition of_C22 := (PropList.C22_intersection_partial,
  PropList.C22_fails,
  PropList.C22_refuted).
Print Assumptions of_C22.
Definition of_C23 := (PropList.C23_ends,
  PropList.C23_difference_partial,
  PropList.C23_exact_partial,
  PropList.C23_succeeds_partial,
  PropList.C23_self_refuted,
  PropList.C23_raises_refuted).
Print Assumptions of_C23.
Definition of_C24 := (PropList.C24_sym_difference_partial,
  PropList.C24_succeeds_partial,
  PropList.C24_self_refuted).
Print Assumptions of_C24.
Definition of_C25 := (PropList.C25_contains_partial,
  PropList.C25_is_disjoint,
  PropList.C25_contains_refuted).
Print Assumptions of_C25.
Definition of_C26 := (PropList.C26_range_value,
  PropList.C26_empty,
  PropList.C26_range_partial,
  PropList.C26_list_units_partial,
  PropList.C26_range_units_partial,
  PropList.C26_range_refuted,
  PropWhole.C26_range_units_exact,
  PropWhole.C26_list_units_exact).
Print Assumptions of_C26.
Definition of_C27 := (PropGroup.C27_history_partial,
  PropGroup.C27_construction,
  PropGroup.C27_construction_groups,
  PropGroup.C27_construction_items,
  PropGroup.C27_search,
  PropGroup.C27_index).
Print Assumptions of_C27.
Definition of_C28 := (PropGroup.C28_get_item,
  PropGroup.C28_get_item_partial,
  PropGroup.C28_set_item_partial,
  PropGroup.C28_pop_partial,
  PropGroup.C28_pop_beside,
  PropGroup.C28_groups_partial,
  PropGroup.C28_refuted).
Print Assumptions of_C28.
Definition of_C29 := (PropGroup.C29_insert_group_at_partial,
  PropGroup.C29_cut,
  PropGroup.C29_refuted,
  PropCycle.C29_cycle).
Print Assumptions of_C29.
Definition of_C30 := (PropList.C30_range_list_sort,
  PropGroup.C30_sort).
Print Assumptions of_C30.
Definition of_C31 := (PropGroup.C31_equals,
  PropGroup.C31_equals_plain,
  PropGroup.C31_copy).
Print Assumptions of_C31.
Definition of_C32 := (PropGroup.C32_extend_self,
  PropGroup.C32_refuted).
Print Assumptions of_C32.
Definition of_C33 := (PropList.C33_operators,
  PropList.C33_refuted).
Print Assumptions of_C33.
Definition of_C34 := (PropList.C34_regroup_partial,
  PropList.C34_regroup_global,
  PropList.C34_recursion,
  PropList.C34_flags_refuted,
  PropStr.C34_reads_as_regroup_partial,
  PropStr.C34_reads_as_regroup_default).
Print Assumptions of_C34.
Definition of_C35 := (PropStr.C35_partial,
  PropStr.C35_default_partial,
  PropStr.C35_str,
  PropStr.C35_nospace_refuted,
  PropStr.C35_empty_refuted,
  PropStr.C35_flags_refuted,
  PropStr.C35_force_refuted).
Print Assumptions of_C35.
Definition of_C36 := (PropStr.C36_range_partial,
  PropStr.C36_verse_partial,
  PropStr.C36_default_partial,
  PropStr.C36_str,
  PropStr.C36_nospace_refuted,
  PropStr.C36_flags_refuted).
Print Assumptions of_C36.
Definition of_C37 := (PropParse.C37_refuted,
  PropParse.C37_failed_parse_refuted,
  PropParse.C37_partial,
  PropParse.C37_context,
  PropWorld.C37_settings_refuted,
  PropWorld.C37_dropped_refuted).
Print Assumptions of_C37.
Definition of_C38 := (PropChars.C38_word_table,
  PropChars.C38_digit_table,
  PropChars.C38_ignored_table,
  PropParse.C38_reading_unique,
  PropParse.C38_reading_found,
  PropParse.C38_tokens_unique,
  PropParse.C38_longest_match).
Print Assumptions of_C38.
Definition of_C39 := (PropChars.C39_white_table,
  PropChars.C39_case_table,
  PropParse.C39_name_of,
  PropParse.C39_no_name,
  PropParse.C39_one_book,
  PropParse.C39_denotes,
  PropParse.C39_letter_case,
  PropParse.C39_white_space,
  PropParse.C39_title,
  PropParse.C39_own_names,
  PropParse.C39_all_named,
  PropParse.C39_raises,
  PropParse.C39_verse).
Print Assumptions of_C39.
Definition of_C40 := (PropUnit.C40_verse_0_to_1,
  PropUnit.C40_verse_1_to_0,
  PropUnit.C40_idempotent,
  PropUnit.C40_order,
  PropUnit.C40_ranges,
  PropList.C40_lists).
Print Assumptions of_C40.
Definition of_C41 := (PropUnit.C41_verses_partial,
  PropUnit.C41_ranges_partial,
  PropUnit.C41_split_partial,
  PropUnit.C41_none_ignored,
  PropUnit.C41_none_refuted,
  PropUnit.C41_subtract_refuted,
  PropUnit.C41_first_verse_refuted,
  PropUnit.C41_difference_refuted,
  PropUnit.C41_count_refuted,
  PropUnit.C41_distance_refuted).
Print Assumptions of_C41.
Definition of_C42 := (PropUnit.C42_book_range_partial,
  PropUnit.C42_chap_range_partial,
  PropUnit.C42_chap_ranges_partial,
  PropUnit.C42_no_chapter,
  PropUnit.C42_first_verse_partial,
  PropUnit.C42_last_verse,
  PropUnit.C42_counts,
  PropUnit.C42_whole_bible_partial,
  PropUnit.C42_verse_ranges_partial,
  PropUnit.C42_refuted,
  PropList.C42_chap_list_partial,
  PropWhole.C42_raises,
  PropWhole.C42_bible_raises).
Print Assumptions of_C42.
Definition of_C43 := (PropUnit.C43_is_whole_chap_partial,
  PropUnit.C43_is_whole_book_partial,
  PropUnit.C43_spans_chap_partial,
  PropUnit.C43_spans_book_partial,
  PropUnit.C43_is_first_partial,
  PropUnit.C43_is_last,
  PropUnit.C43_is_single_verse,
  PropUnit.C43_spans_refuted,
  PropUnit.C43_raises_refuted,
  PropWhole.C43_start_exact,
  PropWhole.C43_end_exact,
  PropWhole.C43_raises,
  PropWhole.C43_is_first_raises).
Print Assumptions of_C43.
Definition of_C44 := (PropGroup.C44_current,
  PropGroup.C44_views_partial,
  PropGroup.C44_after_clear,
  PropGroup.C44_refuted).
Print Assumptions of_C44.
Definition of_C45 := (PropUnit.C45_counts_split_partial,
  PropUnit.C45_iteration_partial,
  PropUnit.C45_union_fails,
  PropUnit.C45_union_refuted,
  PropUnit.C45_intersection_refuted,
  PropUnit.C45_difference_refuted).
Print Assumptions of_C45.
Definition of_C46 := (PropParse.C46_error_partial,
  PropParse.C46_result,
  PropParse.C46_next_state,
  PropParse.C46_blamed_means_nothing,
  PropParse.C46_blame_unique,
  PropParse.C46_meaning_unique,
  PropParse.C46_list_from_str,
  PropParse.C46_range_from_str,
  PropParse.C46_verse_from_str,
  PropParse.C46_constructors_refuted,
  PropWorld.C46_no_other_exception,
  PropWorld.C46_after_history,
  PropDigits.C46_digits_refuted).
Print Assumptions of_C46.
Definition of_C47 := (PropList.C47_is_disjoint,
  PropList.C47_contains,
  PropList.C47_surrounds,
  PropList.C47_is_adjacent,
  PropList.C47_union_intersection,
  PropList.C47_difference_fails,
  PropList.C47_difference_refuted).
Print Assumptions of_C47.
Definition of_C48 := (PropShow.C48_verse,
  PropShow.C48_parts,
  PropShow.C48_nothing,
  PropShow.C48_unnamed).
Print Assumptions of_C48.
Definition of_C49 := (PropShow.C49_range,
  PropShow.C49_total,
  PropShow.C49_range_partial,
  PropShow.C49_default,
  PropShow.C49_refuted).
Print Assumptions of_C49.
Definition of_C50 := (PropShow.C50_list,
  PropShow.C50_total,
  PropShow.C50_separator_partial,
  PropShow.C50_separator_refuted).
Print Assumptions of_C50.
Definition of_C51 := (PropShow.C51_str,
  PropShow.C51_repr,
  PropShow.C51_repr_verse).
Print Assumptions of_C51.
Definition of_C52 := (PropShow.C52_partial,
  PropShow.C52_least,
  PropShow.C52_refuted).
Print Assumptions of_C52.
Definition of_C53 := (PropShow.C53_verse,
  PropShow.C53_range,
  PropShow.C53_list,
  PropShow.C53_str,
  PropShow.C53_groups_refuted).
Print Assumptions of_C53.
Definition of_C54 := (PropWorld.C54_separators,
  PropWorld.C54_names,
  PropWorld.C54_verses,
  PropWorld.C54_start,
  PropWorld.C54_order_partial,
  PropWorld.C54_order_fails,
  PropWorld.C54_order_refuted).
Print Assumptions of_C54.
Definition of_C55 := (PropWorld.C55_syntax_partial,
  PropWorld.C55_calls).
Print Assumptions of_C55.
Definition of_C56 := (PropWorld.C56_list_partial,
  PropWorld.C56_range_partial,
  PropWorld.C56_verse_partial,
  PropWorld.C56_settings,
  PropWorld.C56_default_partial,
  PropWorld.C56_refuted).
Print Assumptions of_C56.
Definition of_C57 := (PropWorld.C57_accepted,
  PropWorld.C57_histories).
Print Assumptions of_C57.
Definition of_C58 := (PropOps.C58_add,
  PropOps.C58_subtract,
  PropOps.C58_distance,
  PropOps.C58_in_range,
  PropOps.C58_range,
  PropOps.C58_references,
  PropOps.C58_list).
Print Assumptions of_C58.
Definition of_C59 := (PropNode.C59_history,
  PropNode.C59_new_lists).
Print Assumptions of_C59.
Definition of_C60 := (PropNode.C60_unchanged_partial,
  PropNode.C60_refuted,
  PropNode.C60_verses_partial,
  PropNode.C60_difference_partial).
Print Assumptions of_C60.
Definition of_C61 := (PropNode.C61_diverges,
  PropNode.C61_refuted).
Print Assumptions of_C61.
Definition of_C62 := (PropNew.C62_copy,
  PropNew.C62_numbers_partial,
  PropNew.C62_refuted,
  PropNew.C62_unknown_name,
  PropNew.C62_otherwise,
  PropNew.C62_string_partial).
Print Assumptions of_C62.
Definition of_C63 := (PropNew.C63_copy,
  PropNew.C63_two_verses,
  PropNew.C63_parts,
  PropNew.C63_string_partial,
  PropNew.C63_wrong_number,
  PropNew.C63_one_wrong,
  PropNew.C63_raised,
  PropNew.C63_no_book,
  PropNew.C63_wrong_refuted,
  PropNew.C63_equal_parts,
  PropNew.C63_later_parts).
Print Assumptions of_C63.
Definition of_C64 := (PropNew.C64_int_white,
  PropNew.C64_int_text,
  PropNew.C64_text_order,
  PropNew.C64_same_range_partial,
  PropNew.C64_same_range_refuted).
Print Assumptions of_C64.
Definition of_C65 := (PropNew.C65_positional_partial,
  PropNew.C65_ordered_partial,
  PropNew.C65_keywords_partial,
  PropNew.C65_refuted).
Print Assumptions of_C65.
Definition of_C66 := (PropNew.C66_items,
  PropNew.C66_groups_unique,
  PropNew.C66_none,
  PropNew.C66_copy,
  PropNew.C66_string,
  PropNew.C66_others).
Print Assumptions of_C66.
Definition of_C67 := (PropNew.C67_ranges,
  PropNew.C67_lists,
  PropNew.C67_updates,
  PropNew.C67_references,
  PropNew.C67_plain_ranges,
  PropNew.C67_not_iterable,
  PropNew.C67_lists_refuted).
Print Assumptions of_C67.
Definition of_C68 := (PropNew.C68_refused,
  PropNew.C68_taken,
  PropNew.C68_no_items,
  PropNew.C68_all_ranges,
  PropNew.C68_stops,
  PropNew.C68_texts,
  PropNew.C68_one_range,
  PropNew.C68_unchanged_refuted).
Print Assumptions of_C68.
Definition of_C69 := (PropRecall.C69_context,
  PropRecall.C69_recall_partial,
  PropRecall.C69_default,
  PropRecall.C69_next_partial).
Print Assumptions of_C69.
Definition of_C70 := (PropSelf.C70_keeps,
  PropSelf.C70_apart).
Print Assumptions of_C70.
Definition of_C71 := (PropText.C71_list,
  PropText.C71_view,
  PropText.C71_views,
  PropText.C71_ranges,
  PropText.C71_exists).
Print Assumptions of_C71.
Definition of_C72 := (PropShow2.C72_range_partial,
  PropShow2.C72_list_partial,
  PropShow2.C72_fewer_zeros,
  PropShow2.C72_no_zeros,
  PropShow2.C72_same_zeros,
  PropShow2.C72_texts,
  PropShow2.C72_range_refuted,
  PropShow2.C72_dangling_refuted,
  PropShow2.C72_list_refuted,
  PropShow2.C72_forced_refuted).
Print Assumptions of_C72.
Definition of_C73 := (PropLaws.C73_value,
  PropLaws.C73_same,
  PropLaws.C73_laws).
Print Assumptions of_C73.
Definition of_C74 := (PropAlike.C74_letter_case,
  PropAlike.C74_letter_case_all,
  PropAlike.C74_white_space,
  PropAlike.C74_white_space_all,
  PropAlike.C74_same_tokens,
  PropAlike.C74_same_tokens_all,
  PropAlike.C74_numbers).
Print Assumptions of_C74.
Definition of_C75 := (PropSort.C75_sort,
  PropSort.C75_torn,
  PropSort.C75_kinds,
  PropSort.C75_ranges,
  PropSort.C75_ranges_torn,
  PropSort.C75_union_update,
  PropSort.C75_refuted).
Print Assumptions of_C75.
Definition of_C76 := (PropSort.C76_sound,
  PropSort.C76_exact,
  PropSort.C76_raises,
  PropSort.C76_iter,
  PropSort.C76_alone).
Print Assumptions of_C76.
Definition of_C77 := (PropOrder.C77_spans,
  PropOrder.C77_list,
  PropOrder.C77_methods,
  PropOrder.C77_range,
  PropOrder.C77_list_raises,
  PropOrder.C77_union_raises,
  PropOrder.C77_intersection,
  PropOrder.C77_difference,
  PropOrder.C77_disjoint,
  PropOrder.C77_contains,
  PropOrder.C77_range_raises,
  PropOrder.C77_alone).
Print Assumptions of_C77.
Definition of_C78 := (PropAlone.C78_one_book,
  PropAlone.C78_verses,
  PropAlone.C78_compare,
  PropAlone.C78_ranges,
  PropAlone.C78_lists,
  PropAlone.C78_walks,
  PropAlone.C78_text,
  PropAlone.C78_reading,
  PropAlone.C78_reading_multi,
  PropAlone.C78_unlisted).
Print Assumptions of_C78.
Definition of_C79 := (PropStack.C79_exact,
  PropStack.C79_enough,
  PropStack.C79_too_long,
  PropStack.C79_sharp,
  PropStack.C79_ranges,
  PropStack.C79_union_contains,
  PropStack.C79_refuted).
Print Assumptions of_C79.
Definition of_C80 := (PropDigits.C80_exact,
  PropDigits.C80_unreadable,
  PropDigits.C80_short,
  PropDigits.C80_exceptions,
  PropDigits.C80_state,
  PropDigits.C80_sane,
  PropDigits.C80_constructors,
  PropDigits.C80_no_limit,
  PropDigits.C80_every_limit).
Print Assumptions of_C80.
Definition of_C81 := (PropIter.C81_next,
  PropIter.C81_reversed,
  PropIter.C81_start,
  PropIter.C81_live,
  PropIter.C81_removed,
  PropIter.C81_unchanged,
  PropIter.C81_filter,
  PropIter.C81_endless).
Print Assumptions of_C81.
Definition of_C82 := (PropIter.C82_groups,
  PropIter.C82_groups_start,
  PropIter.C82_view,
  PropIter.C82_view_start).
Print Assumptions of_C82.
Definition of_C83 := (PropIter.C83_loop_partial,
  PropIter.C83_refuted).
Print Assumptions of_C83.
Definition of_C84 := (PropNumber.C84_list_partial,
  PropNumber.C84_value_partial,
  PropNumber.C84_laws_partial,
  PropNumber.C84_refuted).
Print Assumptions of_C84.
Definition of_C85 := (PropPlace.C85_place,
  PropPlace.C85_parse,
  PropPlace.C85_before,
  PropPlace.C85_char,
  PropPlace.C85_unfinished).
Print Assumptions of_C85.
Definition of_C86 := (PropPlace.C86_text,
  PropPlace.C86_partial,
  PropPlace.C86_refuted).
Print Assumptions of_C86.
Definition of_C87 := (PropTyping.C87_continue,
  PropTyping.C87_place,
  PropTyping.C87_final).
Print Assumptions of_C87.
Definition of_C88 := (PropJoin.C88_join_partial,
  PropJoin.C88_books_partial,
  PropJoin.C88_count_partial,
  PropJoin.C88_refuted).
Print Assumptions of_C88.
Definition of_C89 := (PropCompose.C89_readable,
  PropCompose.C89_compose,
  PropCompose.C89_trailing,
  PropCompose.C89_printed_partial,
  PropCompose.C89_default).
Print Assumptions of_C89.
Definition of_C90 := (PropPieces.C90_pieces).
Print Assumptions of_C90.
Definition of_C91 := (PropLattice.C91_order,
  PropLattice.C91_lattice,
  PropLattice.C91_bible).
Print Assumptions of_C91.
Definition of_C92 := (PropDigits2.C92_int,
  PropDigits2.C92_range,
  PropDigits2.C92_string,
  PropDigits2.C92_no_limit,
  PropDigits2.C92_every_limit).
Print Assumptions of_C92.
Definition of_C93 := (PropIter2.C93_nexts,
  PropIter2.C93_same).
Print Assumptions of_C93.
Definition of_C94 := (PropArgs.C94_book_numbers,
  PropArgs.C94_book_verses_partial,
  PropArgs.C94_chap_range_partial,
  PropArgs.C94_chap_range_none_partial,
  PropArgs.C94_chap_range_refuted,
  PropArgs.C94_verse_numbers_partial,
  PropArgs.C94_verse_verses_partial,
  PropArgs.C94_verse_otherwise,
  PropArgs.C94_max_verse_num_refuted,
  PropArgs.C94_in_book_partial,
  PropArgs.C94_in_book_otherwise,
  PropArgs.C94_in_book_verse_partial,
  PropArgs.C94_in_book_refuted).
Print Assumptions of_C94.
Definition of_C95 := (PropTables.C95_numbers,
  PropTables.C95_entries,
  PropTables.C95_assigned,
  PropTables.C95_changed,
  PropTables.C95_again,
  PropTables.C95_in_step_partial,
  PropTables.C95_wf_partial,
  PropTables.C95_order_lost,
  PropTables.C95_entries_refuted,
  PropTables.C95_order_refuted).
Print Assumptions of_C95.
Definition of_C96 := (PropEq.C96_equal,
  PropEq.C96_symmetric,
  PropEq.C96_not_equal,
  PropEq.C96_raises,
  PropEq.C96_total_partial,
  PropEq.C96_refuted).
Print Assumptions of_C96.
Definition of_C97 := (PropEq.C97_ints,
  PropEq.C97_places_partial,
  PropEq.C97_groups_partial,
  PropEq.C97_otherwise,
  PropEq.C97_limit,
  PropEq.C97_start,
  PropEq.C97_limit_refuted,
  PropEq.C97_insert_group_at,
  PropEq.C97_insert_group_at_refuted,
  PropEq.C97_del_refuted).
Print Assumptions of_C97.
Definition of_C98 := (PropCmp.C98_greater,
  PropCmp.C98_not,
  PropCmp.C98_strict,
  PropCmp.C98_transitive,
  PropCmp.C98_when,
  PropCmp.C98_otherwise,
  PropCmp.C98_total,
  PropCmp.C98_constructor,
  PropCmp.C98_meaning,
  PropCmp.C98_places,
  PropCmp.C98_same_place).
Print Assumptions of_C98.
Definition of_C99 := (PropEq2.C99_groups,
  PropEq2.C99_items,
  PropEq2.C99_raises,
  PropEq2.C99_answers_partial,
  PropEq2.C99_refuted,
  PropEq2.C99_nodes).
Print Assumptions of_C99.
