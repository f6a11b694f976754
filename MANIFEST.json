{
 "claims": [
  {
   "property": "C01",
   "status": "proved",
   "theorems": [
    "c01_square_new",
    "c01_square_unique_coordinates"
   ],
   "note": ""
  },
  {
   "property": "C02",
   "status": "proved",
   "theorems": [
    "c02_flip_rotates",
    "c02_new_relative",
    "c02_relative_coordinates",
    "c02_c_new_relative"
   ],
   "note": ""
  },
  {
   "property": "C03",
   "status": "proved",
   "theorems": [
    "c03_shift_translates"
   ],
   "note": ""
  },
  {
   "property": "C04",
   "status": "proved",
   "theorems": [
    "c04_from_u8_index",
    "c04_index_from_u8",
    "c04_all_lists_every_square",
    "c04_option_square_round_trip",
    "c04_c_interface"
   ],
   "note": ""
  },
  {
   "property": "C05",
   "status": "proved",
   "theorems": [
    "c05_new_to_parts",
    "c05_to_parts_new",
    "c05_as_u8",
    "c05_as_u8_injective",
    "c05_all_pieces",
    "c05_array_index",
    "c05_option_array_index",
    "c05_c_new"
   ],
   "note": ""
  },
  {
   "property": "C06",
   "status": "proved",
   "theorems": [
    "c06_kind_promotion",
    "c06_promotable_kinds",
    "c06_piece_promotion",
    "c06_c_kind",
    "c06_c_piece"
   ],
   "note": ""
  },
  {
   "property": "C07",
   "status": "proved",
   "theorems": [
    "c07_option_piece_round_trip",
    "c07_option_piece_kind",
    "c07_option_compact_move_round_trip",
    "c07_option_game_resolution_round_trip",
    "c07_result_illegal_move_kind",
    "c07_option_square_round_trip"
   ],
   "note": ""
  },
  {
   "property": "C08",
   "status": "proved",
   "theorems": [
    "c08_move_round_trip",
    "c08_compact_bijection",
    "c08_move_eq"
   ],
   "note": ""
  },
  {
   "property": "C09",
   "status": "proved",
   "theorems": [
    "c09_accessors_agree",
    "c09_move_accessors"
   ],
   "note": ""
  },
  {
   "property": "C10",
   "status": "proved",
   "theorems": [
    "c10_new_and_count",
    "c10_added",
    "c10_removed",
    "c10_hand_kinds",
    "c10_eq_iff_same_counts"
   ],
   "note": ""
  },
  {
   "property": "C11",
   "status": "proved",
   "theorems": [
    "c11_removed_undoes_added",
    "c11_added_undoes_removed",
    "c11_histories",
    "c11_reachable_hands"
   ],
   "note": ""
  },
  {
   "property": "C12",
   "status": "proved",
   "theorems": [
    "c12_empty_single",
    "c12_set_algebra",
    "c12_results_valid",
    "c12_square_assign",
    "c12_built_iff_valid"
   ],
   "note": ""
  },
  {
   "property": "C13",
   "status": "proved",
   "theorems": [
    "c13_eq_is_set_equality",
    "c13_count_is_cardinality",
    "c13_count_total"
   ],
   "note": ""
  },
  {
   "property": "C14",
   "status": "proved",
   "theorems": [
    "c14_pop_empty",
    "c14_pop_least_member",
    "c14_iteration"
   ],
   "note": ""
  },
  {
   "property": "C15",
   "status": "proved",
   "theorems": [
    "c15_flip"
   ],
   "note": ""
  },
  {
   "property": "C16",
   "status": "proved",
   "theorems": [
    "c16_shift_down",
    "c16_shift_up",
    "c16_shift_left"
   ],
   "note": ""
  },
  {
   "property": "C17",
   "status": "partial",
   "theorems": [
    "c17_shift_right_partial",
    "c17_shift_right_refuted"
   ],
   "note": "The property as stated is false of the code: c17_shift_right_refuted gives the witness (delta 1 with 9A, delta 0 with 8A: bit 63 of word 0 gets set). c17_shift_right_partial proves the membership law for every delta and characterises exactly when the result is valid."
  },
  {
   "property": "C18",
   "status": "proved",
   "theorems": [
    "c18_from_file",
    "c18_get_file",
    "c18_file_round_trip",
    "c18_files_determine_board"
   ],
   "note": ""
  },
  {
   "property": "C19",
   "status": "proved",
   "theorems": [
    "c19_swap_involution",
    "c19_swap_commutes",
    "c19_swap_reverses_bytes"
   ],
   "note": ""
  },
  {
   "property": "C20",
   "status": "proved",
   "theorems": [
    "c20_u128_round_trip",
    "c20_swapped_u128_round_trip",
    "c20_u128_bits"
   ],
   "note": ""
  },
  {
   "property": "C21",
   "status": "proved",
   "theorems": [
    "c21_history",
    "c21_observed",
    "c21_bitboards",
    "c21_other_observers"
   ],
   "note": ""
  },
  {
   "property": "C22",
   "status": "proved",
   "theorems": [
    "c22_accepts"
   ],
   "note": ""
  },
  {
   "property": "C23",
   "status": "proved",
   "theorems": [
    "c23_effect"
   ],
   "note": ""
  },
  {
   "property": "C24",
   "status": "proved",
   "theorems": [
    "c24_partial_position",
    "c24_position",
    "c24_legality_checker"
   ],
   "note": ""
  },
  {
   "property": "C25",
   "status": "proved",
   "theorems": [
    "c25_compact"
   ],
   "note": ""
  },
  {
   "property": "C26",
   "status": "proved",
   "theorems": [
    "c26_moves",
    "c26_ply_wraps_in_play"
   ],
   "note": ""
  },
  {
   "property": "C27",
   "status": "proved",
   "theorems": [
    "c27_conserved",
    "c27_no_overflow"
   ],
   "note": ""
  },
  {
   "property": "C28",
   "status": "proved",
   "theorems": [
    "c28_kings",
    "c28_no_king_capture"
   ],
   "note": ""
  },
  {
   "property": "C29",
   "status": "partial",
   "theorems": [
    "c29_king_position_partial",
    "c29_king_position_refuted",
    "c29_last_king_put"
   ],
   "note": "The property as stated is false of the code: c29_king_position_refuted places a king with piece_set and removes it again; king_position still names the empty square. c29_king_position_partial proves it for histories whose edits neither touch a king's square nor add a second king; c29_last_king_put gives the exact law (last king put)."
  },
  {
   "property": "C30",
   "status": "proved",
   "theorems": [
    "c30_startpos",
    "c30_empty"
   ],
   "note": ""
  },
  {
   "property": "C31",
   "status": "proved",
   "theorems": [
    "c31_replay",
    "c31_created",
    "c31_observers",
    "c31_deprecated_edit_breaks_replay",
    "c31_deprecated_edits"
   ],
   "note": ""
  },
  {
   "property": "C32",
   "status": "proved",
   "theorems": [
    "c32_resolution",
    "c32_default",
    "c32_c_resolution"
   ],
   "note": ""
  },
  {
   "property": "C33",
   "status": "proved",
   "theorems": [
    "c33_text",
    "c33_reads_back",
    "c33_same_text"
   ],
   "note": ""
  },
  {
   "property": "C34",
   "status": "proved",
   "theorems": [
    "c34_in_play",
    "c34_exact_maximum"
   ],
   "note": ""
  },
  {
   "property": "C35",
   "status": "partial",
   "theorems": [
    "c35_139_bytes_refuted",
    "c35_at_most_236_partial",
    "c35_full_set_partial"
   ],
   "note": "The property as stated is false of the code: c35_139_bytes_refuted builds, by safe calls, a position whose SFEN with its NUL takes 236 bytes. c35_at_most_236_partial proves that 236 is never exceeded; c35_full_set_partial proves the documented 139 for every position with no more pieces than a full set."
  },
  {
   "property": "C36",
   "status": "proved",
   "theorems": [
    "c36_c_string",
    "c36_stores"
   ],
   "note": ""
  },
  {
   "property": "C37",
   "status": "proved",
   "theorems": [
    "c37_values",
    "c37_moves",
    "c37_compact"
   ],
   "note": ""
  },
  {
   "property": "C38",
   "status": "proved",
   "theorems": [
    "c38_usi",
    "c38_sfen"
   ],
   "note": ""
  },
  {
   "property": "C39",
   "status": "proved",
   "theorems": [
    "c39_decimal",
    "c39_in_sfen"
   ],
   "note": ""
  },
  {
   "property": "C40",
   "status": "partial",
   "theorems": [
    "c40_calls_partial",
    "c40_programs_partial",
    "c40_release",
    "c40_no_ub",
    "c40_debug_panics",
    "c40_pop_refuted",
    "c40_writers"
   ],
   "note": "The property as stated is false of the code in a build with debug assertions: c40_pop_refuted runs shift_right within its documented condition and then pop, which panics on the stray bit 63 (see C17). Proved in full under the documented conditions for builds without debug assertions (c40_release) and for undefined behaviour in every build (c40_no_ub); c40_debug_panics shows that such a pop is the only panic. c40_calls_partial and c40_programs_partial prove the property for the 266 interface functions in every build, with shift_right restricted to results that are valid bitboards."
  },
  {
   "property": "C41",
   "status": "proved",
   "theorems": [
    "c41_values",
    "c41_positions"
   ],
   "note": ""
  },
  {
   "property": "C42",
   "status": "partial",
   "theorems": [
    "c42_values",
    "c42_positions_partial",
    "c42_in_play_partial",
    "c42_positions_refuted"
   ],
   "note": "Proved as stated for every type but the positions and games (c42_values). For PartialPosition, Position, PartialGame and Game the property is false of the code: c42_positions_refuted puts a king on an empty board and removes it again; the stale king_square takes part in == but not in cmp. c42_positions_partial gives the exact law (== iff cmp is Equal and the king positions agree); c42_in_play_partial proves the property for positions reached from the starting position by moves."
  },
  {
   "property": "C43",
   "status": "proved",
   "theorems": [
    "c43_values",
    "c43_positions"
   ],
   "note": ""
  },
  {
   "property": "C44",
   "status": "proved",
   "theorems": [
    "c44_played",
    "c44_reachable"
   ],
   "note": ""
  },
  {
   "property": "C45",
   "status": "proved",
   "theorems": [
    "c45_finished",
    "c45_in_progress",
    "c45_panics",
    "c45_make_move_answer",
    "c45_make_move",
    "c45_broken_promise",
    "c45_game"
   ],
   "note": ""
  },
  {
   "property": "C46",
   "status": "proved",
   "theorems": [
    "c46_serial",
    "c46_inside",
    "c46_disjoint",
    "c46_null",
    "c46_answers",
    "c46_finishes_alone"
   ],
   "note": ""
  },
  {
   "property": "C47",
   "status": "partial",
   "theorems": [
    "c47_aligned_iff_partial",
    "c47_aligned_arena_partial",
    "c47_aligned_refuted"
   ],
   "note": "The property as stated is false of the code: ARENA_BSS is an array of bytes with alignment 1, and c47_aligned_refuted gives, for every alignment from 2 to 4096, a permitted placement at which alloc returns an unaligned pointer. c47_aligned_iff_partial: a pointer is aligned iff the arena's address is; c47_aligned_arena_partial: all pointers are aligned iff the arena is placed at a multiple of 4096."
  },
  {
   "property": "C48",
   "status": "proved",
   "theorems": [
    "c48_memcpy",
    "c48_memset",
    "c48_bzero",
    "c48_memcmp",
    "c48_memcmp_stops"
   ],
   "note": ""
  },
  {
   "property": "C49",
   "status": "proved",
   "theorems": [
    "c49_pieces",
    "c49_squares",
    "c49_nothing_else",
    "c49_model"
   ],
   "note": ""
  },
  {
   "property": "C50",
   "status": "proved",
   "theorems": [
    "c50_move",
    "c50_history"
   ],
   "note": ""
  },
  {
   "property": "C51",
   "status": "proved",
   "theorems": [
    "c51_set_up",
    "c51_every_setting",
    "c51_ply_zero"
   ],
   "note": ""
  },
  {
   "property": "C52",
   "status": "proved",
   "theorems": [
    "c52_every_text",
    "c52_range"
   ],
   "note": ""
  },
  {
   "property": "C53",
   "status": "proved",
   "theorems": [
    "c53_take_back",
    "c53_in_play",
    "c53_determined"
   ],
   "note": ""
  },
  {
   "property": "C54",
   "status": "proved",
   "theorems": [
    "c54_values",
    "c54_options",
    "c54_positions"
   ],
   "note": ""
  },
  {
   "property": "C55",
   "status": "proved",
   "theorems": [
    "c55_values",
    "c55_options",
    "c55_positions",
    "c55_same"
   ],
   "note": ""
  },
  {
   "property": "C56",
   "status": "proved",
   "theorems": [
    "c56_names",
    "c56_constants",
    "c56_macros",
    "c56_struct"
   ],
   "note": ""
  },
  {
   "property": "C57",
   "status": "partial",
   "theorems": [
    "c57_calls_partial",
    "c57_calls_refuted"
   ],
   "note": "The property as stated is false of the header: c57_calls_refuted shows Square_from_u8 and Square_shift declared with the incomplete result type struct Option_Square, so no C program can call them, while Rust returns one byte. c57_calls_partial proves agreement of arguments and results for the other 82 functions on every target."
  },
  {
   "property": "C58",
   "status": "proved",
   "theorems": [
    "c58_store",
    "c58_copy",
    "c58_load_defined",
    "c58_memcmp",
    "c58_memcmp_padding"
   ],
   "note": ""
  },
  {
   "property": "C59",
   "status": "proved",
   "theorems": [
    "c59_client"
   ],
   "note": ""
  },
  {
   "property": "C60",
   "status": "proved",
   "theorems": [
    "c60_programs",
    "c60_misuse",
    "c60_out_of_memory",
    "c60_no_leak"
   ],
   "note": ""
  },
  {
   "property": "C61",
   "status": "proved",
   "theorems": [
    "c61_main"
   ],
   "note": ""
  },
  {
   "property": "C62",
   "status": "proved",
   "theorems": [
    "c62_calls",
    "c62_contract",
    "c62_impossible",
    "c62_unchecked",
    "c62_misaligned",
    "c62_programs",
    "c62_covers"
   ],
   "note": ""
  },
  {
   "property": "C63",
   "status": "proved",
   "theorems": [
    "c63_never_reused",
    "c63_stays_full",
    "c63_answered",
    "c63_same_size"
   ],
   "note": ""
  },
  {
   "property": "C64",
   "status": "proved",
   "theorems": [
    "c64_programs",
    "c64_misuse",
    "c64_misaligned",
    "c64_positions",
    "c64_moves",
    "c64_given_back"
   ],
   "note": ""
  },
  {
   "property": "C65",
   "status": "proved",
   "theorems": [
    "c65_unit_tests",
    "c65_doc_tests"
   ],
   "note": ""
  },
  {
   "property": "C66",
   "status": "proved",
   "theorems": [
    "c66_programs",
    "c66_misuse",
    "c66_out_of_memory",
    "c66_no_leak",
    "c66_covers"
   ],
   "note": ""
  },
  {
   "property": "C67",
   "status": "proved",
   "theorems": [
    "c67_history",
    "c67_from_empty",
    "c67_left_right"
   ],
   "note": ""
  },
  {
   "property": "C68",
   "status": "proved",
   "theorems": [
    "c68_commute",
    "c68_overwrite",
    "c68_move",
    "c68_kings"
   ],
   "note": ""
  },
  {
   "property": "C69",
   "status": "proved",
   "theorems": [
    "c69_counts",
    "c69_play"
   ],
   "note": ""
  },
  {
   "property": "C70",
   "status": "proved",
   "theorems": [
    "c70_accepted",
    "c70_types",
    "c70_no_leak",
    "c70_constants"
   ],
   "note": ""
  },
  {
   "property": "C71",
   "status": "proved",
   "theorems": [
    "c71_threads",
    "c71_misuse",
    "c71_out_of_memory",
    "c71_schedules",
    "c71_writes",
    "c71_reads",
    "c71_no_leak",
    "c71_small_steps",
    "c71_accepted",
    "c71_accepted_clean",
    "c71_single"
   ],
   "note": ""
  },
  {
   "property": "C72",
   "status": "proved",
   "theorems": [
    "c72_accepted",
    "c72_legal_game",
    "c72_checker",
    "c72_status",
    "c72_honest",
    "c72_checked_game",
    "c72_candidates",
    "c72_not_checked"
   ],
   "note": ""
  },
  {
   "property": "C73",
   "status": "proved",
   "theorems": [
    "c73_translate",
    "c73_attacks",
    "c73_check",
    "c73_destinations",
    "c73_pawn_drops",
    "c73_flip",
    "c73_set_laws",
    "c73_add_up",
    "c73_careless"
   ],
   "note": ""
  },
  {
   "property": "C74",
   "status": "proved",
   "theorems": [
    "c74_status",
    "c74_checked_game",
    "c74_rule",
    "c74_games_end",
    "c74_equality",
    "c74_text"
   ],
   "note": ""
  },
  {
   "property": "C75",
   "status": "proved",
   "theorems": [
    "c75_provided",
    "c75_generate",
    "c75_rules",
    "c75_not_determined"
   ],
   "note": ""
  },
  {
   "property": "C76",
   "status": "proved",
   "theorems": [
    "c76_values",
    "c76_structures",
    "c76_tells_values",
    "c76_tells_structures",
    "c76_formats"
   ],
   "note": ""
  },
  {
   "property": "C77",
   "status": "proved",
   "theorems": [
    "c77_turned_answers",
    "c77_turned_boards",
    "c77_turned_attacks",
    "c77_turned_game",
    "c77_reflected_answers",
    "c77_reflected_boards",
    "c77_reflected_game"
   ],
   "note": ""
  },
  {
   "property": "C78",
   "status": "proved",
   "theorems": [
    "c78_round_trip",
    "c78_startpos",
    "c78_reader",
    "c78_meaning",
    "c78_accepts",
    "c78_last_move_lost"
   ],
   "note": ""
  },
  {
   "property": "C79",
   "status": "proved",
   "theorems": [
    "c79_pop",
    "c79_walk",
    "c79_defined",
    "c79_from_u128",
    "c79_shift_outside",
    "c79_shift_down",
    "c79_from_file",
    "c79_file_outside",
    "c79_get_file",
    "c79_swapped",
    "c79_numbers"
   ],
   "note": ""
  },
  {
   "property": "C80",
   "status": "proved",
   "theorems": [
    "c80_calls",
    "c80_programs",
    "c80_overflow_checks",
    "c80_all_builds",
    "c80_difference",
    "c80_reachable",
    "c80_writers",
    "c80_checker",
    "c80_c_anything",
    "c80_c_programs",
    "c80_c_threads",
    "c80_no_std",
    "c80_runtime"
   ],
   "note": ""
  },
  {
   "property": "C81",
   "status": "proved",
   "theorems": [
    "c81_status_first",
    "c81_make_move_answer",
    "c81_queries",
    "c81_broken_promise",
    "c81_own_methods",
    "c81_session",
    "c81_calls",
    "c81_cache",
    "c81_stateless",
    "c81_two_questions_refuted",
    "c81_own_make_move_refuted"
   ],
   "note": ""
  },
  {
   "property": "C82",
   "status": "proved",
   "theorems": [
    "c82_threads",
    "c82_alone",
    "c82_last_position",
    "c82_enough",
    "c82_order_refuted"
   ],
   "note": "Calls are atomic in the model of C82; C83 proves the same for threads interrupted inside their calls. c82_order_refuted refutes the tempting statement that the order of the calls does not decide who hangs."
  },
  {
   "property": "C83",
   "status": "proved",
   "theorems": [
    "c83_atomic",
    "c83_calls",
    "c83_alone",
    "c83_enough",
    "c83_progress",
    "c83_order_refuted"
   ],
   "note": "Steps between two accesses to the allocator's atomic are taken at once: they read and write only what the thread holds (c83_atomic). c83_order_refuted refutes the tempting statement that requests are served in the order in which they are made."
  },
  {
   "property": "C84",
   "status": "proved",
   "theorems": [
    "c84_atomic",
    "c84_private",
    "c84_footprint",
    "c84_newest",
    "c84_progress",
    "c84_three_refuted"
   ],
   "note": "The code asks for SeqCst, which allows fewer runs than the model of C84 (c84_newest: with newest values read it is the model of C83). c84_three_refuted: the bound of c83_progress does not hold on weakly ordered memory; c84_progress has the one that does."
  },
  {
   "property": "C85",
   "status": "proved",
   "theorems": [
    "c85_loops",
    "c85_whole",
    "c85_searches",
    "c85_nth",
    "c85_compare",
    "c85_order_refuted",
    "c85_rebuild",
    "c85_adaptors"
   ],
   "note": "The provided methods are written as core's documentation and source define them, on top of next; specialised versions in core (for instance Skip::fold) are taken to do the same, as core promises. c85_order_refuted refutes the tempting statement that Iterator::cmp is Ord::cmp."
  },
  {
   "property": "C86",
   "status": "proved",
   "theorems": [
    "c86_whole",
    "c86_more_features",
    "c86_checker",
    "c86_checker_breaks",
    "c86_more_features_refuted",
    "c86_traits",
    "c86_items",
    "c86_every_type_refuted",
    "c86_default_refuted",
    "c86_unsafe_names",
    "c86_default_features",
    "c86_c_library"
   ],
   "note": "The tables of items, cfgs and uses are read off the sources by hand; functions that are always there and use only what is always there are left out, and so is the checking of types and bodies by the compiler. Four promises do not hold and are refuted or made exact: that features only add (c86_more_features_refuted), that every type implements Eq, Clone, Debug and, with its feature, Ord and Hash (c86_every_type_refuted: OptionPieceKind has none), that only bitboards and positions implement Default (c86_default_refuted), that unsafe items have _unchecked in their names (c86_unsafe_names)."
  },
  {
   "property": "C87",
   "status": "proved",
   "theorems": [
    "c87_hash_values",
    "c87_hash_positions",
    "c87_tree_values",
    "c87_tree_played",
    "c87_tree_positions",
    "c87_tree_positions_refuted",
    "c87_tally",
    "c87_positions_once",
    "c87_texts"
   ],
   "note": "HashMap is modelled as a table of buckets with chains, BTreeMap as a binary search tree put into any shape after each change; keys of a map are not changed while they are in it (Rust forbids it). That all positions and games are good keys of a BTreeMap is refuted (c87_tree_positions_refuted, because of C42); what a BTreeMap does with them is proved (c87_tree_positions), and that those in play are good keys (c87_tree_played)."
  },
  {
   "property": "C88",
   "status": "proved",
   "theorems": [
    "c88_checkers",
    "c88_perft",
    "c88_solve",
    "c88_duel",
    "c88_sound"
   ],
   "note": "The programs are clients written for the model, with the recursion and loops as Rust would have them; the counter is a u64. They get the legal moves from any implementor of LegalityChecker that goes by the rules (c88_checkers: two do). Regular means that the player who has just moved is not in check and that no kind has more than 254 pieces, so that no hand overflows; every legal game from the starting position is."
  },
  {
   "property": "C89",
   "status": "proved",
   "theorems": [
    "c89_taken_back",
    "c89_solve",
    "c89_perft",
    "c89_in_play"
   ],
   "note": "The programs are clients written for the model; what takes a move back is read from the position before the move by calls to the library. At ply 65535 the program with edits panics, because ply_set cannot set a ply of 0 (shown in the example of c89_solve)."
  }
 ]
}