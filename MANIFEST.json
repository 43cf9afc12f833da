{
 "claims": [
  {
   "property": "C01",
   "status": "proved",
   "theorems": [
    "C01_construction_represents_spec"
   ],
   "note": ""
  },
  {
   "property": "C02",
   "status": "proved",
   "theorems": [
    "C02_construction_well_formed"
   ],
   "note": ""
  },
  {
   "property": "C03",
   "status": "proved",
   "theorems": [
    "C03_construction_shares"
   ],
   "note": ""
  },
  {
   "property": "C04",
   "status": "proved",
   "theorems": [
    "C04_bdd_reduce_preserves"
   ],
   "note": ""
  },
  {
   "property": "C05",
   "status": "proved",
   "theorems": [
    "C05_zdd_reduce_preserves"
   ],
   "note": ""
  },
  {
   "property": "C06",
   "status": "proved",
   "theorems": [
    "C06_qdd_reduce_preserves"
   ],
   "note": "both readings and the levels on accepting paths are preserved; equivalent nodes are merged"
  },
  {
   "property": "C07",
   "status": "proved",
   "theorems": [
    "C07_bdd_fully_reduced"
   ],
   "note": ""
  },
  {
   "property": "C08",
   "status": "proved",
   "theorems": [
    "C08_zdd_fully_reduced"
   ],
   "note": ""
  },
  {
   "property": "C09",
   "status": "proved",
   "theorems": [
    "C09_bdd_canonical",
    "C09_zdd_canonical"
   ],
   "note": "for every mix of sequential, hash based and multi-threaded reduction"
  },
  {
   "property": "C10",
   "status": "proved",
   "theorems": [
    "C10_equality_sound",
    "C10_equality_complete",
    "C10_unconditional_completeness_refuted"
   ],
   "note": "C10_unconditional_completeness_refuted shows the condition on duplicates is needed"
  },
  {
   "property": "C11",
   "status": "proved",
   "theorems": [
    "C11_reductions_agree",
    "C11_qdd_hash_parallel_agree",
    "C11_qdd_agreement_refuted"
   ],
   "note": "BDD and ZDD reduction; C11_qdd_agreement_refuted: qddReduce differs between Algorithm R and the others when the root is all-zero"
  },
  {
   "property": "C12",
   "status": "proved",
   "theorems": [
    "C12_value_unique",
    "C12_evaluate",
    "C12_evaluate_parallel"
   ],
   "note": "sequential and multi-threaded, every schedule; evaluators are characterised by `behaves`"
  },
  {
   "property": "C13",
   "status": "proved",
   "theorems": [
    "C13_capacity",
    "C13_zdd_cardinality",
    "C13_zdd_cardinality_exact_storage",
    "C13_zdd_cardinality_parallel",
    "C13_count_unique",
    "C13_zdd_cardinality_machine"
   ],
   "note": "exact decimal count for any scratch capacity with room for ARITY^topLevel, which the code's formula (evaluated exactly) provides; machine-integer counters count modulo 2^bits"
  },
  {
   "property": "C14",
   "status": "partial",
   "theorems": [
    "C14_bdd_cardinality_partial",
    "C14_bdd_cardinality_top",
    "C14_bdd_cardinality_parallel_partial",
    "C14_bdd_cardinality_refuted",
    "C14_too_few_variables_refuted",
    "C14_bdd_cardinality_machine"
   ],
   "note": "proved when the scratch storage has room for ARITY^numVars (always for numVars = topLevel). The full claim is false of the code: C14_bdd_cardinality_refuted shows the final shift leaving tmp2, C14_too_few_variables_refuted the negative shift."
  },
  {
   "property": "C15",
   "status": "proved",
   "theorems": [
    "C15_iteration",
    "C15_begin_is_end_iff_empty"
   ],
   "note": "every binary well-formed diagram, reduced or not; sets are visited exactly once"
  },
  {
   "property": "C16",
   "status": "proved",
   "theorems": [
    "C16_bdd_and",
    "C16_bdd_and_variadic",
    "C16_bdd_and_sharing"
   ],
   "note": ""
  },
  {
   "property": "C17",
   "status": "proved",
   "theorems": [
    "C17_bdd_or",
    "C17_bdd_or_variadic",
    "C17_bdd_or_sharing"
   ],
   "note": ""
  },
  {
   "property": "C18",
   "status": "proved",
   "theorems": [
    "C18_zdd_intersection",
    "C18_zdd_intersection_variadic",
    "C18_zdd_intersection_sharing"
   ],
   "note": "1-terminal reported as -1 (one_code), as documented"
  },
  {
   "property": "C19",
   "status": "proved",
   "theorems": [
    "C19_zdd_union",
    "C19_zdd_union_variadic",
    "C19_zdd_union_sharing"
   ],
   "note": ""
  },
  {
   "property": "C20",
   "status": "proved",
   "theorems": [
    "C20_bdd_lookahead",
    "C20_zdd_lookahead",
    "C20_lookahead_contract",
    "C20_lookahead_sharing",
    "C20_lookahead_skips"
   ],
   "note": "same semantics; contract kept when equal_to is a congruence; every node of the result is non-redundant in the original"
  },
  {
   "property": "C21",
   "status": "proved",
   "theorems": [
    "C21_unreduction",
    "C21_unreduction_sharing"
   ],
   "note": ""
  },
  {
   "property": "C22",
   "status": "proved",
   "theorems": [
    "C22_bdd2zdd",
    "C22_zdd2bdd",
    "C22_conversions_parallel",
    "C22_round_trip"
   ],
   "note": "any numVars (raised to the top level as in the code), sequential and multi-threaded construction, round trip"
  },
  {
   "property": "C23",
   "status": "proved",
   "theorems": [
    "C23_zdd_subset",
    "C23_zdd_subset_shares"
   ],
   "note": ""
  },
  {
   "property": "C24",
   "status": "proved",
   "theorems": [
    "C24_independent",
    "C24_safe",
    "C24_frame",
    "C24_release_invisible",
    "C24_self_assignment_refuted"
   ],
   "note": "Reference counting with 32-bit counters, arbitrary allocator with address reuse; reductions/subsettings are parameters acting on private tables. Self-assignment of a sole owner is undefined: C24_self_assignment_refuted. Exceptions end a history (2^32 owners)."
  },
  {
   "property": "C25",
   "status": "proved",
   "theorems": [
    "C25_count",
    "C25_count_fast",
    "C25_count64",
    "C25_no_overflow_short",
    "C25_no_overflow_tall",
    "C25_no_overflow_tall_fast",
    "C25_arity3_refuted",
    "C25_long_edge_refuted"
   ],
   "note": "count/countFast: any result is the exact decimal number of accepting paths; count64 total and exact mod 2^64. Buffer safety proved for ar^n<2^63 (both) and for binary, non-skipping diagrams of any height and width <= 2^62 (count); the unrestricted claim is false: C25_arity3_refuted, C25_long_edge_refuted."
  },
  {
   "property": "C26",
   "status": "proved",
   "theorems": [
    "C26_find_one",
    "C26_member_or_empty"
   ],
   "note": "rand() is an arbitrary sequence; copies and destructors of states and the state pool are not modelled (states are values)."
  },
  {
   "property": "C27",
   "status": "proved",
   "theorems": [
    "C27_size_constraint",
    "C27_contract",
    "C27_diagram",
    "C27_int_range"
   ],
   "note": "both readings; contract; family and width of the constructed diagram; IntRange"
  },
  {
   "property": "C28",
   "status": "proved",
   "theorems": [
    "C28_linear_constraints",
    "C28_memory_safe",
    "C28_contract",
    "C28_diagram"
   ],
   "note": "T modelled by Z; both readings; every array access in range; contract; constructed diagram"
  },
  {
   "property": "C29",
   "status": "proved",
   "theorems": [
    "C29_degree_constraint",
    "C29_memory_safe",
    "C29_contract",
    "C29_from_names",
    "C29_self_loop_refuted",
    "C29_no_edges_refuted"
   ],
   "note": "For graphs without self-loops and with at least one edge, and constraints whose upperBound is sound and degrees countable in 16 bits. C29_self_loop_refuted and C29_no_edges_refuted show the library is wrong outside these hypotheses. Contract, memory safety and the API-level statement by names (C29_from_names) included."
  },
  {
   "property": "C30",
   "status": "proved",
   "theorems": [
    "C30_hash_table",
    "C30_prime_size"
   ],
   "note": ""
  },
  {
   "property": "C31",
   "status": "proved",
   "theorems": [
    "C31_size",
    "C31_store",
    "C31_store64",
    "C31_add",
    "C31_shift_left",
    "C31_shift_left_minimal_refuted",
    "C31_divide",
    "C31_compare",
    "C31_print",
    "C31_decimal_unique"
   ],
   "note": "BigNumber operations on word arrays of any length are exact; the one deviation found, a non-canonical zero after shiftLeft by 63 or more, is proved as C31_shift_left_minimal_refuted."
  },
  {
   "property": "C32",
   "status": "proved",
   "theorems": [
    "C32_sequences",
    "C32_erase_inside_refuted",
    "C32_self_assignment_refuted",
    "C32_erase_one_refuted",
    "C32_push_own_refuted"
   ],
   "note": "Any number of vectors, any element type and any allocator, every sequence of operations including life times of elements and leaks. erase(first,last) inside, erase(pos), self-assignment and push_back of an own element do not behave as sequences: shown by the refuted theorems."
  },
  {
   "property": "C33",
   "status": "proved",
   "theorems": [
    "C33_stack",
    "C33_on_pool"
   ],
   "note": "MyList over an explicit heap with flagged pointers (any block size, any allocator, any foreign memory), and MyListOnPool on top of the MemoryPool model. Data are pointer-sized cells; the byte layout inside a cell and 2^64 size wrap-around are not modelled."
  },
  {
   "property": "C34",
   "status": "proved",
   "theorems": [
    "C34_contents",
    "C34_disjoint",
    "C34_no_leak",
    "C34_reuse_refuted",
    "C34_self_splice_refuted"
   ],
   "note": "Zero-byte requests included; sizes unbounded (no wrap at 2^64)."
  },
  {
   "property": "C35",
   "status": "proved",
   "theorems": [
    "C35_roundtrip",
    "C35_complete",
    "C35_order",
    "C35_abstraction",
    "C35_node_hash"
   ],
   "note": "Bit-level model of NodeId; also shows that the abstract (row, column, attribute) references used elsewhere are faithful."
  },
  {
   "property": "C36",
   "status": "proved",
   "theorems": [
    "C36_graph_numbering",
    "C36_unknown_vertex_rejected",
    "C36_frontier_size"
   ],
   "note": "Graph::update modelled completely (unique edges, leaving order, numbering, colors, last edges, frontier start, flags); for every edge list on fewer than 65535 vertices and every coloring. The limit on the number of edges (INT_MAX) is not modelled. Reading of files is not part of this claim."
  },
  {
   "property": "C37",
   "status": "proved",
   "theorems": [
    "C37_universal",
    "C37_default_is_empty"
   ],
   "note": "any arity and number of variables"
  },
  {
   "property": "C38",
   "status": "proved",
   "theorems": [
    "C38_empty_flag",
    "C38_constructed",
    "C38_zero_descendant"
   ],
   "note": "flags are right for root and branches after bddReduce/zddReduce of diagrams made by the constructor"
  },
  {
   "property": "C39",
   "status": "proved",
   "theorems": [
    "C39_bit_sets",
    "C39_bit_set_on_pool",
    "C39_small_sets",
    "C39_small_set_copy",
    "C39_add_present_refuted",
    "C39_pool_overrun_refuted",
    "C39_duplicates_refuted",
    "C39_pullout_refuted",
    "C39_pullout_undefined_refuted"
   ],
   "note": "MyBitSet (fixed and on a pool) and MySmallSet (fixed and on a pool), all histories; the integers are the elements of MySmallSet. std::lower_bound and std::binary_search are modelled by their contract on sorted ranges. pullout, add when full, and sorted containers with duplicates: refuted."
  },
  {
   "property": "C40",
   "status": "proved",
   "theorems": [
    "C40_dump",
    "C40_dump_constructed",
    "C40_constant_refuted",
    "C40_released_root_refuted"
   ],
   "note": "Character-level: the printed text is read back by an independent reader of the file format. Exact domain: constant diagrams (C40_constant_refuted) and diagrams with a level above the root referring to the root's level (C40_released_root_refuted) make the code read outside nodeId."
  },
  {
   "property": "C41",
   "status": "proved",
   "theorems": [
    "C41_mp_construction"
   ],
   "note": ""
  },
  {
   "property": "C42",
   "status": "proved",
   "theorems": [
    "C42_mp_zdd_subset"
   ],
   "note": ""
  },
  {
   "property": "C43",
   "status": "proved",
   "theorems": [
    "C43_cycles",
    "C43_memory_safe",
    "C43_contract",
    "C43_from_names"
   ],
   "note": ""
  },
  {
   "property": "C44",
   "status": "proved",
   "theorems": [
    "C44_paths",
    "C44_from_names"
   ],
   "note": ""
  },
  {
   "property": "C45",
   "status": "partial",
   "theorems": [
    "C45_hamilton_cycles_partial",
    "C45_hamilton_paths_partial",
    "C45_late_vertex_refuted",
    "C45_first_vertex_refuted",
    "C45_path_refuted"
   ],
   "note": "Proved: every Hamiltonian cycle / covering path system is accepted, and whatever is accepted is a cycle / path system. Exactness is false of the code and refuted: a vertex that enters the frontier after the cycle closes, or the vertex at index 0 of the mate array, may be missed (C45_*_refuted)."
  },
  {
   "property": "C46",
   "status": "proved",
   "theorems": [
    "C46_components",
    "C46_memory_safe",
    "C46_contract",
    "C46_from_names",
    "C46_spanning_trees"
   ],
   "note": "FrontierBasedSearch.hpp 39-486 modelled. The bound 32766 is sharp: a pointer of distance 32766 would read as the mark UNCOLORED."
  },
  {
   "property": "C47",
   "status": "proved",
   "theorems": [
    "C47_fits",
    "C47_array_states",
    "C47_array_construction",
    "C47_hybrid_states",
    "C47_hybrid_construction"
   ],
   "note": "Assumes that getRoot writes every element of the array (po_root_writes) and that the scalar type has no padding."
  },
  {
   "property": "C48",
   "status": "proved",
   "theorems": [
    "C48_family",
    "C48_contract",
    "C48_constant_refuted"
   ],
   "note": "Reads characters through a model of std::istream (get, unget, operator>>, eofbit, failbit). Memory exhaustion by huge identifiers is not modelled. The constant families are not loaded: C48_constant_refuted."
  },
  {
   "property": "C49",
   "status": "proved",
   "theorems": [
    "C49_minimum",
    "C49_minimum_weight",
    "C49_keep_all",
    "C49_parallel_terminals_refuted",
    "C49_parallel_uninitialised_refuted"
   ],
   "note": "Sequential builder (useMP = false, the default); mergeStates is modelled as a comparison that does not change the states. merge_ok is the hypothesis on the user's specification; C49_case and C49_minimum_weight instantiate it. The parallel builder does not have the property: C49_parallel_*_refuted (M_MergeMp.v)."
  },
  {
   "property": "C50",
   "status": "proved",
   "theorems": [
    "C50_edge_list",
    "C50_last_line",
    "C50_graph_of_edges",
    "C50_adjacency_list",
    "C50_vertex_groups",
    "C50_colors",
    "C50_graph_with_groups",
    "C50_default_path_color",
    "C50_missing_newline_refuted",
    "C50_bad_word_refuted",
    "C50_default_path_color_refuted",
    "C50_clear_colors_refuted"
   ],
   "note": "Streams are lists of characters with eof and fail bits. The refuted theorems beside the positive ones record where the readers differ from what a user would expect."
  },
  {
   "property": "C51",
   "status": "proved",
   "theorems": [
    "C51_builder",
    "C51_default",
    "C51_merging"
   ],
   "note": "Refinement: the builder with an explicit heap of states never misuses a state and ends with an empty heap, and builds the diagram of C49's builder; for all specifications that meet the memory contract, which C52 proves of the library's classes."
  },
  {
   "property": "C52",
   "status": "partial",
   "theorems": [
    "C52_base_classes",
    "C52_full_is_enough",
    "C52_unary",
    "C52_binary_partial",
    "C52_binary_nested",
    "C52_and_refuted",
    "C52_or_refuted",
    "C52_intersection_refuted",
    "C52_hybrid_refuted"
   ],
   "note": "Proved for the base classes, lookaheads, unreduction and union without conditions, and for and/or/intersection when the first root does not decide the result (C52_binary_partial, C52_binary_nested). The full claim is false of the code: C52_and_refuted, C52_or_refuted, C52_intersection_refuted, C52_hybrid_refuted give the witnesses."
  },
  {
   "property": "C53",
   "status": "proved",
   "theorems": [
    "C53_placements",
    "C53_first_column",
    "C53_memory_safe",
    "C53_contract",
    "C53_program",
    "C53_large_board_refuted"
   ],
   "note": "n up to 31; larger boards are undefined behaviour (refuted). The double the program prints is not modelled; zddCardinality is."
  },
  {
   "property": "C54",
   "status": "proved",
   "theorems": [
    "C54_meaning",
    "C54_progress",
    "C54_count",
    "C54_iteration",
    "C54_canonical"
   ],
   "note": "Mutual induction over programs; composes C01-C06, C09, C13, C15-C23, C37, C41, C42."
  },
  {
   "property": "C55",
   "status": "proved",
   "theorems": [
    "C55_tours",
    "C55_cycles",
    "C55_paths",
    "C55_memory_safe",
    "C55_contract",
    "C55_same_diagram",
    "C55_cycles_from_names",
    "C55_paths_from_names",
    "C55_two_pairs_refuted"
   ],
   "note": "for cycles and one pair of ends the simple cycles and paths; in general the closed tours through the virtual edges; with two pairs it differs from PathZdd (C55_two_pairs_refuted)"
  },
  {
   "property": "C56",
   "status": "proved",
   "theorems": [
    "C56_program",
    "C56_exact",
    "C56_same_diagram",
    "C56_components",
    "C56_prepare",
    "C56_slow_refuted"
   ],
   "note": "The relation ddpaths leaves schedules open. With -hamilton only the two inclusions of C45 hold. The independence of -slow holds for cycles and one pair; C56_slow_refuted shows it fails for two pairs."
  },
  {
   "property": "C57",
   "status": "proved",
   "theorems": [
    "C57_to_zbdd",
    "C57_sapporo_zdd",
    "C57_to_bdd",
    "C57_sapporo_bdd",
    "C57_sapporo_bdd_throws",
    "C57_roundtrip_zbdd",
    "C57_roundtrip_bdd",
    "C57_order_refuted",
    "C57_negative_offset_refuted"
   ],
   "note": "SAPPOROBDD itself is assumed to behave as documented. The two wrong cases of SapporoZdd are refuted with witnesses."
  },
  {
   "property": "C58",
   "status": "proved",
   "theorems": [
    "C58_one_hot",
    "C58_nary",
    "C58_nary_refuted",
    "C58_interleave",
    "C58_interleave_same",
    "C58_interleave_at",
    "C58_colored",
    "C58_contract",
    "C58_program"
   ],
   "note": "The building blocks of -colored (one-hot, n-ary, interleaved, colored) and the whole program. NAryZdd does not mean all words (C58_nary_refuted). ColoredZdd is characterized on vectors with exactly one color per square, the only ones the program gives it."
  },
  {
   "property": "C59",
   "status": "proved",
   "theorems": [
    "C59_dot",
    "C59_many_values_refuted"
   ],
   "note": "For every specification that keeps the contract, with symmetric equal_to and respecting hash_code: the file written is the list of statements ss, well drawn, and read back it gives the function of the specification (at most four branches; for five or more refuted by C59_many_values_refuted). merge_states is the default one."
  },
  {
   "property": "C60",
   "status": "proved",
   "theorems": [
    "C60_construct",
    "C60_equal",
    "C60_equal_word",
    "C60_add",
    "C60_divide",
    "C60_divide_refuted",
    "C60_translate",
    "C60_print"
   ],
   "note": "All word contents and all sizes above 0. divide is proved for divisors up to 2^31 and refuted beyond (C60_divide_refuted)."
  },
  {
   "property": "C61",
   "status": "proved",
   "theorems": [
    "C61_numlin",
    "C61_vertical",
    "C61_degree",
    "C61_memory_safe",
    "C61_contract",
    "C61_program",
    "C61_drawing",
    "C61_one_column_refuted",
    "C61_one_row_refuted",
    "C61_numbers_refuted",
    "C61_constraint_safe",
    "C61_short",
    "C61_short_refuted",
    "C61_constraint",
    "C61_short_exact"
   ],
   "note": "All boards with at least two rows and columns whose numbers fit, all limits, all schedules, with -a. Without -a exactly the tidy solutions (C61_constraint, C61_short_exact); that some solution is always found is refuted. One-column and one-row boards and large numbers are refuted."
  },
  {
   "property": "C62",
   "status": "proved",
   "theorems": [
    "C62_load",
    "C62_family",
    "C62_contract",
    "C62_clauses",
    "C62_function",
    "C62_junk_refuted",
    "C62_empty_clause_refuted"
   ],
   "note": "CUDD is trusted to compute with Boolean functions; the value of the variable x after the last failed read is assumed to be 0 (refuted otherwise)."
  },
  {
   "property": "C63",
   "status": "proved",
   "theorems": [
    "C63_specification",
    "C63_analysis",
    "C63_function",
    "C63_solutions",
    "C63_output",
    "C63_many_clauses_refuted",
    "C63_solutions_refuted",
    "C63_outside_refuted"
   ],
   "note": "Option -c only; CUDD is trusted. The printed number is proved under the proviso of the statement (refuted without), the meaning of the diagram under the condition that badState reads nothing outside (refuted in general)."
  },
  {
   "property": "C64",
   "status": "proved",
   "theorems": [
    "C64_map",
    "C64_specification",
    "C64_function",
    "C64_same",
    "C64_solutions",
    "C64_output"
   ],
   "note": "With -n; the combination of the map with the reachability analysis is not modelled."
  }
 ]
}