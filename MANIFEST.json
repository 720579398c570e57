{
 "claims": [
  {
   "property": "C01",
   "status": "proved",
   "theorems": [
    "sort_sorts"
   ],
   "note": "Heap sort model; any strict weak order through a projection."
  },
  {
   "property": "C02",
   "status": "proved",
   "theorems": [
    "stable_sort_sorts_stably",
    "stable_sort_buffered_sorts_stably"
   ],
   "note": "Both overloads, with or without default-constructible elements."
  },
  {
   "property": "C03",
   "status": "proved",
   "theorems": [
    "cluster_clusters"
   ],
   "note": "Any equivalence relation."
  },
  {
   "property": "C04",
   "status": "proved",
   "theorems": [
    "make_heap_makes_heap",
    "bubble_up_extends_heap",
    "bubble_down_repairs_heap",
    "heap_root_is_maximal"
   ],
   "note": ""
  },
  {
   "property": "C05",
   "status": "partial",
   "theorems": [
    "static_priority_queue_is_bag",
    "static_priority_queue_pops_top",
    "static_priority_queue_from_list_partial",
    "static_priority_queue_from_list_refuted"
   ],
   "note": "All histories of a default-constructed queue, and of a list-constructed one unless padding outranks a list element; that remaining case is refuted (the constructor heapifies the padding)."
  },
  {
   "property": "C06",
   "status": "proved",
   "theorems": [
    "static_queue_is_fifo",
    "static_queue_equality"
   ],
   "note": "All histories from any initial list; equality for all pairs of reachable queues."
  },
  {
   "property": "C07",
   "status": "proved",
   "theorems": [
    "static_stack_is_lifo",
    "static_stack_equality"
   ],
   "note": "All histories from any initial list."
  },
  {
   "property": "C08",
   "status": "proved",
   "theorems": [
    "monotonic_construction",
    "monotonic_call_accepts_exactly_monotonic_results",
    "monotonic_call_only_edits",
    "monotonic_always",
    "static_monotonic_construction",
    "static_monotonic_accepts_monotonic_lists_refuted"
   ],
   "note": "Any strict weak order. For the array-backed variant it is the padded list which is checked (refutation of the naive claim included)."
  },
  {
   "property": "C29",
   "status": "partial",
   "theorems": [
    "to_array_copies",
    "to_array_copies_nondefault_partial",
    "to_array_short_list_undefined",
    "to_array_throws_on_short_list_refuted"
   ],
   "note": "Holds for default-constructible types; refuted for others: a list that is too short is read past its end."
  },
  {
   "property": "C53",
   "status": "partial",
   "theorems": [
    "linear_sequence_element_partial",
    "linear_sequence_element_refuted"
   ],
   "note": "Holds unless the intermediate product overflows a signed type; refuted without that condition."
  },
  {
   "property": "C09",
   "status": "proved",
   "theorems": [
    "bucketed_sequence_is_list_of_lists",
    "bucketed_sequence_throwing_call_changes_nothing"
   ],
   "note": "All histories of all calls, from any initial lists."
  },
  {
   "property": "C10",
   "status": "proved",
   "theorems": [
    "partitioned_sequence_is_list_of_lists",
    "partitioned_sequence_offsets"
   ],
   "note": "All histories of all calls, from any initial lists."
  },
  {
   "property": "C11",
   "status": "partial",
   "theorems": [
    "partitioned_containers_interchangeable_partial",
    "interchangeable_on_far_insertion_refuted",
    "interchangeable_on_missing_partition_refuted",
    "interchangeable_on_empty_refuted"
   ],
   "note": "Holds for calls addressing existing partitions and positions; refuted in three ways otherwise."
  },
  {
   "property": "C12",
   "status": "partial",
   "theorems": [
    "static_partitioned_sequence_holds_lists_partial",
    "static_partitioned_sequence_refuses_other_shapes",
    "static_partitioned_sequence_holds_lists_refuted"
   ],
   "note": "Holds when the index type can number the partitions and count the elements; refuted (endless search) when there are more partitions than index values."
  },
  {
   "property": "C30",
   "status": "partial",
   "theorems": [
    "meta_stable_sort_sorts_partial",
    "meta_merge_merges",
    "meta_stable_sort_is_stable_refuted",
    "meta_merge_is_stable_refuted"
   ],
   "note": "Sorted permutation proved for every strict weak order; stability refuted twice."
  },
  {
   "property": "C31",
   "status": "partial",
   "theorems": [
    "type_list_drop_keep",
    "type_list_insert_erase",
    "type_list_filter",
    "type_list_select",
    "type_list_reverse",
    "type_list_lower_bound",
    "type_list_find",
    "faithful_type_list_removes_duplicates_partial",
    "faithful_type_list_removes_duplicates_refuted",
    "index_sequence_operations",
    "index_sequence_shift",
    "index_sequence_partial_sum",
    "index_sequence_filtered",
    "type_list_contains",
    "type_list_union_partial",
    "type_list_union_refuted"
   ],
   "note": "All hold except faithful_type_list when its first argument is itself a type_list, and type_list_union of a single list, which keeps duplicates."
  },
  {
   "property": "C32",
   "status": "partial",
   "theorems": [
    "ratio_in_lowest_terms",
    "ratio_multiply_exact_or_refused",
    "ratio_divide_exact_or_refused",
    "ratio_multiply_relaxed",
    "ratio_multiply_zero_refuted",
    "ratio_multiply_relaxed_negative_refuted",
    "ratio_multiply_relaxed_total_refuted",
    "ratio_multiply_unsigned_refuted",
    "ratio_mixed_signedness_refuted",
    "ratio_divide_by_zero_refuted"
   ],
   "note": "Proved for one signed type, non-zero first numerator and no minimum value; with floating point allowed for positive arguments. Refuted for zero numerators, negative relaxed products, unsigned wrap-around, mixed signedness and division by zero."
  },
  {
   "property": "C41",
   "status": "proved",
   "theorems": [
    "mean_is_textbook",
    "variance_is_textbook",
    "sample_variance_is_textbook",
    "deviations_are_roots",
    "statistics_permutation_invariant",
    "statistics_translation"
   ],
   "note": "Over exact rationals; rounding of floating point types is not modelled."
  },
  {
   "property": "C51",
   "status": "proved",
   "theorems": [
    "bitmask_operators_on_flags",
    "bitmask_boolean_algebra",
    "bitmask_assignments",
    "bitmask_flag_test",
    "bitmask_extensional"
   ],
   "note": "All integer types of 8 to 64 bits, with promotion."
  },
  {
   "property": "C13",
   "status": "proved",
   "theorems": [
    "C13_undirected_reciprocal",
    "C13_no_undefined_behaviour",
    "C13_join_adds_exactly_one_edge",
    "C13_erase_edge_removes_exactly_one_edge",
    "C13_C14_empty_graph"
   ],
   "note": "All histories of all the calls, with any weights that can be compared; iterators passed in must be valid."
  },
  {
   "property": "C14",
   "status": "proved",
   "theorems": [
    "C14_embedded_comp_indices",
    "C14_embedded_is_undirected",
    "C14_insert_join_position",
    "C13_no_undefined_behaviour",
    "C13_C14_empty_graph"
   ],
   "note": "All histories, insert_join between nodes and on loops included."
  },
  {
   "property": "C15",
   "status": "proved",
   "theorems": [
    "C15_erase_node",
    "C15_erase_node_out_of_range",
    "C15_insert_node",
    "C15_erase_undoes_insert"
   ],
   "note": "All three flavours."
  },
  {
   "property": "C16",
   "status": "proved",
   "theorems": [
    "C16_swap_nodes",
    "C16_swap_nodes_twice",
    "C16_swap_nodes_out_of_range"
   ],
   "note": "All three flavours."
  },
  {
   "property": "C18",
   "status": "proved",
   "theorems": [
    "C18_even",
    "C18_size_halves",
    "C18_counts_after_each_operation"
   ],
   "note": "All histories; also how each operation changes the two numbers."
  },
  {
   "property": "C22",
   "status": "partial",
   "theorems": [
    "C22_weights_follow_nodes",
    "C22_library_exceptions_change_nothing",
    "C22_insertion_failure_changes_nothing_partial",
    "C22_insertion_failure_terminates_refuted",
    "C22_insertion_failure_undefined_refuted"
   ],
   "note": "Holds for all histories and for the library's own exceptions; for exceptions from the edge storage while a node is inserted it holds only if the position is in range, and is refuted otherwise (the roll-back uses the position before it is clamped)."
  },
  {
   "property": "C23",
   "status": "partial",
   "theorems": [
    "C23_join_strong",
    "C23_insert_join_strong_partial",
    "C23_insert_join_strong_refuted",
    "C23_set_edge_weight_strong_partial",
    "C23_set_edge_weight_second_failure_is_not_undone",
    "C23_set_edge_weight_strong_refuted",
    "C23_mutate_edge_weight_first",
    "C23_mutate_edge_weight_directed",
    "C24_mutate_edge_weight_halves",
    "C23_mutate_edge_weight_strong_refuted"
   ],
   "note": "Proved for join; refuted for insert_join, set_edge_weight and mutate_edge_weight when the second half fails."
  },
  {
   "property": "C24",
   "status": "partial",
   "theorems": [
    "C24_set_edge_weight",
    "C24_mutate_edge_weight",
    "C24_shared_set",
    "C24_shared_mutate",
    "C24_mutate_edge_weight_halves",
    "C24_mutate_with_state_refuted",
    "C24_built_embedded_refuted"
   ],
   "note": "Proved for unshared weights and, from the empty graph or an undirected graph made from lists, shared weights; refuted for mutate with a stateful functor, and for embedded graphs with shared weights made from lists, whose halves do not share."
  },
  {
   "property": "C17",
   "status": "partial",
   "theorems": [
    "C17_valid_lists_accepted",
    "C17_invalid_lists_refused",
    "C17_shared_accepted_partial",
    "C17_shared_refused",
    "C17_shared_accepted_without_elision_refuted"
   ],
   "note": "Proved for every flavour and kind of weight when weights are not shared; with shared weights the undirected case relies on the compiler eliding the copy of the local storage (refuted otherwise)."
  },
  {
   "property": "C19",
   "status": "proved",
   "theorems": [
    "C19_every_wanted_node_once",
    "C19_depth_first_every_wanted_node_once",
    "C19_no_start_node",
    "C19_calls_grouped_by_node"
   ],
   "note": "For every flavour and every frontier (queue, stack, priority queue with any choice among its elements, static containers with room for the nodes) and for recursive depth first search; termination is part of the result being Ok."
  },
  {
   "property": "C20",
   "status": "partial",
   "theorems": [
    "C20_every_edge_once",
    "C20_directed_first_only",
    "C20_links_first_then_second",
    "C20_undirected_loops_first_then_second",
    "C20_embedded_first_then_second_partial",
    "C20_pseudo_depth_first_loop_refuted",
    "C20_pseudo_depth_first_loop_second_refuted",
    "C20_undirected_loop_weights_refuted",
    "C20_depth_first_every_edge_refuted"
   ],
   "note": "Every half edge is met once; links are first-then-second for all frontiers; loops too for undirected graphs (paired by order) and for embedded graphs except with pseudo_depth_first, where it is refuted. Undirected loops with swapped edges are paired with the wrong weight (refuted); recursive depth first search meets tree edges only (refuted)."
  },
  {
   "property": "C21",
   "status": "proved",
   "theorems": [
    "C21_breadth_first_by_distance",
    "C21_breadth_first_reachable_first",
    "C21_depth_first_tree",
    "C21_depth_first_post_order",
    "C21_depth_first_of_a_tree"
   ],
   "note": "Breadth first order by length of shortest path; the calls of recursive depth first search are those of a forest of edges of the graph, and no node is finished before the targets of its edges have been begun."
  },
  {
   "property": "C25",
   "status": "partial",
   "theorems": [
    "C25_insert_node",
    "C25_grow",
    "C25_grow_tree",
    "C25_history",
    "C25_history_insert",
    "C25_history_prune",
    "C25_edge_count",
    "C25_insert_own_parent_refuted",
    "C25_insert_other_parent_refuted",
    "C25_unknown_parent_refuted",
    "C25_own_parent_refuted"
   ],
   "note": "All histories from the empty tree in which the parent comes before the new node, for all flavours and directions. Refuted for other parents: insert_node takes the parent's number after the nodes have moved, so it may mean another node or the new one; an unknown parent leaves an unconnected node behind."
  },
  {
   "property": "C26",
   "status": "partial",
   "theorems": [
    "C26_prune",
    "C26_prune_nowhere",
    "C26_left_tree",
    "C26_forward_numbering_refuted",
    "C26_symmetric_numbering_refuted",
    "C26_symmetric_edge_order_refuted"
   ],
   "note": "Backward trees: any numbering. Forward and symmetric ones: if parents come before children (and first among the edges); refuted otherwise (swap_nodes, sort_nodes and swap_edges are public)."
  },
  {
   "property": "C27",
   "status": "proved",
   "theorems": [
    "C27_sub_graph"
   ],
   "note": "All flavours; stateless predicates; complementary indices included."
  },
  {
   "property": "C55",
   "status": "proved",
   "theorems": [
    "C55_make_tree",
    "C55_forest"
   ],
   "note": "All flavours and link directions; node weights not empty."
  },
  {
   "property": "C28",
   "status": "partial",
   "theorems": [
    "C28_construct_partial",
    "C28_indices_fit_partial",
    "C28_too_many_edges",
    "C28_too_many_edges_when",
    "C28_directed_refuted",
    "C28_undirected_refuted",
    "C28_embedded_refuted"
   ],
   "note": "Holds when the number of stored edges fits the index type; for exactly the Sizes and Orders of C28_too_many_edges_when it does not, and every valid initializer is refused, e.g. a directed graph with one node and 256 edges."
  },
  {
   "property": "C33",
   "status": "partial",
   "theorems": [
    "C33_replace",
    "C33_replace_all_partial",
    "C33_replace_char",
    "C33_replacements",
    "C33_empty_pattern_refuted",
    "C33_neighbours_terminates",
    "C33_neighbours_partial",
    "C33_delimited",
    "C33_neighbours_refuted",
    "C33_recursive_partial",
    "C33_recursive_terminates_partial",
    "C33_recursive_double",
    "C33_recursive_diverges_refuted",
    "C33_recursive_refuted"
   ],
   "note": "replace_all is right and terminates for every non-empty pattern, and never returns for the empty one (refuted). The overloads with conditions on the neighbours are right when occurrences do not touch; touching occurrences are skipped (refuted). replace_all_recursive can loop for ever and can leave occurrences (refuted); sufficient conditions and the use made of it in Output.cpp are proved."
  },
  {
   "property": "C34",
   "status": "partial",
   "theorems": [
    "C34_to_camel_case_partial",
    "C34_to_camel_case_refuted",
    "C34_non_ascii_refuted",
    "C34_camel_to_words",
    "C34_snake_camel_snake",
    "C34_camel_snake_camel",
    "C34_capitalize",
    "C34_uncapitalize"
   ],
   "note": "to_camel_case is right for texts of 7-bit characters without two adjacent underscores; with adjacent underscores one is left (refuted), and with characters outside the 7-bit range isalpha/isupper are undefined behaviour where char is signed (refuted). A separator is put before every capital except the first character. Round trips proved for well-formed names."
  },
  {
   "property": "C35",
   "status": "proved",
   "theorems": [
    "C35_indent",
    "C35_indent_all",
    "C35_indent_all_empty",
    "C35_unindent",
    "C35_append_indented",
    "C35_append_indented_empty",
    "C35_append_lines",
    "C35_tabs_to_spacing",
    "C35_trim",
    "C35_end_block",
    "C35_end_block_empty"
   ],
   "note": "For all texts. Removing the indentation needs an indentation without line breaks. As documented, text appended to an empty text is not indented (so neither is the second text of the variadic form if the first is empty), and end_block leaves an empty text empty."
  },
  {
   "property": "C56",
   "status": "proved",
   "theorems": [
    "C56_matched_delimiters",
    "C56_sandwiched_text"
   ],
   "note": "All texts, delimiters and starting positions."
  },
  {
   "property": "C44",
   "status": "partial",
   "theorems": [
    "C44_counts",
    "C44_summary_partial",
    "C44_summary_refuted"
   ],
   "note": "The counters of the logger are exact for every nesting and mode. The totals of the summary are exact if each outermost check has at most one performance check and that stands alone; with two performance checks in one outermost check the differences wrap (refuted)."
  },
  {
   "property": "C45",
   "status": "partial",
   "theorems": [
    "C45_associative",
    "C45_counters",
    "C45_default_right",
    "C45_default_left",
    "C45_messages_partial",
    "C45_soft_failures",
    "C45_soft_failures_total",
    "C45_soft_failures_counted",
    "C45_caught_refuted"
   ],
   "note": "All laws hold for the counters, messages and diagnostics; the caught-exception messages of the right-hand side are lost (refuted)."
  },
  {
   "property": "C48",
   "status": "partial",
   "theorems": [
    "C48_round_trip_partial",
    "C48_read_indented_partial",
    "C48_judged_equal_partial",
    "C48_round_trip_refuted"
   ],
   "note": "The round trip holds exactly if no line of a message is a lone dollar sign; refuted otherwise."
  },
  {
   "property": "C49",
   "status": "partial",
   "theorems": [
    "C49_one_test",
    "C49_frequencies",
    "C49_reports_partial",
    "C49_text",
    "C49_source",
    "C49_messages_partial",
    "C49_wrong_number",
    "C49_same_file_name_refuted",
    "C49_similar_names_refuted",
    "C49_different_names"
   ],
   "note": "All lists of outputs: exactly the unstable tests, with frequencies, never the exception. From files it needs messages without dollar lines and tests with different files; two tests with the same name and source file name (folders ignored) overwrite each other's files and an instability goes unreported (refuted)."
  },
  {
   "property": "C43",
   "status": "partial",
   "theorems": [
    "prune_files_history",
    "prune_files_aggregate",
    "prune_files_repetition",
    "prune_files_round_trip",
    "prune_files_twice_refuted",
    "prune_files_compiled_refuted",
    "prune_files_forgotten_refuted",
    "prune_files_rebased_refuted",
    "prune_files_space_refuted"
   ],
   "note": "Proved for all histories in which a source file appears at most once among the executed tests of a run, with paths free of white space which do not begin with an element of the path of the repository. Refuted for several tests per source file: executing a file twice with one failure leaves it in both files. The runner hands over paths as the compiler has them, which differ from those recorded: then a test which passes after a failure is in both files, and a failing test is forgotten once it has passed before."
  },
  {
   "property": "C46",
   "status": "partial",
   "theorems": [
    "soft_update_mirrors",
    "soft_update_returns_partial",
    "soft_update_ends",
    "soft_update_expressions",
    "soft_update_reads_past_end_refuted",
    "soft_update_file_for_folder_refuted"
   ],
   "note": "Whenever soft_update returns, the prediction mirrors the working copy (up to supplementary expressions). It returns exactly for the pairs called safe; otherwise it reads past the end of a listing (refuted: working copy {a}, prediction {b}) or throws (refuted: file in place of a folder). Only regular files and folders are modelled."
  },
  {
   "property": "C47",
   "status": "partial",
   "theorems": [
    "every_text_has_parts",
    "add_include_sorts",
    "add_include_only_adds_partial",
    "add_include_ends",
    "add_include_keeps_lines_refuted",
    "add_include_last_line_refuted",
    "add_include_own_line_refuted",
    "add_include_comment_refuted",
    "add_include_once_refuted",
    "add_include_defined_refuted"
   ],
   "note": "Exact result for every text whose directives have an opening bracket iff they have a closing one; it only adds a directive if the directives stand together and end in line breaks. Refuted: text between directives, and a last directive without line break, are deleted; a text without final line break gets the directive on its last line; commented directives; a directive already there is repeated; a line with '>' only makes the comparison irreflexive no more, which is undefined behaviour."
  },
  {
   "property": "C40",
   "status": "proved",
   "theorems": [
    "factory_constructed",
    "factory_refused",
    "factory_makes",
    "factory_make_throws",
    "factory_makes_or",
    "factory_makes_default",
    "factory_names",
    "factory_equality"
   ],
   "note": "For all lists of names; products are identified by their position in the list of types."
  },
  {
   "property": "C39",
   "status": "partial",
   "theorems": [
    "suite_leaves",
    "suite_tree",
    "suite_tree_into",
    "suite_same_marks",
    "suite_same_marks_into",
    "suite_marks",
    "suite_missing",
    "suite_missing_exactly_partial",
    "suite_select_suites",
    "suite_select_items",
    "suite_not_found_refuted",
    "suite_backward_refuted",
    "suite_symmetric_refuted"
   ],
   "note": "All suites and selections, with forward trees, the ones used. Of several selections meeting the same item only the first is marked, the others are reported as not found (refuted). extract_tree into a backward tree loses everything and into a symmetric tree keeps empty suites (refuted)."
  },
  {
   "property": "C38",
   "status": "partial",
   "theorems": [
    "C38_at_most_once",
    "C38_join",
    "C38_get",
    "C38_no_deadlock",
    "C38_terminates",
    "C38_queues_fifo",
    "C38_start_order_partial",
    "C38_no_undefined_behaviour",
    "C38_start_order_refuted",
    "C38_no_threads_refuted"
   ],
   "note": "For at least one thread: exactly once, join, get, absence of deadlock and termination proved for every schedule. Tasks leave queues in FIFO order, but begin in that order only with a single thread; the claim about the start order is refuted for two. Refuted for zero threads."
  },
  {
   "property": "C57",
   "status": "proved",
   "theorems": [
    "C57_sort_nodes"
   ],
   "note": "All flavours, ranges and graphs; any comparator which orders the nodes by a strict weak order of their weights, ties decided arbitrarily."
  },
  {
   "property": "C52",
   "status": "proved",
   "theorems": [
    "C52_execute_tests",
    "C52_grand_total",
    "C52_sort_tests",
    "C52_suites"
   ],
   "note": "All trees made from suites, all schedules of the parallel phase, any number of repetitions, serial or concurrent. That every test handed to std::for_each or to the thread pool is executed once is taken from the standard and from C38. Tests are assumed not to throw out of execute."
  },
  {
   "property": "C36",
   "status": "partial",
   "theorems": [
    "C36_accepted",
    "C36_printed",
    "C36_total",
    "C36_rejected",
    "C36_exact_partial",
    "C36_invoked",
    "C36_written",
    "C36_mistaken_refuted",
    "C36_first_character_refuted",
    "C36_no_letters_refuted",
    "C36_no_argument_refuted",
    "C36_taken_twice_refuted",
    "C36_short_refuted",
    "C36_no_options_refuted"
   ],
   "note": "For every non-empty forest and every line: exactly the lines of a declarative grammar are accepted, their items printed give back the line, the functions called are those of the items in order; all other lines give help or throw. Each option has exactly its arguments if the words looked at as several aliases are a dash and aliases without parameters and options without functions have no parameters. Refuted otherwise: the first character of several aliases is ignored, they get no arguments, a given-up word leaves operations behind, missing arguments of a nested option without functions may go unnoticed, an empty forest accepts everything. Lines written as intended have the intended meaning if no name can be mistaken for aliases of another option; refuted otherwise."
  },
  {
   "property": "C37",
   "status": "partial",
   "theorems": [
    "C37_help_partial",
    "C37_nothing_executed",
    "C37_help_or_exception",
    "C37_arguments",
    "C37_followed_refuted",
    "C37_asked_twice_refuted",
    "C37_comma_refuted"
   ],
   "note": "Whenever help is returned nothing is executed, and it is returned only if --help stands where an option might. The text is that of the level if --help ends the line. Refuted: what follows a nested --help is still parsed and may throw or replace the help by that of the enclosing level; a name which ends with a comma loses it."
  },
  {
   "property": "C50",
   "status": "proved",
   "theorems": [
    "C50_every_transition_once"
   ],
   "note": "All graphs and all six overloads of check, with the values, predictions, messages, indices and orderings handed on; for transitions and generators without effects."
  },
  {
   "property": "C54",
   "status": "partial",
   "theorems": [
    "C54_lines",
    "C54_every_text",
    "C54_every_text_exact",
    "C54_no_space_refuted",
    "C54_tab_refuted",
    "C54_space_before_refuted",
    "C54_no_extension_refuted",
    "C54_literal_refuted",
    "C54_literal_comment_refuted",
    "C54_comment_after_cutoff_character_refuted",
    "C54_comment_after_directive_refuted"
   ],
   "note": "For texts made of lines of code, comments, directives and includes written with one space exactly the named files with extension are given, in order, up to the line with the cutoff; for every text what is found is described by a grammar. Refuted: spellings without a space, with a tab or with a space before the word, files without extension, string literals, and comments which begin after a directive or on a line with the first character of the cutoff."
  },
  {
   "property": "C42",
   "status": "partial",
   "theorems": [
    "C42_nodes",
    "C42_executable_up_to_date",
    "C42_executable_out_of_date",
    "C42_first_run",
    "C42_times_partial",
    "C42_selection_partial",
    "C42_left_out_partial",
    "C42_layout",
    "C42_include_cycle_refuted",
    "C42_source_includes_refuted",
    "C42_mutual_sources_refuted",
    "C42_same_name_refuted",
    "C42_dotted_name_refuted",
    "C42_bare_name_refuted",
    "C42_removed_material_refuted"
   ],
   "note": "For every project whose headers sort directly after their source files, every test which is run is justified by a change, and a test not above a cycle of the dependency graph is run exactly if something on which it depends, or its materials, changed (or it failed). False of tests above cycles (also those made only by giving headers the includes of their source files), of repeated or dotted file names, of bare include names found only through an include path, and of changes to the folder of materials itself."
  },
  {
   "property": "C58",
   "status": "proved",
   "theorems": [
    "C58_node_visited_next",
    "C58_highest_priority_next",
    "C58_depth_first_next"
   ],
   "note": "All graphs, all flavours, all searches; the nodes visited are determined one after another."
  },
  {
   "property": "C59",
   "status": "partial",
   "theorems": [
    "C59_conversion_exact",
    "C59_differences_exact",
    "C59_round_trip",
    "C59_via_third",
    "C59_library_units",
    "C59_product_of_two_partial",
    "C59_product_of_three_refuted",
    "C59_integral_displacement_refuted"
   ],
   "note": "Exact rational arithmetic. Proved for points and differences of every chain of transformations without nonzero integral displacements, and for products of two units. Refuted: products of three or more units cannot be converted (misspelt member), integral displacements are truncated."
  },
  {
   "property": "C60",
   "status": "partial",
   "theorems": [
    "C60_conversion_valid",
    "C60_synthesised_validator",
    "C60_prefix_refuted",
    "C60_prefix_accepts_refuted",
    "C60_negative_ratio_refuted",
    "C60_negative_ratio_interval",
    "C60_unbounded_interval_refuted"
   ],
   "note": "Proved for positive ratios and validators which are not replaced. Refuted: the prefixes keep a validator which is not invariant under scaling (milli degrees Celsius), negative ratios with a half line, and an interval without bounds, which turns into a half line after a displacement."
  },
  {
   "property": "C61",
   "status": "partial",
   "theorems": [
    "C61_product",
    "C61_unique",
    "C61_commutative",
    "C61_associative_partial",
    "C61_associative_refuted",
    "C61_dual",
    "C61_quotient",
    "C61_ratio_partial",
    "C61_ratio_refuted",
    "C61_defined_partial",
    "C61_defined_refuted",
    "C61_validator_partial"
   ],
   "note": "Well-formed products have the right dimension and are determined by it; multiplication is commutative, including well-formedness, and associative where both sides are well-formed. Refuted: a product of several units which cancels altogether is ill-formed, so (m/s)/(m/s) is, and well-formedness is not associative; products with units like degrees Celsius are ill-formed or not depending on the order of names."
  },
  {
   "property": "C62",
   "status": "partial",
   "theorems": [
    "C62_product",
    "C62_commutative_partial",
    "C62_commutative_refuted",
    "C62_defined_partial",
    "C62_defined_refuted",
    "C62_reduced_refuted",
    "C62_associative_refuted",
    "C62_half_lines",
    "C62_half_lines_associative",
    "C62_half_lines_inverse"
   ],
   "note": "Half lines form an Abelian group. With vector spaces and displacements: exponents add, commutative and well-formed as long as displacements in the denominator do not meet displacements in the numerator or other spaces in the denominator. Refuted: otherwise products are ill-formed or depend on the order of the factors; products with the Euclidean line are out of order and are not reduced afterwards; not associative."
  },
  {
   "property": "C63",
   "status": "partial",
   "theorems": [
    "C63_single",
    "C63_base_only_partial",
    "C63_sibling_refuted",
    "C63_product_refuted"
   ],
   "note": "Proved for conversions of single spaces to their base spaces. Refuted: a conversion between two spaces with the same base (width to height), or of products to the product of the base spaces, is accepted by the compiler and calls itself forever."
  },
  {
   "property": "C64",
   "status": "proved",
   "theorems": [
    "C64_messages",
    "C64_summary",
    "C64_named_once"
   ],
   "note": "All tests, all nestings, all three modes; recovery files are not modelled."
  },
  {
   "property": "C65",
   "status": "partial",
   "theorems": [
    "C65_values",
    "C65_throws",
    "C65_outcomes",
    "C65_negation",
    "C65_assign_strong",
    "C65_assign_value",
    "C65_acceptable_partial",
    "C65_checked_partial",
    "C65_acceptable_refuted",
    "C65_pack_refuted",
    "C65_difference",
    "C65_shift_difference",
    "C65_shift_undone",
    "C65_associative_partial",
    "C65_associative_refuted",
    "C65_commutative",
    "C65_displacement_undone",
    "C65_distributive",
    "C65_scalar_left"
   ],
   "note": "All value types, dimensions and validators; undefined arithmetic is an outcome of its own. Refuted: the default constructor gives zeros the validator has not seen; fewer values than dimensions are filled up with zeros; (p+v)+w throws where p+(v+w) does not. The laws are for validators which hand back what they are given."
  },
  {
   "property": "C66",
   "status": "partial",
   "theorems": [
    "C66_offered_partial",
    "C66_unambiguous",
    "C66_returns",
    "C66_negation",
    "C66_offered_refuted",
    "C66_left_shift_refuted",
    "C66_assign_offered_partial",
    "C66_assign_compiles_partial",
    "C66_assign_refuted"
   ],
   "note": "All kinds of spaces and operand types. Refuted: division by a span is offered over rings which are not fields; displacement + point calls itself forever; += of two points is offered with a distinguished origin but does not compile (maths::coordinates; physical_value has its own operator); /= of affine points is offered but does not compile."
  },
  {
   "property": "C67",
   "status": "partial",
   "theorems": [
    "C67_frame",
    "C67_present_partial",
    "C67_all_added",
    "C67_success",
    "C67_new_suite",
    "C67_repeated_partial",
    "C67_outcome",
    "C67_nowhere",
    "C67_pushed_out_refuted",
    "C67_part_refuted",
    "C67_closed_refuted",
    "C67_elsewhere_refuted"
   ],
   "note": "Proved: frame, presence, exact text for new tests and new suites, repeated calls, exceptions. Needs that the statement is not closed on the line with the name. Refuted: a test already there is added again after a longer one (stale end position); a test whose text is part of another one is not added; statements closed on the line of the name get the test behind them; a mention of the name elsewhere is taken for the suite."
  },
  {
   "property": "C68",
   "status": "partial",
   "theorems": [
    "C68_sorted",
    "C68_found",
    "C68_indentation",
    "C68_none",
    "C68_repeated_refuted",
    "C68_comment_refuted"
   ],
   "note": "Proved for closing patterns which do not begin with a blank. Refuted: a second call adds the entry again; the closing bracket may end up behind a comment."
  },
  {
   "property": "C69",
   "status": "proved",
   "theorems": [
    "C69_returns",
    "C69_equality",
    "C69_places"
   ],
   "note": "For every type and every collection of operators and testers which are right for the client's own types. A range whose state is not among its elements needs an operator or a tester which looks at it."
  },
  {
   "property": "C70",
   "status": "partial",
   "theorems": [
    "C70_same_partial",
    "C70_same_refuted",
    "C70_best_partial",
    "C70_best_range_refuted",
    "C70_best_pointer_refuted",
    "C70_best_class_refuted",
    "C70_branch",
    "C70_accepts",
    "C70_compiles_partial",
    "C70_compiles_refuted",
    "C70_ranges",
    "C70_any"
   ],
   "note": "False in part: simple_equality compares the addresses of arrays; the best available check ignores the state of a range with operator== and no tester, compares what raw pointers point to, and prefers a tester for equivalence to operator==; accepted calls which do not compile: simple_equality of spans, pairs with something not comparable, minimal reporting inside ranges. The positive theorems exclude these cases."
  },
  {
   "property": "C71",
   "status": "partial",
   "theorems": [
    "C71_passes",
    "C71_returns",
    "C71_unique",
    "C71_report",
    "C71_full_partial",
    "C71_full_refuted",
    "C71_context_refuted"
   ],
   "note": "False in part: a string which consists of two line breaks is followed by dots although it is shown completely, and is not said to be; nothing in front of the first difference is shown if it is a line break on the first line."
  },
  {
   "property": "C72",
   "status": "partial",
   "theorems": [
    "C72_passes",
    "C72_reports",
    "C72_after_update",
    "C72_after_update_copied",
    "C72_missing",
    "C72_empty_refuted",
    "C72_weak_names_refuted",
    "C72_excluded_folder_refuted"
   ],
   "note": "False in part: an empty path passes against any missing one; the names below the paths matter for weak equivalence, too, although the documentation says that names are ignored; folders named like excluded files are not looked at. Links and files which cannot be read are not modelled."
  },
  {
   "property": "C73",
   "status": "partial",
   "theorems": [
    "C73_no_false_alarms",
    "C73_exact",
    "C73_blames",
    "C73_returns",
    "C73_operators",
    "C73_stops",
    "C73_equality_refuted",
    "C73_order_refuted",
    "C73_copy_source_refuted",
    "C73_mutation_refuted",
    "C73_message_refuted"
   ],
   "note": "False in part: an == which is always true passes with a right !=, and nothing else is found out then; each of two values may be less than the other; a copy constructor which changes the original and the copy alike passes; the mutator may change y, against the documentation, if the copy differs from it all the same; the message about the assumed order does not depend on the order. Operations which throw are not modelled."
  },
  {
   "property": "C74",
   "status": "partial",
   "theorems": [
    "C74_no_false_alarms",
    "C74_exact",
    "C74_returns",
    "C74_stops",
    "C74_serialization_refuted"
   ],
   "note": "False in part: a type which can be streamed cannot be checked against clones of another type."
  },
  {
   "property": "C75",
   "status": "partial",
   "theorems": [
    "C75_report",
    "C75_exact",
    "C75_comparisons",
    "C75_initial",
    "C75_plain",
    "C75_shared_refuted",
    "C75_unseen_refuted"
   ],
   "note": "The report is characterised for containers whose comparisons do not allocate and whose allocators are not always equal. Refuted: containers x and y which share an allocator are reported although all predictions are right; allocations by self assignment, self swap and reading from a stream are not noticed."
  },
  {
   "property": "C76",
   "status": "partial",
   "theorems": [
    "C76_report",
    "C76_exact",
    "C76_initial",
    "C76_plain",
    "C76_move_refuted"
   ],
   "note": "As C75, without predictions for objects moved from. Refuted: the prediction about moving y is used for the move of x, so right predictions may be reported as wrong."
  },
  {
   "property": "C77",
   "status": "proved",
   "theorems": [
    "C77_exact",
    "C77_release",
    "C77_twice",
    "C77_debug"
   ],
   "note": "C77_debug is about containers of values at top level and the convention stated by Spec.proxies."
  },
  {
   "property": "C78",
   "status": "partial",
   "theorems": [
    "C78_throws",
    "C78_course",
    "C78_runs",
    "C78_members",
    "C78_criterion",
    "C78_faster",
    "C78_monotone",
    "C78_scale",
    "C78_order",
    "C78_outlier",
    "C78_constant",
    "C78_counts",
    "C78_documentation_refuted",
    "C78_calibrate_partial",
    "C78_calibrate_refuted"
   ],
   "note": "Times are exact rationals. False in part: the documentation says that a check fails under a condition which every check that passes meets, and that the bounds must differ; calibrate gives zero for units longer than a second. C78_calibrate_partial is about units of which a second has a whole number. Tasks which throw are not modelled."
  },
  {
   "property": "C79",
   "status": "partial",
   "theorems": [
    "C79_returns",
    "C79_sound",
    "C79_complete",
    "C79_messages",
    "C79_notices_partial",
    "C79_diagnostics",
    "C79_sds_refuted",
    "C79_bounds_refuted",
    "C79_lines_refuted",
    "C79_reference_refuted",
    "C79_exponents_refuted"
   ],
   "note": "False in part: a different number of deviations or different bounds are noticed only if a measurement in front of them differs; any line after one about a duration may differ; the earlier output need not have such a line; measurements with negative exponents are not recognised. C79_notices_partial is about lines with a measurement which differs."
  },
  {
   "property": "C80",
   "status": "partial",
   "theorems": [
    "C80_parameter",
    "C80_pack",
    "C80_word",
    "C80_blank",
    "C80_list",
    "C80_none",
    "C80_unmatched",
    "C80_written",
    "C80_round_trip",
    "C80_species_refuted",
    "C80_dots_refuted",
    "C80_comma_refuted"
   ],
   "note": "False in part: of 'unsigned long N' only 'long N' is kept; with two blanks in front of the dots of a pack what it is gets lost; a comma behind the closing bracket is undefined behaviour. Round trip for parameters made of one word, or a word and dots, and a name."
  },
  {
   "property": "C81",
   "status": "partial",
   "theorems": [
    "C81_by_value",
    "C81_blank",
    "C81_equivalents",
    "C81_types_refuted",
    "C81_empty_refuted"
   ],
   "note": "C81_by_value says exactly which types are passed by value. False in part: unsigned types and those with a width, although listed in the source, are passed by reference; an empty type leaves a comma behind."
  },
  {
   "property": "C82",
   "status": "partial",
   "theorems": [
    "C82_name",
    "C82_constructors",
    "C82_underscores_refuted"
   ],
   "note": "Names of several words as C34 has them; two underscores in a row leave one in the title."
  },
  {
   "property": "C83",
   "status": "partial",
   "theorems": [
    "C83_behavioural",
    "C83_allocation",
    "C83_semantics",
    "C83_behavioural_complete",
    "C83_allocation_complete",
    "C83_semantics_complete",
    "C83_behavioural_defined",
    "C83_allocation_defined",
    "C83_semantics_defined",
    "C83_diagnostics_refuted",
    "C83_indent_refuted"
   ],
   "note": "The templates are taken over literally. False in part: the header for diagnostics declares the class for false negatives twice and the registered one for false positives never; with an indentation of two tabs, files of tests of allocations get four. File system not modelled."
  },
  {
   "property": "C84",
   "status": "partial",
   "theorems": [
    "C84_class",
    "C84_class_complete",
    "C84_source",
    "C84_source_complete",
    "C84_functions",
    "C84_functions_complete",
    "C84_copyright",
    "C84_no_copyright",
    "C84_project_refuted",
    "C84_project_partial"
   ],
   "note": "False in part: the name of a project which contains the second placeholder is changed again. The name of a project is put in place of the placeholders unless it brings about the second one, alone or with what stands around it. Headers other than those from the templates only as far as the copyright is concerned."
  },
  {
   "property": "C85",
   "status": "partial",
   "theorems": [
    "C85_nanoseconds",
    "C85_nearest",
    "C85_plain",
    "C85_exponent_refuted"
   ],
   "note": "False in part: from 999.5 units on, an exponent is shown although the next unit would do."
  },
  {
   "property": "C86",
   "status": "partial",
   "theorems": [
    "C86_text",
    "C86_aligned",
    "C86_failures_partial",
    "C86_failures_refuted",
    "C86_indent_refuted"
   ],
   "note": "False in part: a kind of checks with failures but no checks (possible if performance checks do not stand alone) has no line; the times are not indented if there is no name."
  },
  {
   "property": "C87",
   "status": "partial",
   "theorems": [
    "C87_accepted",
    "C87_assign",
    "C87_stays",
    "C87_graph_partial",
    "C87_terminates_refuted",
    "C87_selected_refuted",
    "C87_extended_refuted",
    "C87_mixed_refuted",
    "C87_graph_refuted"
   ],
   "note": "Proved for allocators which copies keep, and for those of which nothing propagates. False in part: for allocators like those of pmr, the program is terminated if memory runs out while elements are moved; if copies select another allocator, the target may end up with a wrong one; the standard allocator cannot be combined with others which do not propagate; the copy assignment of graphs terminates the program if node weights cannot be copied, for any allocator. Allocators of the buckets themselves are not modelled."
  },
  {
   "property": "C88",
   "status": "partial",
   "theorems": [
    "C88_undirected",
    "C88_embedded_partial",
    "C88_embedded",
    "C88_independent",
    "C88_elision_refuted",
    "C88_embedded_refuted"
   ],
   "note": "Embedded graphs: proved for those the halves of whose edges share their weights; C88_embedded says what happens otherwise. False in part: without named return value optimisation, which is not guaranteed, copying is undefined behaviour; the copy of an embedded graph built from lists, the halves of which do not share, may show other weights. Edges with meta data and shared weights do not compile here and are not modelled."
  },
  {
   "property": "C89",
   "status": "partial",
   "theorems": [
    "C89_terminates",
    "C89_casts_only",
    "C89_casts_two_partial",
    "C89_casts_gaps_partial",
    "C89_casts_refuted",
    "C89_unclosed_refuted",
    "C89_closed_refuted",
    "C89_literals_partial",
    "C89_literals_refuted",
    "C89_bits_refuted",
    "C89_spans_partial",
    "C89_spans_refuted",
    "C89_long_refuted",
    "C89_array_iterators_refuted"
   ],
   "note": "Proved: termination for all names; nothing but casts is removed by the passes for casts; all of them are for up to two, or any number of short ones. False in part: a third cast and one within other brackets may stay; a number in brackets on its own is undefined behaviour; suffixes stay in templates with a digit in the name; negative floating-point numbers are not converted; a second span keeps its number; words containing 'long' are changed; iterators of arrays of other sizes than 1 get garbled for MSVC."
  },
  {
   "property": "C90",
   "status": "partial",
   "theorems": [
    "C90_monoid",
    "C90_and",
    "C90_output",
    "C90_no_output",
    "C90_preamble",
    "C90_collects",
    "C90_build",
    "C90_arguments_refuted",
    "C90_run_refuted",
    "C90_paths_refuted",
    "C90_characters_refuted"
   ],
   "note": "Readings are by the part of the POSIX shell language in Spec.v. False in part: with arguments, '-D' is glued to the preset; build_and_run_cmd takes the preset from another folder; paths with blanks are not quoted; a command ending with a character beyond ASCII is undefined behaviour. The shell of Windows is not modelled."
  },
  {
   "property": "C91",
   "status": "partial",
   "theorems": [
    "C91_agree_partial",
    "C91_digits_refuted",
    "C91_words_refuted"
   ],
   "note": "Proved for names made of letters, underscores and colons which do not contain the words treated specially (reserved identifiers, span, long, true, false), and without pointers, references, enumerators or spans. False in part: with digits in the name of a template the suffixes of numbers stay; names containing 'long' are changed by gcc and clang."
  },
  {
   "property": "C92",
   "status": "partial",
   "theorems": [
    "C92_provided_partial",
    "C92_reset_partial",
    "C92_nested_refuted",
    "C92_shared_refuted"
   ],
   "note": "Proved for tests the materials of which do not lie in one another. False in part: materials of a test lying below those of another (Foo.cpp and Foo/Bar.cpp) are deleted when the outer test is registered later; sources differing only in the extension share one working copy. Errors of the file system are not modelled."
  },
  {
   "property": "C93",
   "status": "partial",
   "theorems": [
    "C93_apart_partial",
    "C93_written",
    "C93_untouched",
    "C93_shared_refuted"
   ],
   "note": "The contents are proved for tests the files of which are different. False in part: sources of the same name in different folders, and suites the names of which differ only in blanks and underscores, share a file, and only what the last test said is kept. Errors of the file system are not modelled."
  },
  {
   "property": "C94",
   "status": "partial",
   "theorems": [
    "C94_summaries",
    "C94_recorded",
    "C94_updates",
    "C94_no_updates",
    "C94_place",
    "C94_places_apart",
    "C94_discriminator_refuted"
   ],
   "note": "False in part: with discriminators, different tests may share a file for summaries. Errors of the file system are not modelled."
  },
  {
   "property": "C95",
   "status": "partial",
   "theorems": [
    "C95_reported_partial",
    "C95_discovered_partial",
    "C95_no_build",
    "C95_prune_apart",
    "C95_outside_refuted",
    "C95_build_refuted"
   ],
   "note": "False in part: a file outside of the repository is reported as if it were in it; a project below a folder called 'build' is not found."
  },
  {
   "property": "C96",
   "status": "partial",
   "theorems": [
    "C96_numbers",
    "C96_no_numbers",
    "C96_wanted",
    "C96_contradictory",
    "C96_bad",
    "C96_all",
    "C96_indent",
    "C96_two_tests_refuted",
    "C96_nothing_refuted",
    "C96_aliases_refuted",
    "C96_accepted_refuted"
   ],
   "note": "All lines in which each create is followed by one test; help is left to C37. False in part: of two tests below one create only the last is finalized; create alone runs all tests, or finalizes the former test again; aliases written together below prune read arguments which are not there; 'xv' is read as --verbose, '3x' as 3, and --runner-id -1 as 2^64-1."
  },
  {
   "property": "C97",
   "status": "partial",
   "theorems": [
    "C97_sandboxes_partial",
    "C97_number",
    "C97_blank_refuted",
    "C97_recovery_refuted"
   ],
   "note": "Proved for texts without anything special to the shell. False in part: a suite whose name contains a blank makes the runner of the sandbox reject its arguments; recovery is not handed on."
  },
  {
   "property": "C98",
   "status": "partial",
   "theorems": [
    "C98_found",
    "C98_not_found",
    "C98_named",
    "C98_through",
    "C98_absolute",
    "C98_only_partial",
    "C98_pruned_partial",
    "C98_written",
    "C98_same_name_refuted",
    "C98_outside_refuted",
    "C98_pruned_refuted"
   ],
   "note": "The tests selected are characterized exactly for absolute paths, for paths through the repository and for paths which start with other names than those of the folders around. False in part: of files of the same name one is selected, depending on the order of folders; a file next to the repository stands for one in it; a test in a folder called like one around the repository may not be run although pruning finds it. Symbolic links are not modelled."
  },
  {
   "property": "C99",
   "status": "partial",
   "theorems": [
    "C99_left_out_partial",
    "C99_runs_partial",
    "C99_repeated_refuted",
    "C99_chosen_change_refuted",
    "C99_chosen_failure_refuted",
    "C99_meanwhile_refuted",
    "C99_added_refuted"
   ],
   "note": "Proved for all histories of complete and pruned runs of projects as in C42 in which nothing is removed, nothing is changed while tests run, and new tests are in new or changed files. False after runs of chosen tests (a change may be missed, a failing test be forgotten), of changes during a pruned run, and of tests newly added to the suites from old files. A test which has failed is executed by every pruned run until there is a complete one, even though it passes."
  },
  {
   "property": "C100",
   "status": "partial",
   "theorems": [
    "C100_accepted",
    "C100_rejected_partial",
    "C100_created_partial",
    "C100_build",
    "C100_all_or_none_refuted",
    "C100_within_refuted",
    "C100_rejected_refuted",
    "C100_namespace_refuted"
   ],
   "note": "Proved for projects outside of the running one, side by side, with a complete template as it is shipped; the commands to git and cmake are left to C90. False in part: if a project is rejected those created before stay; a project within the running one is accepted and sequoia is copied into itself; a name with a character which is not ASCII is undefined behaviour; the name of a project which is accepted may not be that of a namespace."
  },
  {
   "property": "C101",
   "status": "partial",
   "theorems": [
    "C101_main_partial",
    "C101_runner_partial",
    "C101_cmake_partial",
    "C101_created_partial",
    "C101_runner_refuted"
   ],
   "note": "Proved for the template which is shipped, for holders without tabs and backslashes in whose names neither that of the author (unless it is the same) nor myProject occurs, and for projects whose names do not contain myProject. False for a holder whose name contains the author's: it is replaced in the header, and the runner is told of the author. The holder is not escaped in the literal."
  },
  {
   "property": "C102",
   "status": "partial",
   "theorems": [
    "C102_product",
    "C102_commutative",
    "C102_quotient",
    "C102_reciprocal",
    "C102_reciprocal_throws",
    "C102_expression",
    "C102_same",
    "C102_formed_partial",
    "C102_units",
    "C102_ratio",
    "C102_offered_refuted",
    "C102_ratio_refuted"
   ],
   "note": "Values are rationals. False in part: the product of a vector of more than one dimension and a scalar quantity is offered but ill-formed, as is the ratio of two quantities whose unit is made of several ones; expressions are shown to be well-formed if no product or quotient in them is without dimension."
  },
  {
   "property": "C103",
   "status": "partial",
   "theorems": [
    "C103_value",
    "C103_units",
    "C103_same_type",
    "C103_other_space",
    "C103_commutative",
    "C103_associative",
    "C103_distributive_partial",
    "C103_areas_refuted",
    "C103_distributive_refuted"
   ],
   "note": "Values are rationals. False in part: sums of products in different spaces with the same base spaces and unit are not offered, since composite spaces have no base space, so that a length times the sum of a width and a height compiles, but not the sum of the products; products are shown to distribute over the sum of two quantities of the same type."
  },
  {
   "property": "C104",
   "status": "partial",
   "theorems": [
    "C104_returns",
    "C104_logged",
    "C104_bases",
    "C104_recorded",
    "C104_message_partial",
    "C104_message_first",
    "C104_message_kept",
    "C104_result_refuted",
    "C104_where_refuted",
    "C104_folder_refuted"
   ],
   "note": "False in part: it returns true although a check within the function failed; only the first mention of the project in a message is made relative, so that what is recorded of an exception which mentions two files depends on the location of the project; the name of a folder which begins like that of the project is cut. The message is as it should be if it mentions the project once, and no other path in front of that."
  },
  {
   "property": "C105",
   "status": "partial",
   "theorems": [
    "C105_same",
    "C105_untouched",
    "C105_open",
    "C105_over",
    "C105_none",
    "C105_identifies",
    "C105_told_apart_partial",
    "C105_dump",
    "C105_critical_refuted",
    "C105_message_refuted",
    "C105_nesting_refuted"
   ],
   "note": "False in part: after a check which failed critically and is over the recovery file is the one which a crash within it leaves; a check whose message ends with the line 'Check ended' looks as if it were over; the files do not show which sentinels are still open. Otherwise the last line tells whether the check is over."
  },
  {
   "property": "C106",
   "status": "partial",
   "theorems": [
    "C106_logged",
    "C106_critical",
    "C106_earlier",
    "C106_where_partial",
    "C106_silent_refuted",
    "C106_caught_refuted",
    "C106_negative_refuted",
    "C106_counted_refuted"
   ],
   "note": "False in part: after a check without message an exception is said to have been thrown before any check; if the test itself has caught an exception thrown in its last check, a later one is attributed to that check; in tests for false negatives a check left by an exception also counts as a failure; the exception counts as a check. Otherwise the place is right."
  },
  {
   "property": "C107",
   "status": "partial",
   "theorems": [
    "C107_symmetric",
    "C107_not_a_number",
    "C107_infinity",
    "C107_wider",
    "C107_same",
    "C107_accepts",
    "C107_bound",
    "C107_near",
    "C107_exact_refuted",
    "C107_reflexive_refuted"
   ],
   "note": "False in part: what is accepted may exceed the tolerance by up to half a unit in its last place (never if neither number is more than twice the other); an infinity is not within any tolerance of itself."
  },
  {
   "property": "C108",
   "status": "partial",
   "theorems": [
    "C108_symmetric",
    "C108_dot",
    "C108_product_opposite",
    "C108_norm_opposite",
    "C108_norm_difference",
    "C108_norm_non_negative",
    "C108_norm_nan",
    "C108_norm_one",
    "C108_product_error",
    "C108_integers",
    "C108_norm_sqrt",
    "C108_norm_error",
    "C108_cauchy_schwarz_refuted",
    "C108_triangle_refuted",
    "C108_homogeneous_refuted",
    "C108_definite_refuted",
    "C108_finite_refuted"
   ],
   "note": "False in part: the inequality of Cauchy and Schwarz, the triangle inequality and the norm of multiples fail by roundings; norms are zero for vectors other than zero, or infinite for finite vectors, if squares leave the range. Contraction into fused operations is not modelled."
  },
  {
   "property": "C109",
   "status": "partial",
   "theorems": [
    "C109_same",
    "C109_floating",
    "C109_truncation",
    "C109_integers_partial",
    "C109_wider",
    "C109_seen",
    "C109_narrowing_refuted",
    "C109_widening_refuted",
    "C109_order_refuted"
   ],
   "note": "False in part: narrowing conversions from signed to unsigned and from integers to floating point types are not ruled out; parameters of less rank than int are not used for other types; the advice about the order of two values sees the result of their comparison instead."
  },
  {
   "property": "C110",
   "status": "partial",
   "theorems": [
    "C110_passed",
    "C110_failed",
    "C110_relations",
    "C110_equality",
    "C110_tolerance",
    "C110_told_apart_refuted",
    "C110_prefix_refuted"
   ],
   "note": "False in part: values with several lines are not told apart; advice without prefix is on the line of the prediction."
  },
  {
   "property": "C111",
   "status": "partial",
   "theorems": [
    "C111_too_few",
    "C111_signs",
    "C111_mean_error",
    "C111_squares_error",
    "C111_one_rounding",
    "C111_integers",
    "C111_single",
    "C111_constant_refuted",
    "C111_order_refuted",
    "C111_translation_refuted",
    "C111_overflow_refuted",
    "C111_underflow_refuted"
   ],
   "note": "False in part: the mean of three equal data may be greater than they are and their variance positive; the mean depends on the order of the data; the variance changes if a number is added to all data; the mean of finite data may be infinite and the variance of different data zero."
  },
  {
   "property": "C112",
   "status": "partial",
   "theorems": [
    "C112_monotone",
    "C112_from_root",
    "C112_error",
    "C112_identity",
    "C112_valid_refuted",
    "C112_round_trip_refuted"
   ],
   "note": "False in part: 0 K in float converted to degrees Fahrenheit is valid, but converting it back throws; 0.7 degrees Celsius in double are not the same after a conversion to kelvin and back. Valid values are proved to stay valid when converted from the root."
  },
  {
   "property": "C113",
   "status": "partial",
   "theorems": [
    "C113_paths",
    "C113_accepted",
    "C113_refused",
    "C113_unchanged",
    "C113_program",
    "C113_stops",
    "C113_identified_partial",
    "C113_twice_refuted",
    "C113_nested_refuted",
    "C113_spelling_refuted"
   ],
   "note": "Every call is characterised. That tests are identified by suite, name and source is proved for calls which name tests, with different names. False in part: two calls with the same name may add the same test; suites of suites are not checked; a source file reached through another folder counts as different."
  },
  {
   "property": "C114",
   "status": "partial",
   "theorems": [
    "C114_whole",
    "C114_selected",
    "C114_recorded",
    "C114_same",
    "C114_interrupted",
    "C114_crash_refuted",
    "C114_crashes_refuted",
    "C114_forgotten_refuted"
   ],
   "note": "Sessions without crashes are characterised completely, and with crashes the failures of finished repetitions are recorded if each repetition is a process. False in part: a crashed repetition of a selection makes the session count as a run of all tests, so that other failing tests are forgotten; a common process which ends early leaves a new time stamp with old failures."
  },
  {
   "property": "C115",
   "status": "partial",
   "theorems": [
    "C115_found",
    "C115_missing",
    "C115_error",
    "C115_error_absolute",
    "C115_located",
    "C115_generated",
    "C115_again",
    "C115_inside",
    "C115_outside",
    "C115_outside_refuted",
    "C115_order_refuted",
    "C115_folder_refuted",
    "C115_again_refuted"
   ],
   "note": "The search, the text of the exception, and the folders are characterised. False in part: the test of a header of the source repository outside of the project is put outside of the folder of tests; which of several headers is found depends on the order of the directory; a folder may be found instead of a header; a header given through the source folder is generated elsewhere and not found again."
  },
  {
   "property": "C116",
   "status": "partial",
   "theorems": [
    "C116_kept",
    "C116_stopped",
    "C116_files",
    "C116_registered",
    "C116_again_partial",
    "C116_interrupted_refuted",
    "C116_clash_refuted"
   ],
   "note": "Repetition is proved for names and layouts with which add_to_suite can be repeated (C67). False in part: a source file which could not be registered in a CMake list is not registered by a later attempt, which only warns that it exists; tests whose files would have the names of existing ones are added to the main file without being created."
  },
  {
   "property": "C117",
   "status": "partial",
   "theorems": [
    "C117_join_plain",
    "C117_insert_join_plain",
    "C117_erase_plain",
    "C117_join",
    "C117_insert_join",
    "C117_insert_loop",
    "C117_set",
    "C117_mutate",
    "C117_erase",
    "C117_erase_directed",
    "C117_partner",
    "C117_nodes_plain",
    "C117_insert_node",
    "C117_erase_node",
    "C117_swap_nodes",
    "C117_erase_refuted"
   ],
   "note": "Proved but for one case: in undirected graphs without weights, erasing one of several edges of the same two nodes may take away the second half of another one, which leaves an edge with the meta data of two."
  },
  {
   "property": "C118",
   "status": "partial",
   "theorems": [
    "C118_value",
    "C118_same_type",
    "C118_other_space",
    "C118_displacements",
    "C118_antisymmetric",
    "C118_minus_displacement",
    "C118_shift_offered",
    "C118_undo_partial",
    "C118_shift_base",
    "C118_chain_partial",
    "C118_chain_same_type",
    "C118_negated_difference",
    "C118_negated_twice",
    "C118_no_negated_magnitude",
    "C118_no_negated_point",
    "C118_negated_unchecked",
    "C118_negated_value",
    "C118_undo_refuted",
    "C118_chain_refuted"
   ],
   "note": "Types, values and signs of differences are proved.  That differences can be undone is proved within a space and at the base space, and that they add up for three quantities all of one type or all of different ones; otherwise the addition of the displacement is offered but never returns (refuted)."
  }
 ]
}