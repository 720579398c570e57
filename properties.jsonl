{"id": "C01", "title": "sequoia::sort sorts", "statement": "After sequoia::sort(begin, end, comp, proj) the range holds a permutation of its original elements and no later element is ordered before an earlier one by comp on the projections.", "quantifier": "every finite range, every strict weak order comp, every projection", "why_tests_cant": "Tests sample a handful of permutations of short arrays; heap sort errors (a wrong child index, an off-by-one on the shrinking end) can hide at particular sizes and shapes.", "anchors": [{"file": "Source/sequoia/Algorithms/Algorithms.hpp", "symbols": ["sort", "make_heap", "bubble_down", "bubble_up"]}]}
{"id": "C02", "title": "sequoia::stable_sort sorts stably", "statement": "After sequoia::stable_sort the range is a sorted permutation of the original, and elements which are equivalent under comp keep their original relative order. The out-of-place overload never reads or writes the buffer beyond [out, out + distance).", "quantifier": "every finite range, every strict weak order, every projection, every initial content of the scratch buffer", "why_tests_cant": "Stability is a relation between all pairs of equivalent elements at all sizes; odd/even split points and buffer aliasing cannot be sampled exhaustively.", "anchors": [{"file": "Source/sequoia/Algorithms/Algorithms.hpp", "symbols": ["stable_sort"]}]}
{"id": "C03", "title": "sequoia::cluster makes equal elements contiguous", "statement": "After sequoia::cluster the range is a permutation of the original in which any two elements that compare equal have only elements equal to them in between.", "quantifier": "every finite range, every equivalence relation comp, every projection", "why_tests_cant": "The swapping loop interleaves two cursors; contiguity is a property of all triples of positions and is only sampled by tests.", "anchors": [{"file": "Source/sequoia/Algorithms/Algorithms.hpp", "symbols": ["cluster"]}]}
{"id": "C04", "title": "make_heap and bubble_up establish the heap property", "statement": "sequoia::make_heap leaves a permutation of the range in which no element is ordered after its parent; bubble_up restores the heap property after appending one element; bubble_down restores it after replacing the root.", "quantifier": "every finite range, every strict weak order", "why_tests_cant": "The heap property constrains every parent/child pair for every size.", "anchors": [{"file": "Source/sequoia/Algorithms/Algorithms.hpp", "symbols": ["make_heap", "bubble_up", "bubble_down"]}]}
{"id": "C05", "title": "static_priority_queue delivers maxima", "statement": "For any sequence of push and pop calls that never pops an empty queue, top() is a maximal element (with respect to Compare) of the multiset of elements pushed and not yet popped, pop() removes exactly one such element, size() is the number of elements, and push on a full queue throws leaving the queue unchanged. The same is expected of a queue made from an initializer list.", "quantifier": "every capacity, every comparator that is a strict weak order, every operation sequence", "why_tests_cant": "Interleavings of push/pop are unbounded, and the initializer-list constructor's behaviour depends on the value used to pad the array.", "anchors": [{"file": "Source/sequoia/Core/DataStructures/StaticPriorityQueue.hpp", "symbols": ["static_priority_queue", "push", "pop", "make_Q"]}]}
{"id": "C06", "title": "static_queue is a bounded FIFO queue", "statement": "For any sequence of push/pop calls a static_queue<T, N> behaves as a FIFO list of at most N elements: front() is the oldest, back() the newest, size()/empty() agree with the list, push on a full queue throws and changes nothing, pop on an empty queue changes nothing, and operator== holds exactly when the two lists are equal whatever the wrap-around position.", "quantifier": "every capacity N, every operation sequence, every pair of queues for operator==", "why_tests_cant": "The circular indices wrap; reachable (front, back) pairs grow with N and history.", "anchors": [{"file": "Source/sequoia/Core/DataStructures/StaticQueue.hpp", "symbols": ["static_queue", "push", "pop", "size", "operator=="]}]}
{"id": "C07", "title": "static_stack is a bounded LIFO stack", "statement": "For any sequence of push/pop calls that never pops an empty stack a static_stack<T, N> behaves as a LIFO list of at most N elements; push on a full stack throws and changes nothing; operator== depends only on the live elements, not on stale ones above the top.", "quantifier": "every capacity N, every operation sequence", "why_tests_cant": "Stale elements remain in the array after pops; equality after arbitrary histories is not enumerable.", "anchors": [{"file": "Source/sequoia/Core/DataStructures/StaticStack.hpp", "symbols": ["static_stack", "push", "pop", "operator=="]}]}
{"id": "C08", "title": "monotonic_sequence is always monotonic, with the strong guarantee", "statement": "Starting from any successfully constructed monotonic_sequence, after any sequence of push_back, insert, erase (single and range), clear and (checked) mutate calls no adjacent pair (a, b) satisfies Compare{}(a, b); a call that throws leaves the sequence unchanged; a call is rejected exactly when its result would not be monotonic.", "quantifier": "every transitive comparator and operation sequence, every position, every mutating functor", "why_tests_cant": "The check in mutate is windowed around the mutated range; correctness of the window depends on all possible neighbours.", "anchors": [{"file": "Source/sequoia/Maths/Sequences/MonotonicSequence.hpp", "symbols": ["monotonic_sequence_base", "mutate", "push_back", "insert", "erase", "check"]}]}
{"id": "C09", "title": "bucketed_sequence is a list of lists", "statement": "For any sequence of add_slot, insert_slot, erase_slot, swap_partitions, push_back_to_partition, insert_to_partition, erase_from_partition calls a bucketed_sequence behaves as the corresponding sequence of edits on a list of lists, iterators returned designate the expected element, out-of-range arguments throw and leave the container unchanged.", "quantifier": "every operation sequence, every element type, every index", "why_tests_cant": "Operation histories are unbounded; slot/position combinations interact.", "anchors": [{"file": "Source/sequoia/Core/DataStructures/PartitionedData.hpp", "symbols": ["bucketed_sequence"]}]}
{"id": "C10", "title": "partitioned_sequence is a list of lists", "statement": "For any sequence of the same operations a partitioned_sequence (flat storage plus cumulative offsets) behaves as the corresponding sequence of edits on a list of lists; in particular offsets stay monotonic, the last offset equals the number of elements, and every partition's contents other than those addressed are unchanged.", "quantifier": "every operation sequence, every index, partitions of every size including empty ones", "why_tests_cant": "The offsets of every later partition move on each edit; swap_partitions rotates variable-length blocks; only an inductive argument covers all histories.", "anchors": [{"file": "Source/sequoia/Core/DataStructures/PartitionedData.hpp", "symbols": ["partitioned_sequence_base", "swap_partitions", "insert_slot", "erase_slot", "push_back_to_partition", "insert_to_partition", "erase_from_partition", "increment_partition_indices", "decrement_partition_indices"]}]}
{"id": "C11", "title": "The two partitioned containers are interchangeable", "statement": "bucketed_sequence and partitioned_sequence give the same observations (sizes, num_partitions, partition contents, exceptions) for the same sequence of calls, so a client may swap one for the other.", "quantifier": "every operation sequence over the shared interface", "why_tests_cant": "Equivalence of two implementations over all histories.", "anchors": [{"file": "Source/sequoia/Core/DataStructures/PartitionedData.hpp", "symbols": ["bucketed_sequence", "partitioned_sequence", "insert_to_partition", "empty"]}]}
{"id": "C12", "title": "static_partitioned_sequence holds exactly what it was given", "statement": "Construction of a static_partitioned_sequence<T, Npartitions, Nelements, IndexType> from nested lists succeeds whenever the lists have Npartitions entries and Nelements elements in total, and then partition i is exactly list i (empty lists included); any other shape throws.", "quantifier": "every number of partitions and elements, every shape including leading, trailing and consecutive empty partitions, every unsigned IndexType", "why_tests_cant": "Template parameters are fixed per instantiation; shapes and index widths cannot be swept by unit tests.", "anchors": [{"file": "Source/sequoia/Core/DataStructures/PartitionedData.hpp", "symbols": ["static_partitioned_sequence", "static_partitions_maker", "make_element", "fill"]}]}
{"id": "C13", "title": "Undirected graphs keep both halves of every edge", "statement": "For an undirected_graph, after any sequence of add_node, insert_node, erase_node, join, erase_edge, swap_nodes, swap_edges, sort_edges and set/mutate_edge_weight calls, for all nodes i, j and weight w the number of partial edges i->j with weight w equals the number j->i with weight w (and loops contribute an even number).", "quantifier": "every operation sequence and every weight", "why_tests_cant": "A reciprocity invariant over unbounded histories, including parallel edges with equal weights and self-loops.", "anchors": [{"file": "Source/sequoia/Maths/Graph/Connectivity.hpp", "symbols": ["connectivity", "join", "erase_edge", "erase_node", "insert_node", "swap_nodes", "set_edge_weight", "manipulate_partner_edge_weight"]}]}
{"id": "C14", "title": "Embedded graphs keep complementary indices correct", "statement": "For an embedded_graph, after any sequence of add_node, insert_node, erase_node, join, insert_join, erase_edge and swap_nodes calls, edge k of node i with target j and complementary index c satisfies: edge c of node j has target i and complementary index k, and the same weight.", "quantifier": "every operation sequence, every node, every position", "why_tests_cant": "Each insertion or erasure shifts positions, so every complementary index in the graph may have to move; loops touch the same list twice.", "anchors": [{"file": "Source/sequoia/Maths/Graph/Connectivity.hpp", "symbols": ["insert_join", "insert_reciprocal_join", "erase_edge", "erase_node", "modify_comp_indices", "decrement_comp_indices", "increment_comp_indices", "fix_edge_data"]}]}
{"id": "C15", "title": "erase_node and insert_node renumber faithfully", "statement": "erase_node(n) yields exactly the graph induced on the other nodes, with node indices above n shifted down by one and edge order preserved; insert_node(n) yields the same graph with an isolated node n and indices >= n shifted up by one.", "quantifier": "every graph, every flavour (directed, undirected, embedded), every node", "why_tests_cant": "Every stored target index must be renumbered; all graphs cannot be enumerated.", "anchors": [{"file": "Source/sequoia/Maths/Graph/Connectivity.hpp", "symbols": ["erase_node", "insert_node", "fix_edge_data"]}]}
{"id": "C16", "title": "swap_nodes is a relabelling", "statement": "swap_nodes(i, j) exchanges the two nodes: the result is the original graph relabelled by the transposition (i j), including loops, edges between i and j, and complementary indices; doing it twice is the identity.", "quantifier": "every graph of every flavour, every pair of nodes", "why_tests_cant": "The implementation treats targets i/j, both partitions and undirected partners in separate passes; an error shows only for particular adjacency patterns.", "anchors": [{"file": "Source/sequoia/Maths/Graph/Connectivity.hpp", "symbols": ["swap_nodes"]}]}
{"id": "C17", "title": "Construction from edge lists accepts exactly the valid ones", "statement": "Constructing connectivity from nested edge lists throws if and only if the lists do not describe a graph of that flavour (target out of range; for undirected: unmatched partner; for embedded: wrong complementary index, partner or weight); otherwise the graph has exactly the given edges.", "quantifier": "every nested edge list, every flavour", "why_tests_cant": "Validation sorts and matches; the set of malformed inputs is infinite.", "anchors": [{"file": "Source/sequoia/Maths/Graph/Connectivity.hpp", "symbols": ["preprocess", "validate", "process_edges"]}]}
{"id": "C18", "title": "order() and size() count nodes and edges", "statement": "After any sequence of operations order() is the number of nodes, and size() the number of edges (for undirected and embedded graphs half the number of partial edges, which is always even).", "quantifier": "every operation sequence, every flavour", "why_tests_cant": "Counting over unbounded histories.", "anchors": [{"file": "Source/sequoia/Maths/Graph/Connectivity.hpp", "symbols": ["order", "size"]}]}
{"id": "C19", "title": "Breadth-, depth- and priority-first traversals visit every node once", "statement": "traverse(..., find_disconnected) with a queue, stack or priority queue calls nodeBefore and nodeAfter exactly once for every node; with ignore_disconnected exactly once for the nodes reachable from the start and never for others; and it terminates.", "quantifier": "every graph, every start node, every flavour, every data structure used for the frontier", "why_tests_cant": "Needs induction over the frontier; graphs with cycles, loops and parallel edges are unbounded.", "anchors": [{"file": "Source/sequoia/Maths/Graph/GraphTraversalDetails.hpp", "symbols": ["traversal_helper", "traverse"]}, {"file": "Source/sequoia/Maths/Graph/GraphTraversalFunctions.hpp", "symbols": ["traverse"]}]}
{"id": "C20", "title": "Traversals visit every edge the right number of times", "statement": "In a find_disconnected traversal of a directed graph the edge functor is called exactly once per edge; for an undirected graph the 'first' functor is called exactly once per edge and the 'second' functor exactly once per edge, the former before the latter.", "quantifier": "every graph, every flavour, every start node", "why_tests_cant": "Loops, parallel edges and back edges are told apart by bookkeeping (loop indices, embedded complementary indices) that tests only sample.", "anchors": [{"file": "Source/sequoia/Maths/Graph/GraphTraversalDetails.hpp", "symbols": ["loop_processor", "traversal_helper"]}]}
{"id": "C21", "title": "Breadth-first traversal is in order of distance", "statement": "breadth_first traversal visits the nodes reachable from the start in non-decreasing order of their distance from it; (recursive) depth_first traversal visits them in pre-order/post-order of a depth-first search tree.", "quantifier": "every graph and start node", "why_tests_cant": "Distance order is a global property of the unbounded set of graphs.", "anchors": [{"file": "Source/sequoia/Maths/Graph/GraphTraversalDetails.hpp", "symbols": ["traverse"]}, {"file": "Source/sequoia/Maths/Graph/GraphTraversalFunctions.hpp", "symbols": ["traverse", "depth_first"]}]}
{"id": "C22", "title": "Node weights follow their nodes", "statement": "Through add_node, insert_node, erase_node and swap_nodes on a weighted graph the weight stored for each surviving node is the one it was given, the number of weights equals order(), and an out-of-range argument or an exception leaves graph and weights consistent.", "quantifier": "every operation sequence", "why_tests_cant": "Two separate containers must be edited in step through every history and failure point.", "anchors": [{"file": "Source/sequoia/Maths/Graph/GraphPrimitive.hpp", "symbols": ["insert_node", "erase_node", "swap_nodes", "add_node", "insertion_sentinel"]}, {"file": "Source/sequoia/Maths/Graph/NodeStorage.hpp", "symbols": ["node_storage"]}]}
{"id": "C23", "title": "Edge-mutating operations have the strong exception guarantee", "statement": "If join, insert_join, set_edge_weight or mutate_edge_weight throws part-way (allocation or weight assignment failure) the graph is as it was before the call.", "quantifier": "every undirected or embedded graph, every failure point", "why_tests_cant": "Failure points multiply with graph shape; the roll-back code runs only on exceptions that tests rarely provoke.", "anchors": [{"file": "Source/sequoia/Maths/Graph/Connectivity.hpp", "symbols": ["weight_sentinel", "join_sentinel", "reciprocal_join", "insert_reciprocal_join", "set_edge_weight"]}]}
{"id": "C24", "title": "Both halves of an undirected edge have the same weight", "statement": "In an undirected or embedded graph, shared or unshared edge weights, after set_edge_weight or mutate_edge_weight through either half, both halves report the new weight and no other edge changes.", "quantifier": "every graph, every edge, parallel edges with equal weights and loops included", "why_tests_cant": "The partner half is found by search; ambiguity between equal parallel edges cannot be sampled exhaustively.", "anchors": [{"file": "Source/sequoia/Maths/Graph/Connectivity.hpp", "symbols": ["set_edge_weight", "mutate_edge_weight", "manipulate_partner_edge_weight"]}]}
{"id": "C25", "title": "Trees stay trees", "statement": "After any sequence of add_node, insert_node and prune calls a directed or undirected tree is connected, has order()-1 edges and each non-root node has exactly one parent, namely the one requested.", "quantifier": "every operation sequence, every parent, every insertion position", "why_tests_cant": "Requires an invariant over histories; insertion renumbers nodes while a parent index is held.", "anchors": [{"file": "Source/sequoia/Maths/Graph/DynamicTree.hpp", "symbols": ["tree_base", "insert_node", "add_node", "prune"]}, {"file": "Source/sequoia/Maths/Graph/GraphPrimitive.hpp", "symbols": ["insert_node_to_tree"]}]}
{"id": "C26", "title": "prune removes exactly a subtree", "statement": "prune(n) removes node n and all of its descendants and nothing else, leaving the remaining tree (weights and edges) intact, for forward, symmetric and backward link directions.", "quantifier": "every tree, every node, every node numbering", "why_tests_cant": "Nodes are renumbered during recursive deletion, so correctness depends on the numbering of all descendants.", "anchors": [{"file": "Source/sequoia/Maths/Graph/DynamicTree.hpp", "symbols": ["prune", "tree_base"]}, {"file": "Source/sequoia/Maths/Graph/GraphPrimitive.hpp", "symbols": ["erase_node"]}]}
{"id": "C27", "title": "sub_graph is the induced subgraph", "statement": "sub_graph(g, pred) is the subgraph induced on the nodes whose weight satisfies pred, in the original order, with all edges between them.", "quantifier": "every graph and predicate", "why_tests_cant": "All subsets of all graphs.", "anchors": [{"file": "Source/sequoia/Maths/Graph/GraphAlgorithms.hpp", "symbols": ["sub_graph"]}]}
{"id": "C28", "title": "Static graphs can hold what their type says", "statement": "static_directed_graph / static_undirected_graph / static_embedded_graph<Size, Order, ...> can be constructed from any valid initializer of that Size and Order: the automatically chosen index type is wide enough for all node indices, partition offsets and complementary indices.", "quantifier": "every Size and Order", "why_tests_cant": "Needs instantiation at all template arguments; thresholds occur at 255 and 65535.", "anchors": [{"file": "Source/sequoia/Maths/Graph/StaticGraphDetails.hpp", "symbols": ["to_index_max"]}, {"file": "Source/sequoia/Maths/Graph/StaticGraphConfig.hpp", "symbols": ["static_edge_storage_config"]}, {"file": "Source/sequoia/Core/DataStructures/PartitionedData.hpp", "symbols": ["static_partitions_maker"]}]}
{"id": "C29", "title": "to_array copies the list and only the list", "statement": "utilities::to_array<T, N>(list) returns an array whose first list.size() elements are those of the list and whose remaining elements are value-initialized, throws if the list is too long (or, for types without default construction, too short), and never reads outside the list.", "quantifier": "every N, every list length, default-constructible and non-default-constructible element types", "why_tests_cant": "An out-of-bounds read by one at exactly one length is invisible to tests without a sanitizer.", "anchors": [{"file": "Source/sequoia/Core/ContainerUtilities/ArrayUtilities.hpp", "symbols": ["to_array", "to_element"]}]}
{"id": "C30", "title": "Compile-time sort of types is a stable sort", "statement": "meta::stable_sort_t<TT<Ts...>, Comp> is a permutation of Ts... sorted with respect to Comp, and types equivalent under Comp keep their relative order; meta::merge_t of two sorted lists is sorted.", "quantifier": "every list of types and every strict weak order on types", "why_tests_cant": "Each instance is a separate compilation; stability needs equivalent but distinct types.", "anchors": [{"file": "Source/sequoia/Core/Meta/TypeAlgorithms.hpp", "symbols": ["merge", "stable_sort", "lower_bound"]}]}
{"id": "C31", "title": "Type-list algorithms behave as list algorithms", "statement": "filter, drop, keep, erase, insert, reverse, rotate, concat, lower_bound and faithful_type_list from the meta library compute the corresponding list functions; the index-sequence helpers (aggregate, shift, partial sums) compute the corresponding arithmetic.", "quantifier": "every type list, every position, every predicate", "why_tests_cant": "Template recursion over unbounded lists; each test fixes one list.", "anchors": [{"file": "Source/sequoia/Core/Meta/TypeAlgorithms.hpp", "symbols": ["filter", "erase", "insert", "lower_bound"]}, {"file": "Source/sequoia/Core/Meta/Sequences.hpp", "symbols": ["shift_sequence"]}, {"file": "Source/sequoia/Core/Meta/TypeList.hpp", "symbols": ["type_list"]}]}
{"id": "C32", "title": "Ratio arithmetic is exact", "statement": "The product and quotient of compile-time ratios computed by ratio_multiply/ratio_divide equal the mathematical value in lowest terms, or are refused (or converted to floating point, where that is allowed) exactly when a component of the exact result is not representable.", "quantifier": "all numerators and denominators including negative and zero", "why_tests_cant": "The space of pairs of 64-bit ratios is not enumerable, and boundary cases involve sign and the extremes of intmax_t.", "anchors": [{"file": "Source/sequoia/Maths/Algebra/Ratio.hpp", "symbols": ["ratio", "ratio_multiply", "ratio_divide"]}]}
{"id": "C33", "title": "replace_all replaces every occurrence", "statement": "replace_all(text, from, to) returns the text with every leftmost non-overlapping occurrence of from replaced by to and terminates; the predicate/left/right-delimited overloads replace exactly the occurrences whose neighbours satisfy the condition; the recursive version reaches a text not containing from.", "quantifier": "all texts, patterns and replacements, including empty ones and self-overlapping patterns", "why_tests_cant": "Strings are unbounded; overlapping, adjacent and empty patterns are corner cases of an infinite space; termination cannot be tested.", "anchors": [{"file": "Source/sequoia/TextProcessing/Substitutions.cpp", "symbols": ["replace_all", "replace_all_recursive", "replace"]}, {"file": "Source/sequoia/TextProcessing/Substitutions.hpp", "symbols": ["replace_all"]}]}
{"id": "C34", "title": "Case conversions", "statement": "to_camel_case removes every separator and capitalizes the following letter; to_snake_case / camel_to_words insert the separator exactly before capital letters that start a word; snake -> camel -> snake is the identity on well-formed names.", "quantifier": "all strings", "why_tests_cant": "Infinite domain; consecutive separators and leading capitals are corner cases.", "anchors": [{"file": "Source/sequoia/TextProcessing/Substitutions.cpp", "symbols": ["to_camel_case", "camel_to_words", "to_snake_case", "capitalize", "uncapitalize"]}]}
{"id": "C35", "title": "Indentation only indents", "statement": "indent(text, ind) adds ind at the start of every non-empty line and changes nothing else; append_indented(text, more, ind) equals text, a line break, and the indented more; removing the indentation gives the text back; end_block leaves at least the requested number of newlines.", "quantifier": "all texts and indentations", "why_tests_cant": "Infinite domain; trailing newlines and empty lines are corner cases.", "anchors": [{"file": "Source/sequoia/TextProcessing/Indent.cpp", "symbols": ["indent", "append_indented", "tabs_to_spacing"]}]}
{"id": "C36", "title": "Command line parsing is faithful", "statement": "parse(args, options) returns operations which, printed back as a command line, give back the given arguments: every argument is consumed by exactly one option, an option with k parameters receives exactly the k arguments following it (unless a nested option intervenes), and any command line that leaves an option short of arguments or contains an unknown token is rejected.", "quantifier": "every option forest and every argument list", "why_tests_cant": "Argument lists and option forests are unbounded; concatenated aliases and nesting interact.", "anchors": [{"file": "Source/sequoia/Parsing/CommandLineArguments.cpp", "symbols": ["parse", "argument_parser", "process_concatenated_aliases", "process_option"]}]}
{"id": "C37", "title": "Help is returned and nothing is executed", "statement": "If --help occurs where an option is expected, parse returns the help of the options at that nesting level and no operation list is acted on; arguments consumed as parameters of an option are never taken as help or options.", "quantifier": "every option forest and argument list", "why_tests_cant": "Position of --help relative to nested options is unbounded.", "anchors": [{"file": "Source/sequoia/Parsing/CommandLineArguments.cpp", "symbols": ["argument_parser", "generate_help"]}, {"file": "Source/sequoia/Parsing/CommandLineArguments.hpp", "symbols": ["invoke_depth_first", "parse_invoke_depth_first"]}]}
{"id": "C38", "title": "Thread pool runs each task exactly once and joins", "statement": "Under every interleaving, each task pushed to a thread_pool before join is run exactly once by some worker, get() on its future returns its result, tasks from one queue start in FIFO order, join returns only after every pushed task has finished, and the workers never deadlock (no lost wake-up).", "quantifier": "every number of threads, every number of tasks, every schedule, single- and multi-pipeline pools", "why_tests_cant": "Interleavings are not controllable from a unit test.", "anchors": [{"file": "Source/sequoia/Core/Concurrency/ConcurrencyModels.hpp", "symbols": ["task_queue", "thread_pool", "push", "pop", "finish"]}]}
{"id": "C39", "title": "Suites are filtered faithfully", "statement": "extract_tree / extract_leaves over a suite yield exactly the items whose own key or one of whose enclosing suites is selected (all of them without a selection), in order, with empty suites removed, and selections never matched are reported as not found.", "quantifier": "every suite tree, every selection", "why_tests_cant": "Suites have unbounded shape; selections combine names at several depths.", "anchors": [{"file": "Source/sequoia/Core/Object/Suite.hpp", "symbols": ["extract", "extract_tree", "granular_filter"]}]}
{"id": "C40", "title": "Factory creates the named product", "statement": "factory::make(name) creates the product registered under that name for every registered name and throws otherwise; make_or creates the default exactly when the name is not registered; duplicate names are rejected at construction.", "quantifier": "every set of names in every order", "why_tests_cant": "Lookup is a binary search over names sorted at construction; all name sets cannot be enumerated.", "anchors": [{"file": "Source/sequoia/Core/Object/Factory.hpp", "symbols": ["factory", "make", "make_or", "find"]}]}
{"id": "C41", "title": "Statistics agree with their definitions", "statement": "mean, variance and sample_variance compute the textbook values (exactly, over exact arithmetic), return no value for too few data, and are invariant under permutation and translation as the definitions are.", "quantifier": "all finite data sets over an exact field", "why_tests_cant": "Algebraic identities over all data.", "anchors": [{"file": "Source/sequoia/Maths/Statistics/StatisticalAlgorithms.hpp", "symbols": ["mean", "cummulative_square_diffs", "variance", "sample_variance"]}]}
{"id": "C42", "title": "A test is re-run iff something it includes changed", "statement": "tests_to_run selects a test that passed last time if and only if its own source or any file reachable from it through #include (with a header also depending on its .cpp's dependencies) was modified since the time stamp.", "quantifier": "every include graph, cyclic ones included, every assignment of modification times", "why_tests_cant": "Include graphs are unbounded; include cycles arise naturally from header/source furnishing.", "anchors": [{"file": "Source/sequoia/TestFramework/DependencyAnalyzer.cpp", "symbols": ["tests_to_run", "build_dependencies"]}]}
{"id": "C43", "title": "Prune files record passes and failures", "statement": "After a filtered run update_prune_files leaves a failures file with exactly the tests that failed in this run plus those that failed before and were not re-run, and a passes file with exactly the tests that passed in this run plus previous passes that did not fail now; the two are disjoint.", "quantifier": "every history of runs, every set of executed and failed tests, several tests per source file included", "why_tests_cant": "Set algebra over sequences with possible duplicates, across runs.", "anchors": [{"file": "Source/sequoia/TestFramework/DependencyAnalyzer.cpp", "symbols": ["update_prune_files"]}]}
{"id": "C44", "title": "Every top-level check is counted once", "statement": "For any properly nested sequence of checks the logger counts one top-level check per outermost check, and one top-level failure for exactly those outermost checks in which some failure was logged (none, in false-negative mode), critical failures being counted separately; per-category totals never underflow.", "quantifier": "every nesting of checks, every test mode", "why_tests_cant": "Nested sentinels form an unbounded tree; counters are unsigned differences.", "anchors": [{"file": "Source/sequoia/TestFramework/TestLogger.cpp", "symbols": ["sentinel_base", "log_summary"]}, {"file": "Source/sequoia/TestFramework/TestLogger.hpp", "symbols": ["test_logger", "sentinel"]}]}
{"id": "C45", "title": "Summaries add up", "statement": "operator+ on log_summary is associative and commutative on all counters with the default summary as identity, and no information recorded in either operand (failure output, caught-exception messages, counts) is lost.", "quantifier": "all summaries", "why_tests_cant": "Algebraic laws over all values.", "anchors": [{"file": "Source/sequoia/TestFramework/TestLogger.cpp", "symbols": ["log_summary", "operator+="]}]}
{"id": "C46", "title": "soft_update makes the prediction mirror the working copy", "statement": "soft_update(from, to) leaves the directory to with exactly the files and folders of from (recursively, with equal contents), removing others, and never reads outside the directory listings.", "quantifier": "every pair of directory trees", "why_tests_cant": "The merge of two sorted listings has corner cases at either end; trees are unbounded.", "anchors": [{"file": "Source/sequoia/TestFramework/MaterialsUpdater.cpp", "symbols": ["soft_update", "sort_dir_entries"]}]}
{"id": "C47", "title": "add_include only adds an include", "statement": "add_include(file, include) adds the include directive once, in sorted position among the includes, and leaves every other line of the file as it was.", "quantifier": "every file text", "why_tests_cant": "Arbitrary text; interleaved non-include lines and a missing final newline are corner cases.", "anchors": [{"file": "Source/sequoia/TestFramework/FileEditors.cpp", "symbols": ["add_include"]}]}
{"id": "C48", "title": "Failure output survives a round trip", "statement": "Writing a failure_output (a list of check index and message) to a stream and reading it back gives the same list, so runs compared during instability analysis are judged equal exactly when their failures are equal.", "quantifier": "every list of failures, every message text", "why_tests_cant": "Messages are arbitrary multi-line text.", "anchors": [{"file": "Source/sequoia/TestFramework/FailureInfo.cpp", "symbols": ["operator<<", "operator>>", "read"]}]}
{"id": "C49", "title": "Instability analysis reports exactly the unstable tests", "statement": "For any number of runs the instability analysis reports a test as unstable iff two runs gave different failures, the reported frequencies sum to the number of runs, and it never fails with 'Unable to identify instability'.", "quantifier": "every list of per-run failure outputs", "why_tests_cant": "All tuples of outputs.", "anchors": [{"file": "Source/sequoia/TestFramework/FailureInfo.cpp", "symbols": ["instability_analysis", "analyse_output"]}]}
{"id": "C50", "title": "State-transition checker exercises every transition once", "statement": "transition_checker::check invokes the check function exactly once for each directed transition of the graph, with the value stored at the source node and the prediction stored at the target node.", "quantifier": "every transition graph", "why_tests_cant": "Depends on the traversal visiting each edge once, for all graphs.", "anchors": [{"file": "Source/sequoia/TestFramework/StateTransitionUtilities.hpp", "symbols": ["transition_checker", "check"]}]}
{"id": "C51", "title": "Bitmask operators are set operations", "statement": "For an enum opted in as a bitmask, |, &, ^, ~ and their assignment forms satisfy the boolean-algebra laws of sets of flags on the underlying type, and the flag test (mode & m) == m holds iff all flags of m are present.", "quantifier": "all values of the underlying type of any width", "why_tests_cant": "All pairs of machine words.", "anchors": [{"file": "Source/sequoia/Core/Logic/Bitmask.hpp", "symbols": ["operator&", "operator|", "operator^", "operator~", "as_bitmask"]}]}
{"id": "C52", "title": "The concurrent runner runs every test exactly once", "statement": "In concurrent mode test_runner executes every selected test exactly once: after sort_tests all suites come first, then the tests that may not run in parallel, then the others, so the serial and the parallel phase partition the tests and no suite node is dereferenced as a test.", "quantifier": "every suite tree", "why_tests_cant": "Depends on sort_nodes with a comparator that mixes keys with current positions, on all trees.", "anchors": [{"file": "Source/sequoia/TestFramework/TestRunner.cpp", "symbols": ["sort_tests", "run_tests"]}, {"file": "Source/sequoia/Maths/Graph/GraphPrimitive.hpp", "symbols": ["sort_nodes"]}]}
{"id": "C53", "title": "linear_sequence is an arithmetic progression", "statement": "For a linear_sequence(start, step) or static_linear_sequence, element i is start + i*step whenever that is a value of T, whatever integral types T and Index are.", "quantifier": "all starts, steps and indices", "why_tests_cant": "Infinite index space.", "anchors": [{"file": "Source/sequoia/Maths/Sequences/LinearSequence.hpp", "symbols": ["linear_sequence"]}]}
{"id": "C54", "title": "Include scanning finds every include", "statement": "get_includes(file, cutoff) returns exactly the files named by the file's #include directives (before the cutoff), resolved relative to the includer or the include directories.", "quantifier": "every file text", "why_tests_cant": "All C++ spellings of #include in all texts.", "anchors": [{"file": "Source/sequoia/TestFramework/DependencyAnalyzer.cpp", "symbols": ["get_includes"]}]}
{"id": "C55", "title": "Trees and forests are built as written", "statement": "Constructing a graph from a tree_initializer (or a list of them) gives exactly the tree (forest) written down: nodes are numbered in pre-order with the given weights, every node is linked to the node it is nested in and to no other, in the requested link direction.", "quantifier": "every nested initializer", "why_tests_cant": "Initializers of any shape and depth; node numbers are assigned during the recursion.", "anchors": [{"file": "Source/sequoia/Maths/Graph/GraphPrimitive.hpp", "symbols": ["build_tree", "add_node_to_tree"]}, {"file": "Source/sequoia/Maths/Graph/DynamicTree.hpp", "symbols": ["tree_base"]}]}
{"id": "C56", "title": "Delimiters and sandwiched text are found", "statement": "find_matched_delimiters returns the first opening delimiter at or after pos together with the position one past the closing delimiter that matches it (the nesting depth is positive in between and zero there for the first time), twice the opening position if it is never closed, and npos if there is no opening delimiter; find_sandwiched_text returns the end of the first left pattern and the start of the first right pattern after it.", "quantifier": "all texts, delimiters, patterns and starting positions", "why_tests_cant": "Infinite domain; nesting is unbounded and unbalanced texts are corner cases.", "anchors": [{"file": "Source/sequoia/TextProcessing/Patterns.cpp", "symbols": ["find_matched_delimiters", "find_sandwiched_text"]}]}
{"id": "C57", "title": "sort_nodes sorts the nodes and keeps the graph", "statement": "sort_nodes(first, last, comp) renumbers the nodes first, ..., last-1 only, such that afterwards they are sorted; the graph is otherwise the same: every node keeps its weight and its edges in their order, and all invariants of the graph hold. This needs of the comparator only that it orders nodes whose weights differ in the order; of nodes which are tied it may say anything.", "quantifier": "every graph of every flavour, every range of nodes, every strict weak order", "why_tests_cant": "Heap sort through swaps of nodes, each of which rewrites edges all over the graph; comparators which look at the graph while it changes.", "anchors": [{"file": "Source/sequoia/Maths/Graph/GraphPrimitive.hpp", "symbols": ["sort_nodes", "swap_nodes", "pseudo_iterator"]}, {"file": "Source/sequoia/Algorithms/Algorithms.hpp", "symbols": ["sort", "bubble_up", "bubble_down", "make_heap"]}]}
{"id": "C58", "title": "Every traversal visits the nodes in its order", "statement": "At every point of a traversal the node visited next is determined by those visited before: of the nodes not yet visited to which these have edges, breadth_first takes the one found first, pseudo_depth_first the one found last (edges being met from the last to the first), priority_first one of highest priority; depth_first follows the first edge leading to a node not yet visited from the latest node which has one. If there is no such node, the search goes on with the lowest node not yet visited.", "quantifier": "every graph of every flavour, every start node, every priority queue, with or without finding disconnected pieces, every position in the traversal", "why_tests_cant": "Infinite family of graphs; the order depends on when nodes are marked as discovered and on the direction of the iterators.", "anchors": [{"file": "Source/sequoia/Maths/Graph/GraphTraversalDetails.hpp", "symbols": ["traverse", "inner_loop", "compute_restart_index", "iterator_getter"]}]}
{"id": "C59", "title": "Conversions between units are exact", "statement": "Converting a physical value to another unit with the same root gives the value which denotes the same amount of the root unit; differences are converted to the differences of converted values; so converting there and back, or by way of a third unit, makes no difference. Celsius, Fahrenheit, foot, gram, tonne, degree, gradian and the prefixes mean what their names say. Products of units are converted factor by factor.", "quantifier": "every chain of coordinate transformations with nonzero ratios and displacements of floating point type (exact arithmetic), every value", "why_tests_cant": "Transformations are composed by the compiler out of ratios and displacements, with inverses on either side; tests cover the few predefined pairs.", "anchors": [{"file": "Source/sequoia/Physics/PhysicalValues.hpp", "symbols": ["coordinate_transform", "inverse", "product", "root_transform", "coordinate_transformation", "convert_to"]}]}
{"id": "C60", "title": "Conversions respect the range of a unit", "statement": "The validator of a unit defined through another accepts exactly those values which denote a value accepted by the validator of the root. So converting a valid value never throws, and a value which is not valid is not converted.", "quantifier": "every chain of coordinate transformations with positive ratios, every root validator, every value", "why_tests_cant": "Validators are synthesised at compile time for each chain; the cases of validators which are invariant under some of the transformations interact.", "anchors": [{"file": "Source/sequoia/Physics/PhysicalValues.hpp", "symbols": ["synthesised_validator", "scale_invariant_validator", "translation_invariant_validator", "micro", "milli", "kilo", "mega"]}, {"file": "Source/sequoia/Maths/Geometry/Spaces.hpp", "symbols": ["half_line_validator", "interval_validator"]}]}
{"id": "C61", "title": "Products and quotients of units", "statement": "The product of two units has as exponent of each base unit the sum of the exponents; the quotient the difference. Equal dimensions give the same type, so multiplication is commutative and associative, dual_of is an involution which negates the exponents, and the quotient of a unit by itself is no_unit.", "quantifier": "every pair of units to which products of units lead, with any names and any validators", "why_tests_cant": "The products are computed by the compiler through sorting, merging, counting and pruning of type lists, in which twenty-one partial specializations compete; tests instantiate a few combinations.", "anchors": [{"file": "Source/sequoia/Physics/PhysicalValuesDetails.hpp", "symbols": ["type_comparator", "count_and_combine", "unpack", "potentially_prunable", "reduce", "simplify", "to_composite_space"]}, {"file": "Source/sequoia/Physics/PhysicalValues.hpp", "symbols": ["reduction", "composite_unit", "reduced_validator", "operator*", "operator/"]}]}
{"id": "C62", "title": "Products of spaces", "statement": "The space of a product of physical values has as exponent of each space the sum of the exponents, is a vector space if and only if one of the factors is, and does not depend on the order or the grouping of the factors; a space divided by itself gives the Euclidean line or half line.", "quantifier": "every pair (triple) of spaces made of half lines, vector spaces, displacement spaces and their duals", "why_tests_cant": "As C61; moreover displacements, duals and Euclidean factors of every kind combine.", "anchors": [{"file": "Source/sequoia/Physics/PhysicalValuesDetails.hpp", "symbols": ["type_comparator", "count_and_combine", "unpack", "potentially_prunable", "reduce", "simplify", "to_composite_space", "dual_of"]}, {"file": "Source/sequoia/Physics/PhysicalValues.hpp", "symbols": ["reduction", "physical_value_product"]}]}
{"id": "C63", "title": "Conversions to spaces with the same base space return", "statement": "A conversion of a physical value to one in another space is accepted by the compiler only if both spaces have the same base space, and then it returns.", "quantifier": "every pair of spaces with the same base space", "why_tests_cant": "The conversion operator is used implicitly in its own return statement; tests convert single quantities to their base only.", "anchors": [{"file": "Source/sequoia/Physics/PhysicalValues.hpp", "symbols": ["to_base_space", "physical_value::operator physical_value"]}]}
{"id": "C64", "title": "Failures are reported with their surroundings", "statement": "The text written for a failure has the messages of those enclosing checks which have not been written before in the same outermost check, each on lines of its own and to the right of the enclosing one, and then the message of the failure, so that each check with a message and a failure in it is named exactly once; the last failure of an outermost check is followed by an empty line and the footer, and the summary has all texts in order.", "quantifier": "every nesting of checks, every message text, every test mode", "why_tests_cant": "Nestings and texts are unbounded, and whether a heading is written depends on the history.", "anchors": [{"file": "Source/sequoia/TestFramework/TestLogger.cpp", "symbols": ["failure_message", "end_message", "log_caught_exception_message", "to_reduced_string"]}]}
{"id": "C65", "title": "Arithmetic on points and displacements", "statement": "Adding or subtracting points and displacements, scaling and dividing them and negating them works entry by entry; the result is passed through the validator of its class, so every object made from given values holds values the validator has handed back; an operation throws only what the validator throws, and a compound assignment which throws leaves its object unchanged; points and displacements obey the laws of an affine space wherever the points involved exist.", "quantifier": "For every dimension, value type, validator and sequence of operations.", "why_tests_cant": "Tests check particular coordinates for a few spaces; the claim covers all validators and all sequences of operations.", "anchors": [{"file": "Source/sequoia/Maths/Geometry/Spaces.hpp", "symbols": ["coordinates_base", "apply_to_each_element", "for_each_element", "validate"]}]}
{"id": "C66", "title": "The operators offered for coordinates", "statement": "For points and displacements of any space an arithmetic operator or compound assignment takes part in overload resolution exactly when the expression makes mathematical sense, is never ambiguous, compiles when it is offered, and returns.", "quantifier": "For every kind of space (with or without distinguished origin, free module or not, over a field or not) and every pair of operand types.", "why_tests_cant": "Tests ask whether expressions are well-formed for a few spaces, but do not instantiate or run all of them.", "anchors": [{"file": "Source/sequoia/Maths/Geometry/Spaces.hpp", "symbols": ["coordinates_base", "operator+", "operator-", "operator*", "operator/", "operator+=", "operator/="]}]}
{"id": "C67", "title": "Registering tests in the main file", "statement": "Adding tests to a suite changes nothing in the main file but puts the tests which are not in the suite yet into the statement which defines it, or adds a statement with all of them before the call of runner.execute if the suite is not mentioned; afterwards every test is in the suite, exactly those missing before have been added, and a second call changes nothing; if there is no suitable place an exception is thrown.", "quantifier": "every text of the main file, name of a suite, indentation and list of tests", "why_tests_cant": "The tests use a handful of generated main files; the places where a name may be mentioned, the lengths of the names and the layout of the statements are unbounded.", "anchors": [{"file": "Source/sequoia/TestFramework/FileEditors.cpp", "symbols": ["add_to_suite"]}]}
{"id": "C68", "title": "Registering source files in a CMake list", "statement": "Adding a file to the list between an opening and a closing pattern keeps everything outside the list and all entries in it, puts the entries and the new one in alphabetical order on lines of their own, and throws if there is no such list; the list stays closed, and a file which is there already is not added again.", "quantifier": "every text of the CMake file, opening and closing pattern and entry", "why_tests_cant": "The tests use a few generated files with short lists; layouts edited by hand are unbounded.", "anchors": [{"file": "Source/sequoia/TestFramework/FileEditors.cpp", "symbols": ["add_to_cmake"]}, {"file": "Source/sequoia/TestFramework/TestCreator.cpp", "symbols": ["nascent_test_base::create_file", "nascent_test_base::set_cpp"]}]}
{"id": "C69", "title": "Checks for equality of values", "statement": "A check of two values reports a failure exactly if it returns false; a check for equality reports something exactly if the values differ, however the types are nested, provided the operators and testers of the client's own types are right, and it reports only places at which the values do differ.", "quantifier": "every type built from classes, ranges, tuples, variants, optionals and pointers, every collection of operators and testers, and all pairs of values", "why_tests_cant": "The tests try a number of types and values; nestings of types and combinations of operators and testers are unbounded.", "anchors": [{"file": "Source/sequoia/TestFramework/FreeCheckers.hpp", "symbols": ["check", "general_equivalence_check", "binary_comparison"]}, {"file": "Source/sequoia/TestFramework/ConcreteTypeCheckers.hpp", "symbols": ["value_tester"]}]}
{"id": "C70", "title": "Checks for equivalence and best available checks", "statement": "Whatever the tag of a check, values which are the same pass; the best available check is never weaker than one for equality where there is one; a check accepted by the constraints compiles, and the best available check always finds a branch; ranges of different types are equivalent if their elements are, and a std::any is equivalent to a value if it holds an equivalent one of the same type.", "quantifier": "every type built from classes, ranges, tuples, variants, optionals and pointers, every collection of operators and testers, and all pairs of values", "why_tests_cant": "Whether a combination of types and operators is accepted, compiles and compares what it should depends on the nesting of the types, which is unbounded.", "anchors": [{"file": "Source/sequoia/TestFramework/FreeCheckers.hpp", "symbols": ["check", "supports_best_available_check", "supports_generalized_equivalence_check", "supports_simple_equality_check"]}, {"file": "Source/sequoia/TestFramework/ConcreteTypeCheckers.hpp", "symbols": ["value_tester"]}]}
{"id": "C71", "title": "Comparison of strings", "statement": "Two strings pass the check exactly if they are equal; otherwise the report names the characters at the first difference, its line or its position on the first line, and shows both strings around it, with dots exactly where something is left out.", "quantifier": "all pairs of strings", "why_tests_cant": "Strings are unbounded, and what is shown depends on where line breaks lie relative to the first difference.", "anchors": [{"file": "Source/sequoia/TestFramework/ConcreteTypeCheckers.hpp", "symbols": ["value_tester", "build_preliminary_message", "make"]}]}
{"id": "C72", "title": "Comparison of files and folders", "statement": "Two paths pass the check exactly if the files and folders below are the same, but for excluded files and what the expressions in supplementary files match; otherwise the failures are exactly the differences at the places which are compared. After a successful update of predictions the check passes.", "quantifier": "all trees of files and folders, all supplementary expressions and both kinds of equivalence", "why_tests_cant": "There are unboundedly many trees of folders; the tests compare a few of them.", "anchors": [{"file": "Source/sequoia/TestFramework/ConcreteTypeCheckers.hpp", "symbols": ["check_path", "check_directory", "check_file", "string_based_file_comparer", "excluded_files", "excluded_extensions"]}, {"file": "Source/sequoia/TestFramework/FileEditors.cpp", "symbols": ["get_reduced_file_content"]}, {"file": "Source/sequoia/TestFramework/MaterialsUpdater.cpp", "symbols": ["soft_update"]}]}
{"id": "C73", "title": "Checks of regular semantics", "statement": "The check of regular semantics passes for two different objects of a type with value semantics about which the truth is told; for a type whose operations depend on values only, it passes for all pairs of different values exactly if copies, assignments, moves, swaps and serialization are right, the predictions for objects moved from hold, and the mutator changes every value. Failures name an operation which is wrong. The operators are checked exactly as documented.", "quantifier": "all types with such operations, given as arbitrary functions on a world of objects, all pairs of values, all predictions and mutators", "why_tests_cant": "The tests of the framework try a few broken types; the claim is about all of them.", "anchors": [{"file": "Source/sequoia/TestFramework/RegularCheckersDetails.hpp", "symbols": ["check_semantics", "check_copy_assign"]}, {"file": "Source/sequoia/TestFramework/RegularCheckers.hpp", "symbols": ["check_semantics"]}, {"file": "Source/sequoia/TestFramework/SemanticsCheckersDetails.hpp", "symbols": ["check_prerequisites", "check_orderable_prerequisites", "check_ordering_consistency", "check_equality_prerequisites", "do_check_move_construction", "do_check_move_assign", "do_check_swap", "do_check_serialization"]}]}
{"id": "C74", "title": "Checks of move-only semantics", "statement": "The check of move-only semantics passes for two different objects of a type with value semantics and true clones; for a type whose operations depend on values only, it passes for all pairs of different values exactly if moves, move assignments, swaps and serialization are right and the predictions for objects moved from hold. The value returned says whether there was a failure.", "quantifier": "all types with such operations, all pairs of values, clones of the same or of another type, all predictions", "why_tests_cant": "The tests of the framework try a few broken types; the claim is about all of them.", "anchors": [{"file": "Source/sequoia/TestFramework/MoveOnlyCheckersDetails.hpp", "symbols": ["check_semantics"]}, {"file": "Source/sequoia/TestFramework/MoveOnlyCheckers.hpp", "symbols": ["check_semantics"]}, {"file": "Source/sequoia/TestFramework/SemanticsCheckersDetails.hpp", "symbols": ["check_prerequisites", "do_check_move_construction", "do_check_move_assign", "do_check_swap", "do_check_serialization"]}]}
{"id": "C75", "title": "Checks of allocations of regular containers", "statement": "The check of regular semantics of a container with allocators which count reports exactly the events (copies, assignments, moves, move assignments, mutations, swaps, writing, construction with allocators) for which the number of allocations is not the one predicted, so it passes exactly if all predictions used are right; comparisons of an object with itself must not allocate; what is made by functions is checked first; without allocators exactly the checks of values are left.", "quantifier": "all containers with value semantics whose operations allocate any numbers of times depending on the values, any number of allocators with any propagation traits (not always equal), all pairs of different values with allocators of their own, all predictions", "why_tests_cant": "The tests of the framework use a few containers, allocators and predictions; the claim is about all numbers of allocations and all combinations of traits.", "anchors": [{"file": "Source/sequoia/TestFramework/RegularAllocationCheckersDetails.hpp", "symbols": ["regular_allocation_actions", "check_para_constructor_allocations", "check_semantics"]}, {"file": "Source/sequoia/TestFramework/AllocationCheckersDetails.hpp", "symbols": ["check_allocation", "allocation_checker", "dual_allocation_checker", "allocation_actions", "do_swap", "check_init_allocations"]}, {"file": "Source/sequoia/TestFramework/RegularCheckersDetails.hpp", "symbols": ["check_semantics"]}, {"file": "Source/sequoia/TestFramework/RegularAllocationCheckers.hpp", "symbols": ["basic_allocation_predictions"]}]}
{"id": "C76", "title": "Checks of allocations of move-only containers", "statement": "The check of move-only semantics of a container with allocators which count reports exactly the events (moves with new allocators, moves, swaps, move assignments, mutations, writing) for which the number of allocations is not the one predicted; what is made by functions is checked first; without allocators exactly the checks of values are left. The prediction about moving y is to be used for y.", "quantifier": "all move-only containers with value semantics whose operations allocate any numbers of times depending on the values, any number of allocators with any propagation traits (not always equal), all pairs of different values with clones, all predictions", "why_tests_cant": "The tests of the framework use a few containers, allocators and predictions; the claim is about all numbers of allocations and all combinations of traits.", "anchors": [{"file": "Source/sequoia/TestFramework/MoveOnlyAllocationCheckersDetails.hpp", "symbols": ["check_swap", "check_para_constructor_allocations", "check_semantics"]}, {"file": "Source/sequoia/TestFramework/AllocationCheckersDetails.hpp", "symbols": ["check_move_y_allocation", "allocation_actions", "check_init_allocations"]}, {"file": "Source/sequoia/TestFramework/MoveOnlyCheckersDetails.hpp", "symbols": ["check_semantics"]}, {"file": "Source/sequoia/TestFramework/MoveOnlyAllocationCheckers.hpp", "symbols": ["basic_move_only_allocation_predictions"]}]}
{"id": "C77", "title": "Shifts of predictions of allocations", "statement": "A prediction is right exactly if the number of allocations is the shifted one; a failure shows both numbers without the shift. Predictions are shifted in debug builds only, and shifting twice is shifting once. Predictions of containers of values which are right for release builds are right after the shift for debug builds, in which a container allocates once more whenever one is made or takes over an allocator.", "quantifier": "all predictions, counts, containers and values", "why_tests_cant": "The debug build in question exists for one compiler only; numbers and traits are unbounded.", "anchors": [{"file": "Source/sequoia/TestFramework/AllocationCheckers.hpp", "symbols": ["increment_msvc_debug_count", "alloc_prediction_shifter", "allocation_info"]}, {"file": "Source/sequoia/TestFramework/AllocationCheckersCore.hpp", "symbols": ["alloc_prediction"]}, {"file": "Source/sequoia/TestFramework/AllocationCheckersDetails.hpp", "symbols": ["check_allocation"]}, {"file": "Source/sequoia/TestFramework/RegularAllocationCheckers.hpp", "symbols": ["shift"]}]}
{"id": "C78", "title": "Checks of relative performance", "statement": "With arguments which make sense a check runs, in attempt j, the fast and the slow task j times the number of trials each, pairwise in random order; it stops after the first attempt with the result hoped for (failure for false negatives) or the last one allowed, returns the verdict of this attempt and sends the logger one performance check and a failure exactly if the verdict is negative. The verdict depends on mean and deviation of the times without the least and the greatest: it is positive exactly if the times are apart by a deviation of each and some speed-up in the range explains them up to the number of deviations. Other arguments throw before anything is run. calibrate gives a duration not less than the one aimed at.", "quantifier": "all clocks, random numbers and tasks (times may depend on everything run before), all arguments, all modes", "why_tests_cant": "Times cannot be controlled by tests, and the number of courses is unbounded; boundaries of the intervals are never met.", "anchors": [{"file": "Source/sequoia/TestFramework/PerformanceTestCore.hpp", "symbols": ["check_relative_performance", "performance_extender", "calibrate", "profile"]}]}
{"id": "C79", "title": "Comparison of the output of performance tests", "statement": "The output of a performance test is replaced by earlier output if both differ in measurements only, and only then: if predictions (number of deviations, range of speed-ups) or other lines differ the new output is kept. The comparison always ends; without an earlier file the new output is used, and a file which cannot be read throws.", "quantifier": "all texts, all checks, all measurements", "why_tests_cant": "Texts are unbounded and the loop goes on after each line accepted.", "anchors": [{"file": "Source/sequoia/TestFramework/PerformanceTestCore.cpp", "symbols": ["postprocess"]}, {"file": "Source/sequoia/TestFramework/PerformanceTestCore.hpp", "symbols": ["basic_performance_test"]}]}
{"id": "C80", "title": "Reading template parameters", "statement": "Of a name with template parameters, those between the first opening and the last closing bracket are read: each is split at its last blanks into what it is and its name, dots standing apart belonging to the former. A parameter with one word only, and a bracket without its counterpart, throw. What is written for a list of parameters is read as the same list again.", "quantifier": "all texts; any number of parameters, words of any length, any number of blanks and dots", "why_tests_cant": "Names and numbers of parameters are unbounded, and the positions of blanks and dots interact.", "anchors": [{"file": "Source/sequoia/TestFramework/TestCreator.cpp", "symbols": ["generate_template_spec", "generate_template_data", "to_string"]}]}
{"id": "C81", "title": "Parameters of testers for equivalence", "statement": "handle_as_ref says false exactly for pointers, references, sizes and types the first word of which is a fundamental type, and throws for a blank text. The parameters written for the types a class is equivalent to are the types in order, each constant, with & exactly if handle_as_ref says so, numbered if there are several, and separated by commas.", "quantifier": "all lists of types", "why_tests_cant": "The number of types and their texts are unbounded.", "anchors": [{"file": "Source/sequoia/TestFramework/TestCreator.cpp", "symbols": ["handle_as_ref", "nascent_semantics_test::transform_file"]}]}
{"id": "C82", "title": "Names of new tests", "statement": "A qualified name with or without a namespace and with or without template parameters is taken apart into the namespace, the name, the parameters, and the qualified name with the names of the parameters as arguments, expanded if they are packs. The class registered for a behavioural test is made of its forename and surname and gets its words with capitals as title.", "quantifier": "all namespaces, names and lists of parameters", "why_tests_cant": "Names and parameters are unbounded.", "anchors": [{"file": "Source/sequoia/TestFramework/TestCreator.cpp", "symbols": ["nascent_semantics_test::finalize", "nascent_behavioural_test::constructors"]}]}
{"id": "C83", "title": "Files of new tests", "statement": "The text of each file made for a test is that of its template with the copyright set and all placeholders replaced at the same time, the parts for other kinds of types and unused testers left out; nothing which has been put in is changed afterwards, and no placeholder is left. The classes registered in the suite are declared by the header and implemented by the source file made.", "quantifier": "all names, headers, holders of copyrights, template parameters, types and indentations in which the characters of placeholders do not occur; all templates in aux_files/TestTemplates", "why_tests_cant": "The replacements are done one after the other on a text which already contains what the user has given, and these texts are unbounded.", "anchors": [{"file": "Source/sequoia/TestFramework/TestCreator.cpp", "symbols": ["nascent_test_base::make_common_replacements", "nascent_semantics_test::transform_file", "nascent_allocation_test::transform_file", "nascent_behavioural_test::transform_file", "nascent_behavioural_test::constructors"]}, {"file": "aux_files/TestTemplates/MyBehaviouralDiagnostics.hpp", "symbols": ["class"]}]}
{"id": "C84", "title": "New headers and sources", "statement": "The text of a new header or source is that of its template with the copyright set, the name and the template parameters put in and the namespace added, or, without a namespace, its lines left out and the rest moved one tab to the left. Setting the copyright replaces the field between the slashes around the first mention of a copyright by the new text, centred, and nothing else; it throws if there is no such field. The name of a project is put in place of the placeholders.", "quantifier": "all names, namespaces, template parameters, holders, years and texts", "why_tests_cant": "Texts are unbounded and replaced one after the other.", "anchors": [{"file": "Source/sequoia/TestFramework/TestCreator.cpp", "symbols": ["process_namespace", "nascent_semantics_test::set_header_text", "nascent_test_base::set_cpp", "nascent_behavioural_test::when_header_absent"]}, {"file": "Source/sequoia/TestFramework/TestRunnerUtilities.cpp", "symbols": ["set_top_copyright"]}, {"file": "Source/sequoia/TestFramework/ProjectCreator.cpp", "symbols": ["set_proj_name"]}]}
{"id": "C85", "title": "Durations in summaries", "statement": "A duration is shown in the largest of nanoseconds, microseconds, milliseconds and seconds which does not exceed it, with at most three digits; the number shown is a closest one with three significant digits, in spite of the two roundings to floating-point numbers on the way; an exponent is shown from 999.5 units on only.", "quantifier": "all durations up to 2^52 nanoseconds", "why_tests_cant": "There are far too many durations, and the critical ones are those at the borders between units and numbers of digits.", "anchors": [{"file": "Source/sequoia/TestFramework/Summary.cpp", "symbols": ["to_string", "stringify"]}]}
{"id": "C86", "title": "Texts of summaries", "statement": "The text of a summary consists of the name with its suffix and, if wanted, the times, all indented; one line for each kind of checks of which there are some (or for all kinds if wanted) with the numbers of checks and failures in columns just wide enough; the number of critical failures if there are any; and the messages if wanted. A failure always has its line.", "quantifier": "all summaries, levels of detail, suffixes and indentations", "why_tests_cant": "Numbers, names and messages are unbounded; widths of columns depend on all of the numbers.", "anchors": [{"file": "Source/sequoia/TestFramework/Summary.cpp", "symbols": ["summarize", "report_time"]}, {"file": "Source/sequoia/TestFramework/Summary.hpp", "symbols": ["pad_left", "pad_right", "summary_detail"]}]}
{"id": "C87", "title": "Copy assignment of types with allocators", "statement": "assignment_helper::assign gives the target the elements of the source, and the allocator of the source for each container exactly if that propagates on copy assignment; if memory runs out, it throws and leaves the target as it was; containers are never swapped with unequal allocators that do not propagate; it compiles exactly if what propagates is alike for all of the allocators. Graphs with node weights likewise.", "quantifier": "all allocator types (any combination of the propagation traits, is_always_equal, select_on_container_copy_construction), any number of containers, all contents and points of failure", "why_tests_cant": "The tests instantiate a few combinations of traits and let no allocation fail.", "anchors": [{"file": "Source/sequoia/Core/ContainerUtilities/AssignmentUtilities.hpp", "symbols": ["assignment_helper"]}, {"file": "Source/sequoia/Core/DataStructures/PartitionedData.hpp", "symbols": ["bucketed_sequence", "partitioned_sequence_base"]}, {"file": "Source/sequoia/Maths/Graph/NodeStorage.hpp", "symbols": ["node_storage"]}]}
{"id": "C88", "title": "Copies of graphs with shared edge weights", "statement": "The copy of a graph whose edges share their weights has the same nodes and edges in the same order, with the same complementary indices; its weights are new objects with the same values, and two edges share a weight in the copy exactly if they do in the original; so changes of the one never show in the other.", "quantifier": "all graphs, whatever the sharing for undirected ones; all embedded graphs", "why_tests_cant": "The sharing of weights is a relation between all edges of a graph of any size, and does not show in comparisons.", "anchors": [{"file": "Source/sequoia/Maths/Graph/Connectivity.hpp", "symbols": ["copy_edges", "edge_maker"]}, {"file": "Source/sequoia/Maths/Graph/Edge.hpp", "symbols": ["weighting"]}]}
{"id": "C89", "title": "Tidying of the names of types", "statement": "The tidied name of a type does not depend on the compiler: casts in front of enumerators, suffixes of numbers, keywords and version namespaces are removed, floating-point numbers given by their bits are converted, and dynamic extents become -1; nothing else is changed, and the function returns for every name.", "quantifier": "all names; for casts all arrangements of brackets; for numbers any number of them", "why_tests_cant": "Names are texts of any length and nesting, and several passes over them depend on one another; undefined behaviour need not show.", "anchors": [{"file": "Source/sequoia/TestFramework/Output.cpp", "symbols": ["tidy_name", "remove_enum_spec", "process_literals", "process_spans", "process_array_iterators", "peel"]}, {"file": "Source/sequoia/TestFramework/Output.hpp", "symbols": ["tidy_name"]}]}
{"id": "C90", "title": "Commands for the shell", "statement": "The shell reads a composed command as the commands it was made of: && is associative with the empty command neutral; a file given for output receives both outputs of the command without any word being changed; with a preamble, the file has, apart from its former content in case of appending, everything which is written, in order; the commands for the build system name the preset of the build.", "quantifier": "all commands within a part of the POSIX shell language, all plain words and file names, both modes", "why_tests_cant": "The tests compare texts with expected texts; whether the shell reads them as meant depends on all possible words around the operators.", "anchors": [{"file": "Source/sequoia/Runtime/ShellCommands.hpp", "symbols": ["shell_command", "operator&&"]}, {"file": "Source/sequoia/Runtime/ShellCommands.cpp", "symbols": ["shell_command", "cd_cmd"]}, {"file": "Source/sequoia/TestFramework/Commands.cpp", "symbols": ["cmake_cmd", "build_cmd", "build_and_run_cmd"]}]}
{"id": "C91", "title": "Compilers agree about the names of types", "statement": "The tidied name of a type is the same whichever of gcc, clang and MSVC compiled the code, although they write types, numbers and truth values differently.", "quantifier": "all types made of templates nested to any depth with any number of types, numbers and truth values as arguments", "why_tests_cant": "The expectations of tests about messages have to be the same for all compilers; a test sees a handful of types and one compiler at a time.", "anchors": [{"file": "Source/sequoia/TestFramework/Output.cpp", "symbols": ["tidy_name", "process_literals", "peel"]}]}
{"id": "C92", "title": "Tests find their materials", "statement": "After tests have been registered, the working copy of each test holds just what its original materials hold, the auxiliary materials are provided likewise, and nothing else on disk has been changed; this is so again after the materials have been reset.", "quantifier": "all disks, all numbers of tests and all folders of materials", "why_tests_cant": "Whether materials get lost depends on the folders of all the other tests of a project and on the order of registration.", "anchors": [{"file": "Source/sequoia/TestFramework/TestRunner.cpp", "symbols": ["set_materials", "reset_tests"]}, {"file": "Source/sequoia/TestFramework/IndividualTestPaths.cpp", "symbols": ["individual_materials_paths"]}, {"file": "Source/sequoia/TestFramework/TestRunner.hpp", "symbols": ["extract_suite_tree"]}]}
{"id": "C93", "title": "Diagnostics are kept apart", "statement": "The names of files with diagnostics tell apart suites, sources, modes of tests and kinds of diagnostics. After a run each of them holds what its test said, except that tests with critical failures leave their files alone and nothing is created for tests with nothing to say; no other file is changed.", "quantifier": "all suites, sources, modes, platforms, and all lists of executed tests", "why_tests_cant": "Files are version controlled: a clash of names would only show for particular pairs of tests in one project.", "anchors": [{"file": "Source/sequoia/TestFramework/IndividualTestPaths.cpp", "symbols": ["versioned_diagnostics", "to_tag", "individual_diagnostics_paths"]}, {"file": "Source/sequoia/TestFramework/TestRunner.cpp", "symbols": ["versioned_write"]}, {"file": "Source/sequoia/TestFramework/TestRunner.hpp", "symbols": ["write_versioned_output"]}]}
{"id": "C94", "title": "Summaries and records of a run", "statement": "After a run a file for summaries holds the summaries of all tests to which it belongs, in order, and nothing of earlier runs; the tests executed and those failed are recorded exactly; the materials to be updated are those of the tests with soft failures, each working copy once. The file is the same whether the source is given relatively or absolutely.", "quantifier": "all disks, all lists of tests with any numbers of failures, all projects, sources and discriminators", "why_tests_cant": "It depends on sequences of tests sharing files, and on how the compiler spells the paths of sources.", "anchors": [{"file": "Source/sequoia/TestFramework/TestRunner.cpp", "symbols": ["process_test", "to_file", "test_tracker"]}, {"file": "Source/sequoia/TestFramework/IndividualTestPaths.cpp", "symbols": ["test_summary_filename"]}]}
{"id": "C95", "title": "Locations of a project", "statement": "The root of a project and CMake's cache are found from the path of the executable; paths are reported in the same way whether given relatively or absolutely; the files kept for pruning, including those for instability analysis, are different from one another.", "quantifier": "all paths of projects, executables and sources, all contents of folders and all numbers of instability analyses", "why_tests_cant": "Tests run in a few folders of the developer's machine; the layouts of other projects are not seen.", "anchors": [{"file": "Source/sequoia/TestFramework/ProjectPaths.cpp", "symbols": ["discoverable_paths", "get_cmake_cache", "prune_paths", "make_path"]}, {"file": "Source/sequoia/TestFramework/Output.cpp", "symbols": ["path_for_reporting"]}]}
{"id": "C96", "title": "The test runner does what the command line asks for", "statement": "For every line made of commands of the test runner, each followed by its arguments and by what belongs to it, the runner ends up as asked for: suites and files selected in their order, tests and projects to be created as described, repetitions, threads, pruning, updates and recovery as said last, with warnings about what is of no use. Senseless numbers and contradictions are rejected by exceptions.", "quantifier": "all lines: all sequences of commands, all spellings, all arguments, all numbers", "why_tests_cant": "Commands may be combined in unboundedly many ways, with any texts as arguments; tests cover a few dozen lines.", "anchors": [{"file": "Source/sequoia/TestFramework/TestRunner.cpp", "symbols": ["process_args", "check_argument_consistency", "nascent_test_data"]}, {"file": "Source/sequoia/TestFramework/TestRunner.hpp", "symbols": ["test_runner"]}]}
{"id": "C97", "title": "Sandboxed runs are run as asked for", "statement": "To locate instabilities in sandboxes, the runner makes one command per repetition; each of them, read by the shell, starts the program with arguments which make it the runner of the sandbox with that number, with the same repetitions, threads and selection.", "quantifier": "all command lines, all selections, all numbers of repetitions and threads", "why_tests_cant": "The commands are texts which are parsed twice, by the shell and by the program started; tests try only some names of suites and numbers.", "anchors": [{"file": "Source/sequoia/TestFramework/TestRunner.cpp", "symbols": ["execute", "to_async_option"]}]}
{"id": "C98", "title": "Selecting a file selects its tests", "statement": "Selecting a file, by an absolute path, by a path through the test repository, or by the last part of its path, selects the tests of that file and no others, however the compiler gives the paths of sources; what pruning finds is run.", "quantifier": "all repositories, all trees of files in any order, all selections and all sources", "why_tests_cant": "The outcome depends on names of folders around the project, on files of the same name elsewhere and on the order in which the file system lists them.", "anchors": [{"file": "Source/sequoia/TestFramework/TestRunner.cpp", "symbols": ["path_equivalence"]}, {"file": "Source/sequoia/TestFramework/FileSystemUtilities.cpp", "symbols": ["find_in_tree", "rebase_from"]}, {"file": "Source/sequoia/FileSystem/FileSystem.hpp", "symbols": ["normal_path", "rfind"]}]}
{"id": "C99", "title": "Pruning never leaves out a test which may fail", "statement": "Over any sequence of runs, a pruned run leaves out only tests whose last execution passed and for which nothing on which they depend - the source file, files included directly or indirectly, source files belonging to those, materials - has changed since; the prune files written by one run can always be read by the next.", "quantifier": "all sequences of complete and pruned runs, all edits between them, all outcomes of tests", "why_tests_cant": "What is left out depends on the whole history of runs and edits, through files which each run rewrites.", "anchors": [{"file": "Source/sequoia/TestFramework/TestRunner.cpp", "symbols": ["run_tests", "do_prune", "test_tracker"]}, {"file": "Source/sequoia/TestFramework/DependencyAnalyzer.cpp", "symbols": ["tests_to_run", "update_prune_files"]}]}
{"id": "C100", "title": "Creation of projects", "statement": "A project is accepted if and only if its path is absolute and not in use, its name consists of letters, digits, underscores and dashes, and its indent of blanks and tabs; otherwise an error is reported and nothing is created for it. The project created consists of the files of the template, with the main function and the files for CMake adapted, the folder of sources named after the project, and a copy of sequoia, without its build and, of its output, only with diagnostics and summaries; what was there stays, and nothing changes elsewhere.", "quantifier": "all file systems, all projects, any number of them one after the other", "why_tests_cant": "Tests create a few projects with fixed names in fixed places.", "anchors": [{"file": "Source/sequoia/TestFramework/ProjectCreator.cpp", "symbols": ["init_projects", "copy_sequoia", "copy_sequoia_output", "is_appropriate_root", "generate_test_main", "generate_build_system_files", "make_new_build_paths"]}]}
{"id": "C101", "title": "Texts of new projects", "statement": "The main function of a new project is that of the template which is shipped, with the copyright at the top and in the arguments of the runner, the namespace of the project, and the indent of the project, also as it is told to the runner; the files for CMake are those of the template with the name of the project; apart from these replacements nothing is different. The projects which are created from the template contain these files.", "quantifier": "all years, holders, indents and names of projects; any number of projects", "why_tests_cant": "Tests compare the files of a few projects, with one holder, two indents and a few names.", "anchors": [{"file": "Source/sequoia/TestFramework/ProjectCreator.cpp", "symbols": ["generate_test_main", "generate_build_system_files", "set_proj_name"]}, {"file": "aux_files/ProjectTemplate/TestAll/TestAllMain.cpp", "symbols": ["main"]}]}
{"id": "C102", "title": "Arithmetic of physical quantities", "statement": "The product and the quotient of two physical values, where they are well-formed, are the product and quotient of the numbers; the dimension of the unit is the sum or difference of the dimensions; a result satisfies its validator, so that nothing is thrown. A number divided by a physical value throws if and only if the validator requires so. Expressions made of positive quantities, products and quotients never throw; their space, unit and value depend only on the powers of the quantities; in other units for the same quantities, the result is the same in these other units. The ratio of two quantities of the same kind is a number. Operators which are offered are well-formed.", "quantifier": "all spaces, units, validators, values, expressions of any size, and changes of units", "why_tests_cant": "Tests check a few products and quotients with up to three factors and fixed values; types are chosen by the compiler from infinitely many.", "anchors": [{"file": "Source/sequoia/Physics/PhysicalValues.hpp", "symbols": ["operator*", "operator/", "physical_value_product", "is_composable_with", "is_multipicable_with", "is_divisible_with", "has_consistent_validator"]}, {"file": "Source/sequoia/Physics/PhysicalValuesDetails.hpp", "symbols": ["reduce", "count_and_combine", "to_composite_space"]}]}
{"id": "C103", "title": "Sums of physical quantities", "statement": "An expression made of positive physical quantities, products, quotients and sums either does not compile, or has the value which arithmetic on the numbers gives, without throwing. If it compiles, it is dimensionally homogeneous: summands have the same dimensions, and the unit of the result has the dimensions of the expression. In other units for the same quantities, the result is the same in these other units. Two quantities of the same type can be added, as can those of different spaces with the same base space, giving a quantity in the base space; sums are commutative and associative, types included. Quantities with the same unit and base spaces can be added, and products distribute over sums.", "quantifier": "all spaces, base spaces, units, validators, values, expressions of any size, and changes of units", "why_tests_cant": "Tests add a few pairs of quantities; that no expression of whatever size adds quantities of different dimensions is a statement about all types the compiler may form.", "anchors": [{"file": "Source/sequoia/Physics/PhysicalValues.hpp", "symbols": ["operator+", "have_compatible_base_spaces_v", "has_base_space_v", "is_intrinsically_absolute", "composite_space"]}, {"file": "Source/sequoia/Maths/Geometry/Spaces.hpp", "symbols": ["operator+", "apply_to_each_element", "has_distinguished_origin"]}]}
{"id": "C104", "title": "Checks for exceptions", "statement": "check_exception_thrown returns true exactly if the function throws an exception of the class asked for, or of a class derived from it; then what the exception says is recorded, otherwise one failure is logged. It always counts as one check. If it returns true, no failure is logged. What is recorded of an exception does not depend on where the project is: files are mentioned as seen from the project, and nothing else changes.", "quantifier": "all class hierarchies, functions, nested checks, messages, locations of the project, and modes of tests", "why_tests_cant": "Tests throw a few exceptions, from one location of the project, with messages mentioning at most one file.", "anchors": [{"file": "Source/sequoia/TestFramework/FreeCheckers.hpp", "symbols": ["check_exception_thrown", "exception_message_extractor", "default_exception_message_postprocessor"]}, {"file": "Source/sequoia/TestFramework/TestLogger.cpp", "symbols": ["log_caught_exception_message", "log_failure", "sentinel_base::~sentinel_base"]}]}
{"id": "C105", "title": "Recovery and dump files", "statement": "With the option recover, the recovery file tells in which outermost check the program crashed: at any moment within a check it consists of the message of the outermost check and the critical failures in it so far; once the check is over, a final line says so. A file left by a previous run is removed. With the option dump, the dump lists the messages of all sentinels in the order in which they were entered. Writing the files changes nothing of what is logged, and a file whose option is not given is not touched.", "quantifier": "all sequences of tests with all trees of checks, messages, modes and contents of previous files, interrupted at any point at any depth", "why_tests_cant": "A test which crashes at every possible point would have to restart the program each time; the tests of the framework crash at a single point.", "anchors": [{"file": "Source/sequoia/TestFramework/TestLogger.cpp", "symbols": ["record_check_started", "record_check_ended", "recored_dump_started", "recored_dump_ended", "recored_critical_failure", "sentinel_base::sentinel_base", "sentinel_base::~sentinel_base"]}, {"file": "Source/sequoia/TestFramework/TestRunner.cpp", "symbols": ["make_active_recovery_paths"]}]}
{"id": "C106", "title": "Exceptions which leave a test", "statement": "An exception which leaves a test does not end the run: it is logged as one critical failure, after everything which was logged before it, and the earlier checks are counted as they would be without it. The message says what was thrown, and whether this happened before any check, during the last check, or after it, together with the message of this check.", "quantifier": "all tests (any checks with any trees of events and messages, checks left by exceptions, exceptions in flight), all modes, all exceptions thrown at any point", "why_tests_cant": "Tests of the framework throw at one or two places, in tests of one mode, with a message for every check.", "anchors": [{"file": "Source/sequoia/TestFramework/TestRunner.hpp", "symbols": ["test_vessel::essence::execute"]}, {"file": "Source/sequoia/TestFramework/FreeTestCore.hpp", "symbols": ["basic_test::log_critical_failure"]}, {"file": "Source/sequoia/TestFramework/Output.cpp", "symbols": ["exception_message"]}, {"file": "Source/sequoia/TestFramework/TestLogger.cpp", "symbols": ["test_logger_base::decrement_depth", "sentinel_base::~sentinel_base"]}]}
{"id": "C107", "title": "Comparison of floating point numbers within a tolerance", "statement": "within_tolerance is symmetric and monotone in the tolerance, refuses NaN, and accepts finite numbers if and only if the distance of the numbers they stand for is at most the tolerance, up to the rounding of the difference.", "quantifier": "all floating point formats (any precision and range), all tolerances and all numbers, infinities and NaN included", "why_tests_cant": "The numbers for which a difference rounds down onto the tolerance are few among 2^128 pairs; tests compare numbers such as 0.5 and 0.6.", "anchors": [{"file": "Source/sequoia/TestFramework/BinaryRelationships.hpp", "symbols": ["within_tolerance::operator()"]}]}
{"id": "C108", "title": "Inner products and norms of floating point vectors", "statement": "The inner product of euclidean vector spaces is symmetric, changes its sign with either vector, and is exact for integers of moderate size; otherwise its error is bounded in terms of the dimension, the precision and the sum of the absolute values of the products. The norm is never negative, does not change with the sign of a vector, is NaN only if a coordinate is, and is the square root of the inner product up to one rounding; norms obey the inequality of Cauchy and Schwarz and the triangle inequality, and are zero for zero only.", "quantifier": "all floating point formats, all dimensions, all vectors, infinities and NaN included", "why_tests_cant": "Tests use a handful of vectors of one or two dimensions, such as (3, 4), for which nothing is rounded.", "anchors": [{"file": "Source/sequoia/Maths/Geometry/Spaces.hpp", "symbols": ["euclidean_vector_space", "inner_product", "dot", "norm"]}]}
{"id": "C109", "title": "Values for which advice is given", "statement": "An advisor with one function is used for values of a type exactly if they convert to the type of its parameters without narrowing, and it sees the values which were compared.", "quantifier": "all pairs of arithmetic types, all values, all platforms (any widths in the order of the ranks, char signed or not)", "why_tests_cant": "Tests have advisors for two or three types; whether a conversion narrows depends on the platform, and whether it matters on the value.", "anchors": [{"file": "Source/sequoia/TestFramework/Advice.hpp", "symbols": ["advisor_analyser", "use_advisor_v", "tutor::operator()", "advice_data"]}, {"file": "Source/sequoia/TestFramework/SemanticsCheckersDetails.hpp", "symbols": ["check_orderable_prerequisites"]}]}
{"id": "C110", "title": "Texts of failed comparisons", "statement": "A comparison which holds logs a check only; one which does not logs a failure, whose text says what was obtained, which relation was predicted and to what, followed by advice on a line of its own if there is any. Different failures have different texts.", "quantifier": "all comparisons (equality, the four relations, tolerances), all texts of values, all advice", "why_tests_cant": "Tests fix the texts for a handful of numbers and one-line strings.", "anchors": [{"file": "Source/sequoia/TestFramework/BinaryRelationships.hpp", "symbols": ["failure_reporter", "relational_failure_message"]}, {"file": "Source/sequoia/TestFramework/Advice.cpp", "symbols": ["advice_data::append_to", "append_advice"]}, {"file": "Source/sequoia/TestFramework/FreeCheckers.hpp", "symbols": ["binary_comparison"]}, {"file": "Source/sequoia/TestFramework/Output.cpp", "symbols": ["default_prediction_message", "operator_message"]}]}
{"id": "C111", "title": "Statistics of floating point numbers", "statement": "The statistics of floating point data are missing exactly for too few data; those of finite data are never NaN, and variances and deviations are never negative. The mean differs from that of real numbers by an error which is bounded in terms of the number of data, the precision and the mean of the absolute values, and so does the sum of the squares of the differences from it, from which variances and deviations follow with one rounding for each operation; means and variances of integers of moderate size that are integers are exact. The mean lies between the data, the variance of equal data is zero and that of different data is not, the order of the data is irrelevant and adding a number to all data does not change the variance.", "quantifier": "all floating point formats, all finite data sets with fewer than 2^precision data", "why_tests_cant": "Tests use a handful of data such as 1.0, 4.0, 6.0; errors and overflow depend on all data and their number.", "anchors": [{"file": "Source/sequoia/Maths/Statistics/StatisticalAlgorithms.hpp", "symbols": ["mean", "cummulative_square_diffs", "variance", "sample_variance", "standard_deviation", "sample_standard_deviation", "gaussian_approx_estimator"]}]}
{"id": "C112", "title": "Conversions of units in floating point", "statement": "Conversions between units by positive ratios keep the order of floating point values; those with ratio one and displacement zero change nothing, and the error of the others is bounded by that of the four roundings. A value which is valid in one unit is converted to a valid one, so that nothing is thrown; converting a value and converting it back gives the same value.", "quantifier": "all floating point formats of the values and of the displacement, all ratios of integers which fit, all displacements, all chains of units, all values", "why_tests_cant": "Tests convert a few temperatures, such as 0 K, in one direction; whether bounds are respected depends on the last bits.", "anchors": [{"file": "Source/sequoia/Physics/PhysicalValues.hpp", "symbols": ["coordinate_transformation", "synthesised_validator", "root_transform", "celsius_t", "farenheight_t"]}, {"file": "Source/sequoia/Maths/Geometry/Spaces.hpp", "symbols": ["interval_validator", "half_line_validator"]}]}
{"id": "C113", "title": "Addition of test suites", "statement": "add_test_suite refuses suites with two tests of the same name and source file, naming the first test which repeats another one, leaves the runner as it was, and lets nothing run; all others are accepted whichever tests are selected. Hence no two tests which are run have the same suite, name and source file.", "quantifier": "all sequences of calls, all names, all source files however they are written, all selections", "why_tests_cant": "Tests try one duplicate in one suite; tests in several suites, in suites of suites, and other spellings of paths are not tried.", "anchors": [{"file": "Source/sequoia/TestFramework/TestRunner.hpp", "symbols": ["add_test_suite", "check_for_duplicates", "extract_suite_tree"]}, {"file": "Source/sequoia/TestFramework/TestRunner.cpp", "symbols": ["duplication_message"]}]}
{"id": "C114", "title": "Prune files after repeated runs", "statement": "After repetitions in processes of their own or in a common one, precisely the tests which failed in some repetition, and those which failed before and were not executed in all of them, are recorded as failing; the time stamp is set only if everything is up to date. Repetitions which crash do not make failures disappear.", "quantifier": "all repositories, all histories before, all numbers and results of repetitions, all crashes, with and without pruning", "why_tests_cant": "Tests try a few repetitions with a fixed flaky test; crashing repetitions of selections and what the next pruned run makes of them are not tried.", "anchors": [{"file": "Source/sequoia/TestFramework/DependencyAnalyzer.cpp", "symbols": ["update_prune_files", "aggregate_instability_analysis_prune_files", "update_prune_stamp_on_disk", "setup_instability_analysis_prune_folder"]}, {"file": "Source/sequoia/TestFramework/TestRunner.cpp", "symbols": ["update_prune_info", "execute"]}]}
{"id": "C115", "title": "Headers and folders of nascent tests", "statement": "The header of a test to be created is the file of the source repository the path of which ends as given, or with another header extension; otherwise it is generated in the project or an exception names all files looked for. The test is put into the folder of tests corresponding to that of its header, and a generated header is found the next time.", "quantifier": "all trees of source files, all names of headers, all folders of the project, of tests and of headers", "why_tests_cant": "Tests create a few tests in one project; the same name in several folders, headers outside of the project, and paths overlapping that of the project are not tried.", "anchors": [{"file": "Source/sequoia/TestFramework/TestCreator.cpp", "symbols": ["build_source_path", "finalize", "finalize_header", "on_source_path_error", "when_header_absent"]}, {"file": "Source/sequoia/TestFramework/FileSystemUtilities.cpp", "symbols": ["find_in_tree", "rebase_from"]}]}
{"id": "C116", "title": "Creation of tests in a project", "statement": "Creating a test never changes files of tests which exist; it makes the files asked for from the templates, includes new headers except those for utilities, lists new sources for each main file and adds the tests there. Doing it again changes nothing, and completes what was interrupted.", "quantifier": "all projects, folders, names, templates, lists of files, suites and tests, all failures on the way", "why_tests_cant": "Tests create a few tests once in a fixed project; repetition after an interruption and clashes of file names are not tried.", "anchors": [{"file": "Source/sequoia/TestFramework/TestCreator.cpp", "symbols": ["create_file", "finalize", "ammend_file"]}, {"file": "Source/sequoia/TestFramework/FileEditors.cpp", "symbols": ["add_include", "add_to_suite", "add_to_cmake"]}]}
{"id": "C117", "title": "Meta data of edges", "statement": "Each half of an edge keeps the meta data it was joined with, wherever the edge is inserted; setting or mutating the meta data of one half changes nothing else; erasing an edge, or a node, takes away the meta data of the halves of edges erased and no others; when nodes are inserted or swapped, edges keep their meta data.", "quantifier": "all graphs, flavours, nodes, positions, weights and meta data", "why_tests_cant": "Graphs with meta data occur in a handful of tests with few edges; parallel edges without weights are not erased in them.", "anchors": [{"file": "Source/sequoia/Maths/Graph/Connectivity.hpp", "symbols": ["set_edge_meta_data", "mutate_edge_meta_data", "join", "insert_join", "erase_edge", "reciprocal_join", "insert_reciprocal_join"]}, {"file": "Source/sequoia/Maths/Graph/Edge.hpp", "symbols": ["decorated_partial_edge_base", "meta_data", "mutate_meta_data"]}]}
{"id": "C118", "title": "Differences of physical quantities", "statement": "The difference of two quantities of one type is a displacement of their space, and that of two quantities in different spaces with the same base is a displacement of the base space; its value is the difference of the values, without validation; exchanging the operands, or taking the opposite, changes the sign; magnitudes have no opposites; adding the difference back to the second quantity gives the first; the differences of three quantities add up.", "quantifier": "all spaces with base spaces and modules of displacements, values of all dimensions, units with and without a name", "why_tests_cant": "The tests subtract heights and widths, which are equal, and do nothing with the displacements.", "anchors": [{"file": "Source/sequoia/Physics/PhysicalValues.hpp", "symbols": ["operator-", "to_displacement_space", "have_compatible_base_spaces_v", "to_base_space", "associated_displacement_space"]}, {"file": "Source/sequoia/Maths/Geometry/Spaces.hpp", "symbols": ["operator-", "operator+", "free_module_type_of"]}]}
