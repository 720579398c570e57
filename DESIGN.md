# Design of the verification of sequoia

The code under study is `/repo/Source/sequoia` (C++23, header-mostly).  It is read
as text; it is neither built nor run.  The model is written in Gallina (Coq 8.16.1)
under `rocq/theories`, one directory per component.

## Layout

Each component directory contains

* `Model.v` - executable definitions only.  Every definition cites the file and
  lines of `/repo` it models and says where it simplifies.
* `Spec.v` - the (small) vocabulary in which the properties are stated.  It does not
  use the model's helper functions.
* `Proofs*.v` - lemmas.
* `Properties.v` - the property theorems, each closed by `exact <lemma>` and followed
  by `Print Assumptions`, and next to each an `Example` showing that a concrete,
  non-trivial case meets its hypotheses.

`Base/` holds general list lemmas and the outcome type.

## Conventions of the models

* Values of a template parameter type `T` are elements of an abstract `Type` with,
  where the code needs it, a comparison function passed as a section variable (and
  so universally quantified in the theorems).
* Containers (`std::vector`, `std::array`, `std::initializer_list`) are `list`s;
  iterators are indices.  An operation on `std::vector` whose precondition fails is
  undefined behaviour.
* Outcomes are explicit: `Ok a` (normal), `Throw e` (a C++ exception of kind `e`),
  `UB` (undefined behaviour: out-of-bounds access, dereferencing end, division by
  zero, ...) and, where recursion is on fuel, `Fuel` (out of fuel; a theorem that
  mentions the function excludes it or shows it does not happen).
* Machine integers are mathematical unless the property is about overflow; then the
  width is explicit (`N` with a bound or `mod 2^w`).
* Exceptions of user supplied operations (copying, assigning, comparing, allocating)
  are not modelled except in the component about exception safety, where an oracle
  decides at which step the failure happens.
* When the code violates the property, the property theorem is `..._refuted` with a
  concrete witness computed by `vm_compute`, and a positive theorem states the part
  which does hold, under an explicit extra hypothesis.

## Trusted base

* The Coq 8.16.1 kernel (including `vm_compute`), and the Coq standard library.
* No axioms of our own.  `Print Assumptions` is run under every property theorem;
  the answer is `Closed under the global context` for every one of them but those of
  C107, C108, C111 and C112 which speak of real numbers: these use the axioms of the standard
  library on which its real numbers rest (see the end of this file).
* Flocq is used in the proofs of C107, C108, C111 and C112 (roundings of real numbers); it brings
  no axioms beside those of the real numbers of the standard library.
* std++ (coq-stdpp) is used for lists and finite maps; it brings no axioms.
* The reading of the C++ source: that the definitions in `Model.v` do what the cited
  lines do.  Not modelled: the C++ type system and overload resolution, concepts and
  SFINAE, allocators and memory, object lifetimes, move semantics (a moved-from
  object is never observed), floating point other than in C107, C108, C111 and C112, compilers.
* The standard library components used by the code are trusted to do what the C++
  standard says (`vector::insert/erase`, `ranges::merge`, `ranges::rotate`,
  `swap_ranges`, `lower_bound`, `string::find`, `condition_variable`, ...).  They are
  modelled by their specification.

## Code modelled / not modelled

Paths are relative to `Source/sequoia`.  Modelled (directory of the model in brackets):

* `Algorithms/Algorithms.hpp` (Algo); `Core/DataStructures/StaticQueue, StaticStack, StaticPriorityQueue`,
  `Core/ContainerUtilities/ArrayUtilities` (StaticDS); `Core/DataStructures/PartitionedData` (PartSeq);
  `Core/Meta/*` as far as type lists, sequences and filters go (Meta); `Core/Logic/Bitmask` (Bitmask);
  `Core/Concurrency/ConcurrencyModels` (Pool); `Core/Object/Suite` (Suite), `Factory` (Factory).
* `Maths/Sequences/*` (Mono, Linear); `Maths/Algebra/Ratio` (Ratio); `Maths/Statistics/*` (Stats);
  `Maths/Graph/*`: connectivity, edges, node storage, primitive, trees, static graphs, algorithms, traversals (Graph),
  with the propagation of allocators in copy assignments (Propagation) and copies of graphs with shared weights (Graph).
* `Maths/Geometry/*`: spaces, coordinates (Coordinates); `Physics/*`: conversion of units (Units), products of units and of
  spaces (Products), products, quotients, sums and differences of physical values (Quantities).  Values are rationals or elements of an abstract field,
  but for inner products, norms, statistics, conversions of units and comparisons within a tolerance of floating point numbers (Floats).
* `TextProcessing/*` (Text); `Parsing/CommandLineArguments` (CommandLine); `Runtime/ShellCommands` (Shell).
* `TestFramework`: `DependencyAnalyzer` (Includes, Depend, Prune), `TestLogger`, `FailureInfo` and instability analysis (Log, Failure, Recovery, Uncaught),
  `MaterialsUpdater` (SoftUpdate), `FileEditors` (Edit), `StateTransitionUtilities` (Transition), `TestRunner`: scheduling (Runner),
  materials (Materials), files of a run (Outputs), commands and runs in a sandbox (Commands), selection by files (Select), runs one after the other
  with pruning (History); `TestCreator`, `ProjectCreator` as far as texts and folders go (Creator), and the files of new projects (Init),
  the checks: `FreeCheckers`, `ConcreteTypeCheckers` (Checks, TextCheck, PathCheck, Throws), `Advice`, `BinaryRelationships` (Advice), `SemanticsCheckersDetails`, `RegularCheckersDetails`,
  `MoveOnlyCheckersDetails` (Semantics), `AllocationCheckers*` (Allocation), `PerformanceTestCore` (Performance),
  `Summary` (Summary), `Output`: names of types (Names), `ProjectPaths`, `IndividualTestPaths` (Outputs).

Not modelled: actual I/O, errors of the file system and races in it; rounding of floating-point numbers, but in Floats; timing; the program
run by the shell; generation of random numbers; graphical output; `gcc`, `clang`, `MSVC` and `CMake` themselves.
Overload resolution and constraints are modelled only where the properties are about them (Products, Coordinates, Quantities, Checks).

## Properties

**C01 sort.**  Model: `Algo/Model.v`, arrays as lists with `get`/`swap` by index,
`bubble_up`, `bubble_down`, `make_heap`, `sort` transliterated.  Proof: heap invariant
"below index i all parent/child pairs are ordered except possibly at the cursor";
permutation by swaps; suffix-sorted invariant of the main loop.

**C02 stable_sort.**  Model: merge sort with an explicit buffer segment.  Spec:
sorted, permutation, and for every class of the equivalence the filtered sublist is
unchanged.  Proof: strong induction on the length.

**C03 cluster.**  Model: the two-cursor loop.  Spec: contiguity.  Proof: loop
invariant, then strong induction on the length.

**C04 heap operations.**  Lemmas of C01 stated on their own.

**C05 static_priority_queue.**  Model: array + end index + padding value.  Proof:
refinement to a multiset (permutation) plus the heap property; refutation for the
initializer-list constructor, whose `make_heap` covers the padding.

**C06 static_queue, C07 static_stack.**  Model: array + indices.  Proof: refinement to
a bounded list by induction over operations; equality is characterised through the
abstraction function.

**C08 monotonic_sequence.**  Model: list + operations returning outcomes.  Proof:
invariant; exactness of rejection via the locality of adjacency.

**C09-C11 partitioned containers.**  Model: `list (list T)` with the code's checks, and
flat list + cumulative offsets with the code's index arithmetic (including the
signed-distance and early-exit branches).  Spec: edits on a list of lists.  Proof:
abstraction function `offsets, data -> list of lists`, each operation commutes; then
over operation sequences; interchangeability is a corollary except where the two
deliberately differ (`insert_to_partition` beyond the end, `empty()`), which is stated
as a refutation.

**C12 static_partitioned_sequence.**  Model: `make_partitions`, `make_element`, with an
explicit maximum index.  Proof: by induction over the lists.

**C13, C14, C18, C24 graph invariants.**  Model: connectivity as a list of lists of
edges (target, weight, complementary index where embedded) with the code's per-edge
loops.  Proof: invariants preserved by each operation, lifted to operation sequences.

**C15, C16 renumbering.**  Spec: relabelling of an abstract graph.  Proof: pointwise.

**C17 construction.**  Model: preprocess + validate.  Proof: both directions.

**C19-C21 traversals.**  Model: loops with explicit frontier (queue, stack, priority
queue) emitting a trace of events; fuel with a proof that fuel `order + edges` is
enough.  Proof: invariant on discovered/processed/frontier.

**C22 node weights.**  Model: a pair of connectivity and weight list with the code's
order of operations and an oracle for failures.

**C23 exception safety.**  Model: operations as sequences of steps with an oracle
saying which assignment/allocation throws, and sentinels as in the code.

**C25, C26 trees.**  Model: `DynamicTree` operations on forward/backward/symmetric
trees.  Proof: prune removes the subtree under an index-order hypothesis; refutations
when nodes have been re-ordered, and for `insert_node`.

**C27 sub_graph.**  Model: fold of erase_node.  Proof: via C15.

**C28 static graphs.**  Model: index type selection with explicit widths + C12.

**C29 to_array.**  Model: with reads of the list as partial functions (`UB`).

**C30, C31 meta-programming.**  Model: type lists as lists, comparators as boolean
functions; template specialisations as pattern matching.

**C32 ratio.**  Model: over `Z` with explicit `intmax` bounds.

**C33-C35 text.**  Model: strings as lists of characters; `find` with positions; loops on fuel
where termination is not structural (non-termination is then a theorem).

**C36, C37 command line.**  Model: the recursive parser over an option forest with
mutable cursor, transliterated; operations as a list of trees.

**C38 thread pool.**  Model: labelled transition system with one program counter per
worker and for the client, the mutex/condition variable steps atomic as in the monitor
pattern.  Proof: inductive invariant for safety; deadlock freedom.  Fairness of
the scheduler is outside the model: termination is stated as "no reachable stuck state
and a decreasing measure".

**C39 suite.**  Model: rose trees.  **C40 factory.**  Model: sorted association list +
lower_bound.

**C41 statistics.**  Model over the rationals `Q`; floating point is not expressible.

**C42 dependency analysis.**  Model: include graph as adjacency lists, depth-first
post-order propagation as coded.  Proof: acyclic case; refutation on cycles.

**C43 prune files.**  Model: sorted lists with `set_union`/`set_difference` as the C++
standard defines them for multisets.

**C44, C45 logger.**  Model: event trees folded over the logger's state; counters as
`N` modulo 2^64 where subtractions occur.

**C46 soft_update.**  Model: directory trees as sorted association lists.

**C47 add_include, C54 get_includes.**  Model: text as characters.

**C48, C49 failure output.**  Model: line oriented writer/reader.

**C50 transitions.**  Corollary of C20.

**C51 bitmask.**  Model: `N` with a width; `N.testbit` extensionality.

**C52 runner.**  Model: heap sort with positional comparator on a list of nodes.

**C53 linear_sequence.**  Model over `Z`.

**C54-C58.**  Includes: a scanner on characters against a small grammar of lines.  Trees: initialisers as rose trees.
Delimiters: positions as indices.  `sort_nodes`: C01 applied to indices, graph isomorphism.  Traversal order: each kind of
traversal against its frontier discipline.

**C59-C63 units and spaces.**  Model: conversions as affine maps over `Q`; units and spaces as sorted lists of names with
exponents; ill-formed programs are a distinct outcome.  Proof: exactness by field arithmetic, canonical forms by induction.

**C64, C71, C85, C86, C89-C91 texts.**  Model: the functions on lists of characters.  Spec: what has to be readable from the
text.  Proof: invariants of the loops over positions; agreement of compilers by induction on the type named.

**C65, C66 coordinates.**  Model: points and displacements over an abstract commutative ring with a validator.

**C67, C68, C80-C84 generation of code.**  Model: edits of texts; Spec: what is added and that nothing else changes.

**C69, C70, C72 checks.**  Model: types of values as an inductive type, the dispatch of the checks on it.  Proof: a check
passes iff the values are equal, by induction on the type.

**C73-C77 semantics and allocations.**  Model: operations of the type under test as functions on states, correct or not.
Proof: soundness (a correct type passes) and completeness (a faulty operation is reported) or its refutation.

**C78, C79 performance.**  Model over rationals, comparisons as coded.

**C87, C88 copying.**  Model: allocators as identifiers with the propagation traits; heap of shared weights.

**C92-C95 files.**  Model: a disk as a finite map from paths (lists of names).  Proof: effects of every step on every path.

**C96, C97 commands of the test runner.**  Model: the forest of options with the effect of each on the state of the runner, on top
of the parser of C36.  Spec: what is asked for, how it is written, and the state it stands for.  Proof: the line is parsed into
the calls meant (C36_written), whose effects are folded over the line.

**C98 selection by files.**  Model: paths as lists of names, the tree as the list of its entries in the order of the iterator.

**C99 histories of runs.**  Model: one run as the composition of the models of C39, C42, C43 and C98, with the prune files as state.
Spec: dependence between files, without nodes; edits; the last execution of a test.  Proof: an invariant about what the prune files say.

**C100 creation of projects.**  Model: the file system of C92, with copying, renaming and removal.  Spec: what is acceptable, and
what is to be at every path of the new project.  Proof: every step is described by what is at every path after it.

**C101 texts of new projects.**  Spec: simultaneous replacement in the shipped texts, as for C84.  Proof: the searches are run once on
texts with unknowns (holder, year, indent, name), with the characters and words which do not occur in them; this is checked to
decide every comparison.

**C102 arithmetic of quantities.**  Model: the types of C61 and C62 with values, validators and the requirements of the operators.
Spec: powers of the quantities in an expression, and what a unit is in terms of others.  Proof: induction on expressions; a reduced
space or unit is determined by its exponents.

**C103 sums of quantities.**  Model: operator+ for operands of the same type and of different spaces; expressions with sums.
Plan: the type of a sum as a partial function of the types, shown commutative and associative; expressions by induction, with the
numbers, the dimensions and the homogeneity defined in the Spec on the expression alone.

**C104 checks for exceptions.**  Model: what is logged as an event of the model of C44; classes as a relation.  Proof: by the
theorems on the logger.

**C105 recovery and dump files.**  Model: the writes of the sentinels beside the logger of C44, the files shared by the tests of a run; a run
may be interrupted at any depth of any check.  Proof: by induction over the trees, the files are a fold over the sentinels entered and the
critical failures; the last line by comparing suffixes.

**C106 exceptions which leave a test.**  Model: the destructor of a sentinel split before `decrement_depth`, so that the message recorded there
is that of the model of C44; the number of exceptions in flight is given with every check.  Proof: the run equals that of a test with one more
check (C44), the place by cases.

**C107, C108 floating point.**  Model: binary formats with any number of bits, numbers and operations of `SpecFloat` of the standard library, each
operation rounding to nearest, ties to even (no contraction into fused operations, no excess precision; `std::sqrt` rounds correctly).
Symmetry, signs, NaN and infinities by cases on the representation, without real numbers.  The distance from what real numbers give: the
operations are those of Flocq, rounding is monotone and fixes the tolerance (C107), the lemma of Sterbenz; the inner product by induction on the
dimension with an error bound for an accumulator that is not zero (C108), integers by exactness of every partial sum.

**C109, C110 advice and texts of failed comparisons.**  Model: arithmetic types with ranks, widths and signedness given by the platform, promotions
and the usual arithmetic conversions of the C++ standard; texts through the model of `append_lines` (Text).  Narrowing is defined as in the
standard, by the integers which a type holds.  Proof: by cases on both types, with the powers of two in order; texts by their first newline.

**C111 statistics in floating point.**  Model: the statistics of `StatisticalAlgorithms.hpp` with the operations of C107; C41 is about an exact field.
Plan: signs without real numbers (rounding a number that is not negative gives no NaN); the divisor of the estimator is at least one half; the error
of the sum by induction on the data, for an accumulator that is not zero; the squares are the inner product of C108 of the rounded
differences, and their sum is least at the mean; integers by exactness of every step.

**C112 conversions of units in floating point.**  Model: the four roundings of a conversion, two formats (values; long double, that of the displacement),
the bounds of validators and the displacements of chains of units as the compiler computes them.  Plan: every operation is the rounding of a monotone
function of real numbers, with infinity for overflow, and keeps infinities; the bound of a unit is the conversion of zero, by commutativity of addition.

**C113 addition of suites.**  Model: the set of names and sources as a sorted list, the elements of a path from its text, one call after the other on
the tree of C52.  Spec: which texts denote the same path, by the ways to write it.  Plan: the key of a text is the only path it denotes; the set holds
the keys seen so far; induction on tests and on calls, with C52_suites for the tree.

**C114 repetitions.**  Model: the files of C43 once for the project and once for each repetition, with the one time stamp; repetitions may crash, in a
process of their own or in a common one.  Spec: what failed and was executed in a repetition.  Plan: the files of each repetition hold its failures,
and passes only for a selection; `aggregate` on these by the lemmas of C43; induction on the repetitions for the time stamp.

**C115 headers of nascent tests.**  Model: the search of C98 for a name and its other extensions, `fs::relative` of C98 for the folders, the text of the
exception.  Spec: names with their extension, the spellings tried.  Plan: the search as one over the list of spellings, by induction; folders by the
lemmas on relative and normal paths of C98.

**C116 creation of tests.**  Model: files, includes, main files and CMake lists as one state, edited by the functions of C47, C67, C68; exceptions keep what
has been done.  Spec: edits of a text one after the other for the chosen endings.  Plan: one file either exists or is written and registered; induction
on the endings, new files being those which did not exist in the beginning; repetition by C67_repeated_partial.

**C117 meta data of edges.**  Model: edges whose weights are pairs of a weight and meta data; joins, insertions and erasures with meta data beside those
without.  Spec: the lists of the meta data of each node, and the graph without them.  Plan: forgetting the meta data commutes with each operation of the
storage, hence with joins and erasures of edges and nodes, so C13–C16 apply; complementary indices are modified without touching meta data.

**C118 differences of physical quantities.**  Model: the candidates for operator- and for adding displacements, with the implicit conversion of L647-L668.
Spec: points, properly made spaces, the list of the differences.  Plan: which candidate is offered for points; the base space of a module of
displacements is the module of the base space; the rest is arithmetic of lists.  The unary operator- is in ModelNegate.v.

Not expressible at all: none of the above; timing, memory
allocation counts and actual file-system races are outside every statement.

## Findings

What follows is false of the code or surprising, each shown by a `..._refuted` theorem (or by the exact statement of the
theorem) of the property mentioned.

*Containers and algorithms.*
- C29: `to_array` reads past the end of a list which is too short.
- C05, C08: the padding takes part in heap construction and in the check for monotonicity of static containers.
- C11: the two partitioned containers differ in three operations.
- C12: with 257 partitions and an 8-bit index the search for a partition never ends.
- C30, C31: sorting and merging of types is not stable; faithful lists with a leading `type_list`; the union of one list keeps
  duplicates.
- C32: ratios overflow and lose canonical form.  C53: `linear_sequence` overflows.

*Graphs.*
- C23: the roll back of weights never runs; a second failure in `mutate_edge_weight`, or a functor with state, leaves the two
  halves of an edge different; a failed `insert_join` does not undo complementary indices.
- C24, C88: sharing of weights relies on the named return value optimisation; embedded graphs built from lists do not share.
- C19, C20: loops are reported twice as first, or twice as second, edge by the pseudo-depth-first traversal of embedded graphs.
- C25: `insert_node` resolves the parent after renumbering; `add_node` with parent = order makes a loop.
- C26: `prune` throws midway, deletes the whole tree, or recurses forever after nodes or edges have been swapped.
- C28: the index type of static graphs ignores the number of stored edges.
- C87: moves with pmr-like allocators may terminate the program; the extended copy constructor ignores the allocator given.

*Text.*
- C33: an empty pattern never returns; occurrences which touch are skipped by the delimited version; the recursive version may
  diverge.  C34: a doubled underscore leaves one; characters beyond ASCII are undefined behaviour.
- C35: an empty first text leaves the next one without indentation.
- C36, C37: the first character of concatenated aliases is ignored; they get no arguments; operations are left behind when a
  compound is given up; an empty forest of options accepts everything; nested `--help` may throw.
- C47, C54, C67, C68: `add_include` may delete, glue or duplicate text; several spellings of includes are missed; an entry is
  added again by a second call.
- C71: a string of two line breaks is marked as truncated.
- C89-C91: a third cast stays; a number alone in brackets and an unclosed bracket are undefined behaviour; templates with digits
  in the name keep suffixes; words containing "long" are changed.  C90: `-D` is glued to the preset; paths are not quoted.

*Test framework.*
- C38: tasks of one queue may start out of order; zero threads divide by zero or never run the tasks.
- C39: several selections which meet the same item: all but the first are reported as not found.
- C42: tests above cycles of includes are missed, also with headers which include their own header indirectly; names in two
  folders are confused; a removed material goes unnoticed.
- C43: a test executed twice with one failure ends in both files; paths with spaces are read as two.  The runner records
  paths as the compiler gives them against relative ones: tests which pass again stay among the failures.
- C44, C45: differences of summaries wrap around for two performance checks in one; messages of caught exceptions are lost.
- C46: reads past the end of a listing; a file in place of a folder throws.
- C48, C49: a line "$" breaks the round trip; names which differ in blanks overwrite each other.
- C69, C70: addresses of arrays are compared; pointees of raw pointers are; a tester for equivalence is preferred to `==`.
- C72: an empty path passes against any missing one; folders named like excluded files are skipped.
- C73, C74: `==` which is always true passes; two values may each be less than the other; changes by a faulty copy are unnoticed.
- C75-C77: allocations in self-assignment, self-swap and reading are unnoticed; a prediction about y is used for x.
- C78, C79: the documented condition is met by every passing check; lines after a line about a duration may change unnoticed.
- C80-C84: "unsigned long" is read as "long"; a comma behind the bracket is undefined behaviour; one template declares a class
  twice and the registered one never.
- C85, C86: from 999.5 units on "1e+03" is shown; a kind of checks with failures but no checks has no line.
- C92: materials below those of another test are deleted; sources which differ in the extension share a working copy.
- C93-C95: sources of one name in different folders share the file for diagnostics; a file outside of the repository is
  reported as inside; a project below a folder "build" is not found.
- C96: of two tests below one `create` only the last is finalized; `create` alone runs all tests; `prune -cc` is undefined
  behaviour; "xv" is read as `--verbose`.  C97: suites whose names contain blanks make sandboxed runs fail; recovery is not handed on.
- C98: of files of the same name the one found first is selected; tests in a folder called like one around the repository may not
  be run although pruning finds them.
- C99: after runs of chosen tests, pruning may miss a change or forget a failing test; a change during a pruned run may be missed.
- C100: projects created before one which is rejected stay; a project within the running one is accepted, although sequoia is then
  copied into itself; names such as "my-app" are accepted, but make the new main function ill-formed.
- C101: if the name of the holder contains, and is longer than, that of the author, the runner of the new project is told of the
  author, and the header is wrong.

*Geometry and physics.*
- C59, C60: a typo makes products of three or more units unconvertible; integral displacements are truncated; validators which
  are not invariant under scaling are kept for prefixes.
- C61-C63: a product of several units which cancels altogether is ill-formed; products are not associative; a conversion
  between spaces with the same base calls itself forever.
- C102: the product of a vector of several dimensions with a scalar is offered, but ill-formed (the quotient is not); the ratio of
  two speeds is ill-formed.
- C103: areas in different spaces cannot be added (width * height + length * length), as composite spaces have no base space; hence
  products do not distribute over sums of quantities in different spaces.
- C104: only the first mention of the project in the message of an exception is made relative (an exception which mentions two files
  is recorded differently in different places); the name of a folder which begins like that of the project is cut.
- C105: after a check which failed critically and is over, the recovery file does not say that it is over, as if the program had crashed
  in it; a check whose message ends with the line `Check ended` looks as if it were over.
- C106: an exception after a check without message is said to have been thrown before any check; one thrown after the test has caught another
  one from its last check is attributed to that check; in false negative tests a check left by an exception counts as a failure as well.
- C107: a number which is farther away than the tolerance may be accepted, by half a unit in the last place of the tolerance at most (1 and
  -2^-60 are within 1 of each other); an infinity is not within any tolerance of itself, not even an infinite one.
- C108: the inequality of Cauchy and Schwarz, the triangle inequality and `|a v| = |a| |v|` are false for vectors of small integers; `norm` is zero
  for vectors other than zero and infinite for finite ones, if the squares leave the range, and in one dimension it is not.
- C109: contrary to the documentation advice is given by narrowing conversions: an advisor for `unsigned` is used for `int` and sees 4294967295
  for -1, one for `float` is used for `long long`; one for `short` is not used for `signed char`.  The advice of the check that two values are ordered as
  assumed is given the result of their comparison in place of the values ("Obtained : 0, Predicted: 1"), or ignored.
- C110: the text of a failed comparison does not tell values with several lines apart; advice without prefix is put on the line of the prediction.
- C111: the mean of three times 0.1 is greater than 0.1, and the variance of these data is not zero; the mean of 2^53, 1, 1 depends on their order;
  the variance of 0, 1 becomes zero if 2^53 is added; the mean of twice the greatest number is infinite; the variance of 0 and 2^-600 is zero.
- C112: 0 K in `float` is converted to -459.67001 degrees Fahrenheit, which are valid, but converting these to kelvin throws `std::domain_error`, since
  the result is below zero by 1.6e-5.  In `double` this works by luck.  0.7 degrees Celsius are changed by a conversion to kelvin and back.
- C113: the same test may be added twice to a suite by two calls of `add_test_suite` with the same name, and to the suites of a suite in one call:
  these are not checked.  Source files are compared as written, while selections compare normal paths.
- C114: if a repetition of a selection crashes (`locate n --sandbox`), its files are missing, and the session is taken for a run of all tests: failing
  tests which were not selected are no longer recorded, and the time stamp is set, so that a pruned run does not execute them.  The repetitions of one
  process set the time stamp of the project one by one, but the failures are written at the end: if it ends early, these are forgotten.
- C115: `create` for a header in the source repository, but not in the folder of the project, puts the test next to the folder of tests
  (`Tests/../other`).  Without extension, the name of a folder is taken for the header.  With `gen-source`, `Source/Foo.hpp` becomes
  `Source/<project>/Foo.hpp`, which is not found the next time, so that copying the template fails.
- C116: if creating a test fails after a source file has been written (say because the CMake list has no `target_sources(`), a second attempt warns
  that the file exists and does not register it.  A test whose files exist already, of another test with the same file names, is added to the suite
  nevertheless.
- C117: `erase_edge` of an undirected graph with meta data but without weights takes the first half edge back for the partner.  If two nodes are joined twice,
  with meta data 1, 2 and 3, 4, erasing the second edge at the first node leaves an edge with 1 and 4.
- C118: the displacement between a width and a height is one of lengths.  `height + (width - height)` compiles, for the displacement is implicitly convertible
  to one of heights, but the conversion calls itself without end (see the finding about conversions to a space which is not its own base); likewise
  `(w1 - w2) + (w2 - h)`, whereas `(w1 - w2) - (h - w2)` is fine.
- C65, C66: default constructed coordinates are not validated; displacement + point calls itself forever; operators are offered
  which do not compile.

## Print Assumptions

`Print Assumptions` was run for every theorem listed in `MANIFEST.json` (it is also printed below each of them by the build).
The answer is `Closed under the global context`, so that no axiom is used, neither of the standard library nor of another
library, for every one of them but the following, which speak of real numbers: `C107_accepts`, `C107_bound`, `C107_near`,
`C107_exact_refuted`, `C108_norm_one`, `C108_product_error`, `C108_integers`, `C108_norm_sqrt`, `C108_norm_error`,
`C111_signs`, `C111_mean_error`, `C111_squares_error`, `C111_one_rounding`, `C111_integers`, `C111_single`,
`C112_monotone`, `C112_from_root`, `C112_error`, `C112_identity`.  These use axioms of the
standard library of Coq, on which its real numbers rest:

* `ClassicalDedekindReals.sig_forall_dec`, `ClassicalDedekindReals.sig_not_dec`,
* `FunctionalExtensionality.functional_extensionality_dep`,
* `Classical_Prop.classic`.
