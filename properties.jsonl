{"id": "C01", "title": "Construction represents the specification", "statement": "For every DD specification that obeys the documented contract (levels strictly decrease; states that equal_to identifies have the same future), DdStructure(spec) represents exactly the function/family that the specification defines: a vector is accepted by the structure iff following getRoot/getChild along it ends at the 1-terminal, under both the BDD and the ZDD reading of skipped levels.", "quantifier": "every arity, every specification obeying the contract, every hash function, every input vector", "why_tests_cant": "Specifications are arbitrary user code; the on-the-fly sweeper fires only at data dependent moments, and hash collisions depend on the state values.", "anchors": ["include/tdzdd/dd/DdBuilder.hpp: DdBuilder::initialize, DdBuilder::construct", "include/tdzdd/dd/DdSweeper.hpp: DdSweeper::update", "include/tdzdd/DdStructure.hpp: DdStructure(DdSpecBase const&), construct_"]}
{"id": "C02", "title": "Construction yields a well-formed ordered diagram", "statement": "In a structure built from a specification every branch of every node refers to an existing node of a strictly lower level or to a terminal, and the root refers to an existing node; no internal table access made during construction is out of range (also while the sweeper relocates nodes under pending forward references).", "quantifier": "every specification obeying the contract", "why_tests_cant": "A dangling reference only shows for particular level-skipping patterns combined with a sweep.", "anchors": ["include/tdzdd/dd/DdBuilder.hpp: DdBuilder::construct", "include/tdzdd/dd/DdSweeper.hpp: DdSweeper::update"]}
{"id": "C03", "title": "Construction shares equal states", "statement": "While constructing, at most one node is created per level for each class of states identified by equal_to: the number of nodes at a level never exceeds the number of pairwise non-equal states reachable at that level.", "quantifier": "every specification whose equal_to is an equivalence compatible with hash_code", "why_tests_cant": "It quantifies over all specifications and all orders in which states arrive.", "anchors": ["include/tdzdd/dd/DdBuilder.hpp: DdBuilder::construct", "include/tdzdd/util/MyHashTable.hpp: MyHashTable::add"]}
{"id": "C04", "title": "bddReduce preserves the Boolean function", "statement": "After bddReduce() the structure accepts exactly the same assignments under the BDD reading as before, for binary (Algorithm-R) and N-ary (hash based) reduction.", "quantifier": "every well-formed diagram and every assignment", "why_tests_cant": "Algorithm-R overwrites lower level nodes as scratch memory; a collision of stale marks would need a specific shape to show.", "anchors": ["include/tdzdd/dd/DdReducer.hpp: algorithmR, reduce_, makeReadyForSequentialReduction", "include/tdzdd/DdStructure.hpp: bddReduce, reduce"]}
{"id": "C05", "title": "zddReduce preserves the family of sets", "statement": "After zddReduce() the structure represents exactly the same family of sets (accepts exactly the same vectors under the ZDD reading) as before, for the binary and the N-ary algorithm.", "quantifier": "every well-formed diagram and every vector", "why_tests_cant": "same as C04", "anchors": ["include/tdzdd/dd/DdReducer.hpp: algorithmR, reduce_", "include/tdzdd/DdStructure.hpp: zddReduce"]}
{"id": "C06", "title": "qddReduce preserves the represented function", "statement": "After qddReduce() the structure accepts exactly the same vectors as before under the BDD and under the ZDD reading; no level is added to or removed from any accepting path.", "quantifier": "every well-formed diagram and every vector", "why_tests_cant": "same as C04", "anchors": ["include/tdzdd/dd/DdReducer.hpp: algorithmR, reduce_", "include/tdzdd/DdStructure.hpp: qddReduce"]}
{"id": "C07", "title": "bddReduce yields a fully reduced BDD", "statement": "After bddReduce() no node has all branches equal and no two nodes of one level have identical branches.", "quantifier": "every well-formed diagram", "why_tests_cant": "must hold for every diagram shape", "anchors": ["include/tdzdd/dd/DdReducer.hpp: algorithmR, reduce_"]}
{"id": "C08", "title": "zddReduce yields a fully reduced ZDD", "statement": "After zddReduce() no node has all its non-zero-labelled branches at the 0-terminal and no two nodes of one level have identical branches.", "quantifier": "every well-formed diagram", "why_tests_cant": "must hold for every diagram shape", "anchors": ["include/tdzdd/dd/DdReducer.hpp: algorithmR, reduce_"]}
{"id": "C09", "title": "Reduced diagrams are canonical", "statement": "Two diagrams that represent the same function (resp. family) compare equal with operator== after bddReduce() (resp. zddReduce()), and diagrams that represent different ones compare different.", "quantifier": "all pairs of well-formed diagrams with the same number of variables", "why_tests_cant": "logical equivalence ranges over all pairs of diagrams", "anchors": ["include/tdzdd/DdStructure.hpp: operator==, bddReduce, zddReduce", "include/tdzdd/dd/DdReducer.hpp"]}
{"id": "C10", "title": "operator== is sound and, on sharing diagrams, complete", "statement": "If a == b is true then a and b unfold to the same decision tree (hence represent the same function under every reading). If neither diagram holds two identical nodes in one level then a == b is true whenever they unfold to the same tree. (Without that condition completeness fails: see the refutation.)", "quantifier": "all pairs of well-formed diagrams", "why_tests_cant": "ranges over all pairs of diagrams, including ones with unreachable nodes", "anchors": ["include/tdzdd/DdStructure.hpp: operator=="]}
{"id": "C11", "title": "All reduction algorithms agree", "statement": "Sequential Algorithm-R, the generic hash based reduction and the multi-threaded reduction yield structurally equal diagrams for BDD and ZDD reduction, whatever the number of threads, tasks and the distribution of nodes over threads.", "quantifier": "every well-formed binary diagram, every number of threads, every schedule of the node loop", "why_tests_cant": "Schedules and thread counts cannot be enumerated by tests.", "anchors": ["include/tdzdd/dd/DdReducer.hpp: algorithmR, reduce_, reduceMP_"]}
{"id": "C12", "title": "evaluate computes the bottom-up fold", "statement": "evaluate(E) returns getValue of the value obtained by recursively applying evalTerminal/evalNode to the diagram rooted at the root (values and levels of the children passed in branch order), and never reads a value after it was discarded by the early release of lower levels.", "quantifier": "every well-formed diagram and every evaluator", "why_tests_cant": "the early release depends on the level reference pattern of the diagram", "anchors": ["include/tdzdd/DdStructure.hpp: evaluate", "include/tdzdd/dd/NodeTable.hpp: makeIndex, lowerLevels", "include/tdzdd/DdEval.hpp"]}
{"id": "C13", "title": "zddCardinality counts the sets", "statement": "zddCardinality() is the decimal representation of the exact number of vectors (sets) represented by the ZDD, for arbitrarily large counts.", "quantifier": "every well-formed diagram", "why_tests_cant": "the count exceeds machine integers; carries in the multi-word arithmetic need rare values", "anchors": ["include/tdzdd/DdStructure.hpp: zddCardinality", "include/tdzdd/eval/Cardinality.hpp", "include/tdzdd/util/BigNumber.hpp"]}
{"id": "C14", "title": "bddCardinality counts the satisfying assignments", "statement": "bddCardinality(n) is the decimal representation of the exact number of assignments to n variables accepted by the BDD, for every n not less than the top level; all intermediate numbers stay inside the storage allocated for them.", "quantifier": "every well-formed binary diagram and every n >= topLevel", "why_tests_cant": "depends on skipped levels and on word boundaries at multiples of 63", "anchors": ["include/tdzdd/DdStructure.hpp: bddCardinality", "include/tdzdd/eval/Cardinality.hpp", "include/tdzdd/util/BigNumber.hpp"]}
{"id": "C15", "title": "Iteration enumerates each set exactly once", "statement": "Iterating a binary ZDD from begin() to end() visits every set of the represented family exactly once and nothing else; begin()==end() iff the family is empty.", "quantifier": "every well-formed binary diagram without requiring reduction", "why_tests_cant": "all diagram shapes, including dead ends and skipped levels", "anchors": ["include/tdzdd/DdStructure.hpp: const_iterator"]}
{"id": "C16", "title": "bddAnd is conjunction", "statement": "bddAnd(s1,s2) specifies the conjunction of the functions of s1 and s2 and again obeys the specification contract.", "quantifier": "all pairs of BDD specifications obeying the contract, all assignments", "why_tests_cant": "ranges over all pairs of specifications with different level skipping behaviour", "anchors": ["include/tdzdd/op/BinaryOperation.hpp: BddAnd_"]}
{"id": "C17", "title": "bddOr is disjunction", "statement": "bddOr(s1,s2) specifies the disjunction of the functions of s1 and s2 and again obeys the specification contract.", "quantifier": "all pairs of BDD specifications obeying the contract, all assignments", "why_tests_cant": "as C16", "anchors": ["include/tdzdd/op/BinaryOperation.hpp: BddOr_"]}
{"id": "C18", "title": "zddIntersection is intersection", "statement": "zddIntersection(s1,s2) specifies the intersection of the families of s1 and s2 and again obeys the specification contract.", "quantifier": "all pairs of ZDD specifications obeying the contract, all vectors", "why_tests_cant": "as C16", "anchors": ["include/tdzdd/op/BinaryOperation.hpp: ZddIntersection_"]}
{"id": "C19", "title": "zddUnion is union", "statement": "zddUnion(s1,s2) specifies the union of the families of s1 and s2 and again obeys the specification contract.", "quantifier": "all pairs of ZDD specifications obeying the contract, all vectors", "why_tests_cant": "as C16", "anchors": ["include/tdzdd/op/BinaryOperation.hpp: ZddUnion_"]}
{"id": "C20", "title": "Lookahead preserves semantics", "statement": "bddLookahead(s) specifies the same Boolean function as s, and zddLookahead(s) the same family as s.", "quantifier": "all specifications obeying the contract", "why_tests_cant": "the lookahead loop depends on arbitrary user code", "anchors": ["include/tdzdd/op/Lookahead.hpp"]}
{"id": "C21", "title": "Unreduction complements skipped levels", "statement": "bddUnreduction(s,n) (zddUnreduction(s,n)) specifies a diagram that skips no level on any path from level n on and whose plain path semantics equals the BDD (ZDD) semantics of s over n variables.", "quantifier": "all specifications obeying the contract with root level at most n, all vectors", "why_tests_cant": "as C20", "anchors": ["include/tdzdd/op/Unreduction.hpp"]}
{"id": "C22", "title": "bdd2zdd and zdd2bdd convert", "statement": "d.bdd2zdd(n) is a ZDD for the family of the satisfying assignments over n variables of the BDD d; d.zdd2bdd(n) is a BDD whose satisfying assignments over n variables are the members of the ZDD d.", "quantifier": "every well-formed diagram, every n >= topLevel, every vector", "why_tests_cant": "ranges over all diagrams", "anchors": ["include/tdzdd/DdStructure.hpp: bdd2zdd, zdd2bdd", "include/tdzdd/op/Lookahead.hpp", "include/tdzdd/op/Unreduction.hpp"]}
{"id": "C23", "title": "zddSubset is intersection", "statement": "After d.zddSubset(spec) the structure represents the intersection of the family d represented before and the family specified by spec.", "quantifier": "every well-formed diagram, every specification obeying the contract, every vector", "why_tests_cant": "input levels are released while the pass is running and sweeping may relocate nodes", "anchors": ["include/tdzdd/dd/DdBuilder.hpp: ZddSubsetter", "include/tdzdd/DdStructure.hpp: zddSubset_"]}
{"id": "C24", "title": "Copies are independent", "statement": "DdStructure objects behave as independent values under any sequence of construction, copy, assignment, reduction, subsetting and destruction: an operation on one object never changes what another object represents, storage is released exactly when the last owner goes, and is never used afterwards. (Self-assignment of a sole owner violates this: see the refutation.)", "quantifier": "every history of handle operations", "why_tests_cant": "histories of sharing are unbounded", "anchors": ["include/tdzdd/dd/NodeTable.hpp: NodeTableHandler"]}
{"id": "C25", "title": "Path counting counts accepting paths", "statement": "The path counter returns the exact number of root-to-1-terminal paths of the diagram that a specification defines.", "quantifier": "every specification obeying the contract", "why_tests_cant": "counts exceed machine integers; buffers are sized heuristically", "anchors": ["include/tdzdd/dd/PathCounter.hpp"]}
{"id": "C26", "title": "findOneInstance returns a member or reports emptiness", "statement": "findOneInstance() returns (level,value) pairs describing a path from the root to the 1-terminal whenever one exists, whatever the random choices, and throws exactly when none exists.", "quantifier": "every specification obeying the contract, every sequence of random numbers", "why_tests_cant": "backtracking over arbitrary random choices", "anchors": ["include/tdzdd/dd/DepthFirstSearcher.hpp", "include/tdzdd/DdSpec.hpp: findOneInstance"]}
{"id": "C27", "title": "SizeConstraint selects by cardinality", "statement": "SizeConstraint(n,c) specifies exactly the subsets of {1..n} whose size is contained in c.", "quantifier": "every n >= 1, every integer subset c whose bounds are sound", "why_tests_cant": "pruning on lower/upper bounds must be right for all n and c", "anchors": ["include/tdzdd/spec/SizeConstraint.hpp", "include/tdzdd/util/IntSubset.hpp"]}
{"id": "C28", "title": "LinearConstraints selects the solutions", "statement": "LinearConstraints specifies exactly the subsets of {1..n} that satisfy every added constraint lower <= sum of weights <= upper.", "quantifier": "every n, every list of constraints with arbitrary integer weights, every subset", "why_tests_cant": "state compression and index reuse interact in data dependent ways", "anchors": ["include/tdzdd/spec/LinearConstraints.hpp"]}
{"id": "C29", "title": "DegreeConstraint selects by vertex degree", "statement": "DegreeConstraint specifies exactly the edge subsets of the graph in which the degree of every constrained vertex is contained in its integer set.", "quantifier": "every graph, every assignment of constraints, every edge subset", "why_tests_cant": "frontier state reuse depends on the whole edge order", "anchors": ["include/tdzdd/spec/DegreeConstraint.hpp", "include/tdzdd/util/Graph.hpp: update"]}
{"id": "C30", "title": "Hash table behaves as a set of representatives", "statement": "After any sequence of additions, add(x) returns the stored element equal to x if there is one and otherwise stores and returns x; get(x) finds it iff it was stored; size() is the number of stored elements; the probing and growing loops terminate.", "quantifier": "every operation sequence, every hash function compatible with equality", "why_tests_cant": "all collision patterns and growth histories", "anchors": ["include/tdzdd/util/MyHashTable.hpp"]}
{"id": "C31", "title": "BigNumber arithmetic is exact", "statement": "The size, store, add, shiftLeft, division by ten, comparison and decimal printing of BigNumber agree with arithmetic on unbounded natural numbers and leave the memory behind the number alone; store, add and division keep the representation free of leading zero words. Shifting the number zero by 63 bits or more does not keep it so, and comparison of such a zero with a plain zero says 'different'.", "quantifier": "all natural numbers of any number of 63-bit words", "why_tests_cant": "carry chains over arbitrarily many words", "anchors": ["include/tdzdd/util/BigNumber.hpp"]}
{"id": "C32", "title": "MyVector behaves as a sequence", "statement": "push_back, pop_back, resize, reserve, insertion by index, copy and swap keep exactly the elements of the mathematical sequence; (range and single erase and self-assignment do not: see the refutations).", "quantifier": "every operation sequence", "why_tests_cant": "growth and shrink policies act at data dependent sizes", "anchors": ["include/tdzdd/util/MyVector.hpp"]}
{"id": "C33", "title": "MyList is a LIFO sequence that never corrupts blocks", "statement": "Any sequence of alloc_front and pop_front on MyList keeps previously allocated entries intact and in LIFO order, and releases each block exactly once.", "quantifier": "every operation sequence and every sequence of entry sizes", "why_tests_cant": "block boundaries are data dependent", "anchors": ["include/tdzdd/util/MyList.hpp"]}
{"id": "C34", "title": "MemoryPool allocations are disjoint", "statement": "Allocations from memory pools are pairwise disjoint, inside blocks owned by the pool, and keep their contents through every sequence of alloc, clear, splice, move and (after small requests only) reuse; destructing the pools frees every block exactly once. (reuse() after a request between 5001 and 49998 units writes outside its block, and splicing a pool with itself leaks: see the refutations.)", "quantifier": "every sequence of pool operations and request sizes, every address returned by the system allocator", "why_tests_cant": "block boundaries are data dependent", "anchors": ["include/tdzdd/util/MemoryPool.hpp"]}
{"id": "C35", "title": "NodeId packs level, column and attribute losslessly", "statement": "A NodeId made from a row below 2^20, a column below 2^43 and a flag returns exactly these; equality and ordering ignore the flag and are the lexicographic order of (row, column).", "quantifier": "all rows, columns and flags in range", "why_tests_cant": "2^64 values", "anchors": ["include/tdzdd/dd/Node.hpp: NodeId"]}
{"id": "C36", "title": "Graph numbering follows the leaving order", "statement": "After update(), vertices are numbered so that the index of the last edge incident to a vertex is non-decreasing, v1 <= v2 on every edge, v0 is the smallest vertex that is still incident to the current or a later edge, and the final flags mark exactly the last edge of a vertex.", "quantifier": "every edge list", "why_tests_cant": "ranges over all edge lists", "anchors": ["include/tdzdd/util/Graph.hpp: update"]}
{"id": "C37", "title": "Universal constructor", "statement": "DdStructure(n) represents the power set of n items (all N-ary vectors of length n) and DdStructure() the empty family.", "quantifier": "every n and arity", "why_tests_cant": "all n", "anchors": ["include/tdzdd/DdStructure.hpp: DdStructure(int,bool), DdStructure()"]}
{"id": "C38", "title": "Empty-set attribute and zero descendants", "statement": "After zddReduce() a reference's empty-set flag is set iff the 0-descendant at level 0 is the 1-terminal, and getZeroDescendant(f, l) returns the node reached by following 0-branches until the level is at most l.", "quantifier": "every well-formed diagram", "why_tests_cant": "all diagrams", "anchors": ["include/tdzdd/dd/NodeTable.hpp: getZeroDescendant", "include/tdzdd/dd/Node.hpp: hasEmpty", "include/tdzdd/dd/DdReducer.hpp"]}
{"id": "C39", "title": "Sets over bits and small arrays behave as sets", "statement": "After any history of add, remove and clear, MyBitSet and MySmallSet hold exactly the finite set of numbers the history describes: includes, size, empty, iteration (increasing order, each element once), intersects, equals, containsAll, == and hash agree with finite sets, and MySmallSet::add throws exactly when N - 1 elements are held. (pullout does not meet its documentation, add throws for a present element when full: see the refutations.)", "quantifier": "every operation sequence", "why_tests_cant": "all operation sequences and word boundaries", "anchors": ["include/tdzdd/util/MySet.hpp: MyBitSet, MyBitSetOnPool, MySmallSet, MySmallSetOnPool"]}
{"id": "C40", "title": "Sapporo dump can be reloaded", "statement": "The text written by dumpSapporo on a well-formed binary diagram with a non-terminal root denotes, line by line, the same diagram: every reference is to a previously written node and the last line is the root.", "quantifier": "every well-formed binary diagram", "why_tests_cant": "identifier release by level depends on the diagram", "anchors": ["include/tdzdd/DdStructure.hpp: dumpSapporo"]}
{"id": "C41", "title": "Multi-threaded construction gives a correct diagram under every schedule", "statement": "Constructing a DdStructure from a specification with useMP=true yields, for every number of threads, every number of tasks and every assignment of tasks to threads in every order, a well-formed diagram with the BDD and ZDD semantics of the specification, and no step accesses storage out of bounds.", "quantifier": "every specification meeting the contract, every thread count, task count and every per-level schedule", "why_tests_cant": "The number of schedules is unbounded and a test run sees one of them", "anchors": ["include/tdzdd/dd/DdBuilder.hpp: DdBuilderMP", "include/tdzdd/DdStructure.hpp: constructMP_"]}
{"id": "C42", "title": "Multi-threaded subsetting gives the intersection under every schedule", "statement": "zddSubset on a structure with useMP=true yields, for every number of threads and every assignment of input nodes to threads in every order, a well-formed diagram of exactly the vectors contained both in the diagram and in the family of the specification.", "quantifier": "every well-formed input diagram, every specification meeting the contract, every thread count and schedule, shared or unshared input table", "why_tests_cant": "The number of schedules is unbounded and a test run sees one of them", "anchors": ["include/tdzdd/dd/DdBuilder.hpp: ZddSubsetterMP", "include/tdzdd/DdStructure.hpp: zddSubsetMP_"]}
{"id": "C43", "title": "CycleZdd is exactly the set of simple cycles", "statement": "On a graph without colors, without self-loops and with at least one edge, the diagram built from CycleZdd (with or without lookahead) contains exactly those edge sets that form one simple cycle; the specification never reads or writes outside its arrays and meets the contract of specifications.", "quantifier": "every list of edge names (up to 32767 vertices), every edge set, both lookahead settings", "why_tests_cant": "The set of cycles of a graph is exponential and the state compression depends on the vertex elimination order of each graph", "anchors": ["include/tdzdd/spec/PathZdd.hpp: SimpathBasedImpl, CycleZdd", "include/tdzdd/util/Graph.hpp: update"]}
{"id": "C44", "title": "PathZdd is exactly the set of disjoint path systems joining the color pairs", "statement": "On a graph whose colors each mark exactly two vertices, the diagram built from PathZdd (with or without lookahead) contains exactly those edge sets that consist of one simple path for each color, joining its two vertices, the paths being pairwise vertex-disjoint.", "quantifier": "every list of edge names (up to 32767 vertices) without self-loops, every assignment of paired colors, every edge set, both lookahead settings", "why_tests_cant": "The set of paths is exponential and correctness depends on an invariant of the mate array through all levels", "anchors": ["include/tdzdd/spec/PathZdd.hpp: SimpathBasedImpl, PathZdd", "include/tdzdd/util/Graph.hpp: setColor, update"]}
{"id": "C45", "title": "Hamiltonian variants", "statement": "HamiltonCycleZdd (HamiltonPathZdd) contains exactly the edge sets that form one simple cycle through all vertices (a system of disjoint paths joining the color pairs and covering all vertices).", "quantifier": "every list of edge names (up to 32767 vertices) without self-loops, every edge set, both lookahead settings", "why_tests_cant": "Whether a vertex can be missed depends on the order of the edges", "anchors": ["include/tdzdd/spec/PathZdd.hpp: HamiltonCycleZdd, HamiltonPathZdd"]}
{"id": "C46", "title": "FrontierBasedSearch is exactly the set of edge sets whose components respect the colors", "statement": "The diagram built from FrontierBasedSearch(graph, numUEC, noLoop, lookahead) contains exactly those edge sets in which two colored vertices are connected if and only if they have the same color, there are exactly numUEC further components that contain an edge but no colored vertex (any number if numUEC is negative), and, if noLoop, no chosen edge lies on a cycle. With one color on all vertices, numUEC 0 and noLoop these are the spanning trees. No access is out of range and no assertion fails.", "quantifier": "every list of edge names (up to 32766 vertices) without self-loops, every coloring, every numUEC that fits 16 bits, every edge set, all settings of noLoop and lookahead", "why_tests_cant": "The frontier encodes a partition of the vertices by relative pointers that are renumbered as vertices leave; correctness depends on an invariant through all levels of every graph", "anchors": ["include/tdzdd/spec/FrontierBasedSearch.hpp: FrontierBasedSearch", "include/tdzdd/util/Graph.hpp: setColor, update"]}
{"id": "C47", "title": "Array states are compared by their elements, whatever is in memory", "statement": "A specification derived from PodArrayDdSpec or HybridDdSpec stores its states in raw memory that is copied, compared and hashed word by word. It behaves exactly as if states were arrays (with a scalar) of values: the diagram has the same sets, two states are shared if and only if their elements are equal, equal states have equal hash codes, and no access leaves the memory reserved for a state, regardless of what the memory contained before.", "quantifier": "every element size and array length, every scalar size, every getRoot/getChild on arrays, every initial contents of every memory block", "why_tests_cant": "Depends on uninitialised padding bytes, whose contents a test does not control", "anchors": ["include/tdzdd/DdSpec.hpp: PodArrayDdSpec, HybridDdSpec, rawHashCode, rawEqualTo", "include/tdzdd/dd/DdBuilder.hpp: getSpecNodeSize"]}
{"id": "C48", "title": "GraphillionZdd loads exactly the family of a Graphillion file", "statement": "For every text in Graphillion's ZDD format that has a root node, with the node lines in any order and other lines between them, GraphillionZdd::read loads it and the resulting specification accepts exactly the sets of the family the text denotes: element i is on level maxIndex - i + 1. The specification obeys the contract of DD specifications and never throws while it is used.", "quantifier": "every text in the format with distinct identifiers, indices that increase along branches and a unique node of smallest index; every vector", "why_tests_cant": "Ranges over all files: any number and order of nodes, any identifiers and indices", "anchors": ["include/tdzdd/spec/GraphillionZdd.hpp: GraphillionZdd::read, addNode, readID, skipSpace, skipLine, getRoot, getChild"]}
{"id": "C49", "title": "mergeStates keeps exactly the cheapest members", "statement": "If a specification defines mergeStates by comparing costs of equivalent states, and a common continuation does not change which of two equivalent states is cheaper, then DdStructure(spec) succeeds and its diagram accepts exactly the vectors that the specification accepts in a state of least cost. In particular, for any specification and any weights of decisions, carrying the weight in the state and comparing it in mergeStates yields exactly the members of least total weight; a mergeStates that always returns 0 keeps every member.", "quantifier": "every specification, cost function and weights; every vector; either reading of the diagram (BDD, ZDD)", "why_tests_cant": "Ranges over all specifications and over all orders in which cheaper candidates appear, including across levels and across sweeps that move nodes", "anchors": ["include/tdzdd/dd/DdBuilder.hpp: DdBuilder::construct, oneSrcPtr", "include/tdzdd/dd/DdSweeper.hpp: DdSweeper::update", "include/tdzdd/DdSpec.hpp: merge_states, mergeStates", "include/tdzdd/DdStructure.hpp: DdStructure"]}
{"id": "C50", "title": "Graphs are read exactly as their text formats say", "statement": "For every text with complete lines, Graph::readEdges adds exactly the edges given by the lines with two words, in order, and throws iff some line has another number of words than none or two. A last line that is not complete counts as if it were, except that a word at its very end is dropped. readAdjacencyList makes an edge k-v for every number v in line k; readVertexGroups colors exactly the listed vertices, each with the color of the last line that lists it, and fewer than 45056 lines have pairwise different colors. The resulting graph is numbered as documented (C36).", "quantifier": "every text (any number of lines, any white space between words, any names)", "why_tests_cant": "Ranges over all texts: white space, blank lines, duplicates and line ends in any arrangement; color collisions appear only far beyond tested sizes", "anchors": ["include/tdzdd/util/Graph.hpp: Graph::readEdges, Graph::readAdjacencyList, Graph::readVertexGroups, Graph::getColor, Graph::setDefaultPathColor, Graph::clearColors"]}
{"id": "C51", "title": "The builder manages state objects correctly", "statement": "While a diagram is constructed from a specification (with or without mergeStates), every state the builder makes with get_root or get_copy is made in free memory, is read, copied or changed only while it lives, is destructed exactly once before its memory is released, and none is left when the construction ends; the diagram is the one of C49.", "quantifier": "every specification whose memory operations keep their contract, every kind of state, every order of levels it produces, and any contents of newly allocated memory", "why_tests_cant": "A leak or a use of a destructed state shows only for particular shapes of the state graph (skipped levels, merged nodes, replaced 1-terminal candidates) and often without a visible effect", "anchors": ["include/tdzdd/dd/DdBuilder.hpp: DdBuilder::initialize, DdBuilder::schedule, DdBuilder::construct, DdBuilder::~DdBuilder", "include/tdzdd/DdSpec.hpp: get_root, get_copy, get_child, destruct"]}
{"id": "C52", "title": "Specification classes and operations manage the states they hold", "statement": "The state operations of the base classes (StatelessDdSpec, DdSpec, PodArrayDdSpec, HybridDdSpec) and of lookahead, unreduction, intersection, union, and and or of specifications construct states only in free memory, use them only while they live, and destruct every state they construct, for operands with any kind of state.", "quantifier": "every specification as operand, every nesting of the operations, every state and level", "why_tests_cant": "Ranges over all operands and nestings; with plain data as states a missing construction or destruction has no visible effect", "anchors": ["include/tdzdd/DdSpec.hpp: DdSpec, PodArrayDdSpec, HybridDdSpec", "include/tdzdd/op/BinaryOperation.hpp: getRoot, getChild, get_copy, destruct", "include/tdzdd/op/Lookahead.hpp: lookahead", "include/tdzdd/op/Unreduction.hpp: get_copy, destruct"]}
{"id": "C53", "title": "The n-queens program finds exactly the peaceful placements", "statement": "For every board size from 1 to 31, NQueenZdd and NRookZdd accept exactly the placements of n pieces of which no two attack each other (with a first column: those with a piece on that square of the top row); the program ddqueens, directly or through the rooks first, computes equal reduced diagrams of exactly these placements, and the cardinality it can print is their number. No access is out of range and no shift too wide.", "quantifier": "every board size up to 31, queens and rooks, every first column, every placement, every schedule of parallel construction, both ways through the program", "why_tests_cant": "The number of placements grows faster than exponentially and cannot be enumerated beyond small boards; the pruning by looking ahead in the remaining rows can lose placements on boards no test covers", "anchors": ["apps/ddqueens/NQueenZdd.hpp: NQueenZddBase, NQueenZdd, NRookZdd", "apps/ddqueens/ddqueens.cpp: main"]}
{"id": "C54", "title": "Whole programs over the API mean what their set operations say", "statement": "Take any diagram a program obtains by any sequence of constructions, operations on specifications (and, or, union, intersection, lookahead, unreduction, diagrams used as specifications), reductions, subsetting and conversions, sequential or parallel. No step fails; the diagram contains exactly the vectors that the corresponding set operations give on the families of the user's specifications; zddCardinality prints their number; iteration visits each exactly once; and two such diagrams, reduced, compare equal exactly when the families are equal.", "quantifier": "every program (every finite history of API calls), every specification that keeps the contract, every number of threads and schedule", "why_tests_cant": "Ranges over all histories of calls; each operation must establish what every other operation relies on", "anchors": ["include/tdzdd/DdStructure.hpp: DdStructure, zddReduce, bddReduce, qddReduce, zddSubset, bdd2zdd, zdd2bdd, zddCardinality, begin, operator==", "include/tdzdd/DdSpecOp.hpp: bddAnd, bddOr, zddUnion, zddIntersection, bddLookahead, zddLookahead, bddUnreduction, zddUnreduction"]}
{"id": "C55", "title": "PathZddByStdMap yields exactly the edge sets that close to one cycle", "statement": "On a graph without colors PathZddByStdMap yields exactly the simple cycles. On a graph with one pair of vertices of the same color it yields exactly the simple paths between them. In general it yields exactly the edge sets that together with one virtual edge per pair form a single simple cycle; with two or more pairs that is not what PathZdd yields. No assertion fails. In the cases of cycles and one pair the reduced diagram equals that of CycleZdd or PathZdd, with or without lookahead, sequential or parallel.", "quantifier": "every finite loop-free simple graph of at most 32767 vertices with at least one edge, every coloring, every set of edges", "why_tests_cant": "The frontier state summarises all earlier choices; wrong merging or pruning shows only on particular graphs and edge orders", "anchors": ["include/tdzdd/spec/PathZddByStdMap.hpp: PathZddByStdMap::getRoot, getChild", "apps/ddpaths/ddpaths.cpp: option slow", "include/tdzdd/util/Graph.hpp: virtualMate"]}
{"id": "C56", "title": "ddpaths reports exactly the solutions asked for, whatever its options", "statement": "Run on a graph with at least one edge and no loops, ddpaths ends with a diagram for every combination of -t, -dc, -lb, -ub, -hamilton, -slow, -nola, -p and -nored. Without -hamilton and -slow the diagram contains exactly the simple cycles (-t cycle), the systems of disjoint paths joining the pairs (-t path), or the edge sets with the wanted components (-t cc, -t forest) whose number of edges respects the bounds given; -count prints their exact number; and the reduced diagram does not depend on -dc, -nola, -p or, for cycles and one pair, -slow. With -hamilton every Hamiltonian solution is reported and nothing that is not a solution. Cycles may be asked for in a colored graph. Without a group file the path runs between the vertices numbered 1 and #vertices, if both exist. With two pairs -slow reports a different family (refuted).", "quantifier": "every finite simple loop-free graph of at most 32766 vertices, every group file, every combination of options, all bounds, every schedule of the parallel parts", "why_tests_cant": "The options multiply and each combination takes another route through construction, subsetting and reduction; agreement on some graphs says nothing about all of them, and schedules vary", "anchors": ["apps/ddpaths/ddpaths.cpp: main", "include/tdzdd/DdStructure.hpp: zddSubset, zddReduce", "include/tdzdd/spec/PathZdd.hpp", "include/tdzdd/spec/DegreeConstraint.hpp", "include/tdzdd/spec/SizeConstraint.hpp"]}
{"id": "C57", "title": "Conversion to and from SAPPOROBDD loses nothing", "statement": "ToZBDD turns a diagram into the family of its sets, with every level replaced by the variable `offset` levels higher, and creates the variables it lacks; sets using a level that has no variable are left out. ToBDD turns a diagram into the same Boolean function. SapporoZdd and SapporoBdd are valid specifications of the given family (restricted to the variables above the offset) and function, none of their calls fails (SapporoBdd throws exactly if the function depends on a variable up to the offset), and building a diagram from what ToZBDD or ToBDD made of one gives, reduced, the same diagram. SapporoZdd needs an offset of at least 0 and natural places for the variables it drops (otherwise refuted).", "quantifier": "every 2-ary diagram, every family and function, every order of the variables, every offset (0 or more where stated), every hash", "why_tests_cant": "The order of the variables and the offset are free, and diagrams, families and functions are unbounded", "anchors": ["include/tdzdd/eval/ToZBDD.hpp: ToZBDD", "include/tdzdd/eval/ToBDD.hpp: ToBDD", "include/tdzdd/spec/SapporoZdd.hpp: SapporoZdd", "include/tdzdd/spec/SapporoBdd.hpp: SapporoBdd"]}
{"id": "C58", "title": "ddqueens -colored computes the colored boards", "statement": "OneHotNAryZdd(m, n) is the family of vectors with exactly one of each m consecutive levels; NAryZdd(m, n) has at most one of each m - 1 levels, but never none of the lowest group (so it is not the family of all words: refuted). ZddInterleave interleaves the levels of n diagrams: a vector is in the result iff each of its n tracks is in the family of its diagram (the constructors for one diagram in every track and in one track included). ColoredZdd agrees with ZddInterleave on all vectors with one color per square. All keep the contract of specifications and never access out of range. The program ddqueens -colored, for boards of 1 to 31 rows and under every schedule, terminates and yields the unique reduced diagram of the colorings of the board by n colors in which every color is a solution of the n-queens problem and color k is on square k from the end of the last row, and zddCardinality is their number.", "quantifier": "every arity, length, list of binary diagrams, vector; every n from 1 to 31 and every schedule of the parallel steps", "why_tests_cant": "Diagrams, arities and vectors are unbounded; the program can be run only for a few n", "anchors": ["apps/ddqueens/NAryZdd.hpp: OneHotNAryZdd, NAryZdd", "apps/ddqueens/ZddInterleave.hpp: ZddInterleave", "apps/ddqueens/ColoredZdd.hpp: ColoredZdd", "apps/ddqueens/ddqueens.cpp: main (-colored)"]}
{"id": "C59", "title": "dumpDot draws the diagram of a specification", "statement": "For every specification that keeps the contract, dumpDot terminates and writes a DOT file. No node is drawn twice; every node shows a state that occurs at its level; states that equal_to identifies share a node, and when equal_to is a congruence every state that occurs is shown by a node equal to it; arrows go down, from a drawn node to a drawn node or to the 1-terminal; every node but the root is the target of an arrow; the rank lines list exactly the nodes of the level and the level labels are those of printLevel. With at most four branches per node, following the arrows from the start node (dashed, solid or blue, red, green; a missing arrow is the 0-terminal) gives the function of the specification, in the BDD and the ZDD reading. With five or more branches two different functions can have the same file (refuted).", "quantifier": "every specification with a symmetric equal_to and a hash_code that respects it, every title, every text of printLevel and print_state, every vector", "why_tests_cant": "Specifications, their states and vectors are unbounded", "anchors": ["include/tdzdd/DdSpec.hpp: DdSpecBase::dumpDot, operator<<", "include/tdzdd/dd/DdBuilder.hpp: DdDumper"]}
{"id": "C60", "title": "FixedBigNumber is exact or throws", "statement": "A FixedBigNumber of s > 0 words holds the numbers below 2^(32 s). Construction from a word, == and != (with another number and with a word), +, += and << are exact: += throws iff the sum does not fit, and then the object holds the sum modulo 2^(32 s); << prints the decimal representation. divide(n) leaves the quotient and returns the remainder for 0 < n <= 2^31; for larger n it does not (refuted: it divides signed numbers). translate to an unsigned type of more than 32 bits gives the number modulo the size of the type.", "quantifier": "every number of words, all word contents, all divisors, all widths of the result type", "why_tests_cant": "The number of words and their contents are unbounded; the failing divisors are a corner", "anchors": ["include/tdzdd/util/BigNumber.hpp: FixedBigNumber"]}
{"id": "C61", "title": "The Numberlink solver finds exactly the solutions", "statement": "For a board with at least two rows and two columns whose numbers plus its smaller side stay below 256, ddnumlin -a never gets stuck, and the cardinality it prints is the number of ways to draw lines such that every number is the end of one line, every other cell is passed by one line or unused, every line ends at numbers, lines join equal numbers only, and (if a limit k is given) at most k cells are unused. Each set of the diagram is drawn as one such solution of the board that was read, also when the program transposed it, and every solution is drawn. Without -a it prints the number of, and draws, exactly the solutions without certain detours (seen on the transposed board if the board is transposed): no line takes three sides of a square of four cells, the cell inside a corner where a line from above turns left or right is used, and below a line that goes up, to the right and down again there is a number or a horizontal link. So it does not always find a solution if there is one (refuted with a limit on the unused cells). NumlinZdd alone accepts exactly the sets of horizontal links that vertical links complete to a solution, DegreeZdd exactly those that can be completed with the right degrees; the vertical links are determined and makeVerticalLinks finds them. Outside these limits it is false (refuted): one-column boards have no answer, one-row boards make transposing read a row that does not exist, and large numbers are not seen.", "quantifier": "every board, every limit k, every set of links, every schedule of the parallel construction", "why_tests_cant": "Boards and line drawings are unbounded; the frontier method must be right for every partial drawing that can occur", "anchors": ["apps/numberlink/NumlinZdd.hpp: NumlinZdd", "apps/numberlink/DegreeZdd.hpp: DegreeZdd", "apps/numberlink/Board.cpp: transpose, makeVerticalLinks", "apps/numberlink/ddnumlin.cpp", "apps/numberlink/ConstraintZdd.cpp: ConstraintZdd"]}
{"id": "C62", "title": "cnf2ztdd2bdd computes the Boolean function of the clauses", "statement": "A DIMACS file with variables and clauses as announced in the header (and, at the end of the file, a variable x that happens to be 0) is accepted, any other is rejected. For an accepted file the ternary ZDD stands for the clauses of the file that are neither empty nor tautologies, each as a set of literals; the number of clauses printed is the number of different ones; no assertion fails, no clause or literal out of range is read, and the specification keeps the contract of specifications. The Boolean function built from the diagram is true for exactly the assignments that make every clause of the file that is not empty true. It is false that files are accepted whatever value x has after the last failed read, and that files with empty clauses are accepted (refuted).", "quantifier": "every list of clauses, every order and repetition of clauses and literals, every assignment, every schedule of construction and reduction", "why_tests_cant": "Clause sets are unbounded; sorting, binary search and sharing of states must agree for all of them", "anchors": ["apps/cnf2ztdd2bdd/CnfToZtdd.cpp: readDimacs, sortClauses, getRoot, getChild", "apps/cnf2ztdd2bdd/CnfToZtdd.hpp: CnfToZtdd", "apps/cnf2ztdd2bdd/ZtddToCudd.hpp: ZtddToCudd", "apps/cnf2ztdd2bdd/cnf2ztdd2bdd.cpp: run"]}
{"id": "C63", "title": "cnfbdd computes the BDD of the clauses", "statement": "With the option -c (and any of -s, -n, -b, -limit), for a DIMACS file as announced in its header with at most 65535 clauses: the specification keeps the contract of specifications; with -n the program returns a diagram; the reachability analysis never removes a state that a satisfying assignment runs through; and whenever the analysis makes no access outside a clause set, the diagram after reduction maps an assignment to true iff it satisfies every clause of the file that is not empty. The lines of the output file are the satisfying assignments, each once. The number of solutions printed is their number, provided that 2^n for n variables fits into the storage for the root level of the diagram, which it does if the function depends on the first variable. It is false that it works for more than 65535 clauses, that the number is right without the proviso, and that the analysis never reads outside a clause set (all refuted).", "quantifier": "every list of clauses, every order std::sort may give, every outcome of the size limit, every diagram of the state sets, every assignment", "why_tests_cant": "Formulas and the effects of the limit are unbounded; the failures need 65536 clauses, 63 variables or an access that usually stays unnoticed", "anchors": ["apps/cnfbdd/CnfToBdd.cpp: readDimacs, sortClauses, prepare, traverse, traverseTD, traverseBU, getRoot, getChild, badState", "apps/cnfbdd/CnfToBdd.hpp: CnfToBdd", "apps/cnfbdd/Cudd.hpp: Cudd_", "apps/cnfbdd/cnfbdd.cpp: run, output"]}
{"id": "C64", "title": "Canonical clause numbers do not change what cnfbdd computes", "statement": "Without the option -c (and with -n, with or without -s), cnfbdd compares states by canonical clause numbers. For a DIMACS file as announced in its header with at most 65535 clauses: clauses with the same canonical number at a level have the same literals at this level and below; states that compare equal have the same future and the same hash code, so that the specification keeps the contract of specifications; the program returns, and its reduced diagram maps an assignment to true iff it satisfies every clause of the file that is not empty. For operator== it is equal to the diagram that the program computes with -c, with any reachability analysis. The number of solutions printed is the number of satisfying assignments if 2^n, for n variables, fits into the storage for the root level of the reduced diagram or the root is at level n, and the output file has one line for every satisfying assignment and no other line.", "quantifier": "every list of clauses, every order std::sort may give to equal clauses, every assignment", "why_tests_cant": "Whether merged states have the same future depends on all rests of all clauses at all levels", "anchors": ["apps/cnfbdd/CnfToBdd.cpp: prepare, makeClauseMap, getChild", "apps/cnfbdd/CnfToBdd.hpp: CnfToBdd (equalTo, hashCode, ClauseCmpForRelaxing)"]}
