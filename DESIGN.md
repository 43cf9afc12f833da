# Formal model of kunisura/TdZdd in Rocq/Coq 8.16

This file is the plan and the trusted-base statement.  It is updated as the model grows.

## 1. Shape of the development

* `rocq/theories/*.v`
  * `Base.v`               loops (`ofold`, `ofor`) in the option monad; `None` is undefined behaviour.
  * `Sem.v`                the *specification* layer: DD specifications (`spec`), their BDD/ZDD reading
                           (`bdd_eval`, `zdd_eval`), decision trees.  Small, meant to be read.
  * `M_*.v`                the model, function by function, with file/line citations.  No proofs.
  * `P_*.v`                lemmas and proofs.
  * `Props*.v`             the property theorems only: statement, `exact lemma`, `Print Assumptions`,
                           plus an `Example` for non-vacuity beside each theorem.
* `properties.jsonl`       the English properties.
* `MANIFEST.json`          property -> theorem names and status.
* `seeded/LOG.jsonl`       mutation experiments on the model.

## 2. Modelling conventions

* Levels/columns/indices are `nat`, level codes returned by `getRoot`/`getChild` are `Z`
  (0 = 0-terminal, negative = 1-terminal, positive = level) exactly as in `DdSpec.hpp`.
* A node table is `list (list node)`, a node is `list nid`, a reference is a record row/col/attr.
  `NodeId == NodeId` ignores the attribute bit, as in `Node.hpp`.
* Every table access that the C++ code performs unchecked is an option-valued access; an out of range
  access (or a read of a released row) makes the whole function return `None`.  Theorems state
  `= Some ...`, hence include memory safety of the modelled accesses.
* Uninitialised nodes are filled with a reference that is not a valid reference, so a theorem
  that the result is well-formed also says that everything was initialised.
* Pointers into tables (`NodeId* srcPtr`) are locations (row, col, branch); `std::set`/`std::map` are
  abstract sets/maps; state buffers managed with `get_copy`/`destruct` are pure values.
* Specification objects are arbitrary: a Coq record with a state type, `get_root`, `get_child`,
  `equal_to`, `hash_code`.  The documented contract is a hypothesis on this record.

## 3. Plan per property

| id | what is modelled | how it is proved |
|----|------------------|------------------|
| C01-C03 | `DdBuilder::initialize/construct`, `DdSweeper::update`, list of pending spec nodes with source pointers | invariant over levels: every slot is resolved or pending and denotes (up to all-zero nodes) the unfolding of its ghost state |
| C04-C08,C11,C38 | `DdReducer`: `makeReadyForSequentialReduction`, `algorithmR` (with its scratch use of lower rows), `reduce_`, `reduceMP_` (arbitrary distribution of nodes over threads) | one level contract proved for the three algorithms, then induction over levels against tree normalisation |
| C09,C10 | `DdStructure::operator==` | induction over levels; canonicity of normal forms by the usual Shannon argument |
| C12 | `evaluate`, `NodeTableEntity::makeIndex` | invariant: a row is released only after its highest referrer |
| C13,C14,C31 | `BigNumber`, `ZddCardinality`, `BddCardinality` | word lists as base 2^63 numerals |
| C15 | `const_iterator::next` | explicit stack = list of remaining suffixes of the enumeration |
| C16-C22 | `BinaryOperation.hpp`, `Lookahead.hpp`, `Unreduction.hpp` as transformations of spec records | induction over levels for arbitrary specs |
| C23 | `ZddSubsetter` | as C01 with a product state |
| C24 | `NodeTableHandler` heap of reference counted objects | invariant over arbitrary operation histories |
| C25,C26 | `PathCounter`, `DepthFirstSearcher` | induction over levels |
| C27-C29,C36 | `SizeConstraint`, `LinearConstraints`, `DegreeConstraint`, `Graph::update` | state invariants along paths |
| C30 | `MyHashTable` | open addressing invariant: no empty slot between home slot and element |
| C32-C34,C39 | `MyVector`, `MyList`, `MemoryPool`, `MySet` | operation histories refine sequences/sets |
| C35 | bit level `NodeId` | bit arithmetic on `N` |
| C37 | universal constructor | induction on n |
| C40 | `dumpSapporo` | invariant on the identifier table |
| C41,C42 | `DdBuilderMP`, `ZddSubsetterMP` | the level contract of C01/C23 for every distribution of tasks over threads |
| C43-C45 | `SimpathBasedImpl` and its four instances | the mate array as a function of the set of edges taken so far (a forest of paths); invariant through take/leave/shift/lookahead; completeness by building the invariant from the accepted set |
| C46 | `FrontierBasedSearch` | the array as a union-find forest of the connected components of the edges taken so far, with color and head pointers as offsets; a logical invariant on prefixes of edge sets, then a refinement of the array to it |
| C47 | `PodArrayDdSpec`, `HybridDdSpec`, raw hash and comparison, `getSpecNodeSize` | memory as bytes; relation block = elements + padding of the root block; simulation with the specification on arrays |
| C48 | `GraphillionZdd`: reading from an `istream`, table, `getRoot`/`getChild` | the reader on characters against a line/word grammar; invariant of the table over the lines; induction over levels against the sets of the node list |
| C49 | `DdBuilder` and `DdSweeper` with `mergeStates` and `oneSrcPtr`: `M_Merge.v` | `S_Merge.v`: final states and cheapest members; the construction invariant of C01 relative to an unknown tree of the 1-terminal, and an invariant of the recorded 1-branches over both passes and the sweep |
| C50 | `Graph::readEdges`, `readAdjacencyList`, `readVertexGroups`, `getColor`, `setDefaultPathColor`, `clearColors`: `M_GraphIO.v` | the readers on characters against the words of the lines (`S_GraphIO.v`); composition with C36 |
| C51 | `DdBuilder` with every state an object in memory (`get_root`, `get_copy`, `get_child`, `destruct` at each place the code has them): `M_Life.v` | refinement of the builder of C49 with an ownership invariant on the heap; misuse is `None`, a leak is a non-empty heap at the end |
| C52 | the memory operations of `StatelessDdSpec`, `DdSpec`, `PodArrayDdSpec`, `HybridDdSpec`, the lookaheads, unreduction, intersection, union, and, or: `M_Life.v` | each meets the contract that C51 needs (`S_Life.v`); full claim false for BddAnd, BddOr, ZddIntersection and HybridDdSpec, refuted with witnesses, partial under the stated conditions |
| C53 | `NQueenZddBase` (queens and rooks, with and without a first column) and the calls of `ddqueens`: `M_Queen.v`, `ddqueens` in `Props_Queen.v` | invariant: the bitmaps of a state are the squares of the rows below that the placed pieces leave free; pruning loses nothing; the program by C54 |
| C54 | nothing new: compositions of the functions of C01-C42 | `S_Api.v` defines the diagrams and specifications a program can obtain, with the family each stands for; mutual induction over the program, each case one of the earlier theorems |
| C55 | `PathZddByStdMap` on a map from vertices to mates: `M_PathMap.v` | the frontier invariant of C43 with the virtual edges as paths of length two through fresh midpoints; `is_tour` in `S_PathMap.v`; bijection with `is_cycle` and `is_links` |
| C56 | the program `ddpaths`: preparation of the graph and the calls selected by the options, as a relation that leaves every parallel step open: `M_Ddpaths.v` | every step keeps the API contract of C54; the degree filter never removes a solution (`P_Ddpaths.v`); cleared colors leave a graph on which the cycle search is correct although `hasColorPairs` is stale (`P_Uncolored.v`); size bounds in `S_Ddpaths.v` |
| C57 | the four classes that convert to and from SAPPOROBDD, over values of that library given as families and functions: `M_Bridge.v` | the evaluators by the induction of C12 over the diagram; the specifications by induction on the level, with the top variable as invariant; the round trips follow with C54 |
| C58 | `NAryZddBase`, `ZddInterleave`, `ColoredZdd` and the calls of `ddqueens -colored`: `M_Color.v`, `M_ColorProg.v` | the n-ary specifications by induction over groups and their levels; the other two by induction on the level, with the invariant that the state is one node per track, none above the level; for `ColoredZdd` also that either no color of the present square has been taken or none can be taken any more; the program through C53, C37 and C54 |
| C59 | `DdSpecBase::dumpDot` and `DdDumper`: `M_Dot.v`; `S_Dot.v` says what the statements of the file are and what specification a reader of the picture sees | invariant over the levels: the hash table of a level holds exactly the states of its list with their columns, columns never change, and every child drawn so far is 0, the 1-terminal or a node with an equal state (`P_Dot.v`); then the arrows read back give the children, and the picture is evaluated by induction on the level (`P_Dot2.v`) |
| C60 | `FixedBigNumber`: `M_Fixed.v`, words of 32 bits, `lldiv` as division of two's complement numbers | induction over the words with the carry or the remainder as the invariant |
| C61 | the Numberlink program (`apps/numberlink`): `M_Numlin.v`, `M_NumlinProg.v`; solutions of the puzzle in `S_Numlin.v` over cells and lines | frontier invariant: mates describe the ends of the partial lines drawn so far; vertical links are determined row by row; then C54 for the engine, and reflection at the diagonal for transposed boards. Without `-a` (`M_NumlinCon.v`): the array of ConstraintZdd holds the links and degrees of one row, so that it accepts exactly the solutions that are tidy in the sense of `S_NumlinCon.v` |
| C62 | the program `cnf2ztdd2bdd`: `M_Cnf.v` (reading and sorting of clauses, the specification `CnfToZtdd`, the evaluator `ZtddToCudd`); clauses, assignments and vectors in `S_Cnf.v` | a state stands for the list of the rests of its clauses, which stays sorted; binary search splits sorted lists; then C54 for the engine and induction over the tree of the diagram for the evaluator |
| C63 | the program `cnfbdd -c`: `M_CnfBdd.v` (lists of clauses per level, reachability analysis on Boolean functions, `badState` on ordered diagrams, the specification, the output) | invariant: the state at level l is the set of the open clauses; the analysis contains the set of open clauses of every satisfying assignment, by induction downwards (`traverseTD`) and upwards (`traverseBU`); `badState` answers true only for sets outside the diagram; then C54 for the engine, C14 for the count |
| C64 | `makeClauseMap` and `getChild` of `cnfbdd` without `-c`, with `-n`: `M_CnfMap.v` | every entry of the map sends a clause to one with the same literals up to the level (invariant over the recursion: a group of clauses shares a prefix of the reversed literals, and the order puts the clause with the next lower level first); states with the same rests are bisimilar; then C01 and C04, and for the number and the lines of solutions C14, C22 and C54 |

Not expressible in a model like this: wall-clock performance, actual memory consumption, behaviour of
`std::ostream`, OpenMP runtime internals (only the set of possible distributions of loop iterations
over threads is modelled).

## 4. Trusted base

1. The kernel of Coq 8.16.1 (including its `vm_compute` reduction machine, which is used for examples on
   literals; `coqchk`, which `vcheck` runs, re-checks those conversions without the virtual machine).
2. The statement layer: `Sem.v` (what a specification is and what it denotes), `S_*.v` and the theorem statements in
   `Props_*.v`.  These files have to be read to know what is claimed.
3. The faithfulness of `M_*.v` to the C++ text.  Each definition cites file and lines; nothing checks the
   citation mechanically.
4. Axioms: none of our own.  `Print Assumptions` is executed for every property theorem at the end of its `Props_*.v`
   file and prints "Closed under the global context" for each of them.  stdpp is used for lists, `gmap` and strings; it adds no axioms to any theorem.
   The library files that are loaded contain axioms that no theorem uses: `vcheck` lists, from the standard
   library's `Coq.ssr.ssrunder`: `Under_rel.Over_rel`, `Under_rel.Under_rel`, `Under_rel.Under_rel_from_rel`, `Under_rel.Under_relE`,
   `Under_rel.over_rel`, `Under_rel.over_rel_done`, `Under_rel.under_rel_done` (opaque module type fields of the ssreflect `under` tactic).
5. Machine integers: `NodeId` (64 bit), hash codes, `BigNumber` words, vertex numbers (16 bit), mates (16 bit), reference counts (32 bit) and
   machine counters are modelled with wrap-around.  `int` and `size_t` used as indices and sizes are unbounded; theorems where this matters
   say so in the manifest.

## 5. What is modelled

| file in /repo/include/tdzdd | modelled in | not modelled |
|---|---|---|
| `DdSpec.hpp` | `Sem.v` (any specification object), `M_Engine.v`, `M_Ops.v`, `M_Storage.v` (raw memory), `M_Dot.v` (`dumpDot`) | `DdSpec` with a non-trivial state type is "states are values"; `printLevel` and `print_state` are arbitrary functions to text; CRTP plumbing |
| `DdSpecOp.hpp`, `op/BinaryOperation.hpp`, `op/Lookahead.hpp`, `op/Unreduction.hpp` | `M_Ops.v`, `M_Life.v` (state memory) | in `M_Ops.v` buffers of the two component states are pairs, `M_Life.v` has them as memory that may be unconstructed |
| `DdStructure.hpp` | `M_Builder.v`, `M_Subset.v`, `M_Reducer.v`, `M_Equal.v`, `M_Eval.v`, `M_Iter.v`, `M_Conv.v`, `M_Dump.v`, `M_Table.v` | `dumpDot` of `NodeTable` (that of `DdSpecBase` is `M_Dot.v`), `dumpGraphillion`-like printing, messages |
| `DdEval.hpp`, `eval/Cardinality.hpp` | `M_Eval.v`, `M_Big.v` | - |
| `eval/ToBDD.hpp`, `eval/ToZBDD.hpp`, `spec/SapporoBdd.hpp`, `spec/SapporoZdd.hpp` | `M_Bridge.v` | the SAPPOROBDD library itself: its types and functions are assumed to do what its manual says (a ZBDD is a finite family of finite sets of variables, a BDD a Boolean function of the variables in use; `M_Bridge.v`, first section) |
| `dd/Node.hpp` | `M_NodeId.v` (bits), `M_Table.v` (abstract references), faithful by C35 | |
| `dd/NodeTable.hpp` | `M_Table.v`, `M_Index.v`, `M_Handler.v` | |
| `dd/DataTable.hpp` | inside `M_Eval.v` (rows created, set, released) | |
| `dd/DdBuilder.hpp` | `M_Builder.v`, `M_Subset.v`, `M_Engine.v` (default `merge_states`), `M_Merge.v` and `M_MergeMp.v` (`DdBuilder` and `DdBuilderMP` with any `merge_states`), `M_Dot.v` (`DdDumper`, default `merge_states`) | `merge_states` in the subsetters and the dumper; memory reuse of spec-node lists is a list (MyList itself: `M_List.v`) |
| `dd/DdReducer.hpp` | `M_Reducer.v`, `M_Zero.v` | |
| `dd/DdSweeper.hpp` | `M_Sweeper.v`, `M_Merge.v` (`oneSrcPtr`) | |
| `dd/DepthFirstSearcher.hpp` | `M_Dfs.v` | |
| `dd/PathCounter.hpp` | `M_PathCount.v` | |
| `spec/SizeConstraint.hpp`, `LinearConstraints.hpp`, `DegreeConstraint.hpp`, `PathZdd.hpp`, `FrontierBasedSearch.hpp`, `GraphillionZdd.hpp` | `M_Size.v`, `M_Linear.v`, `M_Degree.v`, `M_Simpath.v`, `M_Fbs.v`, `M_Graphillion.v` | `LinearConstraints` with floating point `T`; opening files |
| `spec/PathZddByStdMap.hpp` | `M_PathMap.v` | `std::map` is a finite map (its order of traversal matters only to the hash); printing |
| `util/BigNumber.hpp` | `M_Big.v`, `M_Fixed.v` | `translate` to signed and floating point types |
| `util/Graph.hpp` | `M_Graph.v`, `M_GraphIO.v` | opening files, `dump` |
| `util/IntSubset.hpp` | `M_Size.v` | |
| `util/MemoryPool.hpp`, `MyHashTable.hpp`, `MyList.hpp`, `MySet.hpp`, `MyVector.hpp` | `M_Pool.v`, `M_Hash.v`, `M_List.v`, `M_PoolList.v`, `M_Set.v`, `M_Vector.v` over `M_Mem.v` | |
| `util/MessageHandler.hpp`, `ResourceUsage.hpp`, `demangle.hpp` | - | no semantic content |
| `apps/ddqueens/NQueenZdd.hpp` | `M_Queen.v` | `ColoredNQueenZdd`; printing |
| `apps/ddqueens/NAryZdd.hpp`, `ZddInterleave.hpp`, `ColoredZdd.hpp` | `M_Color.v` | that `ZddInterleave(dd, n, pos)` points to its own member, which a copy of the object leaves dangling |
| `apps/ddqueens/ddqueens.cpp` | the calls without `-colored`: `ddqueens` in `Props_Queen.v`; with `-colored`: `M_ColorProg.v` | `-colored1`, options, printing; it prints a `double`, C53 and C58 speak of the exact `zddCardinality` |
| `apps/ddpaths/ddpaths.cpp` | `M_Ddpaths.v` | parsing of options, opening files, printing, export |
| `apps/numberlink` | `M_Numlin.v` (`NumlinZdd`, `DegreeZdd`, `Board::makeVerticalLinks`), `M_NumlinProg.v` (`Board::transpose`, `ddnumlin -a`), `M_NumlinCon.v` (`ConstraintZdd`, `ddnumlin` without `-a`) | `readNumbers`, `printNumlin`, `fillNumbers`, options. Which detours `ConstraintZdd` forbids is not characterised |
| `apps/cnf2ztdd2bdd` | `M_Cnf.v`: `CnfToZtdd` (`load` after the header line, `getRoot`, `getChild`, `==`, `hash`), `ZtddToCudd`, `run` up to the Boolean function. CUDD itself is trusted: a `Cudd` object is the Boolean function it stands for; `std::sort` gives the sorted list | the search for the header line, `printState`, the count of CUDD, the output file, options; the literal INT_MIN |
| `apps/cnfbdd` | `M_CnfMap.v`: the map to canonical clauses with `-n`; `M_CnfBdd.v`: `load`, `prepare`, `traverse`, `getRoot`, `getChild`, `badState`, `hashCode`, `equalTo` with `-c`; `run`, `output`. CUDD is trusted: its objects are ordered diagrams, `abstract` and `cofactor` compute the Boolean functions they are named after. What the size limit abstracts is left open | the map to canonical clauses together with the reachability analysis, its cubes and assertion, `-p`, `dumpCnf`, dot files, options; `Cudd` as a specification |
| other `apps/` | - | |

## 6. Findings: places where the code does not do what a user would expect

Each line names the theorem that proves it of the model, or says that it is an observation from reading.

1. `qddReduce`, sequential algorithm, ARITY 2: a root whose branches are all 0 is kept, the other algorithms remove it (`C11_qdd_agreement_refuted`).
2. Assigning a `NodeTableHandler` (hence a `DdStructure`) to itself when it is the only owner frees the table and then uses it (`C24_self_assignment_refuted`).
3. `BddCardinality` with decimal strings: the final shift leaves the scratch storage when numVars is larger than the top level, and shifts by a negative amount when it is smaller (`C14_bdd_cardinality_refuted`, `C14_too_few_variables_refuted`).
4. `operator==` is false for some pairs of equal diagrams with duplicate nodes (`C10_unconditional_completeness_refuted`).
5. `dumpSapporo` of a constant, and of a diagram with dead rows above the root, reads outside its table (`C40_constant_refuted`, `C40_released_root_refuted`).
6. `DdBuilderMP` with `mergeStates`: it never compares the states of the 1-terminal, so members that are not cheapest stay (`C49_parallel_terminals_refuted`), and when a cheaper state replaces one that already absorbed an equal one, branches are left at uninitialised nodes (`C49_parallel_uninitialised_refuted`). Observation: its test `nodeColumn[x] < 0` never holds.
7. `BddAnd`, `BddOr`, `ZddIntersection` `getRoot` return early when the first root decides, leave the second state unconstructed, and it is destructed later (`C52_and_refuted`, `C52_or_refuted`, `C52_intersection_refuted`).
8. `BigNumber::shiftLeft` of zero by 63 or more gives a non-canonical zero (`C31_shift_left_minimal_refuted`); `divide(n)` always divides by 10 (modelled as such).
9. `MyVector`: `erase` of one element, `erase` of an inner range, self-assignment and `push_back` of an own element (`C32_*_refuted`).
10. `MemoryPool::reuse` hands out memory still in use; splicing a pool into itself loses it (`C34_reuse_refuted`, `C34_self_splice_refuted`).
11. Observation: `NodeTableEntity::stretchBottom` and `init` do not invalidate a cached level index.
12. `PathCounter` buffers are too small for ARITY 3 and for long edges (`C25_arity3_refuted`, `C25_long_edge_refuted`).
13. `DegreeConstraint` is wrong for self-loops and for graphs without edges (`C29_self_loop_refuted`, `C29_no_edges_refuted`).
14. Observation: `SizeConstraint` for n = 0 is the empty family even if 0 is allowed (the model has it; C27 assumes n >= 1). `IntRange` with step 0 divides by zero.
15. `MySmallSet::add` when present/full, sorted containers with duplicates, `MyBitSet::pullout` (`C39_*_refuted`).
16. `Graph::readEdges` throws on a last line of two words without line end, and otherwise drops its last word without a message (`C50_missing_newline_refuted`, `C50_last_line`); `readAdjacencyList` silently stops at a word that is no number and adds an edge to vertex "0" (`C50_bad_word_refuted`); `setDefaultPathColor` takes vertex numbers for names (`C50_default_path_color_refuted`); `clearColors` leaves `hasColorPairs()` true (`C50_clear_colors_refuted`).
17. Observation: `ZddIntersection` with a 1-terminal code other than -1 calls `getChild` on a terminal; `ZddSubsetter` with code < -1 does not terminate (C18, C23 assume `one_code`).
18. `HamiltonCycleZdd` accepts cycles that miss a vertex, in two ways; `HamiltonPathZdd` accepts paths that miss a vertex (`C45_late_vertex_refuted`, `C45_first_vertex_refuted`, `C45_path_refuted`).
19. Observation: with more than 32767 vertices the mates of `PathZdd` wrap.
20. Observation: with 32767 or more vertices a color pointer of `FrontierBasedSearch` can equal the mark `UNCOLORED` (32766); the swapped arguments of `findColorPredecessor` in `takable` are harmless (both vertices are at the head of the frontier there).
21. `HybridDdSpec::destruct` does nothing, so a scalar state with a destructor leaks (`C52_hybrid_refuted`). `PodArrayDdSpec` compares the padding after the last element; that is harmless only because every state of a construction is copied from one root state (`C47_array_states`).
22. `GraphillionZdd` loads the text of the family {{}} ("T" and ".") as the empty family (`C48_constant_refuted`). Observation: a number that does not fit ends the reading without an error.
23. `NQueenZdd` and `NRookZdd` shift a 32-bit word by n, so boards from 32 x 32 on are undefined behaviour; `ddqueens` does not check (`C53_large_board_refuted`).
24. `PathZddByStdMap` joins all pairs into one cycle through virtual edges. With two or more pairs it therefore misses solutions of `PathZdd` and accepts edge sets that join the wrong vertices, although `ddpaths -slow` uses it in place of `PathZdd` (`C55_two_pairs_refuted`, and for the program `C56_slow_refuted`).
25. The loop of `SapporoZdd` that drops the variables up to the offset passes a variable number where a level is expected. If the order of these variables is not the natural one the loop may never end (`C57_order_refuted`).
26. `SapporoZdd` with a negative offset takes a constant for a node (`C57_negative_offset_refuted`). `ToZBDD` with a negative offset silently drops the sets that use the lowest levels, where `ToBDD` throws (`C57_to_zbdd`).
27. `NAryZdd` is not the family of all words: it returns level 0, which is the 0-terminal, where the lowest digit is 0, and so loses every word whose lowest digit is 0 (`C58_nary`, `C58_nary_refuted`). No program uses it.
28. `ddqueens -colored1` fixes color k on square k of the top row, `-colored` on square n - 1 - k: the two options print the same number but give mirrored families (observation; `-colored1` is not modelled).
29. `dumpDot` draws the arrows of all values from 3 on in green, so for five or more branches per node the file does not determine the function (`C59_many_values_refuted`). A specification that never reaches the 1-terminal is drawn with a 1-terminal `0:1` that no arrow reaches; otherwise its name is `0:2` (observation).
30. `FixedBigNumber::divide(n)` for n above 2^31 divides the wrong number, because `lldiv` is signed (`C60_divide_refuted`); `operator+=` has changed the object when it throws (`C60_add`).
31. `ddnumlin` has no answer for boards of one column (`C61_one_column_refuted`); for boards of one row it reads a row of `vlink` that does not exist (`C61_one_row_refuted`); numbers t with columns + t >= 256 do not fit in the 8 bits of a mate and are not seen or mixed up (`C61_numbers_refuted`). Without `-a` detours are forbidden also when `-k` limits the unused cells, so a solvable board may get the answer 0 (`C61_short_refuted`).
32. `CnfToZtdd::readDimacs` uses `x` once more after the last read has failed, when `x` has no value; if it is not 0, every complete file is rejected (`C62_junk_refuted`); all other theorems of C62 assume that it is 0. Empty clauses are skipped and not counted, so a formula with an empty clause is rejected with the header it should have (`C62_empty_clause_refuted`) and its empty clause is ignored with another (`C62_function`).
33. `cnfbdd`: clause numbers are stored as 16-bit integers, so 65536 clauses can turn a satisfiable formula into the constant false (`C63_many_clauses_refuted`). `#solution` is computed in the storage for the root level of the reduced diagram and overflows, for instance for a formula over 63 variables that is always true (`C63_solutions_refuted`). `badState` can move its pointer past the first element of the clause set and read there, for instance with `-b -c` and the clauses 1 2, -1 3, -2 (`C63_outside_refuted`). The last line of `badState` compares with the null pointer instead of the zero diagram, so that it never answers true there; some states are not cut, which changes no result. With the canonical clause numbers `equalTo` is no congruence: equal states can have successors that are not equal (`C64_case`); the construction does not need it.
