# Formal model of okamumu/rust-dd in Coq/Rocq 8.16.1

Source: `/repo` (Rust workspace: `common`, `bddcore`, `mddcore`, `bss`, `mss`). The code is read as
text; it was neither built nor run. Everything below is about the Gallina model in `rocq/theories`;
the only tie to the Rust code is the citation (file and lines) on every model definition.

## How the model is built

* **Arena.** All five managers (BDD, ZDD, MDD, MTMDD, ZMDD) store nodes in a `Vec` addressed by id, with a
  unique table, a free list and memo tables. `Arena.v` models that store once: `headers`, `nodes`
  (`Term t` or `NT header children`), `utable` (a finite map), `free` (the free list, top first),
  slot allocation, hash-consing, and mark-and-sweep with an explicit work stack. Each manager model adds
  its own tables and its own `create_node` rule and cites its own source lines.
* **Operations** are fuelled recursive functions `mgr -> ids -> option (mgr * id)`. `None` means panic
  (an out-of-range index or failed `unwrap`) or exhausted fuel; every correctness theorem concludes
  `= Some ...`, so panics and non-termination are excluded on the stated inputs. API entry points fix the
  fuel (a bound computed from the levels), so theorems do not mention fuel.
* **Caches** are modelled as they are: the computed table is the real direct-mapped, overwriting,
  growing table with the real hash function; HashMap memo tables are finite maps.
* **Wrappers** (`BddMgr`/`BddNode`, `ZddMgr`/`ZddNode`, `MddMgr`/`MddNode`, `ZmddMgr`/`ZmddNode`, `BssMgr`,
  `MssMgr`) are state machines: the core manager, the reference-count map of the handles, the collection
  threshold. A user history is an inductive predicate (`bss_held`, `zdd_held`, `mdd_held`, `mss_held`,
  `zdd_in_use` / joint histories) that records, for each handle the user still holds, the function or
  family that the call promised when the handle was created. The predicates contain one constructor per
  call, and clone, drop, explicit `gc`, `clear_cache`, `set_gc_threshold`.
* **Specification side.** `value m id rho v` walks the arena from `id` following assignment `rho`
  (`Spec*.v`). Families of sets / vectors, probabilities, counts are defined on plain
  functions, lists and sums, with no reference to the model's helpers. Proofs go through
  an unfolding of the arena into trees (`repr`), which does not appear in property statements.
* **Reachability.** Theorems range over managers reachable from `new()` by any finite history of API calls
  (an inductive predicate per manager), not over an internal invariant; the invariant is proved inductive.

## Files

| files | content |
|---|---|
| `ComputeCache`, `Arena`, `Bdd`, `Zdd`, `Mdd`, `MtMdd`, `MtMdd2`, `Zmdd` | model of `common`, `bddcore`, `mddcore` |
| `BssAlg`, `ZddAlg`, `BssMgr`, `ZddMgr`, `BssJoint` | model of `bss`: count, paths, prob, importance, dual, kofn, minsol, conversion, wrappers, rpn |
| `MddMinsol`, `MssConv`, `ZmddAlg`, `MssMgr`, `MssAlg` | model of `mss`: minsol, conversion, family enumeration, wrappers, rpn, count, paths, prob, importance |
| `EvMdd` | model of `evmdd_core` |
| `Dot`, `Iter`, `MIter`, `BssLook`, `MssLook`, `ZddLook`, `Count64`, `MCount64`, `Work`, `Apply`, `ZddApply`, `Float64` | model of the Graphviz output, iterators, inspection calls, 64-bit counting, recursions with a report of their work, double precision numbers |
| `Spec*`, `CacheSpec` | specification vocabulary used in theorem statements |
| `Props*` | the property theorems, each with `Print Assumptions`, and their examples |
| `ConformBss`, `ConformMss` | the asserting tests of `/repo` (gc tests, `test_bss.rs`, `test_mss.rs`, unit tests of kofn and counting) transcribed and evaluated in the model; these are tests of the model, not proofs |
| everything else | proofs |

## Properties


| id | property | method | status | theorems |
|---|---|---|---|---|
| C01 | Computed table never invents or confuses an answer | `ComputeCache` model, all methods; refinement of an ideal finite map by induction over operation sequences | proved | `c01_hit_is_recalled`, `c01_counters_exact`, `c01_progress` |
| C02 | BDD connectives are pointwise | BDD manager and apply operations; induction on ranks, invariant = arena well-formed + caches sound | proved | `c02_connectives`, `c02_not`, `c02_undetermined`, `c02_value_unique` |
| C03 | BDD if-then-else selects pointwise | same, ternary recursion and its own cache | proved | `c03_ite` |
| C04 | BDD canonicity | unique-table invariant + uniqueness of ordered reduced trees | proved | `c04_canonical` |
| C05 | Operations never disturb existing nodes and never panic on valid handles | totality and extension part of the operation specs | proved | `c05_no_panic_no_disturbance` |
| C06 | BDD gc reclaims exactly the unreachable nodes | mark-and-sweep loop invariant; reachability is an independent inductive definition | proved | `c06_gc_exact`, `c06_gc_again` |
| C07 | BDD operations stay correct across any interleaving with gc | invariant preserved by gc and every call; statement over reachable managers | proved | `c07_held_handles`, `c07_held_canonical` |
| C08 | BSS handles keep their meaning under automatic collection | wrapper state machine (handle multiset, refcount map, threshold); simulation invariant by induction over call sequences | proved | `c08_handles`, `c08_equal`, `c08_no_panic` |
| C09 | RPN builds the function the expression denotes | rpn tokenizer and interpreter vs an independent boolean stack machine on printed tokens | proved | `c09_rpn`, `c09_total`, `c09_unique` |
| C10 | Malformed RPN is reported, not fatal | refuted by a two-token witness; every other malformed input proved to be reported | partial | `c10_reported_refuted`, `c10_reported_partial` |
| C11 | k-out-of-n gate | kofn with its memo; induction on (k, suffix) | proved | `c11_kofn`, `c11_and`, `c11_or` |
| C12 | Dual | dual with memo; involution via canonicity | proved | `c12_dual` |
| C13 | BDD satisfying-assignment count | bdd_count vs cardinality of the enumerated assignments | proved | `c13_count`, `c13_count_defined` |
| C14 | BDD path enumeration is exact | BddPath stack machine vs recursive enumeration; NoDup and membership | proved | `c14_extract` |
| C15 | BDD probability | prob vs sum over all assignments, in any commutative ring | proved | `c15_prob` |
| C16 | Birnbaum importance | topological order lemma + reverse accumulation identity | proved | `c16_bmeas` |
| C17 | Minimal path sets are exactly the minimal solutions, and non-coherent functions are rejected | minsol/without/to_zdd; monotonicity test via canonicity; family semantics | proved | `c17_minpath`, `c17_no_disturbance` |
| C18 | Minimal cut sets | dual + C17 | proved | `c18_mincut` |
| C19 | ZDD set algebra | ZDD manager; family semantics of union/setdiff/product | proved | `c19_union`, `c19_setdiff`, `c19_product` |
| C20 | ZDD intersection | refuted (`(One,_) => g`); partial theorem names the families on which it is right; exact theorem says what is returned on all | partial | `c20_intersect_refuted`, `c20_intersect_partial`, `c20_intersect_exact` |
| C21 | ZDD division | refuted; partial theorems for the unit divisor and for a top set common to all members | partial | `c21_divide_refuted`, `c21_divide_partial`, `c21_divide_top_partial` |
| C22 | ZDD canonicity and gc | as C04/C06 with zero-suppression | proved | `c22_canonical`, `c22_gc_exact`, `c22_no_disturbance`, `c22_create_node` |
| C23 | Equal minimal-path families compare equal | refuted: every call creates fresh headers; partial theorem says exactly when the nodes are equal | partial | `c23_minpath_eq_refuted`, `c23_min_eq_partial` |
| C24 | ZDD counting and enumeration | zdd_count / ZddPath vs enumeration of members | proved | `c24_count`, `c24_finite`, `c24_extract` |
| C25 | MDD connectives are pointwise | generic n-ary apply (`expand`) with three-valued tables; induction on ranks | proved | `c25_connectives`, `c25_not`, `c25_ite`, `c25_replace` |
| C26 | MDD / MTMDD canonicity | canonicity for k-ary nodes and value terminals | proved | `c26_canonical_mdd`, `c26_canonical_mtmdd`, `c26_value_mdd`, `c26_value_mtmdd` |
| C27 | MTMDD arithmetic is pointwise | MTMDD operations over `Z`, overflow behaviour a parameter (`vint`) | proved | `c27_arithmetic`, `c27_arithmetic_at`, `c27_arithmetic_i32` |
| C28 | Comparisons are pointwise | MtMdd2 comparisons; `lte` refuted and characterised | partial | `c28_comparisons_partial`, `c28_comparisons_undetermined`, `c28_boolean_eq`, `c28_lte_refuted`, `c28_lte_partial` |
| C29 | Value if-then-else | MtMdd2 ite/vite | proved | `c29_value_ite`, `c29_boolean_ite` |
| C30 | MDD / MTMDD gc | gc for MDD / MTMDD / MtMdd2, caches that survive included | proved | `c30_gc_mdd`, `c30_gc_mtmdd`, `c30_value`, `c30_gc_combined`, `c30_no_disturbance`, `c30_held` |
| C31 | Undetermined boolean constant | refuted (`undet_boolean` uses the value forest's id) | partial | `c31_undet_boolean_refuted`, `c31_undet_boolean_is_false` |
| C32 | MSS probability | vprob/bprob vs sum over state vectors, any commutative ring | proved | `c32_prob` |
| C33 | MSS Birnbaum importance | vbmeas/bbmeas vs difference of conditional probabilities; rows sum to one | proved | `c33_bmeas`, `c33_bmeas_prob`, `c33_absent` |
| C34 | MSS state-vector count | value diagrams proved; boolean diagrams (memo key lacks the level) and constants refuted | partial | `c34_count_partial`, `c34_bool_partial`, `c34_const_partial`, `c34_bool_refuted`, `c34_const_refuted` |
| C35 | MSS vector enumeration | MddPath stack machine vs recursive enumeration | partial | `c35_extract`, `c35_len_partial`, `c35_len_bool_partial`, `c35_len_refuted` |
| C36 | Multi-state minimal path vectors | vminsol/bminsol/without + conversion + baseline; statement on minimal vectors of the structure function | proved | `c36_minpath`, `c36_single_state_refuted` |
| C37 | Multi-state minimal cut vectors | maxsol mirror of C36 | proved | `c37_mincut` |
| C38 | Level extraction | extract_level on the converted family | proved | `c38_path_level`, `c38_cut_level` |
| C39 | ZMDD label-wise algebra | ZMDD intersect/setdiff by family semantics | proved | `c39_intersect`, `c39_setdiff`, `c39_label_unique` |
| C40 | ZMDD counting and enumeration | ZMDD count / ZmddPath vs enumeration | proved | `c40_extract`, `c40_dense` |
| C41 | MSS RPN | MSS rpn vs an integer/boolean stack machine | partial | `c41_rpn_partial`, `c41_rpn_total_partial`, `c41_total`, `c41_unique`, `c41_lte_refuted` |
| C42 | MSS handles keep their meaning under automatic collection | MSS wrapper state machine, both forests, threshold collector | proved | `c42_handles`, `c42_equal`, `c42_no_panic` |
| C43 | Diagram size report | node_count vs cardinalities of the reachable sets | proved | `c43_size`, `c43_zdd_size`, `c43_mdd_size` |
| C44 | Variable definition is idempotent and ordered | defvar / get_varorder invariants | proved | `c44_order`, `c44_defvar`, `c44_same` |
| C45 | ZMDD equality is family equality | zero-suppressed canonicity for k-ary nodes with shared levels | proved | `c45_canonical` |
| C46 | ZMDD node creation | create_node spec | proved | `c46_create_node` |
| C47 | ZMDD baseline | set_baseline spec | proved | `c47_set_baseline` |
| C48 | ZMDD garbage collection | gc + cache for ZMDD | proved | `c48_gc_exact`, `c48_no_disturbance` |
| C49 | ZMDD labels | labels of a family | proved | `c49_labels` |
| C50 | MSS variables | defvar / get_varorder of the MSS wrapper; panic witness for one-state variables | partial | `c50_order_partial`, `c50_defvar`, `c50_order_refuted` |
| C51 | Families keep their meaning | joint invariant of MddMgr and ZmddMgr under all interleavings | proved | `c51_handles`, `c51_family`, `c51_level`, `c51_intersect`, `c51_setdiff`, `c51_mixed_refuted` |
| C52 | ZddNode handles keep their families | ZddMgr wrapper state machine; named-set semantics independent of levels | proved | `c52_handles`, `c52_equal`, `c52_no_panic`, `c52_no_panic_new`, `c52_count`, `c52_extract`, `c52_terminal_tests` |
| C53 | BssMgr minimal path and cut sets by name | joint invariant of BddMgr and ZddMgr in a BssMgr | proved | `c53_handles`, `c53_minpath`, `c53_mincut`, `c53_equal_refuted` |
| C54 | Interval probabilities and importances enclose the exact ones | relational parametricity of the model's prob/bmeas between a point ring and an interval type | proved | `c54_mdd_prob`, `c54_mdd_bmeas`, `c54_bdd_prob`, `c54_bdd_bmeas`, `c54_points` |
| C55 | Graphviz output draws the diagram | dot_impl depth-first walk with visited set; exact line set, then reading back | proved | `c55_bdd`, `c55_zdd`, `c55_mdd`, `c55_zmdd` |
| C56 | The Graphviz text identifies the function | refuted by an injected label; injectivity of the printed text for quote-free names | partial | `c56_bdd_text_refuted`, `c56_bdd_text_partial`, `c56_zdd_text_partial`, `c56_mdd_text_partial` |
| C57 | Binary iterators keep their promise while the manager works on | iterator as a resumable machine; stability of the nodes below a pinned handle under every wrapper call | proved | `c57_bdd`, `c57_bdd_start`, `c57_bdd_handles`, `c57_zdd`, `c57_zdd_handles`, `c57_joint_bdd`, `c57_joint_zdd` |
| C58 | Multi-state iterators keep their promise while the manager works on | same machine over both halves of the MDD manager and over the ZMDD arena; the solution list is shown independent of variables declared later | proved | `c58_mdd`, `c58_mdd_start`, `c58_mdd_handles`, `c58_mss_mdd`, `c58_mss_family`, `c58_mss_extremal`, `c58_mss_start`, `c58_mss_handles` |
| C59 | A BddNode can be inspected, and the answers are about its function | dependence on a variable equals occurrence in the diagram, by canonicity: two different children are told apart by some assignment | proved | `c59_constants`, `c59_top`, `c59_declared`, `c59_children`, `c59_eq` |
| C60 | The analyses of a BddNode are about its function by name | lifting of the arena theorems through the wrapper invariant; assignments by name and by level correspond because labels are distinct | proved | `c60_count`, `c60_extract`, `c60_prob`, `c60_bmeas`, `c60_size` |
| C61 | An MddNode can be inspected, and the answers are about its function | as C59, generic in the terminal type, for both halves of the manager | proved | `c61_kind`, `c61_constants`, `c61_top`, `c61_declared`, `c61_children`, `c61_eq`, `c61_occurs` |
| C62 | is_undet and get_id2 of an MddNode | refuted by two-call histories; the rest is C61 | partial | `c62_undet_refuted`, `c62_undet_partial`, `c62_id2_refuted`, `c62_id2_partial` |
| C63 | A ZddNode can be inspected, and the answers are about its family | the top node of a reduced tree occurs in a member and bounds the levels of all members; rest from C52 | proved | `c63_top`, `c63_declared`, `c63_positions`, `c63_order`, `c63_children`, `c63_rebuild`, `c63_eq`, `c63_size` |
| C64 | Minimal paths and minimal cuts determine the system | below every path set there is a minimal one (induction on set inclusion); cuts by duality; then C52 and C53 | proved | `c64_paths`, `c64_cuts` |
| C65 | Minimal path and cut vectors determine the multi-state system | below (above) every vector of an up (down) closed set there is a minimal (maximal) one, by induction on the sum of the states; then C38 | proved | `c65_paths`, `c65_cuts`, `c65_paths_needs`, `c65_cuts_needs` |
| C66 | The collectors of BddMgr and ZddMgr keep exactly what is held and bound memory | from the core collector (C06) and the root-table invariant (C08); the state in which the collector runs is that of the same call with the threshold out of reach | proved | `c66_gc`, `c66_release`, `c66_auto`, `c66_count`, `c66_zdd_auto`, `c66_zdd_count` |
| C67 | The collectors of MddMgr and ZmddMgr keep exactly what is held and bound memory | as C66, over the two forests (C30, C42) and the root table of the families (C51) | proved | `c67_gc`, `c67_auto`, `c67_count`, `c67_families`, `c67_families_count` |
| C68 | gc reports how many slots it reclaimed | free slots are recounted by every collection; witness by two collections in a row | partial | `c68_reclaimed_partial`, `c68_reclaimed_refuted` |
| C69 | 64-bit counts are exact when they fit | u64 versions of the four counting recursions; wrapping run = exact run reduced modulo 2^64, checked run = exact run because every intermediate value is at most the result | proved | `c69_bdd_release`, `c69_zdd`, `c69_mdd`, `c69_mdd_bool`, `c69_zmdd` |
| C70 | bdd_count with overflow checks | as C69; witness: conjunction of 65 variables | partial | `c70_checked_partial`, `c70_checked_refuted` |
| C71 | Size of results | subdiagrams of a combination are combinations of subdiagrams; canonicity makes this injective; kofn against the grid of thresholds | proved | `c71_combination`, `c71_gate`, `c71_ite`, `c71_not`, `c71_dual`, `c71_kofn` |
| C72 | Diagrams are minimal | every subdiagram is a subgraph's function; canonicity makes the map injective | proved | `c72_minimal` |
| C73 | Sizes of multi-state diagrams | as C71 and C72, with both forests mapped to one type of leaves | proved | `c73_combination`, `c73_binary`, `c73_minimal` |
| C74 | Operations leave no garbage | induction on the recursion of each operation: the node created last has the results of the recursive calls as children, which reach what those calls created | proved | `c74_bdd`, `c74_zdd`, `c74_mdd`, `c74_mtmdd`, `c74_bdd_collect`, `c74_zdd_collect`, `c74_mdd_collect`, `c74_mtmdd_collect`, `c74_bdd_derived`, `c74_mdd_derived`, `c74_combined`, `c74_combined_collect` |
| C75 | Work done by gates and analyses | the modelled recursion extended by a trace, with an erasure lemma; the trace is a depth-first traversal that marks nodes; for k-out-of-n the filled memo cells are counted | proved | `c75_kofn`, `c75_dual`, `c75_count`, `c75_prob`, `c75_zdd_count`, `c75_mdd_prob`, `c75_same` |
| C76 | If-then-else against the formula it replaced | both calls denote the same function, so canonicity gives the same node; counterexamples by computation | partial | `c76_bdd_partial`, `c76_mdd_partial`, `c76_value_partial`, `c76_bdd_refuted`, `c76_mdd_refuted`, `c76_value_refuted` |
| C77 | Results depend only on the operands' functions, undetermined values included | the recursion of each operation as a relation on trees (with its terminal arms and equality test), shown deterministic, invariant under renaming of headers, and kept as invariant of all cache entries; then by canonicity | proved | `c77_connective`, `c77_ite`, `c77_again`, `c77_ite_again`, `c77_and_constants`, `c77_or_constants`, `c77_xor_constants` |
| C78 | Multi-state results depend only on the operands' functions, undetermined values included | as C77, with the strict treatment of undetermined operands; the value if-then-else cache carries the exact relation as an invariant, the comparison, value-if and arithmetic results are already exact pointwise | proved | `c78_mdd`, `c78_mdd_again`, `c78_undetermined_wins`, `c78_constants`, `c78_combined`, `c78_combined_again` |
| C79 | Probabilities computed in f64 are finite, in [0,1], and accurate to n machine epsilons | one step (1-p)*l + p*h of numbers in [0,1] is off by at most 2^-52 and stays in [0,1] (Flocq: rounding below 1 is off by at most 2^-54, and 1 + 2^-54 rounds to 1); induction over the levels, the exact step does not enlarge errors; the exact recursion is C15 over the reals | proved | `c79_accurate`, `c79_exact_table`, `c79_certain` |
| C80 | Multi-state probabilities computed in f64 are finite, not negative, and accurate to N machine epsilons | the running sum of products, one term at a time: each product and each addition of numbers in [0,2] is off by at most 2^-53; induction over the row and over the levels; the exact value is C32 over the reals | proved | `c80_accurate` |
| C81 | A probability computed in f64 never exceeds one | two-state: C79; multi-state: witness | partial | `c81_two_state_partial`, `c81_multi_state_refuted` |
| C82 | Birnbaum importances computed in f64 are finite and accurate | the run in f64 and the run over the reals are followed side by side; invariant for every level: error already in the result of the level's variable plus the errors of the weights still above that level grow by at most 4(2^-52 + delta) per processed node, the weights above a level never exceed 1 in total; the exact result is C16 over the reals | proved | `c82_accurate` |
| C83 | Multi-state Birnbaum importances computed in f64 are finite and accurate | as C82, with one share of the weight per edge: per processed node the errors above any level grow by at most (2^-52 + 2 delta) per edge; computed probabilities may exceed 1 (C81), so the weights' errors count twice; the exact result is C33 over the reals | proved | `c83_accurate` |
| C84 | Edge-valued MDD operations compute the pointwise minimum, maximum, sum and difference | invariant of the manager (every cache entry holds for every pair of edge values with the stored difference, by shifting); induction on the sum of the two node ids, children having smaller ids; the state-passing map over the edges by a chain lemma | proved | `c84_operations` |
| C85 | create_node of the EV+MDD manager denotes the chosen edge and shares nodes | case analysis of create_node over the invariant that ties the unique table to the node list | proved | `c85_create_node` |
| C86 | An EV+MDD edge is determined by its function | without infinity the smallest value below a node is 0, so equal functions have equal edge values; then strong induction on node ids; the refutation computes the two edges | partial | `c86_unique_partial`, `c86_refuted` |
| C87 | A BDD apply runs in time proportional to the product of the operand sizes | traced versions of the recursions, proved to erase to the modelled functions; every evaluated pair is a pair of nodes below the operands; an entry put into a table without loss stays, so no pair is evaluated twice; the refutation computes the traced conjunction on diagrams whose pairs all hash to one slot | partial | `c87_connective_partial`, `c87_not_partial`, `c87_ite_partial`, `c87_refuted` |
| C88 | A ZDD operation evaluates each pair of nodes at most once | one traced recursion for the five operations, proved to erase to the modelled functions; keys are never removed from the table, the pairs called are below the operands and of smaller rank | proved | `c88_zdd_work` |
| C89 | Handles of two BddMgr are told apart | constants have the same node number in every manager, by the equality theorem of one manager; the refutation takes the first variables of two managers | partial | `c89_constant_partial`, `c89_refuted` |
| C90 | Probabilities obey the laws of probability | prob is the expectation of the function over the vectors of truth values, defined by recursion on the table; the laws are proved of the expectation by induction on the table, in any commutative ring, the inequalities in any ordered one | proved | `c90_equations`, `c90_bounds` |
| C91 | Multi-state probabilities obey the laws of probability | prob is the expectation of the event over the vectors of states, defined by recursion on the rows; dominance by summation by parts over the tails of a row, then induction on the rows | proved | `c91_equations`, `c91_bounds` |
| C92 | Garbage collection settings never change an answer | lock-step simulation of two runs whose arenas differ; nodes related when they unfold to the same tree; every traversal (memo tables, topological order, path stack) shown to commute with the relation | proved | `c92_housekeeping`, `c92_prefix` |
| C93 | No wrapper call panics on a RefCell borrow or leaves one behind | operational model of RefCell flags and of guard scopes with early exits; a static check proved sound by induction on runs, then discharged for every method | proved | `c93_no_borrow_panic`, `c93_looking`, `c93_writing` |
| C94 | Recursion depth is bounded by the number of variables | monotonicity of every recursion in its depth bound (a logical relation on option results, by induction on the bound), plus the totality theorems at the bound of the entry point | proved | `c94_bdd`, `c94_zdd`, `c94_mdd`, `c94_mtmdd`, `c94_mixed`, `c94_zmdd`, `c94_bss`, `c94_bss_prob`, `c94_variables`, `c94_handles`, `c94_mss_prob`, `c94_mss_size`, `c94_mss_count`, `c94_mss_minpath` |
| C95 | Garbage collection settings never change an answer of MddMgr | a simulation: both runs keep slot by slot the same diagrams (same tree, possibly different ids) in managers with the same headers; collections keep the diagrams of pinned handles; every operation is a function of diagrams (C78), and every traversal gives equal results on equal diagrams | proved | `c95_housekeeping`, `c95_prefix` |
| C96 | Storing ids in 32 bits is exact up to 2^32 slots and headers | two executions side by side, wide and narrowed: a record relating both results (same as long as the store is small, both too large otherwise), closed under the monadic operations; all stored ids are below the number of slots, so each cast is the identity; beyond the limit an explicit history for every width | proved | `c96_exact`, `c96_reachable`, `c96_zdd_exact`, `c96_mdd_exact`, `c96_mtmdd_exact`, `c96_zmdd_exact`, `c96_other_reachable`, `c96_mtmdd2_exact`, `c96_mtmdd2_reachable`, `c96_slot_limit`, `c96_header_limit` |
| C97 | A call that panics and is caught has no visible effect | the state at the moment of a panic as a function beside each operation; it is an extension of the state before, with the same headers and a sound cache, by induction along the recursion; then the side-by-side relation of two wrappers of C95, one step caught and one step skipped; rpn: token by token, the variables defined so far on both sides | partial | `c97_bdd`, `c97_caught_partial`, `c97_left_out_partial`, `c97_refuted` |
| C98 | Handles may outlive their manager | strong reference count, arena and collection state as three parts of the world; with the manager there a step is the step of C92/C97, with only the arena there it is the step of a manager whose threshold is not reached, so the side-by-side relation of C92 carries over; induction on the program | proved | `c98_lifetime`, `c98_reference_suffices`, `c98_drop_safe`, `c98_no_owner`, `c98_freed`, `c98_mdd_lifetime`, `c98_mdd_reference_suffices`, `c98_mdd_drop_safe`, `c98_mdd_no_owner`, `c98_mdd_freed`, `c98_zdd_lifetime`, `c98_zdd_reference_suffices`, `c98_zdd_drop_safe`, `c98_zdd_no_owner`, `c98_zdd_freed` |
| C99 | Collections of ZddMgr never change an answer | the five set operations shown to compute a function of the unfolded diagrams of their operands, whatever valid cache they start with (so no family semantics is needed, and divide is covered); then lock-step simulation of two runs as for C92 | proved | `c99_housekeeping`, `c99_prefix` |
| C100 | Collections in BssMgr never change an answer, across minpath and mincut | minsol and without shown to compute a function of the unfolded diagram, whatever their memo tables; to_zdd run in lock-step in the two managers (its memo tables relate node ids with equal unfoldings); then simulation of two runs on top of those of C92 and C99 | proved | `c100_housekeeping`, `c100_prefix` |
| C101 | minpath and mincut of one BssMgr on nodes of other managers | conversion shown to label every node of its result from the source manager, so that the names are read off one diagram without assuming that the forest as a whole has one order of names; invariant of the forest without that assumption, along all histories; operations of one manager by the tree function of C99, which builds its result from headers of its operands; refutation by computation | partial | `c101_handles`, `c101_minpath`, `c101_mincut`, `c101_same_manager`, `c101_op_harmless`, `c101_union_refuted` |
| C102 | minpath and mincut of one MssMgr on nodes of other managers | invariant of the MssMgr (C36, C51) kept along with one of each source manager; the conversion needs the source headers to agree with those of the forest by level, name and number of states, which equal variable lists give; refutation by computation | partial | `c102_minpath`, `c102_mincut`, `c102_family`, `c102_level`, `c102_intersect`, `c102_setdiff`, `c102_handles`, `c102_handles_own`, `c102_own`, `c102_dense_refuted` |
| C103 | Handles of one BddMgr given to operations of another | the invariant of the wrapper with one more pinned node (the unnamed result), kept along every further history; range check from the cache invariant; refutations by computation on histories shown to be reachable | partial | `c103_alias`, `c103_live`, `c103_beyond`, `c103_eq_refuted`, `c103_operand_refuted`, `c103_sound_refuted` |

A property whose status is `partial` is either false of the code, with a `_refuted` theorem giving a
concrete witness (a finding, see below) and a `_partial` theorem saying what does hold, or proved only on
the inputs its `_partial` theorem names. None was left out as inexpressible.

## Findings: properties that are false of the model

| property | witness |
|---|---|
| C10 | `rpn("&")`, `rpn("x &")`: an operator with too few operands panics instead of returning `Err` |
| C20 | `intersect({{}}, {{x}})` returns `{{x}}` (the arms `(One, _) => g`, `(_, One) => f`) |
| C21 | `{{x,y}} / {{y}}` returns the empty family |
| C23, C53 | `minpath` twice on one node gives two different ZDD nodes for one family (fresh headers per call) |
| C28, C41 | `lte(x, 1)` is false at `x = 1`: `lte` is `lt` unless the two diagrams are equal everywhere |
| C31 | `undet_boolean()` returns the false node |
| C34, C35 | boolean `mdd_count` memo is keyed by node alone, `x + y >= 1` over two-state variables counts 2; constants count 1; `len()` of the enumeration disagrees with what it yields |
| C36 | with a single-state variable `minpath` panics (through `get_varorder`) |
| C50 | `get_varorder` panics when some variable has one state |
| C51 | `intersect` of a path family with a cut family compares unrelated vectors |
| C56 | a double quote in a variable name is written unescaped: two different functions with the same text |
| C62 | `undet_value().is_undet()` is false; `undet_value()` and the boolean false have the same `get_id2` (0, 0) |
| C68 | `gc` returns the number of free slots, not the number reclaimed: collecting twice in a row reports the same slots twice |
| C70 | with overflow checks `bdd_count` of `x0 & ... & x64` (true count 1) panics: 2^64 is computed for the edge into 0 before multiplying by 0 |
| C76 | the comments say native `ite` is identical to the formula it replaced "including `Undet` propagation"; with undetermined operands it is not (in the MDD manager `ite(1,1,undet)` is 1 and the formula is undetermined) |
| C81 | multi-state `prob` in `f64` can exceed 1: with state probabilities 0.33, 0.56, 0.11 the probability of "any state" is 1.0000000000000002 |
| C86 | EV+MDD: `create_node` lets edges to infinity take part in the minimum and keep a value, so one function has several edges: for `f = (0, infinity)` the sum `1 + f` is a new node and not the edge `(1, f)` |
| C87 | the guide's "an apply runs in time proportional to the product of operand sizes": the cache is direct-mapped, and two diagrams of 15 vertices whose pairs all fall into one slot take 610 evaluations (Fibonacci growth, as without a cache) |
| C89 | handles of two managers: variable `a` of one `BddMgr` and variable `b` of another are `eq`, and `a.and(&b)` silently is `a` (a handle is a node number, looked up in the manager of the first operand) |
| C96 (limit) | ids are narrowed with unchecked `as u32`: with 2^32 + 1 slots the node in the last slot is remembered as slot 0, so asking for it again answers the constant false; with 2^32 + 1 headers two variables share a node |
| C97 | `MddMgr::defvar(name, 0)` panics only after `create_header` (mss/src/mdd.rs:213-228, `nodes[0]` in mtmdd2.rs:114); if the panic is caught, the orphan header stays in both forests and `get_header` of later variables answers one more than without the call |
| C101 | `minpath` and `mincut` accept nodes of other managers and give the right family, but the set algebra on families from two managers goes by level, not by name: the union of {{a}} and {{b}}, each over the first variable of its own manager, silently is {{a}} |
| C102 | `MssMgr::minpath`/`mincut` accept nodes of other managers but fill in components from their own manager's variables: for φ = x of another manager, an `MssMgr` without variables lists the empty vector at level 0 in place of x = 0 (with other variables declared: those, and not x) |
| C103 | `BddNode::and`/`or`/`xor`/`eq` of bss use only the number of the other operand, with no check of its manager: `eq` answers true for different functions of different managers, and one call `(not x).and(g)` with `g` of another manager whose number is a freed slot leaves a cache entry that later makes `(x or y) and (not x)` false on the manager's own handles |

## What is modelled, file by file

| Rust file | modelled | not modelled |
|---|---|---|
| common/src/compute_cache.rs | all methods, real hash, growth and purge | narrowing of words to u32 (Bdd32.v, Zdd32.v, Mdd32.v, Mt32.v have it at the call sites) |
| common/src/dot.rs | `dot`, `dot_string` | I/O errors |
| common/src/nodes.rs, common.rs | node/header/arena accessors (as projections) | - |
| bddcore/src/bdd.rs, bdd_ops.rs, bdd_dot.rs | everything | `Debug` |
| bddcore/src/zdd.rs, zdd_ops.rs, zdd_dot.rs | everything | `Debug` |
| mddcore/src/mdd.rs, mdd_ops.rs, mtmdd.rs, mtmdd_ops.rs, mtmdd2.rs, mtmdd2_ops.rs, zmdd.rs, zmdd_ops.rs, *_dot.rs | everything | `Debug`; `MtMdd2Manager::mtmdd_mut`/`mdd_mut` (direct access to one forest) |
| bss/src/bdd.rs, zdd.rs, bss.rs | wrappers, rpn, collector; `BssMgr` delegations are the wrapped calls | changes of the core manager through `get_mgr`; handles used with a foreign manager, except `minpath`/`mincut` and set operations on their results (C101) and `and`/`or`/`xor`/`eq` of BddNode (C103) |
| bss/src/bdd_count.rs, bdd_dual.rs, bdd_kofn.rs, bdd_minsol.rs, bdd_path.rs, bdd_prob.rs, zdd_convert.rs, zdd_count.rs, zdd_path.rs | everything | - |
| mss/src/mdd.rs, zmdd.rs, mss.rs | wrappers, rpn, collector; `MssMgr` delegations are the wrapped calls | changes of the core manager through `get_mgr`; handles used with a foreign manager, except `minpath`/`mincut` and set operations on their results (C102) |
| mss/src/mdd_count.rs, mdd_minsol.rs, mdd_path.rs, mdd_prob.rs, zmdd_convert.rs | everything | - |
| bddcore/src/bdd_stack.rs, zdd_stack.rs | - | not named in lib.rs, never compiled |
| evmdd_core/src/evplus_mdd.rs (not a workspace member, has no lib.rs, so it is not compiled today) | `new`, `create_header`, `create_node`, `level`, `min`, `max`, `add`, `sub` | `dot`, `label`, `size`, commented-out code; overflow of the edge value type |
| benches, examples, Python bindings | - | out of scope |
| tests | the assertions of bddcore, mddcore `test_gc.rs`, bss `test_bss.rs`, mss `test_mss.rs`, unit tests of kofn and mdd_count (`ConformBss`, `ConformMss`) | tests that only print |

## Deliberate simplifications (also stated at the definitions)

* Node and header ids are unbounded `nat`; the `as u32` narrowing of stored ids is modelled in separate copies of the
  six managers (Bdd32.v, Zdd32.v, Mdd32.v, Mt32.v, Mm32.v; C96: no effect up to 2^32 slots and headers, wrong answers
  one past either).
* `usize`/`u64`/`u32` counters (sizes, counts, reference counts) are unbounded (`nat`/`N`), except in C69/C70, where the
  counting recursions are repeated in u64 arithmetic (wrapping and checked; `Count64`, `MCount64`).
* Terminal values are `Z`; what the machine type does on overflow is a parameter (`vint`: the smallest value and
  a function that gives the stored result or a panic), so theorems hold for checked and for wrapping `i32`/`i64`.
* `create_header` on MDD managers is called with at least one state, and with the number of states other headers
  of that level have (`header_fits`); otherwise the code builds diagrams whose nodes disagree about a level. The
  wrappers always do this.
* `f64` is replaced by an arbitrary commutative ring (C15, C16, C32, C33) or by any type with sound interval
  operations (C54). C79-C83 are about `prob` and `bmeas` in `f64` itself (IEEE double precision, all NaNs identified).
* Edge values of the EV+MDD manager (C84-C86) are `Z`; overflow is not modelled there.
* `HashMap`/`HashSet` are finite maps/sets: iteration order (used by the code only to collect gc roots, to
  fill tables, and to fill the report maps) is whatever order the map model lists.
* `Rc`/`Weak`/`RefCell`: the computations are modelled without borrow flags; that no borrow ever
  conflicts is C93, about a separate transcription of where each method borrows (Borrow.v); a handle is its node id plus the
  reference count it contributes. Handles that outlive their manager are
  C98 (Life.v, LifeZ.v, LifeM.v; not for ZmddMgr); the other files assume that the manager is there.
* rpn splits on ASCII white space only (Rust also splits on Unicode white space).
* Stack depth of recursive Rust functions and memory exhaustion are not modelled.

## Trusted base

* The kernel of Coq 8.16.1 (`coqc`; every check switched on) and `vm_compute` for the examples and witnesses.
* The statements: `Props*.v` with the vocabulary in `Spec*.v`, and the faithfulness of the model files to the
  cited Rust lines. The seeded-bug log (`seeded/LOG.jsonl`) records edits of the model that a theorem catches. How to read it:
  `theorems_failed` names the proofs at which the build was seen to stop. `theorems_not_rebuilt` (and the count
  `other_theorems_affected`) are theorems that use one of those by the dependency graph; they were not compiled against the
  edit, so their failure is inferred, not observed. A proof that stops shows that the script no longer goes through, which is
  weaker than the statement being false; edits known to be equivalent are noted as controls. For the `auto-` entries `claim` was
  not chosen beforehand: it is the nearest dependent claim when the entry was first recorded. (Versions of the log before the
  commit that added C102 had recomputed it from the grown development, naming theorems that did not exist at the time of the
  run; the first recorded values have been restored.)
* Libraries beyond Coq's standard library: std++, and Flocq (IEEE 754 arithmetic, in the files of C79-C83 only). No axiom is
  declared by this development, and none of another library is used. `Print Assumptions` of every theorem says
  `Closed under the global context`, except for C79-C83, which use the four axioms of the standard library's reals listed below.
  The seven constants
  `Coq.ssr.ssrunder.Under_rel.*` that a whole-environment listing shows are the fields of a module type
  instance in Coq's own ssreflect plugin library, loaded by std++; no theorem depends on them.

364 of the 372 theorems named in MANIFEST.json print `Closed under the global context` (all except those of C79-C83):

* C01: c01_hit_is_recalled, c01_counters_exact, c01_progress
* C02: c02_connectives, c02_not, c02_undetermined, c02_value_unique
* C03: c03_ite
* C04: c04_canonical
* C05: c05_no_panic_no_disturbance
* C06: c06_gc_exact, c06_gc_again
* C07: c07_held_handles, c07_held_canonical
* C08: c08_handles, c08_equal, c08_no_panic
* C09: c09_rpn, c09_total, c09_unique
* C10: c10_reported_refuted, c10_reported_partial
* C11: c11_kofn, c11_and, c11_or
* C12: c12_dual
* C13: c13_count, c13_count_defined
* C14: c14_extract
* C15: c15_prob
* C16: c16_bmeas
* C17: c17_minpath, c17_no_disturbance
* C18: c18_mincut
* C19: c19_union, c19_setdiff, c19_product
* C20: c20_intersect_refuted, c20_intersect_partial, c20_intersect_exact
* C21: c21_divide_refuted, c21_divide_partial, c21_divide_top_partial
* C22: c22_canonical, c22_gc_exact, c22_no_disturbance, c22_create_node
* C23: c23_minpath_eq_refuted, c23_min_eq_partial
* C24: c24_count, c24_finite, c24_extract
* C25: c25_connectives, c25_not, c25_ite, c25_replace
* C26: c26_canonical_mdd, c26_canonical_mtmdd, c26_value_mdd, c26_value_mtmdd
* C27: c27_arithmetic, c27_arithmetic_at, c27_arithmetic_i32
* C28: c28_comparisons_partial, c28_comparisons_undetermined, c28_boolean_eq, c28_lte_refuted, c28_lte_partial
* C29: c29_value_ite, c29_boolean_ite
* C30: c30_gc_mdd, c30_gc_mtmdd, c30_value, c30_gc_combined, c30_no_disturbance, c30_held
* C31: c31_undet_boolean_refuted, c31_undet_boolean_is_false
* C32: c32_prob
* C33: c33_bmeas, c33_bmeas_prob, c33_absent
* C34: c34_count_partial, c34_bool_partial, c34_const_partial, c34_bool_refuted, c34_const_refuted
* C35: c35_extract, c35_len_partial, c35_len_bool_partial, c35_len_refuted
* C36: c36_minpath, c36_single_state_refuted
* C37: c37_mincut
* C38: c38_path_level, c38_cut_level
* C39: c39_intersect, c39_setdiff, c39_label_unique
* C40: c40_extract, c40_dense
* C41: c41_rpn_partial, c41_rpn_total_partial, c41_total, c41_unique, c41_lte_refuted
* C42: c42_handles, c42_equal, c42_no_panic
* C43: c43_size, c43_zdd_size, c43_mdd_size
* C44: c44_order, c44_defvar, c44_same
* C45: c45_canonical
* C46: c46_create_node
* C47: c47_set_baseline
* C48: c48_gc_exact, c48_no_disturbance
* C49: c49_labels
* C50: c50_order_partial, c50_defvar, c50_order_refuted
* C51: c51_handles, c51_family, c51_level, c51_intersect, c51_setdiff, c51_mixed_refuted
* C52: c52_handles, c52_equal, c52_no_panic, c52_no_panic_new, c52_count, c52_extract, c52_terminal_tests
* C53: c53_handles, c53_minpath, c53_mincut, c53_equal_refuted
* C54: c54_mdd_prob, c54_mdd_bmeas, c54_bdd_prob, c54_bdd_bmeas, c54_points
* C55: c55_bdd, c55_zdd, c55_mdd, c55_zmdd
* C56: c56_bdd_text_refuted, c56_bdd_text_partial, c56_zdd_text_partial, c56_mdd_text_partial
* C57: c57_bdd, c57_bdd_start, c57_bdd_handles, c57_zdd, c57_zdd_handles, c57_joint_bdd, c57_joint_zdd
* C58: c58_mdd, c58_mdd_start, c58_mdd_handles, c58_mss_mdd, c58_mss_family, c58_mss_extremal, c58_mss_start, c58_mss_handles
* C59: c59_constants, c59_top, c59_declared, c59_children, c59_eq
* C60: c60_count, c60_extract, c60_prob, c60_bmeas, c60_size
* C61: c61_kind, c61_constants, c61_top, c61_declared, c61_children, c61_eq, c61_occurs
* C62: c62_undet_refuted, c62_undet_partial, c62_id2_refuted, c62_id2_partial
* C63: c63_top, c63_declared, c63_positions, c63_order, c63_children, c63_rebuild, c63_eq, c63_size
* C64: c64_paths, c64_cuts
* C65: c65_paths, c65_cuts, c65_paths_needs, c65_cuts_needs
* C66: c66_gc, c66_release, c66_auto, c66_count, c66_zdd_auto, c66_zdd_count
* C67: c67_gc, c67_auto, c67_count, c67_families, c67_families_count
* C68: c68_reclaimed_partial, c68_reclaimed_refuted
* C69: c69_bdd_release, c69_zdd, c69_mdd, c69_mdd_bool, c69_zmdd
* C70: c70_checked_partial, c70_checked_refuted
* C71: c71_combination, c71_gate, c71_ite, c71_not, c71_dual, c71_kofn
* C72: c72_minimal
* C73: c73_combination, c73_binary, c73_minimal
* C74: c74_bdd, c74_zdd, c74_mdd, c74_mtmdd, c74_bdd_collect, c74_zdd_collect, c74_mdd_collect, c74_mtmdd_collect, c74_bdd_derived, c74_mdd_derived, c74_combined, c74_combined_collect
* C75: c75_kofn, c75_dual, c75_count, c75_prob, c75_zdd_count, c75_mdd_prob, c75_same
* C76: c76_bdd_partial, c76_mdd_partial, c76_value_partial, c76_bdd_refuted, c76_mdd_refuted, c76_value_refuted
* C77: c77_connective, c77_ite, c77_again, c77_ite_again, c77_and_constants, c77_or_constants, c77_xor_constants
* C78: c78_mdd, c78_mdd_again, c78_undetermined_wins, c78_constants, c78_combined, c78_combined_again
* C84: c84_operations
* C85: c85_create_node
* C86: c86_unique_partial, c86_refuted
* C87: c87_connective_partial, c87_not_partial, c87_ite_partial, c87_refuted
* C88: c88_zdd_work
* C89: c89_constant_partial, c89_refuted
* C90: c90_equations, c90_bounds
* C91: c91_equations, c91_bounds
* C92: c92_housekeeping, c92_prefix
* C93: c93_no_borrow_panic, c93_looking, c93_writing
* C94: c94_bdd, c94_zdd, c94_mdd, c94_mtmdd, c94_mixed, c94_zmdd, c94_bss, c94_bss_prob, c94_variables, c94_handles, c94_mss_prob, c94_mss_size, c94_mss_count, c94_mss_minpath
* C95: c95_housekeeping, c95_prefix
* C96: c96_exact, c96_reachable, c96_zdd_exact, c96_mdd_exact, c96_mtmdd_exact, c96_zmdd_exact, c96_other_reachable, c96_mtmdd2_exact, c96_mtmdd2_reachable, c96_slot_limit, c96_header_limit
* C97: c97_bdd, c97_caught_partial, c97_left_out_partial, c97_refuted
* C98: c98_lifetime, c98_reference_suffices, c98_drop_safe, c98_no_owner, c98_freed, c98_mdd_lifetime, c98_mdd_reference_suffices, c98_mdd_drop_safe, c98_mdd_no_owner, c98_mdd_freed, c98_zdd_lifetime, c98_zdd_reference_suffices, c98_zdd_drop_safe, c98_zdd_no_owner, c98_zdd_freed
* C99: c99_housekeeping, c99_prefix
* C100: c100_housekeeping, c100_prefix
* C101: c101_handles, c101_minpath, c101_mincut, c101_same_manager, c101_op_harmless, c101_union_refuted
* C102: c102_minpath, c102_mincut, c102_family, c102_level, c102_intersect, c102_setdiff, c102_handles, c102_handles_own, c102_own, c102_dense_refuted
* C103: c103_alias, c103_live, c103_beyond, c103_eq_refuted, c103_operand_refuted, c103_sound_refuted

The 8 theorems of C79-C83 speak about real numbers and print the axioms of Coq's standard library of reals: `ClassicalDedekindReals.sig_not_dec`, `ClassicalDedekindReals.sig_forall_dec`, `FunctionalExtensionality.functional_extensionality_dep`, `Classical_Prop.classic`:

* C79: c79_accurate, c79_exact_table, c79_certain
* C80: c80_accurate
* C81: c81_two_state_partial, c81_multi_state_refuted
* C82: c82_accurate
* C83: c83_accurate

