{"id": "C01", "title": "Computed table never invents or confuses an answer", "statement": "After any sequence of put, clear, retain_live and retain_live3 calls on a fresh computed table (including the ones that make it grow and rehash), a lookup of a key triple either misses or returns the value of the most recent put made with exactly that triple; after clear every lookup misses, and after retain_live / retain_live3 a hit implies every checked word of the entry was marked live. len() always equals the number of occupied slots and the slot count stays a power of two between 2^14 and 2^24.", "quantifier": "all finite sequences of table operations, all u32 key words and values (value u32::MAX excluded as documented), all liveness vectors", "why_tests_cant": "a wrong hit needs two different keys hashing to one slot or a rehash at a specific load; the key space is 2^96 and tests touch a handful of keys", "anchors": [{"file": "common/src/compute_cache.rs", "symbols": ["ComputeCache::get", "ComputeCache::put", "ComputeCache::put_nogrow", "ComputeCache::grow", "ComputeCache::retain_live", "ComputeCache::retain_live3", "ComputeCache::clear", "ComputeCache::len"]}]}
{"id": "C02", "title": "BDD connectives are pointwise", "statement": "For a BDD manager in any reachable state and any valid node ids f and g, not/and/or/xor/imp/nand/nor/xnor return a node whose value under every assignment at which the operands are determined is the corresponding boolean connective of the operands' values; for and/or the result at every other assignment is either undetermined or the Kleene three-valued connective.", "quantifier": "all managers reachable by any history of calls (including gc), all valid operands, all assignments", "why_tests_cant": "the result depends on hash-consing, computed-table contents left by earlier calls and operand order; tests check fixed small diagrams on fresh managers", "anchors": [{"file": "bddcore/src/bdd_ops.rs", "symbols": ["BddManager::not", "BddManager::and", "BddManager::or", "BddManager::xor", "BddManager::imp", "BddManager::nand", "BddManager::nor", "BddManager::xnor"]}]}
{"id": "C03", "title": "BDD if-then-else selects pointwise", "statement": "ite(f,g,h) evaluates, under every assignment where f is determined, to the value of g when f is true and of h when f is false, including an undetermined value of the selected branch and ignoring the other branch.", "quantifier": "all reachable managers, all valid f,g,h, all assignments", "why_tests_cant": "three-operand recursion over mixed levels with its own cache; only a few triples are ever tested", "anchors": [{"file": "bddcore/src/bdd_ops.rs", "symbols": ["BddManager::ite", "BddManager::cofactor", "BddManager::top_header"]}]}
{"id": "C04", "title": "BDD canonicity", "statement": "In any reachable BDD manager in which every level has one header, two live node ids are equal if and only if the two nodes have the same value under every assignment; hence equality, tautology and contradiction tests are id comparisons.", "quantifier": "all reachable managers (any history of create_header/create_node/operations/gc with distinct levels), all pairs of live nodes", "why_tests_cant": "needs the unique table to be complete for every live node after any interleaving of allocation, slot reuse and gc", "anchors": [{"file": "bddcore/src/bdd.rs", "symbols": ["BddManager::create_node", "BddManager::gc", "BddManager::create_header"]}]}
{"id": "C05", "title": "Operations never disturb existing nodes and never panic on valid handles", "statement": "Every BDD operation called with valid node ids terminates without panicking, returns a valid node id, and leaves the value of every previously valid node id under every assignment unchanged.", "quantifier": "all reachable managers, all operations, all valid operands, all previously valid ids", "why_tests_cant": "absence of panics / non-termination and of collateral damage over all states is a universally quantified statement", "anchors": [{"file": "bddcore/src/bdd_ops.rs", "symbols": ["BddManager::not", "BddManager::and", "BddManager::or", "BddManager::xor", "BddManager::ite"]}, {"file": "bddcore/src/bdd.rs", "symbols": ["BddManager::create_node", "BddManager::new_nonterminal"]}]}
{"id": "C06", "title": "BDD gc reclaims exactly the unreachable nodes", "statement": "gc(roots) keeps every terminal and every node reachable from a root with the same id and the same value under every assignment, reclaims exactly the slots not so reachable, returns their number, and afterwards live_node_count() is the number of reachable nodes plus terminals. Running gc again with the same roots reclaims the same set.", "quantifier": "all reachable managers, all lists of live (or out-of-range) roots", "why_tests_cant": "depends on arbitrary graph shapes and previous free lists", "anchors": [{"file": "bddcore/src/bdd.rs", "symbols": ["BddManager::gc", "BddManager::live_node_count"]}]}
{"id": "C07", "title": "BDD operations stay correct across any interleaving with gc", "statement": "After any history of header creation, node creation, operations, cache clears and gc calls that respects the keep-what-you-use contract, all the properties of nodes still in use (value under every assignment, canonicity, correctness of later operations although memoised results survived the collection) hold.", "quantifier": "all finite histories of manager calls", "why_tests_cant": "a stale memo entry or a recycled slot shows up only for particular interleavings", "anchors": [{"file": "bddcore/src/bdd.rs", "symbols": ["BddManager::gc", "BddManager::cache_get", "BddManager::ite_cache_get", "BddManager::clear_cache"]}, {"file": "common/src/compute_cache.rs", "symbols": ["ComputeCache::retain_live", "ComputeCache::retain_live3"]}]}
{"id": "C08", "title": "BSS handles keep their meaning under automatic collection", "statement": "With any garbage-collection threshold, after any sequence of variable definitions, node operations, clones, drops, explicit gc calls and threshold changes, every handle still held by the user denotes exactly the boolean function it denoted when it was created.", "quantifier": "all thresholds, all finite sequences of wrapper calls, all held handles", "why_tests_cant": "collections fire at data-dependent points; reference-count mistakes only matter for particular clone/drop orders", "anchors": [{"file": "bss/src/bdd.rs", "symbols": ["BddMgr", "BddNode", "maybe_gc", "BddNode::clone", "BddNode::drop", "BddMgr::gc", "BddMgr::set_gc_threshold"]}]}
{"id": "C09", "title": "RPN builds the function the expression denotes", "statement": "BddMgr::rpn on a whitespace-separated token list returns a node whose value under every assignment equals direct evaluation of the same RPN expression with a boolean stack machine (constants, variables, & | ^ ~ ?, save/load), and returns an error exactly when the direct evaluation reports one.", "quantifier": "all token sequences, all manager states", "why_tests_cant": "unbounded expression language with save/load sharing", "anchors": [{"file": "bss/src/bdd.rs", "symbols": ["BddMgr::rpn"]}]}
{"id": "C10", "title": "Malformed RPN is reported, not fatal", "statement": "An RPN expression that does not reduce to exactly one node makes BddMgr::rpn return Err rather than abort the program.", "quantifier": "all token sequences", "why_tests_cant": "needs a statement about every malformed input", "anchors": [{"file": "bss/src/bdd.rs", "symbols": ["BddMgr::rpn"]}]}
{"id": "C11", "title": "k-out-of-n gate", "statement": "kofn(k, nodes) is true under an assignment exactly when at least k of the listed nodes are true under it (counting repeated nodes as often as listed); and(nodes)/or(nodes) are true exactly when all / at least one of them are.", "quantifier": "all k, all lists of valid determined nodes, all assignments", "why_tests_cant": "combinatorial in k and n, memo table indexed by (k,n)", "anchors": [{"file": "bss/src/bdd_kofn.rs", "symbols": ["kofn", "and", "or"]}]}
{"id": "C12", "title": "Dual", "statement": "dual(f) has at every assignment the negation of f's value at the complemented assignment, and dual(dual(f)) is the same node as f.", "quantifier": "all reachable managers, all determined nodes, all assignments", "why_tests_cant": "universally quantified over diagrams", "anchors": [{"file": "bss/src/bdd_dual.rs", "symbols": ["dual"]}]}
{"id": "C13", "title": "BDD satisfying-assignment count", "statement": "bdd_count(f, ss) is the number of assignments to the variables at or below f's top variable at which f's value is in ss.", "quantifier": "all reachable managers, all nodes, all value sets ss", "why_tests_cant": "skipped levels contribute powers of two, shared nodes are memoised; only a few shapes are tested", "anchors": [{"file": "bss/src/bdd_count.rs", "symbols": ["bdd_count"]}]}
{"id": "C14", "title": "BDD path enumeration is exact", "statement": "Iterating bdd_extract / BddPath yields each set of true variables at or below f's top variable whose assignment gives f a value in ss exactly once, and nothing else; the number of items equals bdd_count.", "quantifier": "all reachable managers with distinct labels, all nodes, all ss", "why_tests_cant": "a stack-machine iterator over arbitrary DAGs", "anchors": [{"file": "bss/src/bdd_path.rs", "symbols": ["BddPath::new", "BddPath::next"]}, {"file": "bss/src/bdd_count.rs", "symbols": ["bdd_count"]}]}
{"id": "C15", "title": "BDD probability", "statement": "prob(f, pv, ss) equals the sum, over all assignments to the variables, of the product of p (true) or 1-p (false) weights, restricted to assignments where f's value is in ss, in exact arithmetic over any commutative ring.", "quantifier": "all diagrams, all weight tables defined on the variables, all commutative rings", "why_tests_cant": "tests compare floats on fixed diagrams", "anchors": [{"file": "bss/src/bdd_prob.rs", "symbols": ["prob"]}]}
{"id": "C16", "title": "Birnbaum importance", "statement": "bmeas(f, pv, ss) returns for each variable occurring in f the difference of prob with that variable's probability set to one and to zero (the partial derivative of prob), in exact arithmetic.", "quantifier": "all diagrams, all weight tables, all commutative rings, all variables", "why_tests_cant": "backward differentiation over a topological order of an arbitrary DAG", "anchors": [{"file": "bss/src/bdd_prob.rs", "symbols": ["bmeas", "topological_sort", "visit"]}]}
{"id": "C17", "title": "Minimal path sets are exactly the minimal solutions, and non-coherent functions are rejected", "statement": "minsol / BssMgr::minpath returns None exactly when the function is not monotone; otherwise the returned family contains a set of variables if and only if making exactly those variables true satisfies the function and no proper subset does.", "quantifier": "all reachable managers, all determined nodes", "why_tests_cant": "minimality and monotonicity quantify over all assignments; only small fault trees are tested", "anchors": [{"file": "bss/src/bdd_minsol.rs", "symbols": ["minsol", "without"]}, {"file": "bss/src/bss.rs", "symbols": ["BssMgr::minpath"]}, {"file": "bss/src/zdd_convert.rs", "symbols": ["to_zdd"]}]}
{"id": "C18", "title": "Minimal cut sets", "statement": "BssMgr::mincut returns None exactly for non-monotone functions; otherwise the family contains exactly the minimal sets of variables whose being false (all others true) makes the function false.", "quantifier": "all reachable managers, all determined nodes", "why_tests_cant": "as C17, through the dual", "anchors": [{"file": "bss/src/bss.rs", "symbols": ["BssMgr::mincut", "BssMgr::minpath"]}, {"file": "bss/src/bdd_dual.rs", "symbols": ["dual"]}]}
{"id": "C19", "title": "ZDD set algebra", "statement": "union, setdiff and product on ZDD families return the family union, difference and pairwise-union (join) of the operand families.", "quantifier": "all reachable ZDD managers, all determined families", "why_tests_cant": "families are arbitrary; tests use a few literals", "anchors": [{"file": "bddcore/src/zdd_ops.rs", "symbols": ["ZddManager::union", "ZddManager::setdiff", "ZddManager::product"]}]}
{"id": "C20", "title": "ZDD intersection", "statement": "intersect(f,g) on ZDD families returns exactly the sets belonging to both families.", "quantifier": "all reachable ZDD managers, all determined families", "why_tests_cant": "families are arbitrary; tests use a few literals", "anchors": [{"file": "bddcore/src/zdd_ops.rs", "symbols": ["ZddManager::intersect"]}, {"file": "bss/src/zdd.rs", "symbols": ["ZddNode::intersect"]}]}
{"id": "C21", "title": "ZDD division", "statement": "divide(f,g) on ZDD families returns the weak-division quotient: the sets disjoint from every set of g whose join with every set of g is in f.", "quantifier": "all reachable ZDD managers, all determined families with g non-empty", "why_tests_cant": "families are arbitrary; tests use a few literals", "anchors": [{"file": "bddcore/src/zdd_ops.rs", "symbols": ["ZddManager::divide"]}]}
{"id": "C22", "title": "ZDD canonicity and gc", "statement": "In any reachable ZDD manager with one header per level, two live ids are equal iff they denote the same family; gc keeps ids and families of everything reachable from the roots and reclaims exactly the rest.", "quantifier": "all reachable ZDD managers", "why_tests_cant": "as C04/C06 for zero-suppressed diagrams with a HashMap memo", "anchors": [{"file": "bddcore/src/zdd.rs", "symbols": ["ZddManager::create_node", "ZddManager::gc"]}]}
{"id": "C23", "title": "Equal minimal-path families compare equal", "statement": "Two families returned by BssMgr::minpath (or mincut) of one manager that contain the same sets are the same ZDD node, so that ZddNode equality decides family equality.", "quantifier": "all managers and all pairs of calls", "why_tests_cant": "tests compare families by enumeration only", "anchors": [{"file": "bss/src/bss.rs", "symbols": ["BssMgr::minpath"]}, {"file": "bss/src/zdd_convert.rs", "symbols": ["to_zdd"]}, {"file": "bss/src/zdd.rs", "symbols": ["ZddNode"]}]}
{"id": "C24", "title": "ZDD counting and enumeration", "statement": "zdd_count(f, ss) is the number of members of the family (with terminal in ss) and ZddPath enumerates each member exactly once and nothing else.", "quantifier": "all reachable ZDD managers, all families", "why_tests_cant": "iterator over arbitrary DAGs", "anchors": [{"file": "bss/src/zdd_count.rs", "symbols": ["zdd_count"]}, {"file": "bss/src/zdd_path.rs", "symbols": ["ZddPath::next"]}]}
{"id": "C25", "title": "MDD connectives are pointwise", "statement": "In any reachable MDD manager, not/and/or/xor/imp/nand/nor/xnor/ite of valid nodes evaluate, under every multi-valued assignment at which the operands are determined, to the boolean connective of the operands' values, and replace(f,g) evaluates to f's value where f is determined and to g's value elsewhere.", "quantifier": "all reachable MDD managers, all variable ranges, all valid operands, all assignments in range", "why_tests_cant": "k-ary recursion, caches left by earlier operations", "anchors": [{"file": "mddcore/src/mdd_ops.rs", "symbols": ["MddManager::not", "MddManager::and", "MddManager::or", "MddManager::xor", "MddManager::ite", "MddManager::replace"]}]}
{"id": "C26", "title": "MDD / MTMDD canonicity", "statement": "In any reachable MDD or MTMDD manager with one header per level, two live ids are equal iff the nodes have the same (three-valued / integer-or-undetermined) value under every assignment in range.", "quantifier": "all reachable managers, all pairs of live nodes", "why_tests_cant": "needs unique-table and value-table completeness across gc", "anchors": [{"file": "mddcore/src/mdd.rs", "symbols": ["MddManager::create_node", "MddManager::gc"]}, {"file": "mddcore/src/mtmdd.rs", "symbols": ["MtMddManager::create_node", "MtMddManager::value", "MtMddManager::gc"]}]}
{"id": "C27", "title": "MTMDD arithmetic is pointwise", "statement": "add/sub/mul/min/max of two value diagrams evaluate at every assignment to the arithmetic of the operands' values, div and rem to truncating division / remainder with division by zero undetermined, and any undetermined operand value makes the result undetermined there.", "quantifier": "all reachable MTMDD managers, all valid operands, all assignments in range, integers without overflow", "why_tests_cant": "integer-valued diagrams of arbitrary shape", "anchors": [{"file": "mddcore/src/mtmdd_ops.rs", "symbols": ["MtMddManager::add", "MtMddManager::sub", "MtMddManager::mul", "MtMddManager::div", "MtMddManager::rem", "MtMddManager::min", "MtMddManager::max", "MtMddManager::replace"]}]}
{"id": "C28", "title": "Comparisons are pointwise", "statement": "eq, neq, lt, lte, gt, gte of two value diagrams evaluate, at every assignment where both values are determined, to the corresponding integer comparison.", "quantifier": "all reachable MtMdd2 managers, all valid value operands, all assignments in range", "why_tests_cant": "tests check fixed small diagrams; cross-forest caches", "anchors": [{"file": "mddcore/src/mtmdd2_ops.rs", "symbols": ["MtMdd2Manager::eq", "MtMdd2Manager::neq", "MtMdd2Manager::lt", "MtMdd2Manager::lte", "MtMdd2Manager::gt", "MtMdd2Manager::gte"]}]}
{"id": "C29", "title": "Value if-then-else", "statement": "MtMdd2 ite with a boolean condition and two value (or two boolean) branches evaluates at every assignment where the condition is determined to the selected branch's value.", "quantifier": "all reachable MtMdd2 managers, all valid operands of matching kind, all assignments in range", "why_tests_cant": "three diagrams over two arenas and cross caches", "anchors": [{"file": "mddcore/src/mtmdd2_ops.rs", "symbols": ["MtMdd2Manager::ite"]}]}
{"id": "C30", "title": "MDD / MTMDD gc", "statement": "gc on the MDD, MTMDD and combined manager keeps ids and values of everything reachable from the roots, reclaims exactly the unreachable slots (including unreferenced value terminals, whose values can be re-created), reports the right count, and later operations remain correct.", "quantifier": "all reachable managers, all live root sets", "why_tests_cant": "value terminals are hash-consed and reclaimed; memo entries survive selectively", "anchors": [{"file": "mddcore/src/mdd.rs", "symbols": ["MddManager::gc"]}, {"file": "mddcore/src/mtmdd.rs", "symbols": ["MtMddManager::gc"]}, {"file": "mddcore/src/mtmdd2.rs", "symbols": ["MtMdd2Manager::gc"]}]}
{"id": "C31", "title": "Undetermined boolean constant", "statement": "undet_boolean() returns the undetermined boolean node: is_undet() holds and it is neither true nor false at any assignment.", "quantifier": "all managers", "why_tests_cant": "no test looks at this constant", "anchors": [{"file": "mddcore/src/mtmdd2.rs", "symbols": ["MtMdd2Manager::undet_boolean"]}, {"file": "mss/src/mdd.rs", "symbols": ["MddMgr::undet_boolean", "MddNode::is_undet"]}]}
{"id": "C32", "title": "MSS probability", "statement": "MddNode::prob equals the sum over all state vectors of the product of the per-state weights, restricted to vectors whose value is in ss, provided each variable's weights sum to one, in exact arithmetic over any commutative ring.", "quantifier": "all value and boolean diagrams, all weight tables, all commutative rings", "why_tests_cant": "floats on fixed diagrams only", "anchors": [{"file": "mss/src/mdd_prob.rs", "symbols": ["prob", "vprob", "bprob"]}]}
{"id": "C33", "title": "MSS Birnbaum importance", "statement": "MddNode::bmeas returns, for each variable occurring in the diagram and each adjacent pair of states, the difference of the conditional probabilities of success given the two states, in exact arithmetic.", "quantifier": "all diagrams, all weight tables whose rows sum to one, all commutative rings", "why_tests_cant": "reverse-mode accumulation over an arbitrary DAG", "anchors": [{"file": "mss/src/mdd_prob.rs", "symbols": ["bmeas", "vbmeas", "bbmeas", "topo_postorder"]}]}
{"id": "C34", "title": "MSS state-vector count", "statement": "mdd_count(ss) is the number of state vectors over the variables at or below the node's top variable at which the node's value is in ss.", "quantifier": "all value and boolean diagrams, all ss", "why_tests_cant": "memoisation and skipped levels interact; one value diagram is tested", "anchors": [{"file": "mss/src/mdd_count.rs", "symbols": ["mdd_count", "vmdd_count", "bmdd_count"]}]}
{"id": "C35", "title": "MSS vector enumeration", "statement": "mdd_extract(ss) yields every state vector over the variables at or below the top variable whose value is in ss exactly once and nothing else, and its reported len() is the number of vectors it yields.", "quantifier": "all value and boolean diagrams, all ss", "why_tests_cant": "iterator over arbitrary DAGs; tests only print", "anchors": [{"file": "mss/src/mdd_path.rs", "symbols": ["MddPath::new", "MddPath::next", "MddPath::len"]}]}
{"id": "C36", "title": "Multi-state minimal path vectors", "statement": "MssMgr::minpath returns None exactly when the structure function is not monotone; otherwise extract([v]) yields exactly the minimal vectors of {x : phi(x) = v}, reported dense over all variables.", "quantifier": "all histories of manager calls, all determined value and boolean structure functions over variables with at least two states each, all v and all sets of v", "why_tests_cant": "minimality quantifies over all state vectors", "anchors": [{"file": "mss/src/mdd_minsol.rs", "symbols": ["minsol", "vminsol", "vwithout", "bminsol", "bwithout"]}, {"file": "mss/src/mss.rs", "symbols": ["MssMgr::minpath"]}, {"file": "mss/src/zmdd_convert.rs", "symbols": ["to_zmdd"]}]}
{"id": "C37", "title": "Multi-state minimal cut vectors", "statement": "MssMgr::mincut returns None exactly when the structure function is not monotone; otherwise extract([v]) yields exactly the maximal vectors of {x : phi(x) = v}, reported dense over all variables.", "quantifier": "all histories of manager calls, all determined value and boolean structure functions over variables with at least two states each, all v and all sets of v", "why_tests_cant": "maximality quantifies over all state vectors", "anchors": [{"file": "mss/src/mdd_minsol.rs", "symbols": ["maxsol", "vmaxsol", "vupwithout", "bmaxsol", "bupwithout"]}, {"file": "mss/src/mss.rs", "symbols": ["MssMgr::mincut"]}]}
{"id": "C38", "title": "Level extraction", "statement": "extract_level(v) on a minimal-path family yields exactly minimal{x : phi(x) >= v}, and on a minimal-cut family exactly maximal{x : phi(x) <= v}.", "quantifier": "all histories, all monotone determined structure functions over variables with at least two states each, all v", "why_tests_cant": "relates two readings of one family over all levels", "anchors": [{"file": "mss/src/zmdd.rs", "symbols": ["ZmddNode::extract_level", "ZmddNode::labels", "ZmddNode::extract"]}]}
{"id": "C39", "title": "ZMDD label-wise algebra", "statement": "ZmddNode intersect / setdiff of two families keep exactly the labelled vectors that are (are not) in the other family with the same label.", "quantifier": "all families of one manager", "why_tests_cant": "arbitrary families", "anchors": [{"file": "mddcore/src/zmdd_ops.rs", "symbols": ["ZmddManager::intersect", "ZmddManager::setdiff"]}, {"file": "mss/src/zmdd.rs", "symbols": ["ZmddNode::intersect", "ZmddNode::setdiff"]}]}
{"id": "C40", "title": "ZMDD counting and enumeration", "statement": "ZmddNode::count(ss) is the number of vectors extract(ss) yields; extract yields each member once, dense over the variables.", "quantifier": "all families, all ss", "why_tests_cant": "iterator over arbitrary DAGs", "anchors": [{"file": "mss/src/zmdd.rs", "symbols": ["ZmddNode::count", "ZmddPath::next"]}]}
{"id": "C41", "title": "MSS RPN", "statement": "MddMgr::rpn returns a node whose value under every assignment in range equals direct evaluation of the expression with an integer/boolean stack machine.", "quantifier": "all token sequences whose operators receive operands of the right kind, all manager states", "why_tests_cant": "unbounded expression language", "anchors": [{"file": "mss/src/mdd.rs", "symbols": ["MddMgr::rpn"]}]}
{"id": "C42", "title": "MSS handles keep their meaning under automatic collection", "statement": "With any gc threshold, after any sequence of wrapper calls, clones and drops, every held MddNode denotes the function it denoted when created.", "quantifier": "all thresholds, all finite call sequences", "why_tests_cant": "collections fire at data-dependent points", "anchors": [{"file": "mss/src/mdd.rs", "symbols": ["MddMgr", "MddNode", "maybe_gc", "MddNode::rewrap", "MddMgr::wrap"]}]}
{"id": "C43", "title": "Diagram size report", "statement": "BddNode/MddNode size() reports the number of distinct decision nodes, distinct terminals and edges of the diagram rooted at the node.", "quantifier": "all diagrams", "why_tests_cant": "arbitrary sharing", "anchors": [{"file": "bss/src/bdd_count.rs", "symbols": ["node_count"]}, {"file": "mss/src/mdd_count.rs", "symbols": ["mddnode_count"]}]}
{"id": "C44", "title": "Variable definition is idempotent and ordered", "statement": "defvar with a known label returns the same node; with a new label it creates a variable placed above all existing ones whose node evaluates to the variable itself; get_varorder lists every variable at its level.", "quantifier": "all sequences of defvar calls", "why_tests_cant": "all label sequences", "anchors": [{"file": "bss/src/bdd.rs", "symbols": ["BddMgr::defvar", "BddMgr::get_varorder"]}, {"file": "mss/src/mdd.rs", "symbols": ["MddMgr::defvar", "MddMgr::get_varorder"]}]}
{"id": "C45", "title": "ZMDD equality is family equality", "statement": "In one ZmddManager whose headers have distinct levels, two valid node ids are equal if and only if they denote the same family of labelled vectors.", "quantifier": "all reachable managers, all pairs of valid nodes", "why_tests_cant": "needs canonicity of the zero-suppressed form for all families", "anchors": [{"file": "mddcore/src/zmdd.rs", "symbols": ["ZmddManager::create_node"]}, {"file": "mss/src/zmdd.rs", "symbols": ["ZmddNode"]}]}
{"id": "C46", "title": "ZMDD node creation", "statement": "create_node(h, children) denotes exactly the vectors x whose component at h selects a child containing the rest of x, with the child's label; suppressing a node never adds or loses a vector.", "quantifier": "all reachable managers, all headers and child vectors below them", "why_tests_cant": "arbitrary children", "anchors": [{"file": "mddcore/src/zmdd.rs", "symbols": ["ZmddManager::create_node"]}]}
{"id": "C47", "title": "ZMDD baseline", "statement": "set_baseline(f, v) adds the all-zero vector with label v when f gives that vector no label, and otherwise returns the same family.", "quantifier": "all families, all labels", "why_tests_cant": "arbitrary families", "anchors": [{"file": "mddcore/src/zmdd.rs", "symbols": ["ZmddManager::set_baseline"]}]}
{"id": "C48", "title": "ZMDD garbage collection", "statement": "gc(roots) keeps exactly undet and the nodes reachable from the roots, each with its family, and reports counts that agree; every other operation leaves the family of every valid node unchanged and does not panic.", "quantifier": "all reachable managers, all root sets, all operations", "why_tests_cant": "interleavings of collection, slot reuse and memoised operations", "anchors": [{"file": "mddcore/src/zmdd.rs", "symbols": ["ZmddManager::gc", "ZmddManager::live_node_count"]}]}
{"id": "C49", "title": "ZMDD labels", "statement": "labels() lists, in strictly ascending order, exactly the labels carried by some vector of the family.", "quantifier": "all families", "why_tests_cant": "search over arbitrary DAGs", "anchors": [{"file": "mss/src/zmdd.rs", "symbols": ["ZmddNode::labels"]}]}
{"id": "C50", "title": "MSS variables", "statement": "MddMgr::defvar with a known label returns the node it returned before and changes nothing; with a new label it creates a variable placed above all existing ones whose node evaluates to the state of the variable; get_varorder lists every variable with its number of states at its level.", "quantifier": "all reachable managers, all labels, all numbers of states", "why_tests_cant": "history-dependent level assignment", "anchors": [{"file": "mss/src/mdd.rs", "symbols": ["MddMgr::defvar", "MddMgr::get_varorder"]}]}
{"id": "C51", "title": "Families keep their meaning", "statement": "A ZmddNode from minpath or mincut that is still held lists the same vectors, under extract, extract_level and count, after any further calls on the MssMgr, including automatic garbage collection of either manager, new variables and further analyses; intersect / setdiff of two families of the same direction over the same variables list exactly the vectors that are (are not) also listed by the other at the same level; MddNode handles keep their functions too.", "quantifier": "all interleavings of MssMgr, MddNode and ZmddNode calls, clones and drops, all thresholds of the MDD side", "why_tests_cant": "depends on when the collector runs and on which nodes other analyses share; tests run one short sequence", "anchors": [{"file": "mss/src/mss.rs", "symbols": ["MssMgr::minpath", "MssMgr::mincut", "MssMgr::clear_cache"]}, {"file": "mss/src/zmdd.rs", "symbols": ["ZmddMgr::wrap", "ZmddNode::rewrap", "ZmddNode::intersect", "ZmddNode::setdiff", "ZmddNode::drop", "maybe_gc"]}]}
{"id": "C52", "title": "ZddNode handles keep their families", "statement": "A ZddNode obtained from zero/empty, one/base, singleton, from_sets, union, setdiff, product, intersect (of families where no member of one is a proper subset of a member of the other), divide by the unit family, or get_children stands for the family of named sets the call promises, and does so as long as it is held, whatever other calls, clones, drops and automatic collections happen in between; no call panics; count(&[true]) is the number of members; extract(&[true]) lists each member once; is_zero / is_one tell the empty and the unit family; in a ZddMgr of its own two handles are equal iff their families are.", "quantifier": "all histories of ZddMgr and ZddNode calls, all thresholds", "why_tests_cant": "which nodes survive depends on when the collector runs and on sharing with other handles; tests run one short sequence", "anchors": [{"file": "bss/src/zdd.rs", "symbols": ["ZddMgr::singleton", "ZddMgr::from_sets", "ZddMgr::wrap", "ZddNode::rewrap", "ZddNode::union", "ZddNode::product", "ZddNode::setdiff", "ZddNode::count", "ZddNode::extract", "maybe_gc"]}]}
{"id": "C53", "title": "BssMgr minimal path and cut sets by name", "statement": "Through any history of BssMgr calls, minpath(f) never panics and returns None exactly when the function f was created to denote is not increasing; otherwise it returns a handle for the family of minimal sets of variable names whose truth makes f true; mincut(f) likewise gives the minimal sets of names whose falsity makes f false; all BddNode and ZddNode handles held keep their meaning.", "quantifier": "all histories of BssMgr, BddNode and ZddNode calls, all thresholds of both collectors, all functions", "why_tests_cant": "the two managers share levels and labels only by convention, and both collect automatically", "anchors": [{"file": "bss/src/bss.rs", "symbols": ["BssMgr::minpath", "BssMgr::mincut", "BssMgr::clear_cache"]}, {"file": "bss/src/zdd_convert.rs", "symbols": ["to_zdd"]}]}
{"id": "C54", "title": "Interval probabilities and importances enclose the exact ones", "statement": "prob and bmeas of BddNode and MddNode instantiated with an interval type whose zero, one, +, - and * are sound return intervals (one for prob; one per occurring variable, or per adjacent pair of its states, for bmeas) that contain the exact probability, respectively the exact difference of conditional probabilities, for every point probability table inside the boxes; with degenerate boxes they return exactly the point results.", "quantifier": "all interval types with sound operations, all commutative rings of point values, all held functions, all box tables and all point tables in them", "why_tests_cant": "a guarantee over a continuum of point tables and over every interval type; a test compares a few boxes with a few points", "anchors": [{"file": "mss/src/mdd_prob.rs", "symbols": ["bmeas", "vbmeas", "bbmeas", "prob"]}, {"file": "bss/src/bdd_prob.rs", "symbols": ["prob", "bmeas"]}]}
{"id": "C55", "title": "Graphviz output draws the diagram", "statement": "dot() of a BddNode, ZddNode, MddNode or ZmddNode that is held never panics and writes each node and each edge below the handle exactly once and nothing else, leaving out only the terminals and edges the format omits (Undet; for families everything but One); terminals are squares with their value, other nodes circles with their variable; following the edges numbered by an assignment ends at the square with the function's value (a missing edge is an undetermined value), and the paths to the square of a family spell exactly its members.", "quantifier": "all histories of wrapper calls, all held handles, all assignments and members", "why_tests_cant": "shared nodes and omitted edges depend on the whole diagram; the tests only print the output", "anchors": [{"file": "common/src/dot.rs", "symbols": ["Dot::dot", "Dot::dot_string"]}, {"file": "bddcore/src/bdd_dot.rs", "symbols": ["dot_impl"]}, {"file": "bddcore/src/zdd_dot.rs", "symbols": ["dot_impl"]}, {"file": "mddcore/src/mdd_dot.rs", "symbols": ["dot_impl"]}, {"file": "mddcore/src/mtmdd_dot.rs", "symbols": ["dot_impl"]}, {"file": "mddcore/src/mtmdd2_dot.rs", "symbols": ["dot_impl"]}, {"file": "mddcore/src/zmdd_dot.rs", "symbols": ["dot_impl"]}, {"file": "bss/src/bdd.rs", "symbols": ["BddNode::dot"]}, {"file": "bss/src/zdd.rs", "symbols": ["ZddNode::dot"]}, {"file": "mss/src/mdd.rs", "symbols": ["MddNode::dot"]}, {"file": "mss/src/zmdd.rs", "symbols": ["ZmddNode::dot"]}]}
{"id": "C56", "title": "The Graphviz text identifies the function", "statement": "If dot() returns the same text for two handles, of the same or of different managers, the handles denote the same function (family): the text can be parsed back.", "quantifier": "all pairs of histories, all pairs of held handles, all variable names", "why_tests_cant": "a statement about all pairs of outputs; fails only for names nobody tries", "anchors": [{"file": "bddcore/src/bdd_dot.rs", "symbols": ["dot_impl"]}, {"file": "bddcore/src/zdd_dot.rs", "symbols": ["dot_impl"]}, {"file": "mddcore/src/mdd_dot.rs", "symbols": ["dot_impl"]}, {"file": "mddcore/src/mtmdd_dot.rs", "symbols": ["dot_impl"]}]}
{"id": "C57", "title": "Binary iterators keep their promise while the manager works on", "statement": "A BddPath or ZddPath iterator in progress, of which any number may be open at once, yields over its whole life exactly the assignments (members) its handle denoted when it was started, each once, no matter what calls, variable definitions, garbage collections, drops (also of the handle itself) and other iterators come between two calls of next; next never panics and ends; len gives the total number, before, during and after the iteration; starting never panics and open iterators do not disturb any handle.", "quantifier": "all histories of BddMgr, ZddMgr and BssMgr calls interleaved with starts, nexts and drops of any number of iterators, all thresholds, all result sets asked of a BddPath, the result set {true} of a ZddPath", "why_tests_cant": "a statement about all interleavings of iteration, operations and automatic collection; tests drain an iterator at once", "anchors": [{"file": "bss/src/bdd_path.rs", "symbols": ["BddPath::new", "BddPath::len", "BddPath::next"]}, {"file": "bss/src/zdd_path.rs", "symbols": ["ZddPath::new", "ZddPath::len", "ZddPath::next"]}, {"file": "bss/src/bdd.rs", "symbols": ["BddNode::bdd_extract"]}, {"file": "bss/src/zdd.rs", "symbols": ["ZddNode::extract"]}]}
{"id": "C58", "title": "Multi-state iterators keep their promise while the manager works on", "statement": "An MddPath or ZmddPath iterator in progress, of which any number may be open at once, yields over its whole life exactly the state vectors (recorded minimal or maximal vectors) with the values its handle had for the result set asked for when it was started, each once, no matter what calls, variable definitions, garbage collections, drops (also of the handle itself) and other iterators come between two calls of next; next never panics and ends; starting never panics; open iterators do not disturb any handle or family. MddPath::len gives the total number, before, during and after the iteration, for an integer-valued function that is not constant and for a truth-valued one whose nodes are each entered from one level only.", "quantifier": "all histories of MddMgr and MssMgr calls interleaved with starts, nexts and drops of any number of iterators, all thresholds, all machine integers, all result sets; the meaning of the handle must be determined by its history", "why_tests_cant": "a statement about all interleavings of iteration, operations and automatic collection; tests drain an iterator at once", "anchors": [{"file": "mss/src/mdd_path.rs", "symbols": ["MddPath::new", "MddPath::len", "MddPath::next", "MddPath::vnext", "MddPath::bnext"]}, {"file": "mss/src/zmdd.rs", "symbols": ["ZmddPath::new", "ZmddPath::next", "ZmddNode::extract"]}, {"file": "mss/src/mdd.rs", "symbols": ["MddNode::mdd_extract"]}]}
{"id": "C59", "title": "A BddNode can be inspected, and the answers are about its function", "statement": "For every held BddNode: is_zero and is_one hold exactly if the function is constantly false, constantly true, and is_undet never holds; get_level and get_label give the position and name of the variable that is last in the order among those the function depends on, nothing exactly for constants, and get_header gives the same number as get_level; a function depends on declared variables only; get_children gives the two different cofactors by that variable, and create_node on header and children gives the handle back; eq decides equality of functions.", "quantifier": "all histories of wrapper calls with automatic collection at any threshold, all held handles", "why_tests_cant": "dependence on a variable is a statement about all assignments; reduction and canonicity of all reachable diagrams are needed", "anchors": [{"file": "bss/src/bdd.rs", "symbols": ["BddNode::get_header", "BddNode::get_level", "BddNode::get_label", "BddNode::get_children", "BddNode::is_zero", "BddNode::is_one", "BddNode::is_undet", "BddNode::eq", "BddMgr::create_node"]}]}
{"id": "C60", "title": "The analyses of a BddNode are about its function by name", "statement": "For every held BddNode: bdd_count(ss) is the number of assignments to the variables up to the top one on which the function has a value in ss, and bdd_extract(ss) lists exactly these, each once, by name; prob is the total weight of the assignments to all variables with a value in ss; bmeas has an entry for exactly the variables the function depends on, equal to the difference of the two conditional probabilities, and for all other variables that difference is zero; size counts nodes, terminals and edges.", "quantifier": "all histories of wrapper calls with automatic collection at any threshold, all held handles, all result sets, all weight tables over all commutative rings", "why_tests_cant": "sums over all assignments for all functions, and the absence of an entry must mean independence; tests compare single numbers", "anchors": [{"file": "bss/src/bdd.rs", "symbols": ["BddNode::prob", "BddNode::bmeas", "BddNode::bdd_count", "BddNode::bdd_extract", "BddNode::size"]}, {"file": "bss/src/bdd_prob.rs", "symbols": ["prob", "bmeas"]}, {"file": "bss/src/bdd_count.rs", "symbols": ["bdd_count"]}, {"file": "bss/src/bdd_path.rs", "symbols": ["BddPath::next"]}]}
{"id": "C61", "title": "An MddNode can be inspected, and the answers are about its function", "statement": "For every held MddNode: is_boolean and is_value tell the kind of its values; is_zero and is_one hold exactly if the function is constantly false, constantly true, and value() gives k exactly if it is constantly the number k; get_level and get_label give the position and name of the variable declared last among those the function depends on, nothing exactly for constants, and get_header gives the same number as get_level; a function depends on declared variables only; get_children gives one cofactor per state of that variable, not all equal, and create_node on header and children gives the handle back; get_node (and get_id within one kind) compare as the functions do; the variables with an entry in bmeas are exactly those the function depends on.", "quantifier": "all histories of wrapper calls with automatic collection at any threshold, all machine integers, all held handles with a determined meaning", "why_tests_cant": "dependence on a variable is a statement about all state vectors; reduction and canonicity of all reachable diagrams are needed", "anchors": [{"file": "mss/src/mdd.rs", "symbols": ["MddNode::get_node", "MddNode::get_id", "MddNode::get_header", "MddNode::get_level", "MddNode::get_label", "MddNode::get_children", "MddNode::is_boolean", "MddNode::is_value", "MddNode::is_zero", "MddNode::is_one", "MddNode::value"]}]}
{"id": "C62", "title": "is_undet and get_id2 of an MddNode", "statement": "is_undet holds exactly if the function is constantly undetermined, and get_id2 is different for handles with different functions.", "quantifier": "all histories of wrapper calls, all held handles", "why_tests_cant": "no test asks is_undet of an undetermined value or compares get_id2 across kinds", "anchors": [{"file": "mss/src/mdd.rs", "symbols": ["MddNode::is_undet", "MddNode::get_id2"]}]}
{"id": "C63", "title": "A ZddNode can be inspected, and the answers are about its family", "statement": "For every held ZddNode: get_level and get_label give the position and name of the element, of those occurring in some member, that is last in the manager's order, and nothing exactly if no element occurs in a member (the empty family and the family of the empty set), get_header likewise; names and positions correspond one to one, and in a ZddMgr of its own the order is the order in which the names were first used; get_children gives the members without the top element, and the (never empty) family of members with it, that element removed; f0 | ({x} * f1) is the handle itself again; eq decides equality of families; size counts the nodes, terminals and edges of the diagram.", "quantifier": "all histories of ZddMgr calls, alone (eq, rebuilding, order) or inside a BssMgr, at any collection threshold, all held handles", "why_tests_cant": "occurrence in a member quantifies over all members; zero-suppression and canonicity of all reachable diagrams are needed", "anchors": [{"file": "bss/src/zdd.rs", "symbols": ["ZddNode::get_header", "ZddNode::get_level", "ZddNode::get_label", "ZddNode::get_children", "ZddNode::eq", "ZddNode::size", "ZddMgr::singleton"]}]}
{"id": "C64", "title": "Minimal paths and minimal cuts determine the system", "statement": "The sets listed by extract on a BssMgr::minpath family: the structure function is true exactly if all components of one listed set are up, and the components listed are exactly those the function depends on. The sets listed on a BssMgr::mincut family: the function is false exactly if all components of one listed set are down, and again exactly the relevant components are listed.", "quantifier": "all histories of BssMgr calls, all held handles whose minpath / mincut succeeds, all assignments", "why_tests_cant": "quantifies over all assignments and all structure functions; a lost or spurious minimal set can show up at a single assignment", "anchors": [{"file": "bss/src/bss.rs", "symbols": ["BssMgr::minpath", "BssMgr::mincut"]}, {"file": "bss/src/zdd.rs", "symbols": ["ZddNode::extract"]}, {"file": "bss/src/bdd_minsol.rs", "symbols": ["minsol"]}]}
{"id": "C65", "title": "Minimal path and cut vectors determine the multi-state system", "statement": "On a MssMgr::minpath family, extract_level(v) lists vectors such that phi(e) >= v exactly if e is componentwise above a listed vector; on a mincut family, phi(e) <= v exactly if e is componentwise below a listed vector. The function depends on exactly the variables listed above state 0 at some level of the paths, and on exactly those listed below their last state at some level of the cuts.", "quantifier": "all histories of MssMgr calls, all determined value and boolean structure functions over variables with at least two states each for which minpath / mincut succeeds, all levels v, all state vectors", "why_tests_cant": "quantifies over all state vectors and levels of arbitrary monotone functions", "anchors": [{"file": "mss/src/mss.rs", "symbols": ["MssMgr::minpath", "MssMgr::mincut"]}, {"file": "mss/src/zmdd.rs", "symbols": ["ZmddNode::extract_level"]}, {"file": "mss/src/mdd_minsol.rs", "symbols": ["minsol", "maxsol"]}]}
{"id": "C66", "title": "The collectors of BddMgr and ZddMgr keep exactly what is held and bound memory", "statement": "BddMgr::gc never fails and leaves in use exactly the constants and the nodes reachable from a held handle or a variable, whichever held handles are passed as keep; live_node_count is the number of nodes in use; once all handles are dropped, gc leaves three constants and one node per variable. After every call that makes a handle the number of live nodes is below the threshold, and if the call collected, exactly the nodes needed for the handles held then (including the new one) are left and the threshold is twice their number, at least the configured one. The same holds for the automatic collector of ZddMgr.", "quantifier": "all histories of BddMgr and ZddMgr calls (the latter also inside a BssMgr), all thresholds, all calls made on held handles", "why_tests_cant": "a leak or a premature release shows only after particular histories of handle creation, dropping and collection", "anchors": [{"file": "bss/src/bdd.rs", "symbols": ["BddMgr::gc", "maybe_gc", "BddMgr::live_node_count", "BddMgr::set_gc_threshold"]}, {"file": "bss/src/zdd.rs", "symbols": ["maybe_gc", "ZddMgr::live_node_count"]}, {"file": "bddcore/src/bdd.rs", "symbols": ["BddManager::gc"]}, {"file": "bddcore/src/zdd.rs", "symbols": ["ZddManager::gc"]}]}
{"id": "C67", "title": "The collectors of MddMgr and ZmddMgr keep exactly what is held and bound memory", "statement": "MddMgr::gc never fails and leaves in use, in both forests, exactly the constants and the nodes reachable from a held handle or a variable; live_node_count is the number of nodes in use. After every call that makes a handle the number of live nodes is below the threshold, and if the call collected, exactly the nodes needed for the handles held then are left and the threshold is twice their number, at least the configured one. The same holds for the families of a MssMgr after minpath, mincut, intersect and setdiff.", "quantifier": "all histories of MddMgr and MssMgr calls, all value types, all thresholds, all calls made on held handles", "why_tests_cant": "a leak or a premature release shows only after particular histories of handle creation, dropping and collection, over two forests with different constants", "anchors": [{"file": "mss/src/mdd.rs", "symbols": ["MddMgr::gc", "maybe_gc", "MddMgr::live_node_count"]}, {"file": "mss/src/zmdd.rs", "symbols": ["maybe_gc", "ZmddMgr::wrap"]}, {"file": "mddcore/src/mtmdd2.rs", "symbols": ["MtMdd2Manager::gc"]}]}
{"id": "C68", "title": "gc reports how many slots it reclaimed", "statement": "The documented return value of gc, the number of slots reclaimed, is the drop in the number of live nodes caused by the call.", "quantifier": "all histories of BddMgr calls, all kept handles", "why_tests_cant": "wrong only when the free list is not empty at the call, which needs an earlier collection", "anchors": [{"file": "bss/src/bdd.rs", "symbols": ["BddMgr::gc"]}, {"file": "bddcore/src/bdd.rs", "symbols": ["BddManager::gc"]}]}
{"id": "C69", "title": "64-bit counts are exact when they fit", "statement": "Compiled without overflow checks, BddNode::bdd_count, ZddNode::count, MddNode::mdd_count and ZmddNode::count return the true number modulo 2^64, so the true number whenever it fits in u64. Compiled with overflow checks, ZddNode::count, MddNode::mdd_count and ZmddNode::count return the true number if it fits and panic if it does not.", "quantifier": "all histories of calls, all held handles, all selected values; both build modes", "why_tests_cant": "an intermediate product or sum that overflows although the result fits needs diagrams over more than 40 variables of particular shapes", "anchors": [{"file": "bss/src/bdd.rs", "symbols": ["BddNode::bdd_count"]}, {"file": "bss/src/bdd_count.rs", "symbols": ["bdd_count", "power"]}, {"file": "bss/src/zdd_count.rs", "symbols": ["zdd_count"]}, {"file": "mss/src/mdd_count.rs", "symbols": ["mdd_count", "vmdd_count", "bmdd_count"]}, {"file": "mss/src/zmdd.rs", "symbols": ["ZmddNode::count", "zmdd_count"]}]}
{"id": "C70", "title": "bdd_count with overflow checks", "statement": "Compiled with overflow checks (the dev and test profiles), BddNode::bdd_count returns the number of assignments whenever that number fits in u64.", "quantifier": "all histories of BddMgr calls, all held handles, all selected values", "why_tests_cant": "needs more than 64 variables", "anchors": [{"file": "bss/src/bdd_count.rs", "symbols": ["bdd_count", "power"]}, {"file": "bss/src/bdd.rs", "symbols": ["BddNode::bdd_count"]}]}
{"id": "C71", "title": "Size of results", "statement": "Counting vertices as BddNode::size does: the result of and, or, xor, ite (of any pointwise combination) has at most the product of the operands' numbers of vertices; not and dual keep the number; kofn over n distinct variables has at most k(n-k+1) tests and two answers, however the variables are ordered or listed.", "quantifier": "all histories of BddMgr calls, all held handles, all combinations, all k and n", "why_tests_cant": "a bound on every result is a statement about all operands; tests look at single sizes", "anchors": [{"file": "bss/src/bdd.rs", "symbols": ["BddNode::and", "BddNode::or", "BddNode::xor", "BddNode::ite", "BddNode::not", "BddNode::dual", "BddNode::size", "BddMgr::kofn"]}, {"file": "bss/src/bdd_kofn.rs", "symbols": ["kofn"]}, {"file": "bss/src/bdd_dual.rs", "symbols": ["dual"]}, {"file": "bddcore/src/bdd_ops.rs", "symbols": ["and", "or", "xor", "ite", "not"]}]}
{"id": "C72", "title": "Diagrams are minimal", "statement": "No decision graph of the same function that tests the variables in the manager's order has fewer vertices than the diagram behind a handle.", "quantifier": "all histories of BddMgr calls, all held handles, all decision graphs", "why_tests_cant": "quantifies over all graphs of all functions", "anchors": [{"file": "bss/src/bdd.rs", "symbols": ["BddNode::size"]}, {"file": "bddcore/src/bdd.rs", "symbols": ["create_node"]}]}
{"id": "C73", "title": "Sizes of multi-state diagrams", "statement": "Counting vertices as MddNode::size does: the result of an arithmetic operator, a comparison or a gate (of any pointwise combination of integer and boolean functions) has at most the product of the operands' numbers of vertices, and no decision graph of the same function that tests the variables in declaration order has fewer vertices than the diagram behind a handle.", "quantifier": "all histories of MddMgr calls, all held handles with a meaning, all combinations, all decision graphs", "why_tests_cant": "quantifies over all functions and all graphs", "anchors": [{"file": "mss/src/mdd.rs", "symbols": ["MddNode::size", "MddNode::add", "MddNode::and", "MddNode::eq"]}, {"file": "mss/src/mdd_count.rs", "symbols": ["mddnode_count"]}, {"file": "mddcore/src/mdd.rs", "symbols": ["create_node"]}, {"file": "mddcore/src/mtmdd.rs", "symbols": ["create_node"]}]}
{"id": "C74", "title": "Operations leave no garbage", "statement": "Every node that create_node, value, not, and, or, xor, ite, replace, the arithmetic operators, the comparisons = (of values), < and > of the combined manager, or the ZDD union, intersect and setdiff add to their manager is part of the diagram they return, so the number of live nodes grows by at most the size of the result, and a collection straight afterwards (keeping the result and all that was needed before) frees nothing. imp, nand, nor and xnor leave one intermediate diagram behind, and nothing else.", "quantifier": "all reachable managers of the five kinds (BDD, ZDD, MDD, value MDD, combined), all legal calls, all root sets", "why_tests_cant": "a leak of one node in a rare arm of one recursion shows only as memory growth; quantifies over all histories and operands", "anchors": [{"file": "bddcore/src/bdd.rs", "symbols": ["create_node", "live_node_count", "gc"]}, {"file": "bddcore/src/bdd_ops.rs", "symbols": ["and", "or", "xor", "not", "ite", "nand", "imp"]}, {"file": "bddcore/src/zdd_ops.rs", "symbols": ["union", "intersect", "setdiff"]}, {"file": "mddcore/src/mdd_ops.rs", "symbols": ["and", "or", "xor", "not", "ite", "replace"]}, {"file": "mddcore/src/mtmdd2_ops.rs", "symbols": ["veq", "vlt", "vif", "vite"]}, {"file": "mddcore/src/mtmdd_ops.rs", "symbols": ["add", "sub", "mul", "div", "rem", "min", "max"]}]}
{"id": "C75", "title": "Work done by gates and analyses", "statement": "The k-out-of-n gate over n nodes makes exactly k*(n+1-k) calls of ite (none for k = 0 or k > n), where the recursion without memory would make exponentially many. dual, bdd_count, prob (of BddNode and MddNode) and zdd_count evaluate every node of the diagram exactly once. and(f,f), or(f,f), xor(f,f), ite with a constant condition and ite(f,g,g) leave the manager untouched, computed table included.", "quantifier": "all reachable managers, all valid nodes, all k and node lists, all probability tables", "why_tests_cant": "a test sees running time for some sizes only; a memo key that misses in rare cases gives right answers in exponential time", "anchors": [{"file": "bss/src/bdd_kofn.rs", "symbols": ["kofn", "kofn_rec"]}, {"file": "bss/src/bdd_dual.rs", "symbols": ["dual"]}, {"file": "bss/src/bdd_count.rs", "symbols": ["bdd_count"]}, {"file": "bss/src/bdd_prob.rs", "symbols": ["prob"]}, {"file": "bss/src/zdd_count.rs", "symbols": ["zdd_count"]}, {"file": "mss/src/mdd_prob.rs", "symbols": ["vprob", "bprob"]}, {"file": "bddcore/src/bdd_ops.rs", "symbols": ["and", "or", "xor", "ite"]}]}
{"id": "C76", "title": "If-then-else against the formula it replaced", "statement": "The native ite(f,g,h) of the BDD, MDD and combined managers is documented to be identical to the formula it replaced: or(and(f,g), and(not f,h)), for values replace(vif(f,g), vif(not f,h)), including undetermined values. For operands that are nowhere undetermined (for values: a condition that is nowhere undetermined) the two calls return the same node. With undetermined operands they can differ: the documented identity is false.", "quantifier": "all reachable managers with distinct levels, all valid nodes", "why_tests_cant": "agreement on the tested formulas says nothing about other operands; the undetermined cases are not exercised by the tests", "anchors": [{"file": "bddcore/src/bdd_ops.rs", "symbols": ["ite", "and", "or", "not"]}, {"file": "mddcore/src/mdd_ops.rs", "symbols": ["ite", "and", "or", "not"]}, {"file": "mddcore/src/mtmdd2_ops.rs", "symbols": ["ite", "vite", "vif", "replace"]}]}
{"id": "C77", "title": "Results depend only on the operands' functions, undetermined values included", "statement": "C02 and C03 leave some freedom where an operand is undetermined. There is none in practice: if f1, g1 in one manager and f2, g2 in another denote the same functions, the binary connectives and ite return results denoting the same function, whatever the histories (other operations, other declaration order and labels, cleared caches, collected garbage). Where the earlier result is still there, the repeated call returns that node. With a constant operand the result is exact: zero wins over undetermined in and, one wins in or, undetermined wins over every non-constant operand and always in xor.", "quantifier": "all pairs of reachable managers with distinct levels, all valid nodes", "why_tests_cant": "the result with undetermined operands could depend on what happens to be in the cache; a test sees one history", "anchors": [{"file": "bddcore/src/bdd_ops.rs", "symbols": ["and", "or", "xor", "ite", "imp", "nand", "nor", "xnor"]}, {"file": "bddcore/src/bdd.rs", "symbols": ["gc", "clear_cache", "create_header"]}]}
{"id": "C78", "title": "Multi-state results depend only on the operands' functions, undetermined values included", "statement": "C77 for the multi-state managers. If the operands of a call in one MDD manager and of the same call in another denote the same functions, the results of not, the connectives, replace and ite denote the same function, whatever the histories. The same holds in the combined manager for not, and/or/xor, arithmetic that does not overflow, all comparisons (also <=), both if-then-elses and value-if. Where the earlier result is still there, the repeated call returns that node. With a constant operand the result is exact; unlike in the BDD manager, the undetermined constant wins over zero in and, and over one in or.", "quantifier": "all pairs of reachable managers with distinct levels that agree on the number of states of common levels; all valid operands", "why_tests_cant": "the result with undetermined operands could depend on what happens to be in the caches; a test sees one history", "anchors": [{"file": "mddcore/src/mdd_ops.rs", "symbols": ["and", "or", "xor", "not", "ite", "replace"]}, {"file": "mddcore/src/mtmdd2_ops.rs", "symbols": ["and", "or", "xor", "not", "add", "sub", "mul", "div", "eq", "neq", "lt", "lte", "gt", "gte", "ite"]}]}
{"id": "C79", "title": "Probabilities computed in f64 are finite, in [0,1], and accurate to n machine epsilons", "statement": "BddNode::prob instantiated with f64 (IEEE double precision, round to nearest even), given a table of doubles in [0,1] each within delta of the true probability (missing names count as 0 in both), returns a finite double between 0 and 1 whose distance from the true probability is at most n*(2^-52 + delta), n the number of declared variables; the number of nodes does not matter. If every given probability is exactly 0 or 1, the answer is exactly 1 or 0, according to the value of the function.", "quantifier": "all reachable managers, all determined functions, all tables of doubles in [0,1], all real tables within delta, all delta >= 0, all sets ss", "why_tests_cant": "an error bound holds over all doubles and all diagrams; a test compares a few values with a tolerance chosen by eye", "anchors": [{"file": "bss/src/bdd_prob.rs", "symbols": ["prob"]}, {"file": "bss/src/bdd.rs", "symbols": ["prob"]}]}
{"id": "C80", "title": "Multi-state probabilities computed in f64 are finite, not negative, and accurate to N machine epsilons", "statement": "MddNode::prob instantiated with f64, given rows of doubles in [0,1] each within delta of the corresponding entry of a true row (non-negative, summing to one), returns a finite non-negative double whose distance from the true probability is at most N*(2^-52 + 2*delta), N the total number of states of the declared variables, provided this bound is at most 1.", "quantifier": "all wrapper histories, all held functions, all tables of doubles, all true tables within delta, all sets ss", "why_tests_cant": "an error bound holds over all doubles and all diagrams; a test compares a few values with a tolerance chosen by eye", "anchors": [{"file": "mss/src/mdd_prob.rs", "symbols": ["prob", "vprob", "bprob"]}]}
{"id": "C81", "title": "A probability computed in f64 never exceeds one", "statement": "prob instantiated with f64 returns a number between 0 and 1 for tables of doubles that are the nearest doubles to true probabilities. True for two-state systems. False for multi-state systems: for a component with state probabilities 0.33, 0.56, 0.11 the probability that it is in one of its three states is computed as 1.0000000000000002.", "quantifier": "all managers, all functions, all tables", "why_tests_cant": "the excess appears only for particular doubles; tests compare with a tolerance and so accept it", "anchors": [{"file": "bss/src/bdd_prob.rs", "symbols": ["prob"]}, {"file": "mss/src/mdd_prob.rs", "symbols": ["vprob"]}]}
{"id": "C82", "title": "Birnbaum importances computed in f64 are finite and accurate", "statement": "BddNode::bmeas instantiated with f64, given a table of doubles in [0,1] each within delta of the true probability, returns a finite double for exactly the variables occurring in the diagram; its distance from the true importance P(f in ss | x works) - P(f in ss | x fails) is at most (4N + 2n + 1)*(2^-52 + delta), N the number of nodes reported by size and n the number of declared variables, provided this bound is at most 1. The errors neither multiply along paths nor with the number of paths.", "quantifier": "all reachable managers, all determined functions, all tables of doubles in [0,1], all real tables within delta, all delta >= 0, all sets ss", "why_tests_cant": "an error bound holds over all doubles and all diagrams; a test compares a few values with a tolerance chosen by eye", "anchors": [{"file": "bss/src/bdd_prob.rs", "symbols": ["bmeas"]}, {"file": "bss/src/bdd.rs", "symbols": ["bmeas"]}]}
{"id": "C83", "title": "Multi-state Birnbaum importances computed in f64 are finite and accurate", "statement": "MddNode::bmeas instantiated with f64, given rows of doubles in [0,1] each within delta of the corresponding entry of a true row (non-negative, summing to one), returns for exactly the variables occurring in the diagram one finite double per pair of neighbouring states; the k-th differs from P(F in ss | x in state k+1) - P(F in ss | x in state k) by at most (2E + 2N + 1)*(2^-52 + 2*delta), E the number of edges reported by size and N the total number of states of the declared variables, provided this bound is at most 1.", "quantifier": "all wrapper histories, all held functions, all tables of doubles, all true tables within delta, all sets ss", "why_tests_cant": "an error bound holds over all doubles and all diagrams; a test compares a few values with a tolerance chosen by eye", "anchors": [{"file": "mss/src/mdd_prob.rs", "symbols": ["bmeas", "vbmeas", "bbmeas"]}, {"file": "mss/src/mdd.rs", "symbols": ["bmeas"]}]}
{"id": "C84", "title": "Edge-valued MDD operations compute the pointwise minimum, maximum, sum and difference", "statement": "In the EV+MDD manager, min, max, add and sub of two edges (value, node) never panic; for every assignment the value of the resulting edge (the sum of the edge values on the path) is the minimum, maximum, sum or difference of the operands' values, infinity being neutral for min and absorbing for the others, also when the operation cache answers; every edge built before keeps its value.", "quantifier": "all EV+MDD managers reachable by create_header, create_node and operations, all valid nodes, all integer edge values, all assignments in range", "why_tests_cant": "the operation cache is keyed by the difference of the edge values and its content is relative to their minimum; a wrong offset shows only on a cache hit with different absolute values", "anchors": [{"file": "evmdd_core/src/evplus_mdd.rs", "symbols": ["min", "max", "add", "sub"]}]}
{"id": "C85", "title": "create_node of the EV+MDD manager denotes the chosen edge and shares nodes", "statement": "For a legal call create_node(h, edges) does not panic, and the returned (value, node) has, under every assignment, the value of the edge that the assignment selects at the variable of h; it adds at most one node, calling it again changes nothing and returns the same pair, and every edge built before keeps its value.", "quantifier": "all EV+MDD managers reachable by create_header, create_node and operations, all headers, all lists of edges of the right length to existing lower nodes, all assignments in range", "why_tests_cant": "normalisation subtracts the minimum from all edges and returns it; a slip shows only for particular edge values", "anchors": [{"file": "evmdd_core/src/evplus_mdd.rs", "symbols": ["create_node", "create_header"]}]}
{"id": "C86", "title": "An EV+MDD edge is determined by its function", "statement": "In an EV+MDD manager whose variables have different levels, two edges with the same value under every assignment have the same value and the same node.", "quantifier": "all reachable EV+MDD managers with distinct levels, all pairs of edges", "why_tests_cant": "a comparison of two diagrams built in different ways for a few functions says nothing about all others", "anchors": [{"file": "evmdd_core/src/evplus_mdd.rs", "symbols": ["create_node"]}]}
{"id": "C87", "title": "A BDD apply runs in time proportional to the product of the operand sizes", "statement": "and, or, xor evaluate at most size(f)*size(g) calls (for xor also size(f)+size(g) negations), not at most size(f), ite at most size(f)*size(g)*size(h); a call is evaluated when it is neither answered at once nor found in the operation cache (developer guide, section 2).", "quantifier": "all BDD managers reachable through the API, whatever their operation cache holds, all valid operands", "why_tests_cant": "the running time depends on which keys collide in the lossy cache; a benchmark sees a few sizes and node ids only", "anchors": [{"file": "bddcore/src/bdd_ops.rs", "symbols": ["not", "and", "or", "xor", "ite"]}, {"file": "common/src/compute_cache.rs", "symbols": ["get", "put"]}]}
{"id": "C88", "title": "A ZDD operation evaluates each pair of nodes at most once", "statement": "intersect, union, setdiff, product and divide of the ZDD manager evaluate no pair of nodes twice and at most size(f)*size(g) pairs, a call being evaluated when it is neither answered at once nor found in the operation cache.", "quantifier": "all reachable ZDD managers, whatever their cache holds, all valid operands, all five operations", "why_tests_cant": "running time is not asserted by tests, and an operation that forgets to store one kind of result is still correct", "anchors": [{"file": "bddcore/src/zdd_ops.rs", "symbols": ["intersect", "union", "setdiff", "product", "divide"]}]}
{"id": "C89", "title": "Handles of two BddMgr are told apart", "statement": "When a handle of one BddMgr is combined or compared with a handle of another one, eq tells whether the two denote the same function of the named variables, and and/or/xor return the function they should or panic; the handles held stay intact.", "quantifier": "all pairs of histories of two managers, all handles held in them", "why_tests_cant": "the tests of the repository use one manager at a time", "anchors": [{"file": "bss/src/bdd.rs", "symbols": ["and", "or", "xor", "eq"]}]}
{"id": "C90", "title": "Probabilities obey the laws of probability", "statement": "For handles of one BddMgr, prob satisfies: P(true)+P(false)=1; P(not f)=1-P(f); P(f and g)+P(f or g)=P(f)+P(g); P of the dual under the complementary table is 1-P(f); the pivotal decomposition P(f)=p_x P(f;x:=1)+(1-p_x)P(f;x:=0) at every variable; the entry of a variable f does not depend on is irrelevant. For entries between 0 and 1: 0<=P(f)<=1, P is monotone in f, and for an increasing (coherent) f it is monotone in the table, and every importance in bmeas is between 0 and 1.", "quantifier": "all histories of the manager, all handles held, all tables, all commutative (ordered) rings of numbers", "why_tests_cant": "no test compares the probabilities of two related handles; the laws relate runs on unboundedly many functions and tables", "anchors": [{"file": "bss/src/bdd.rs", "symbols": ["prob", "bmeas"]}, {"file": "bss/src/bdd_prob.rs", "symbols": ["prob", "bmeas"]}]}
{"id": "C91", "title": "Multi-state probabilities obey the laws of probability", "statement": "For handles of one MddMgr and weights that sum to one per variable, prob satisfies: an event and its complement sum to one; a sure event has probability one; inclusion-exclusion between two events; the law of total probability over the states of any variable; the row of a variable the function does not depend on is irrelevant. For non-negative weights: probabilities lie in [0,1] and are monotone in the event; for an event that never stops when states go up (level at least k of a monotone structure) prob does not go down when weight moves to higher states (stochastic order), and every importance in bmeas lies in [0,1].", "quantifier": "all histories of the manager, all handles held, all value sets and tables, all commutative (ordered) rings of numbers", "why_tests_cant": "no test compares the probabilities of two related handles or tables; the laws relate runs on unboundedly many functions and tables", "anchors": [{"file": "mss/src/mdd.rs", "symbols": ["prob", "bmeas"]}, {"file": "mss/src/mdd_prob.rs", "symbols": ["prob", "bmeas"]}]}
{"id": "C92", "title": "Garbage collection settings never change an answer", "statement": "Two client programs of BddMgr that make the same calls in the same order, apart from calls of gc, set_gc_threshold and clear_cache, get the same answers to all other calls: which handles are equal, constants, labels, levels, variable order, count, size, paths in the same order, prob, bmeas, rpn errors, and whether a call panics. The numbers agree exactly whatever number type is used (bit for bit in f64).", "quantifier": "all client programs (any number of handles, clones, drops, expressions), all placements of gc, thresholds and cache clearing, all number types and operations", "why_tests_cant": "a test compares a few placements of gc on a few programs; the claim relates two runs with different node ids, caches and memory layouts for every program", "anchors": [{"file": "bss/src/bdd.rs", "symbols": ["gc", "set_gc_threshold", "clear_cache", "maybe_gc", "wrap", "rewrap"]}, {"file": "bddcore/src/bdd.rs", "symbols": ["gc"]}]}
{"id": "C93", "title": "No wrapper call panics on a RefCell borrow or leaves one behind", "statement": "The managers keep their arena and their roots in RefCells and borrow them in almost every method. No call of the public API of bss and mss panics with 'already borrowed', whatever was called before, also after a caught panic inside a call, and no borrow survives a call. While the caller itself holds get_mgr().borrow(), exactly the calls that only look remain safe: in particular ZddNode::count and MddNode::mdd_count do, but BddNode::bdd_count, prob and bmeas do not.", "quantifier": "all sequences of calls of all 188 public methods on any number of managers, all branches, loop counts, early returns and panics inside the methods", "why_tests_cant": "the conflict happens only on particular paths (for example a collection triggered inside wrap); tests run a few of them", "anchors": [{"file": "bss/src/bdd.rs", "symbols": ["maybe_gc", "wrap", "rewrap", "get_children", "rpn", "defvar"]}, {"file": "bss/src/zdd.rs", "symbols": ["maybe_gc", "from_sets"]}, {"file": "bss/src/bss.rs", "symbols": ["minpath"]}, {"file": "mss/src/mdd.rs", "symbols": ["maybe_gc", "get_children", "rpn"]}, {"file": "mss/src/zmdd.rs", "symbols": ["convert", "extract_level"]}, {"file": "mss/src/mss.rs", "symbols": ["minpath", "mincut"]}]}
{"id": "C94", "title": "Recursion depth is bounded by the number of variables", "statement": "The operations and analyses are recursive functions without a depth limit, so deep recursion would overflow the thread's stack. Every operation (not/and/or/xor/ite, the five ZDD operations, the MDD, MTMDD, mixed and ZMDD operations) and the analyses (dual, count, minimal solutions, probability, size) return without nesting calls of themselves deeper than the number of levels - for the wrappers, of declared variables - plus one (plus two for mdd_count, the number of operands plus one for kofn), however many nodes the diagrams have; allowing more nesting never changes an answer.", "quantifier": "all reachable managers, all valid nodes, all numbers of variables and of nodes, every larger allowance", "why_tests_cant": "a test uses diagrams of a few levels; depth has to be bounded for all of them, and the bound must not depend on the size", "anchors": [{"file": "bddcore/src/bdd_ops.rs", "symbols": ["not", "and", "or", "xor", "ite"]}, {"file": "bddcore/src/zdd_ops.rs", "symbols": ["union", "intersect", "setdiff", "product", "divide"]}, {"file": "mddcore/src/mdd_ops.rs", "symbols": ["not", "and", "ite"]}, {"file": "mddcore/src/mtmdd_ops.rs", "symbols": ["add"]}, {"file": "bss/src/bdd_dual.rs", "symbols": ["dual"]}, {"file": "bss/src/bdd_kofn.rs", "symbols": ["kofn_rec"]}, {"file": "bss/src/bdd_minsol.rs", "symbols": ["minsol"]}, {"file": "mss/src/mdd_count.rs", "symbols": ["vmdd_count"]}, {"file": "mss/src/mdd_minsol.rs", "symbols": ["vminsol"]}]}
{"id": "C95", "title": "Garbage collection settings never change an answer of MddMgr", "statement": "Two client programs of MddMgr that make the same calls in the same order, apart from calls of gc, set_gc_threshold and clear_cache, get the same answers to all other calls: which handles are equal, kinds, constants, labels, levels, headers, variable order, mdd_count, size, paths in the same order, prob, bmeas, rpn errors, and whether a call panics (integer overflow, division by zero, comparison outside the implemented cases, undefined names). The numbers agree exactly whatever number type is used (bit for bit in f64).", "quantifier": "all client programs (any number of handles, clones, drops, expressions, create_node with children that fit), all placements of gc, thresholds and cache clearing, all integer types with and without overflow checks, all number types and operations for probabilities", "why_tests_cant": "a test compares a few placements of gc on a few programs; the claim relates two runs with different node ids, caches and memory layouts for every program, including runs that panic", "anchors": [{"file": "mss/src/mdd.rs", "symbols": ["gc", "set_gc_threshold", "clear_cache", "maybe_gc", "wrap", "rpn", "defvar", "get_children"]}, {"file": "mddcore/src/mtmdd2.rs", "symbols": ["gc"]}, {"file": "mss/src/mdd_prob.rs", "symbols": ["vprob", "bprob"]}, {"file": "mss/src/mdd_path.rs", "symbols": ["next"]}]}
{"id": "C96", "title": "Storing ids in 32 bits is exact up to 2^32 slots and headers", "statement": "The BDD, ZDD, MDD, multi-terminal MDD, ZMDD and combined (MtMdd2) managers store node and header ids narrowed with `as u32` (edges, unique table, value table, computed tables, free list). For every history of legal calls that ends with at most 2^32 slots and 2^32 headers, every answer and the final state are those of a manager with unbounded ids. The limit is sharp and unguarded (BDD manager): with one slot more, asking twice for the same variable node answers the constant false the second time; with one header more, two variables of different levels share one node.", "quantifier": "all histories of legal calls, all widths w (32 in the code); the limits for every width of at least 2", "why_tests_cant": "reaching the limit needs more than 10^11 bytes; no test gets near it, and the absence of an effect below it is a statement about every stored number in every state", "anchors": [{"file": "bddcore/src/bdd.rs", "symbols": ["create_node", "gc", "cache_get", "cache_put", "ite_cache_get", "ite_cache_put"]}, {"file": "bddcore/src/nodes.rs", "symbols": ["NonTerminalBDD"]}, {"file": "bddcore/src/bdd_ops.rs", "symbols": ["not", "and", "or", "xor", "ite"]}, {"file": "bddcore/src/zdd.rs", "symbols": ["create_node", "gc"]}, {"file": "mddcore/src/mdd.rs", "symbols": ["create_node", "gc", "cache_get", "cache_put", "ite_cache_get", "ite_cache_put"]}, {"file": "mddcore/src/mtmdd.rs", "symbols": ["value", "create_node", "gc", "cache_get", "cache_put"]}, {"file": "mddcore/src/zmdd.rs", "symbols": ["value", "create_node", "gc", "cache_get", "cache_put"]}, {"file": "mddcore/src/mtmdd2.rs", "symbols": ["bcache_get", "bcache_put", "vcache_get", "vcache_put", "vite_cache_get", "vite_cache_put", "gc"]}, {"file": "mddcore/src/nodes.rs", "symbols": ["NonTerminalMDD"]}]}
{"id": "C97", "title": "A call that panics and is caught has no visible effect", "statement": "If a call of MddMgr or MddNode (of BddMgr or BddNode) panics (an arithmetic overflow, a division by zero, the minimum of no nodes, an expression with a missing operand or an unknown variable) and the client catches the panic, all later calls answer as if the call had not been made; an rpn expression that panics has defined the variables named before the place where it fails, and nothing else. This holds with any housekeeping in between. It is false for one call: MddMgr::defvar with no states panics after its header has been created, so the header ids of all later variables are shifted by one.", "quantifier": "all client programs that catch panics, all points at which a panic can happen, any integer type; every variable with at least one state", "why_tests_cant": "a panic can happen in the middle of any recursion, with any part of the nodes and the cache entries of the operation already written; a test sees a few of these states", "anchors": [{"file": "bss/src/bdd.rs", "symbols": ["rpn"]}, {"file": "mss/src/mdd.rs", "symbols": ["defvar", "rpn", "and", "or", "min", "max"]}, {"file": "mddcore/src/mtmdd_ops.rs", "symbols": ["add", "sub", "mul", "div", "rem"]}, {"file": "mddcore/src/mtmdd2.rs", "symbols": ["create_node"]}]}
{"id": "C98", "title": "Handles may outlive their manager", "statement": "A client may drop a BddMgr, a ZddMgr or an MddMgr, take references to its arena with get_mgr and drop them, at any time and in any order. As long as the manager or one such reference is there, every call on a handle answers as if the manager had never been dropped. Cloning, comparing and dropping handles never panics. Every other call on a handle that needs the arena panics once neither the manager nor a reference is there, and the arena is freed exactly then.", "quantifier": "all client programs that catch panics, all orders in which the manager, the references and the handles are dropped, any housekeeping before", "why_tests_cant": "the order in which values go out of scope is not fixed by the API; a panic in drop aborts the process, and a test runs a few orders only", "anchors": [{"file": "bss/src/bdd.rs", "symbols": ["BddMgr", "BddNode", "from_weak", "rewrap", "drop", "get_mgr", "maybe_gc"]}, {"file": "bss/src/zdd.rs", "symbols": ["ZddMgr", "ZddNode", "from_weak", "rewrap", "drop", "get_mgr", "maybe_gc"]}, {"file": "mss/src/mdd.rs", "symbols": ["MddMgr", "MddNode", "from_weak", "rewrap", "drop", "get_mgr", "maybe_gc"]}]}
{"id": "C99", "title": "Collections of ZddMgr never change an answer", "statement": "Two client programs of ZddMgr that make the same calls in the same order, apart from calls of set_gc_threshold and clear_cache, get the same answers to all other calls: which handles are equal, constants, labels, levels, headers, counts, members in the same order, sizes, and whether a call panics. This includes divide and families with undetermined members.", "quantifier": "all client programs, all thresholds, all positions of clear_cache calls", "why_tests_cant": "when a collection runs and which nodes and cache entries it frees depends on the whole history; a test has one threshold and one history", "anchors": [{"file": "bss/src/zdd.rs", "symbols": ["ZddMgr", "ZddNode", "maybe_gc", "set_gc_threshold", "clear_cache", "wrap", "rewrap"]}, {"file": "bddcore/src/zdd_ops.rs", "symbols": ["intersect", "union", "setdiff", "product", "divide"]}]}
{"id": "C100", "title": "Collections in BssMgr never change an answer, across minpath and mincut", "statement": "Two client programs of BssMgr that make the same calls in the same order, apart from calls of gc, set_gc_threshold (on the inner BddMgr or ZddMgr) and clear_cache, get the same answers to all other calls: whether minpath and mincut give a family, its members in the same order, counts and sizes, which handles are equal, probabilities, labels, levels, errors and panics. The programs may mix calls on structure functions, calls on the families minpath and mincut gave, and further minpath and mincut calls.", "quantifier": "all client programs, all thresholds of both inner managers, all positions of gc and clear_cache calls", "why_tests_cant": "a collection in one manager can fall between any two steps of a computation that spans both; which ones happen depends on the whole history", "anchors": [{"file": "bss/src/bss.rs", "symbols": ["BssMgr", "minpath", "mincut", "clear_cache", "bdd", "zdd"]}, {"file": "bss/src/zdd_convert.rs", "symbols": ["to_zdd"]}, {"file": "bss/src/bdd_minsol.rs", "symbols": ["minsol", "without"]}, {"file": "bss/src/bdd.rs", "symbols": ["maybe_gc", "gc"]}, {"file": "bss/src/zdd.rs", "symbols": ["wrap", "maybe_gc"]}]}
{"id": "C101", "title": "minpath and mincut of one BssMgr on nodes of other managers", "statement": "minpath and mincut accept a node of any BddMgr. For nodes of any number of managers, with any orders of their variables, they do not panic, return None exactly for functions that are not increasing, and otherwise give the minimal path (cut) sets by name; all families already in the receiving forest, from whatever managers, keep their meaning through further calls and collections. The returned families support the set algebra: the union of two of them is the union of what they stand for.", "quantifier": "all pools of BDD managers, all histories of calls on them and on the receiving forest", "why_tests_cant": "the failure needs two managers whose orders of names differ at some level; tests use one manager", "anchors": [{"file": "bss/src/bss.rs", "symbols": ["minpath", "mincut"]}, {"file": "bss/src/zdd_convert.rs", "symbols": ["to_zdd"]}, {"file": "bss/src/zdd.rs", "symbols": ["wrap", "union"]}, {"file": "bddcore/src/zdd_ops.rs", "symbols": ["union"]}]}
{"id": "C102", "title": "minpath and mincut of one MssMgr on nodes of other managers", "statement": "minpath and mincut of MssMgr accept a node of any MddMgr. They do not panic, return None exactly for functions that are not monotone, and otherwise give a family whose extract lists, each once, the minimal path (maximal cut) vectors of the chosen levels, every variable of the structure function present; all families and handles already held keep their meaning through further calls and collections. intersect and setdiff of two path (cut) families over the same variables list what they should, even if the families came from different managers.", "quantifier": "all pools of MDD managers, all histories of calls on them and on the MssMgr", "why_tests_cant": "the failure needs a node of a manager whose variables differ from those of the MssMgr; tests use one manager", "anchors": [{"file": "mss/src/mss.rs", "symbols": ["minpath", "mincut"]}, {"file": "mss/src/zmdd.rs", "symbols": ["convert", "convert_rev", "extract"]}, {"file": "mss/src/zmdd_convert.rs", "symbols": ["to_zmdd"]}]}
{"id": "C103", "title": "Handles of one BddMgr given to operations of another", "statement": "and, or and xor between handles of different managers panic or leave the manager of self sound: every handle held on it, and every result of later operations on its own handles, denotes the right function. Handles of different managers compare equal only if they denote the same function.", "quantifier": "all histories of two managers, all pairs of handles, all later histories", "why_tests_cant": "damage shows only when the foreign number hits a freed slot that is reused later; tests use one manager", "anchors": [{"file": "bss/src/bdd.rs", "symbols": ["and", "or", "xor", "eq"]}, {"file": "bddcore/src/bdd_ops.rs", "symbols": ["and", "or", "xor"]}, {"file": "bddcore/src/bdd.rs", "symbols": ["new_nonterminal", "gc"]}]}
