{
 "claims": [
  {
   "property": "C01",
   "status": "proved",
   "theorems": [
    "c01_hit_is_recalled",
    "c01_counters_exact",
    "c01_progress"
   ],
   "note": ""
  },
  {
   "property": "C02",
   "status": "proved",
   "theorems": [
    "c02_connectives",
    "c02_not",
    "c02_undetermined",
    "c02_value_unique"
   ],
   "note": ""
  },
  {
   "property": "C03",
   "status": "proved",
   "theorems": [
    "c03_ite"
   ],
   "note": ""
  },
  {
   "property": "C04",
   "status": "proved",
   "theorems": [
    "c04_canonical"
   ],
   "note": ""
  },
  {
   "property": "C05",
   "status": "proved",
   "theorems": [
    "c05_no_panic_no_disturbance"
   ],
   "note": ""
  },
  {
   "property": "C06",
   "status": "proved",
   "theorems": [
    "c06_gc_exact",
    "c06_gc_again"
   ],
   "note": "roots are required valid; out-of-range roots are not covered"
  },
  {
   "property": "C07",
   "status": "proved",
   "theorems": [
    "c07_held_handles",
    "c07_held_canonical"
   ],
   "note": "progress of each call is c05_no_panic_no_disturbance / c06_gc_exact"
  },
  {
   "property": "C08",
   "status": "proved",
   "theorems": [
    "c08_handles",
    "c08_equal",
    "c08_no_panic"
   ],
   "note": ""
  },
  {
   "property": "C09",
   "status": "proved",
   "theorems": [
    "c09_rpn",
    "c09_total",
    "c09_unique"
   ],
   "note": "white space is the ASCII white space; an operator on too few operands panics (see C10)"
  },
  {
   "property": "C10",
   "status": "partial",
   "theorems": [
    "c10_reported_refuted",
    "c10_reported_partial"
   ],
   "note": "FALSE of the code: an operator that finds too few operands unwraps None and aborts (finding). All other malformed expressions are reported."
  },
  {
   "property": "C11",
   "status": "proved",
   "theorems": [
    "c11_kofn",
    "c11_and",
    "c11_or"
   ],
   "note": ""
  },
  {
   "property": "C12",
   "status": "proved",
   "theorems": [
    "c12_dual"
   ],
   "note": ""
  },
  {
   "property": "C13",
   "status": "proved",
   "theorems": [
    "c13_count",
    "c13_count_defined"
   ],
   "note": ""
  },
  {
   "property": "C14",
   "status": "proved",
   "theorems": [
    "c14_extract"
   ],
   "note": ""
  },
  {
   "property": "C15",
   "status": "proved",
   "theorems": [
    "c15_prob"
   ],
   "note": "for diagrams without undetermined points (the code panics on an undetermined terminal)"
  },
  {
   "property": "C16",
   "status": "proved",
   "theorems": [
    "c16_bmeas"
   ],
   "note": "variable names distinct, as BddMgr::defvar guarantees"
  },
  {
   "property": "C17",
   "status": "proved",
   "theorems": [
    "c17_minpath",
    "c17_no_disturbance"
   ],
   "note": ""
  },
  {
   "property": "C18",
   "status": "proved",
   "theorems": [
    "c18_mincut"
   ],
   "note": ""
  },
  {
   "property": "C19",
   "status": "proved",
   "theorems": [
    "c19_union",
    "c19_setdiff",
    "c19_product"
   ],
   "note": ""
  },
  {
   "property": "C20",
   "status": "partial",
   "theorems": [
    "c20_intersect_refuted",
    "c20_intersect_partial",
    "c20_intersect_exact"
   ],
   "note": "FALSE of the code: intersect of {empty set} with {{x}} returns {{x}} (finding). Proved when no member of one family is a proper subset of a member of the other; c20_intersect_exact says what is returned in every case."
  },
  {
   "property": "C21",
   "status": "partial",
   "theorems": [
    "c21_divide_refuted",
    "c21_divide_partial",
    "c21_divide_top_partial"
   ],
   "note": "FALSE of the code: {{x,y}}/{{y}} returns the empty family (finding). Proved for the divisor {empty set} and for a single set that every member of the dividend extends by lower levels only."
  },
  {
   "property": "C22",
   "status": "proved",
   "theorems": [
    "c22_canonical",
    "c22_gc_exact",
    "c22_no_disturbance",
    "c22_create_node"
   ],
   "note": ""
  },
  {
   "property": "C23",
   "status": "partial",
   "theorems": [
    "c23_minpath_eq_refuted",
    "c23_min_eq_partial"
   ],
   "note": "FALSE of the code: each minpath call creates fresh ZDD headers, so asking twice gives two different nodes for one family (finding). c23_min_eq_partial: equality holds exactly for the families without elements (constant functions). Within one header set c22_canonical applies."
  },
  {
   "property": "C24",
   "status": "proved",
   "theorems": [
    "c24_count",
    "c24_finite",
    "c24_extract"
   ],
   "note": ""
  },
  {
   "property": "C25",
   "status": "proved",
   "theorems": [
    "c25_connectives",
    "c25_not",
    "c25_ite",
    "c25_replace"
   ],
   "note": ""
  },
  {
   "property": "C26",
   "status": "proved",
   "theorems": [
    "c26_canonical_mdd",
    "c26_canonical_mtmdd",
    "c26_value_mdd",
    "c26_value_mtmdd"
   ],
   "note": ""
  },
  {
   "property": "C27",
   "status": "proved",
   "theorems": [
    "c27_arithmetic",
    "c27_arithmetic_at",
    "c27_arithmetic_i32"
   ],
   "note": "integer type abstract (overflow behaviour is a parameter); instantiated to i32 with and without overflow checks"
  },
  {
   "property": "C28",
   "status": "partial",
   "theorems": [
    "c28_comparisons_partial",
    "c28_comparisons_undetermined",
    "c28_boolean_eq",
    "c28_lte_refuted",
    "c28_lte_partial"
   ],
   "note": "eq, neq, lt, gt, gte proved. FALSE of the code for lte: lte(x,1) is false at x=1 (finding); what holds of lte is c28_lte_partial."
  },
  {
   "property": "C29",
   "status": "proved",
   "theorems": [
    "c29_value_ite",
    "c29_boolean_ite"
   ],
   "note": ""
  },
  {
   "property": "C30",
   "status": "proved",
   "theorems": [
    "c30_gc_mdd",
    "c30_gc_mtmdd",
    "c30_value",
    "c30_gc_combined",
    "c30_no_disturbance",
    "c30_held"
   ],
   "note": ""
  },
  {
   "property": "C31",
   "status": "partial",
   "theorems": [
    "c31_undet_boolean_refuted",
    "c31_undet_boolean_is_false"
   ],
   "note": "FALSE of the code: undet_boolean() returns the false node (finding)."
  },
  {
   "property": "C39",
   "status": "proved",
   "theorems": [
    "c39_intersect",
    "c39_setdiff",
    "c39_label_unique"
   ],
   "note": "at the ZmddManager level; the ZmddNode wrapper only adds pinning"
  },
  {
   "property": "C40",
   "status": "proved",
   "theorems": [
    "c40_extract",
    "c40_dense"
   ],
   "note": "u64 counts modelled as unbounded"
  },
  {
   "property": "C43",
   "status": "proved",
   "theorems": [
    "c43_size",
    "c43_zdd_size",
    "c43_mdd_size"
   ],
   "note": "counters modelled as unbounded"
  },
  {
   "property": "C44",
   "status": "proved",
   "theorems": [
    "c44_order",
    "c44_defvar",
    "c44_same"
   ],
   "note": ""
  },
  {
   "property": "C45",
   "status": "proved",
   "theorems": [
    "c45_canonical"
   ],
   "note": ""
  },
  {
   "property": "C46",
   "status": "proved",
   "theorems": [
    "c46_create_node"
   ],
   "note": ""
  },
  {
   "property": "C47",
   "status": "proved",
   "theorems": [
    "c47_set_baseline"
   ],
   "note": ""
  },
  {
   "property": "C48",
   "status": "proved",
   "theorems": [
    "c48_gc_exact",
    "c48_no_disturbance"
   ],
   "note": ""
  },
  {
   "property": "C49",
   "status": "proved",
   "theorems": [
    "c49_labels"
   ],
   "note": ""
  },
  {
   "property": "C41",
   "status": "partial",
   "theorems": [
    "c41_rpn_partial",
    "c41_rpn_total_partial",
    "c41_total",
    "c41_unique",
    "c41_lte_refuted"
   ],
   "note": "Proved for every expression without <= (every string is an expression, in one way). FALSE of the code with <=: 'x 1 <=' is false at x=1 (finding, see C28)."
  },
  {
   "property": "C42",
   "status": "proved",
   "theorems": [
    "c42_handles",
    "c42_equal",
    "c42_no_panic"
   ],
   "note": ""
  },
  {
   "property": "C50",
   "status": "partial",
   "theorems": [
    "c50_order_partial",
    "c50_defvar",
    "c50_order_refuted"
   ],
   "note": "defvar proved. get_varorder proved if every variable has at least two states; it panics otherwise (finding)."
  },
  {
   "property": "C36",
   "status": "proved",
   "theorems": [
    "c36_minpath",
    "c36_single_state_refuted"
   ],
   "note": "for variables with at least two states each; with a single-state variable the call panics (finding, c36_single_state_refuted)"
  },
  {
   "property": "C37",
   "status": "proved",
   "theorems": [
    "c37_mincut"
   ],
   "note": "for variables with at least two states each"
  },
  {
   "property": "C38",
   "status": "proved",
   "theorems": [
    "c38_path_level",
    "c38_cut_level"
   ],
   "note": ""
  },
  {
   "property": "C51",
   "status": "proved",
   "theorems": [
    "c51_handles",
    "c51_family",
    "c51_level",
    "c51_intersect",
    "c51_setdiff",
    "c51_mixed_refuted"
   ],
   "note": "families of opposite directions: intersect compares records of different meaning (finding, c51_mixed_refuted)"
  },
  {
   "property": "C32",
   "status": "proved",
   "theorems": [
    "c32_prob"
   ],
   "note": "over any commutative ring (floats are not modelled); tables that list every declared variable with a row per state summing to one"
  },
  {
   "property": "C33",
   "status": "proved",
   "theorems": [
    "c33_bmeas",
    "c33_bmeas_prob",
    "c33_absent"
   ],
   "note": "over any commutative ring; variables that do not occur in the diagram have no entry (c33_absent: their differences are zero)"
  },
  {
   "property": "C34",
   "status": "partial",
   "theorems": [
    "c34_count_partial",
    "c34_bool_partial",
    "c34_const_partial",
    "c34_bool_refuted",
    "c34_const_refuted"
   ],
   "note": "FALSE of the code: a boolean diagram counts 2 for x+y>=1 over two-state x, y (three vectors), and every constant counts 1 (findings). Proved for integer diagrams that are not constant, and for boolean ones where no node is entered from two levels."
  },
  {
   "property": "C35",
   "status": "partial",
   "theorems": [
    "c35_extract",
    "c35_len_partial",
    "c35_len_bool_partial",
    "c35_len_refuted"
   ],
   "note": "The enumeration is proved in full (c35_extract). len() is FALSE where C34 is (finding)."
  },
  {
   "property": "C52",
   "status": "proved",
   "theorems": [
    "c52_handles",
    "c52_equal",
    "c52_no_panic",
    "c52_no_panic_new",
    "c52_count",
    "c52_extract",
    "c52_terminal_tests"
   ],
   "note": ""
  },
  {
   "property": "C53",
   "status": "proved",
   "theorems": [
    "c53_handles",
    "c53_minpath",
    "c53_mincut",
    "c53_equal_refuted"
   ],
   "note": "Handles of a BssMgr with equal families need not be equal: minpath twice gives two nodes (finding, c53_equal_refuted)."
  },
  {
   "property": "C54",
   "status": "proved",
   "theorems": [
    "c54_mdd_prob",
    "c54_mdd_bmeas",
    "c54_bdd_prob",
    "c54_bdd_bmeas",
    "c54_points"
   ],
   "note": "point tables over any commutative ring; multi-state rows sum to one"
  },
  {
   "property": "C55",
   "status": "proved",
   "theorems": [
    "c55_bdd",
    "c55_zdd",
    "c55_mdd",
    "c55_zmdd"
   ],
   "note": ""
  },
  {
   "property": "C56",
   "status": "partial",
   "theorems": [
    "c56_bdd_text_refuted",
    "c56_bdd_text_partial",
    "c56_zdd_text_partial",
    "c56_mdd_text_partial"
   ],
   "note": "FALSE when a variable name contains a double quote: labels are written unescaped, so two different functions can give the same text (finding). True for names without double quotes."
  },
  {
   "property": "C57",
   "status": "proved",
   "theorems": [
    "c57_bdd",
    "c57_bdd_start",
    "c57_bdd_handles",
    "c57_zdd",
    "c57_zdd_handles",
    "c57_joint_bdd",
    "c57_joint_zdd"
   ],
   "note": "Exact content of every iterator at every point of every interleaving; ZddPath for the default result set [true]."
  },
  {
   "property": "C58",
   "status": "proved",
   "theorems": [
    "c58_mdd",
    "c58_mdd_start",
    "c58_mdd_handles",
    "c58_mss_mdd",
    "c58_mss_family",
    "c58_mss_extremal",
    "c58_mss_start",
    "c58_mss_handles"
   ],
   "note": "Exact content of every iterator at every point of every interleaving. len is exact under the conditions stated in the property; outside them it is not (C35)."
  },
  {
   "property": "C59",
   "status": "proved",
   "theorems": [
    "c59_constants",
    "c59_top",
    "c59_declared",
    "c59_children",
    "c59_eq"
   ],
   "note": "Dependence on a variable is defined by assignments, not by the diagram."
  },
  {
   "property": "C60",
   "status": "proved",
   "theorems": [
    "c60_count",
    "c60_extract",
    "c60_prob",
    "c60_bmeas",
    "c60_size"
   ],
   "note": "The statements of C11-C14 by name for the function of a handle; bmeas omits exactly the variables the function does not depend on, whose measure is zero."
  },
  {
   "property": "C61",
   "status": "proved",
   "theorems": [
    "c61_kind",
    "c61_constants",
    "c61_top",
    "c61_declared",
    "c61_children",
    "c61_eq",
    "c61_occurs"
   ],
   "note": "Dependence on a variable is defined by state vectors, not by the diagram."
  },
  {
   "property": "C62",
   "status": "partial",
   "theorems": [
    "c62_undet_refuted",
    "c62_undet_partial",
    "c62_id2_refuted",
    "c62_id2_partial"
   ],
   "note": "False of the code: is_undet is false for undet_value(), and undet_value() and the boolean false share get_id2 (0, 0). What holds: is_undet is false for every handle with a determined meaning; get_id2 decides equality when neither id is 0."
  },
  {
   "property": "C63",
   "status": "proved",
   "theorems": [
    "c63_top",
    "c63_declared",
    "c63_positions",
    "c63_order",
    "c63_children",
    "c63_rebuild",
    "c63_eq",
    "c63_size"
   ],
   "note": "Occurrence in a member is defined by the family, not by the diagram. Inside a BssMgr eq may distinguish equal families (c53_equal_refuted), so c63_eq and c63_rebuild are for a ZddMgr of its own."
  },
  {
   "property": "C64",
   "status": "proved",
   "theorems": [
    "c64_paths",
    "c64_cuts"
   ],
   "note": "Ends at the list returned by extract; the finiteness argument uses that a handle depends on declared variables only."
  },
  {
   "property": "C65",
   "status": "proved",
   "theorems": [
    "c65_paths",
    "c65_cuts",
    "c65_paths_needs",
    "c65_cuts_needs"
   ],
   "note": "Ends at the list returned by extract_level."
  },
  {
   "property": "C66",
   "status": "proved",
   "theorems": [
    "c66_gc",
    "c66_release",
    "c66_auto",
    "c66_count",
    "c66_zdd_auto",
    "c66_zdd_count"
   ],
   "note": "Calls covered by c66_auto: zero, one, not, and, or, xor, ite, n-ary and/or, kofn, dual; by c66_zdd_auto: empty, base, singleton and the five set operations. defvar and get_children do not run the collector, so they may reach the threshold; the next such call collects."
  },
  {
   "property": "C67",
   "status": "proved",
   "theorems": [
    "c67_gc",
    "c67_auto",
    "c67_count",
    "c67_families",
    "c67_families_count"
   ],
   "note": "Calls covered by c67_auto: boolean, value, undetermined constants, not, all binary operations, ite, n-ary and/or/min/max. defvar, get_children and the minimal-solution diagram itself do not run the collector of the MddMgr."
  },
  {
   "property": "C68",
   "status": "partial",
   "theorems": [
    "c68_reclaimed_partial",
    "c68_reclaimed_refuted"
   ],
   "note": "False (finding): gc returns the total number of free slots, including those already free before the call; a second gc that reclaims nothing returns 1 in the witness. True when no slot is free before the call."
  },
  {
   "property": "C69",
   "status": "proved",
   "theorems": [
    "c69_bdd_release",
    "c69_zdd",
    "c69_mdd",
    "c69_mdd_bool",
    "c69_zmdd"
   ],
   "note": "For mdd_count where C34 holds (integer diagrams that are not constant; boolean diagrams with no node entered from two levels). bdd_count with overflow checks is C70. The number of states of a variable is assumed below 2^32."
  },
  {
   "property": "C70",
   "status": "partial",
   "theorems": [
    "c70_checked_partial",
    "c70_checked_refuted"
   ],
   "note": "False (finding): for an edge that skips 64 levels the code computes 2^64 before multiplying by the count of the target, so asking for the number of working states of the series system of 65 components (which is 1) panics. True for functions of the first 64 variables: the number, or a panic if it does not fit."
  },
  {
   "property": "C71",
   "status": "proved",
   "theorems": [
    "c71_combination",
    "c71_gate",
    "c71_ite",
    "c71_not",
    "c71_dual",
    "c71_kofn"
   ],
   "note": ""
  },
  {
   "property": "C72",
   "status": "proved",
   "theorems": [
    "c72_minimal"
   ],
   "note": ""
  },
  {
   "property": "C73",
   "status": "proved",
   "theorems": [
    "c73_combination",
    "c73_binary",
    "c73_minimal"
   ],
   "note": "c73_binary excludes <= (C41 finding)."
  },
  {
   "property": "C74",
   "status": "proved",
   "theorems": [
    "c74_bdd",
    "c74_zdd",
    "c74_mdd",
    "c74_mtmdd",
    "c74_bdd_collect",
    "c74_zdd_collect",
    "c74_mdd_collect",
    "c74_mtmdd_collect",
    "c74_bdd_derived",
    "c74_mdd_derived",
    "c74_combined",
    "c74_combined_collect"
   ],
   "note": "The ZDD product and division are not covered: they leave intermediate families behind (c74_ex_product)."
  },
  {
   "property": "C75",
   "status": "proved",
   "theorems": [
    "c75_kofn",
    "c75_dual",
    "c75_count",
    "c75_prob",
    "c75_zdd_count",
    "c75_mdd_prob",
    "c75_same"
   ],
   "note": "Work.v repeats the recursions with a report of what they do; leaving the report out gives the modelled functions back (WorkProofs, *_erase)."
  },
  {
   "property": "C76",
   "status": "partial",
   "theorems": [
    "c76_bdd_partial",
    "c76_mdd_partial",
    "c76_value_partial",
    "c76_bdd_refuted",
    "c76_mdd_refuted",
    "c76_value_refuted"
   ],
   "note": "Full claim (also with undetermined operands) is false: see the _refuted theorems. Proved without undetermined operands (values: undetermined branches allowed)."
  },
  {
   "property": "C77",
   "status": "proved",
   "theorems": [
    "c77_connective",
    "c77_ite",
    "c77_again",
    "c77_ite_again",
    "c77_and_constants",
    "c77_or_constants",
    "c77_xor_constants"
   ],
   "note": "BDD manager."
  },
  {
   "property": "C78",
   "status": "proved",
   "theorems": [
    "c78_mdd",
    "c78_mdd_again",
    "c78_undetermined_wins",
    "c78_constants",
    "c78_combined",
    "c78_combined_again"
   ],
   "note": "MDD and combined managers; arithmetic under the hypothesis that nothing overflows."
  },
  {
   "property": "C79",
   "status": "proved",
   "theorems": [
    "c79_accurate",
    "c79_exact_table",
    "c79_certain"
   ],
   "note": "Uses the axioms of the standard library's reals."
  },
  {
   "property": "C80",
   "status": "proved",
   "theorems": [
    "c80_accurate"
   ],
   "note": "Uses the axioms of the standard library's reals."
  },
  {
   "property": "C81",
   "status": "partial",
   "theorems": [
    "c81_two_state_partial",
    "c81_multi_state_refuted"
   ],
   "note": "Finding: false for multi-state systems (witness computed); proved for two-state systems."
  },
  {
   "property": "C82",
   "status": "proved",
   "theorems": [
    "c82_accurate"
   ],
   "note": "Uses the axioms of the standard library's reals."
  },
  {
   "property": "C83",
   "status": "proved",
   "theorems": [
    "c83_accurate"
   ],
   "note": "Uses the axioms of the standard library's reals."
  },
  {
   "property": "C84",
   "status": "proved",
   "theorems": [
    "c84_operations"
   ],
   "note": ""
  },
  {
   "property": "C85",
   "status": "proved",
   "theorems": [
    "c85_create_node"
   ],
   "note": ""
  },
  {
   "property": "C86",
   "status": "partial",
   "theorems": [
    "c86_unique_partial",
    "c86_refuted"
   ],
   "note": "Finding: false when infinity is reachable (adding the constant 1 to (0, infinity) gives another edge than (1, node)); proved for edges from which infinity cannot be reached."
  },
  {
   "property": "C87",
   "status": "partial",
   "theorems": [
    "c87_connective_partial",
    "c87_not_partial",
    "c87_ite_partial",
    "c87_refuted"
   ],
   "note": "Finding: false, since the direct-mapped cache loses results: two diagrams of 15 vertices take 610 evaluations. Proved: at most that many different calls, and the bound whenever the cache gained one entry per evaluation (lost nothing)."
  },
  {
   "property": "C88",
   "status": "proved",
   "theorems": [
    "c88_zdd_work"
   ],
   "note": ""
  },
  {
   "property": "C89",
   "status": "partial",
   "theorems": [
    "c89_constant_partial",
    "c89_refuted"
   ],
   "note": "Finding: false, a handle is a bare node number looked up in the manager of the first operand: variable a of one manager equals variable b of another, and a & b is a, without complaint. Proved when the second handle denotes a constant."
  },
  {
   "property": "C90",
   "status": "proved",
   "theorems": [
    "c90_equations",
    "c90_bounds"
   ],
   "note": ""
  },
  {
   "property": "C91",
   "status": "proved",
   "theorems": [
    "c91_equations",
    "c91_bounds"
   ],
   "note": ""
  },
  {
   "property": "C92",
   "status": "proved",
   "theorems": [
    "c92_housekeeping",
    "c92_prefix"
   ],
   "note": "Answers are those of the handle API; node ids (get_id, dot output), live_node_count and the return value of gc do depend on the settings and are not answers here."
  },
  {
   "property": "C93",
   "status": "proved",
   "theorems": [
    "c93_no_borrow_panic",
    "c93_looking",
    "c93_writing"
   ],
   "note": "About the borrow structure of the methods (Borrow.v), transcribed separately from their computations. Caller-supplied arithmetic and comparison (types T and V) is assumed not to call back into the manager."
  },
  {
   "property": "C94",
   "status": "proved",
   "theorems": [
    "c94_bdd",
    "c94_zdd",
    "c94_mdd",
    "c94_mtmdd",
    "c94_mixed",
    "c94_zmdd",
    "c94_bss",
    "c94_bss_prob",
    "c94_variables",
    "c94_handles",
    "c94_mss_prob",
    "c94_mss_size",
    "c94_mss_count",
    "c94_mss_minpath"
   ],
   "note": "Also shows that the depth bounds the entry points of the model pass down are no restriction: every larger bound gives the same answer. Depth counts nested calls of the function itself; helpers it calls (not inside xor, union inside product, without inside minsol) have their own bound."
  },
  {
   "property": "C95",
   "status": "proved",
   "theorems": [
    "c95_housekeeping",
    "c95_prefix"
   ],
   "note": "Client programs are lists of calls on numbered slots; create_node is only called with children that fit the header (otherwise the program stops, in both runs alike)."
  },
  {
   "property": "C96",
   "status": "proved",
   "theorems": [
    "c96_exact",
    "c96_reachable",
    "c96_zdd_exact",
    "c96_mdd_exact",
    "c96_mtmdd_exact",
    "c96_zmdd_exact",
    "c96_other_reachable",
    "c96_mtmdd2_exact",
    "c96_mtmdd2_reachable",
    "c96_slot_limit",
    "c96_header_limit"
   ],
   "note": "The limit theorems are about the BDD manager. The limit is a finding of low severity: the casts are unchecked, so past 2^32 slots answers are silently wrong."
  },
  {
   "property": "C97",
   "status": "partial",
   "theorems": [
    "c97_bdd",
    "c97_caught_partial",
    "c97_left_out_partial",
    "c97_refuted"
   ],
   "note": "False as stated for defvar with an empty range (c97_refuted): the header stays behind and shifts the ids of later headers. Proved for all MddMgr programs whose variables have at least one state, and for all BddMgr programs."
  },
  {
   "property": "C98",
   "status": "proved",
   "theorems": [
    "c98_lifetime",
    "c98_reference_suffices",
    "c98_drop_safe",
    "c98_no_owner",
    "c98_freed",
    "c98_mdd_lifetime",
    "c98_mdd_reference_suffices",
    "c98_mdd_drop_safe",
    "c98_mdd_no_owner",
    "c98_mdd_freed",
    "c98_zdd_lifetime",
    "c98_zdd_reference_suffices",
    "c98_zdd_drop_safe",
    "c98_zdd_no_owner",
    "c98_zdd_freed"
   ],
   "note": "BddMgr; ZddMgr; MddMgr for programs whose variables have at least one state (C97). The client does not change the arena itself through the reference of get_mgr and keeps no borrow of it open."
  },
  {
   "property": "C99",
   "status": "proved",
   "theorems": [
    "c99_housekeeping",
    "c99_prefix"
   ],
   "note": "Answers are those of the handle API; node ids (get_id, dot output) and live_node_count do depend on the settings and are not answers here."
  },
  {
   "property": "C100",
   "status": "proved",
   "theorems": [
    "c100_housekeeping",
    "c100_prefix"
   ],
   "note": "Answers are those of the handle API; node ids and live_node_count are not answers here. The programs are a superset of what clients can write: they may also call singleton and from_sets on the inner ZddMgr."
  },
  {
   "property": "C101",
   "status": "partial",
   "theorems": [
    "c101_handles",
    "c101_minpath",
    "c101_mincut",
    "c101_same_manager",
    "c101_op_harmless",
    "c101_union_refuted"
   ],
   "note": "The last sentence is false (finding): union of {{a}} and {{b}}, each over the first variable of its own manager, is {{a}}, with no complaint. The rest is proved; c101_same_manager: set operations on two families of one manager are right, whatever other managers contributed to the forest. c101_op_harmless: set operations on families from different managers neither panic nor disturb what is held."
  },
  {
   "property": "C102",
   "status": "partial",
   "theorems": [
    "c102_minpath",
    "c102_mincut",
    "c102_family",
    "c102_level",
    "c102_intersect",
    "c102_setdiff",
    "c102_handles",
    "c102_handles_own",
    "c102_own",
    "c102_dense_refuted"
   ],
   "note": "False in general (finding): the list of components is that of the MssMgr, not of the node's manager, so minpath of phi = x asked of an MssMgr without variables lists the empty vector at level 0 in place of x = 0. Proved for managers that list the same variables in the same order, along all histories that make such calls only."
  },
  {
   "property": "C103",
   "status": "partial",
   "theorems": [
    "c103_alias",
    "c103_live",
    "c103_beyond",
    "c103_eq_refuted",
    "c103_operand_refuted",
    "c103_sound_refuted"
   ],
   "note": "False in general (finding): no operation checks the manager. Proved: a number beyond the forest panics; a number in use in the forest does no harm to own handles, in any further history. Refuted: a number of a freed slot records a cache entry for that slot, and once the slot is reused (x | y) & not x on own handles gives false; eq compares numbers only."
  }
 ]
}