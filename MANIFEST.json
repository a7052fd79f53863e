{
 "claims": [
  {
   "property": "C01",
   "status": "proved",
   "theorems": [
    "C01_from_indices"
   ],
   "note": ""
  },
  {
   "property": "C02",
   "status": "proved",
   "theorems": [
    "C02_offset_value",
    "C02_offset_raises",
    "C02_offset_raises_ValueError",
    "C02_offset_compose"
   ],
   "note": ""
  },
  {
   "property": "C03",
   "status": "proved",
   "theorems": [
    "C03_of_str",
    "C03_of_ito"
   ],
   "note": ""
  },
  {
   "property": "C04",
   "status": "proved",
   "theorems": [
    "C04_python_slice",
    "C04_len",
    "C04_slice",
    "C04_slice_step",
    "C04_slice_identity",
    "C04_iter_texts",
    "C04_iter_tiles"
   ],
   "note": ""
  },
  {
   "property": "C05",
   "status": "partial",
   "theorems": [
    "C05_python_index",
    "C05_index_nonneg_partial",
    "C05_index_out_of_range",
    "C05_index_negative_exact",
    "C05_index_negative_start1",
    "C05_index_refuted"
   ],
   "note": "Holds for nonnegative and out-of-range keys; for negative keys the right segment is returned exactly when start==1 (C05_index_negative_exact); the code computes self.stop+key-1 relative to the string and offsets it again (ito.py:579-581). Refuted: Ito('abc')[-1]=='b'."
  },
  {
   "property": "C06",
   "status": "partial",
   "theorems": [
    "C06_python_occurrence",
    "C06_python_index",
    "C06_python_count",
    "C06_python_count_unique",
    "C06_python_find_is_leftmost",
    "C06_python_rfind_is_rightmost",
    "C06_find_partial",
    "C06_rfind_partial",
    "C06_index_partial",
    "C06_rindex_partial",
    "C06_count_partial",
    "C06_search_refuted"
   ],
   "note": "Holds unless sub is empty and the normalised start exceeds the normalised end; there the code always differs (C06_search_refuted)."
  },
  {
   "property": "C07",
   "status": "partial",
   "theorems": [
    "C07_python_affix",
    "C07_python_affix_all",
    "C07_python_affix_tuple",
    "C07_startswith_partial",
    "C07_endswith_partial",
    "C07_str_eq",
    "C07_eqb_str_is_equality",
    "C07_refuted"
   ],
   "note": "Holds unless an affix is empty and end < -len; witness C07_refuted. str_eq holds without restriction."
  },
  {
   "property": "C08",
   "status": "partial",
   "theorems": [
    "C08_python_classes",
    "C08_class",
    "C08_isascii",
    "C08_isprintable_partial",
    "C08_isprintable_is_any",
    "C08_isprintable_refuted",
    "C08_islower_isupper_partial",
    "C08_islower_refuted"
   ],
   "note": "All class predicates and isascii hold; isprintable uses any() instead of all(); islower/isupper test isalpha rather than casedness. Exact domains proved, witnesses given."
  },
  {
   "property": "C09",
   "status": "partial",
   "theorems": [
    "C09_python_strip",
    "C09_lstrip_partial",
    "C09_rstrip_partial",
    "C09_strip_partial",
    "C09_empty_chars_refuted",
    "C09_identity_refuted"
   ],
   "note": "Holds for chars != ''; chars == '' is treated as white space; identity of str_rstrip/str_strip needs a nonempty Ito. Witnesses given."
  },
  {
   "property": "C10",
   "status": "partial",
   "theorems": [
    "C10_partition_found_partial",
    "C10_rpartition_found_partial",
    "C10_partition_absent_partial",
    "C10_rpartition_absent_partial",
    "C10_bad_separator",
    "C10_children_refuted",
    "C10_python_partition"
   ],
   "note": "Separator present: proved in full. Absent: proved for childless Itos (partition tiles; rpartition puts both empty Itos at the end of i, so the pieces do not tile). Refuted: an Ito with a child raises ValueError when the separator is absent."
  },
  {
   "property": "C11",
   "status": "proved",
   "theorems": [
    "C11_python_split",
    "C11_python_split_unique",
    "C11_split",
    "C11_rsplit",
    "C11_empty_separator"
   ],
   "note": ""
  },
  {
   "property": "C12",
   "status": "partial",
   "theorems": [
    "C12_both_partial",
    "C12_python_split",
    "C12_python_split_unique",
    "C12_split_partial",
    "C12_rsplit_partial",
    "C12_rsplit_diverges_refuted",
    "C12_refuted",
    "C12_split_exact",
    "C12_split_exact_unique",
    "C12_split_exact_0",
    "C12_one_word_partial",
    "C12_rsplit_zero_partial",
    "C12_rsplit_blank_partial",
    "C12_rsplit_never_refuted"
   ],
   "note": "Holds for Itos with start == 0; otherwise _nearest_non_ws_sub adds start twice. C12_split_exact: str_split always returns, and passes over as many characters after each word as stand before the Ito (so texts of one word are split correctly); C12_rsplit_never_refuted: str_rsplit() of an Ito that does not begin at 0 and holds a word never returns a list (IndexError or an endless loop); it is right for maxsplit 0 and for blank texts."
  },
  {
   "property": "C13",
   "status": "proved",
   "theorems": [
    "C13_python_splitlines",
    "C13_python_splitlines_unique",
    "C13_splitlines",
    "C13_splitlines_within"
   ],
   "note": ""
  },
  {
   "property": "C14",
   "status": "partial",
   "theorems": [
    "C14_python_remove",
    "C14_removeprefix",
    "C14_removesuffix_partial",
    "C14_removesuffix_empty_refuted"
   ],
   "note": "removeprefix fully; removesuffix for nonempty suffix; the empty suffix always empties the Ito."
  },
  {
   "property": "C15",
   "status": "partial",
   "theorems": [
    "C15_split_iter_partial",
    "C15_keep_seps_tile",
    "C15_max_split_refuted"
   ],
   "note": "Segments and tiling for max_split <= 0 (negative behaves as 0); a positive max_split performs no split (count is never incremented)."
  },
  {
   "property": "C16",
   "status": "proved",
   "theorems": [
    "C16_by_count",
    "C16_by_split",
    "C16_by_rsplit",
    "C16_empty",
    "C16_to_line_col",
    "C16_to_line_col_regex"
   ],
   "note": "eol as str (not overlapping itself) and as regex match list; C16_by_count, C16_by_split and C16_by_rsplit say it with str.count, split and rsplit for any nonempty eol (only the column of an eol overlapping itself differs from split)."
  },
  {
   "property": "C17",
   "status": "proved",
   "theorems": [
    "C17_clone",
    "C17_clone_respanned",
    "C17_new_span",
    "C17_tree_unique"
   ],
   "note": ""
  },
  {
   "property": "C18",
   "status": "proved",
   "theorems": [
    "C18_add",
    "C18_effect",
    "C18_add_many"
   ],
   "note": ""
  },
  {
   "property": "C19",
   "status": "proved",
   "theorems": [
    "C19_invariant",
    "C19_step"
   ],
   "note": ""
  },
  {
   "property": "C20",
   "status": "partial",
   "theorems": [
    "C20_add_exact_partial",
    "C20_acyclic_partial",
    "C20_cycle_needs_equal_spans_partial",
    "C20_refuted"
   ],
   "note": "Proved for histories that never add an Ito under a parent of the same span, with the exact condition for one add; refuted: a.children.add(b); b.children.add(a) with equal spans is accepted."
  },
  {
   "property": "C21",
   "status": "partial",
   "theorems": [
    "C21_setitem_int_partial",
    "C21_setitem_slice_partial",
    "C21_insert_run_partial",
    "C21_not_atomic_refuted",
    "C21_aliasing_refuted",
    "C21_zero_width_refuted",
    "C21_negative_index_refuted"
   ],
   "note": "Proved for nonempty spans and values that are unattached; refuted: failing assignment loses the old value, an Ito attached elsewhere is accepted, equal zero-width starts are accepted, an out-of-range negative index is clamped to 0."
  },
  {
   "property": "C22",
   "status": "partial",
   "theorems": [
    "C22_remove",
    "C22_pop",
    "C22_without",
    "C22_clear",
    "C22_contains_partial",
    "C22_contains_refuted"
   ],
   "note": "remove, pop, clear fully; `in` is proved to compare only .start (true for every child, but also for non-children)."
  },
  {
   "property": "C23",
   "status": "proved",
   "theorems": [
    "C23_add_hierarchical",
    "C23_several",
    "C23_trees",
    "C23_refinement"
   ],
   "note": "A zero-width node sitting on an end of y does not count as inside y (f_overlap). A failing call leaves a well-formed heap as long as the Ito fits (kept)."
  },
  {
   "property": "C24",
   "status": "proved",
   "theorems": [
    "C24_any_order",
    "C24_all_or_none",
    "C24_any_order_trees",
    "C24_forest_determined"
   ],
   "note": "Any order of Itos with whatever is below them gives the same tree (nonempty, pairwise different spans); whatever the spans, all orders succeed or all raise (C24_all_or_none). Zero-width spans make the resulting tree order dependent (example)."
  },
  {
   "property": "C25",
   "status": "partial",
   "theorems": [
    "C25_crossing_partial",
    "C25_crossing_subtree_partial",
    "C25_misfit_partial",
    "C25_misfit_error_partial",
    "C25_attached_partial",
    "C25_misfit_empty_partial",
    "C25_misfit_refuted",
    "C25_flattened_refuted"
   ],
   "note": "Proved for Itos without children that fit; misfits are never accepted and raise ValueError whatever they carry. Refuted: a misfit is left in the child list with parent None; a subtree is flattened before the crossing is noticed."
  },
  {
   "property": "C26",
   "status": "partial",
   "theorems": [
    "C26_key_partial",
    "C26_key_all_partial",
    "C26_chain_key_partial",
    "C26_chain_none_partial",
    "C26_none_partial",
    "C26_zero_width_refuted",
    "C26_none_subtree_refuted"
   ],
   "note": "Proved for nonempty spans; refuted with a zero-width sibling, and for key None when the added Ito has a child of its own span."
  },
  {
   "property": "C27",
   "status": "proved",
   "theorems": [
    "C27_from_match",
    "C27_sorted",
    "C27_captures"
   ],
   "note": "The match object is an arbitrary function from keys to span lists."
  },
  {
   "property": "C28",
   "status": "proved",
   "theorems": [
    "C28_no_limit",
    "C28_limit_prefix",
    "C28_limit_lazy",
    "C28_limit_none",
    "C28_filter"
   ],
   "note": "The regex engine is an arbitrary list of matches; the limit theorem also counts how many of them are consumed."
  },
  {
   "property": "C29",
   "status": "proved",
   "theorems": [
    "C29_preferred",
    "C29_validate",
    "C29_from_filter",
    "C29_filter_order"
   ],
   "note": ""
  },
  {
   "property": "C30",
   "status": "partial",
   "theorems": [
    "C30_gaps_partial",
    "C30_unordered_partial",
    "C30_nested_refuted",
    "C30_outside_refuted",
    "C30_empty_refuted",
    "C30_ordered_partial",
    "C30_right_exactly_partial",
    "C30_raises_exactly"
   ],
   "note": "Right for non-gaps whose starts and stops both ascend and that do not end before src begins; for any non-gaps with ascending starts C30_ordered_partial says what is given and C30_right_exactly_partial when that is right (never an uncovered part is missed; a part covered by an earlier, longer non-gap may be given). Refuted: nested non-gaps, non-gaps ending before src, empty src with a later non-gap. C30_raises_exactly: ValueError exactly when a non-gap begins before its predecessor and all up to that one end before the end of src."
  },
  {
   "property": "C31",
   "status": "proved",
   "theorems": [
    "C31_invert",
    "C31_tiles"
   ],
   "note": ""
  },
  {
   "property": "C32",
   "status": "proved",
   "theorems": [
    "C32_from_substrings",
    "C32_descriptor"
   ],
   "note": ""
  },
  {
   "property": "C33",
   "status": "proved",
   "theorems": [
    "C33_join",
    "C33_join_empty",
    "C33_join_order",
    "C33_adopt"
   ],
   "note": "adopt is modelled on trees as values; ==-equal inputs are merged by the set, as set_order says."
  },
  {
   "property": "C34",
   "status": "proved",
   "theorems": [
    "C34_strip",
    "C34_childless"
   ],
   "note": ""
  },
  {
   "property": "C35",
   "status": "proved",
   "theorems": [
    "C35_walk",
    "C35_below_is_descendant",
    "C35_order_irreflexive"
   ],
   "note": "On acyclic heaps (C20); the fuel is length of the heap + 1 and is proved sufficient."
  },
  {
   "property": "C36",
   "status": "proved",
   "theorems": [
    "C36_get_root",
    "C36_descends",
    "C36_has_descendant"
   ],
   "note": ""
  },
  {
   "property": "C37",
   "status": "proved",
   "theorems": [
    "C37_characterised",
    "C37_equivalence",
    "C37_hash"
   ],
   "note": "sub is any reflexive antisymmetric subclass relation; == is Python's operator dispatch with the reflected method of a subclass first."
  },
  {
   "property": "C38",
   "status": "proved",
   "theorems": [
    "C38_round_trip",
    "C38_descape",
    "C38_no_unescaped",
    "C38_list"
   ],
   "note": "One-character escape and separator as in the code."
  },
  {
   "property": "C39",
   "status": "proved",
   "theorems": [
    "C39_find_unescaped",
    "C39_split_pieces",
    "C39_split_join",
    "C39_split_no_unescaped"
   ],
   "note": "Argument errors (empty chars, escape not of length 1) raise ValueError by definition of the model. start/stop restrict only where separators are looked for, not the pieces."
  },
  {
   "property": "C40",
   "status": "proved",
   "theorems": [
    "C40_find_balanced",
    "C40_find_balanced_same"
   ],
   "note": "Equal and different delimiters are separate theorems."
  },
  {
   "property": "C41",
   "status": "proved",
   "theorems": [
    "C41_axes",
    "C41_order_irreflexive",
    "C41_order_asymmetric",
    "C41_written"
   ],
   "note": ""
  },
  {
   "property": "C42",
   "status": "proved",
   "theorems": [
    "C42_preceding_following",
    "C42_partition"
   ],
   "note": "Stated for nodes whose own span (and, for >>>, whose descendants' spans) are not empty; the zero-width exception is exhibited in C42_zero_width."
  },
  {
   "property": "C43",
   "status": "partial",
   "theorems": [
    "C43_concat_partial",
    "C43_node_by_node",
    "C43_self_partial",
    "C43_last_only",
    "C43_union_refuted",
    "C43_empty_refuted"
   ],
   "note": "Proved for the axes evaluated node by node (and '.'). '<<<' and '>>>' use only the last input node (C43_last_only, C43_union_refuted) and raise UnboundLocalError on an empty input (C43_empty_refuted)."
  },
  {
   "property": "C44",
   "status": "proved",
   "theorems": [
    "C44_options",
    "C44_self_absent",
    "C44_numbering"
   ],
   "note": ""
  },
  {
   "property": "C45",
   "status": "partial",
   "theorems": [
    "C45_dedup",
    "C45_identity_partial",
    "C45_distinct_refuted"
   ],
   "note": "'><' removes by == (same string, span, desc), not by identity: full description in C45_dedup, exact claim when == nodes are the same node, counterexample in C45_distinct_refuted."
  },
  {
   "property": "C46",
   "status": "partial",
   "theorems": [
    "C46_combined_partial",
    "C46_filters_partial",
    "C46_subqueries_partial",
    "C46_parens_refuted",
    "C46_before_brace_refuted"
   ],
   "note": "Proved for expressions written without redundant parentheses around a single filter, for a whole filter part, a whole subquery part, and both together. Refuted: '~([x])' loses the ~, '[a] & ([b])' raises TypeError, an expression ending in ')' before '{' raises ValueError, and an operator between filters and subqueries is ignored."
  },
  {
   "property": "C47",
   "status": "partial",
   "theorems": [
    "C47_negation_partial",
    "C47_predicate_partial",
    "C47_predicates_partial",
    "C47_refuted"
   ],
   "note": "Proved for every key except predicates, and for predicates with exactly one name; for several names [p:..] accepts what all accept, [~p:..] what all reject (C47_predicates_partial). Refuted: [~p:a,b] with several predicate names is not the negation of [p:a,b]."
  },
  {
   "property": "C48",
   "status": "partial",
   "theorems": [
    "C48_parse",
    "C48_run",
    "C48_compose_partial",
    "C48_find",
    "C48_nonlocal_refuted"
   ],
   "note": "Parsing p/q gives the phrases of p then those of q, and running the concatenation runs the second part on the results of the first: full. The per-node reading is proved when q is made of axes evaluated node by node; refuted for '>>>'."
  },
  {
   "property": "C49",
   "status": "proved",
   "theorems": [
    "C49_path",
    "C49_unique"
   ],
   "note": "The character environment is arbitrary up to: delimiters are plain, int() reads what str() writes, '.' and '*' are printable."
  },
  {
   "property": "C50",
   "status": "partial",
   "theorems": [
    "C50_full_partial",
    "C50_single",
    "C50_no_string",
    "C50_inner",
    "C50_root_refuted",
    "C50_echo_refuted",
    "C50_zero_refuted"
   ],
   "note": "Without full_tree: full. With full_tree: proved for every Ito that has a parent, in trees whose non-first children have no zero-width nodes and no only child of the same span below (those add_hierarchical rearranges: C50_echo_refuted, C50_zero_refuted); encoding a root with full_tree raises AttributeError (C50_root_refuted). Value functions are not written. The json text layer is not modelled."
  },
  {
   "property": "C51",
   "status": "proved",
   "theorems": [
    "C51_pickle"
   ],
   "note": "Full for well-formed acyclic heaps; value functions are dropped, as documented. Pickle's byte format is not modelled."
  },
  {
   "property": "C52",
   "status": "proved",
   "theorems": [
    "C52_untouched",
    "C52_list"
   ],
   "note": "Pipelines are arbitrary graphs of itorators (they may contain themselves); user functions (Itorator.wrap, wrapped postorators, reduce functions) are assumed not to reach outside the objects they are given; the consumer may change the results between two steps. Fuel is the depth to which itorators call each other."
  },
  {
   "property": "C53",
   "status": "proved",
   "theorems": [
    "C53_pipeline",
    "C53_none",
    "C53_skip",
    "C53_predicate_error",
    "C53_desc_predicate",
    "C53_none_predicate",
    "C53_delegate",
    "C53_recurse",
    "C53_subroutine",
    "C53_children",
    "C53_add",
    "C53_replace",
    "C53_delete",
    "C53_add_hierarchical"
   ],
   "note": "trav (the other itorator) is arbitrary. The Children connectors' effect on the heap: C53_add, C53_replace, C53_delete, C53_add_hierarchical."
  },
  {
   "property": "C54",
   "status": "proved",
   "theorems": [
    "C54_split",
    "C54_regex",
    "C54_all_tiles",
    "C54_leading_tiles",
    "C54_trailing_tiles",
    "C54_none_of_all",
    "C54_none_gaps",
    "C54_text",
    "C54_limit_ordered"
   ],
   "note": "Boundaries come from any generator that yields ordered spans inside the Ito (bounds), or from a regex (C54_regex, called end to end)."
  },
  {
   "property": "C55",
   "status": "partial",
   "theorems": [
    "C55_invert_partial",
    "C55_regex_partial",
    "C55_maximal"
   ],
   "note": "Proved for nonempty Itos without children. An Ito with children: each piece is cloned with all children, which raises ValueError (C55_refuted_children). An empty Ito is yielded itself (C55_refuted_empty)."
  },
  {
   "property": "C56",
   "status": "proved",
   "theorems": [
    "C56_nothing",
    "C56_first",
    "C56_exhaustive"
   ],
   "note": ""
  },
  {
   "property": "C57",
   "status": "proved",
   "theorems": [
    "C57_windowed",
    "C57_blocks"
   ],
   "note": "The predicate may look at the heap as long as it depends on the items only."
  },
  {
   "property": "C58",
   "status": "proved",
   "theorems": [
    "C58_stacked",
    "C58_blocks"
   ],
   "note": "push, pop and reduce as for C57."
  },
  {
   "property": "C59",
   "status": "proved",
   "theorems": [
    "C59_discover",
    "C59_values",
    "C59_flatten",
    "C59_walk",
    "C59_lookup"
   ],
   "note": "A dict is the list of its items in insertion order; rules are arbitrary functions on the heap (they may raise and mutate). Key tree and values are stated through the list of (path, value) of every node."
  },
  {
   "property": "C60",
   "status": "proved",
   "theorems": [
    "C60_runs",
    "C60_text",
    "C60_differ"
   ],
   "note": "The predicate only reads; print() appends to the output. An empty palette raises StopIteration at the first selected run (example). Text containing ESC itself is excluded from C60_text, not from C60_runs."
  },
  {
   "property": "C61",
   "status": "proved",
   "theorems": [
    "C61_width"
   ],
   "note": "format(int, spec), repr, ascii, \\d, int() and str(value()) are parameters. Abbreviations without % and not starting with a digit (a digit would be read as part of the width; a % starts a new directive)."
  },
  {
   "property": "C62",
   "status": "proved",
   "theorems": [
    "C62_find_escapes"
   ],
   "note": "For an Ito the positions are in the coordinates of the underlying string, unlike find_unescaped."
  },
  {
   "property": "C63",
   "status": "partial",
   "theorems": [
    "C63_values_partial",
    "C63_refuted"
   ],
   "note": "Proved for values that are nonempty, have no leading white space and do not end in a backslash; each exclusion has a counterexample in C63_refuted."
  },
  {
   "property": "C64",
   "status": "proved",
   "theorems": [
    "C64_index"
   ],
   "note": "The items are written in decimal; the digits are read back by the environment's int()."
  },
  {
   "property": "C65",
   "status": "partial",
   "theorems": [
    "C65_extract_partial"
   ],
   "note": "Proved when desc is a function. With a str, extract.py:26 sets self._desc and the call then raises AttributeError (C65_refuted)."
  },
  {
   "property": "C66",
   "status": "proved",
   "theorems": [
    "C66_round_trip",
    "C66_descape",
    "C66_no_unescaped",
    "C66_list"
   ],
   "note": "One-character escape, as in the code."
  },
  {
   "property": "C67",
   "status": "proved",
   "theorems": [
    "C67_encode",
    "C67_color",
    "C67_not_reset",
    "C67_total",
    "C67_strip",
    "C67_24_bit",
    "C67_shown",
    "C67_reset"
   ],
   "note": "Colours are the documented ones: 16 names, RGB and 8-bit components in 0..255."
  },
  {
   "property": "C68",
   "status": "proved",
   "theorems": [
    "C68_compose",
    "C68_plain",
    "C68_empty",
    "C68_nothing",
    "C68_text",
    "C68_int"
   ],
   "note": "As C61. A doubled %% is left doubled (C68_case): it is text without a lone %."
  },
  {
   "property": "C69",
   "status": "partial",
   "theorems": [
    "C69_slice_partial",
    "C69_refuted"
   ],
   "note": "Refuted for r = \"00\" (any zero not spelt \"0\"): everything is dropped instead of nothing."
  },
  {
   "property": "C70",
   "status": "partial",
   "theorems": [
    "C70_json_partial",
    "C70_bare_refuted"
   ],
   "note": "Refuted for children=False (a comma after the last member: never JSON). os.linesep and the indentation are JSON white space."
  },
  {
   "property": "C71",
   "status": "proved",
   "theorems": [
    "C71_compact",
    "C71_flat"
   ],
   "note": "Texts of the Itos and numbers come from Ito.__format__ (C61, C68, C69) and format(int, \",\")."
  },
  {
   "property": "C72",
   "status": "partial",
   "theorems": [
    "C72_tree_partial",
    "C72_flat_refuted"
   ],
   "note": "children=False is ignored (C72_flat_refuted). Texts of the Itos come from Ito.__format__."
  },
  {
   "property": "C73",
   "status": "partial",
   "theorems": [
    "C73_xml_partial",
    "C73_document_refuted"
   ],
   "note": "The document is never well-formed (the closing tag is written <itos>); the elements for the Itos are, for descs without quote, tab or line end and texts of XML characters without CR."
  },
  {
   "property": "C74",
   "status": "proved",
   "theorems": [
    "C74_from_degrees",
    "C74_rotate",
    "C74_compose",
    "C74_full_turn",
    "C74_reflect",
    "C74_two_mirrors"
   ],
   "note": "Turns by other angles do not add up (C74_fractions): the property says multiples of 45."
  },
  {
   "property": "C75",
   "status": "proved",
   "theorems": [
    "C75_char",
    "C75_no_char",
    "C75_name",
    "C75_no_name",
    "C75_exact",
    "C75_no_exact",
    "C75_unique",
    "C75_fuzzy",
    "C75_fuzzy_exact",
    "C75_fuzzy_none"
   ],
   "note": "With no arm or more than four, fuzzy lookup raises UnboundLocalError (C75_fuzzy_none)."
  },
  {
   "property": "C76",
   "status": "proved",
   "theorems": [
    "C76_rotate",
    "C76_compose",
    "C76_no_turn",
    "C76_reflect",
    "C76_mirror_twice"
   ],
   "note": "The 128 characters are the table of the code; the eight-fold case analysis is by computation inside the proof."
  },
  {
   "property": "C77",
   "status": "partial",
   "theorems": [
    "C77_rows_partial",
    "C77_width",
    "C77_no_lines",
    "C77_rows_refuted"
   ],
   "note": "Proved for texts of printable characters; refuted for others: they are not counted for the width but are for the padding."
  },
  {
   "property": "C78",
   "status": "partial",
   "theorems": [
    "C78_sides_partial",
    "C78_joined_partial",
    "C78_joined_refuted",
    "C78_str_refuted",
    "C78_no_side_refuted",
    "C78_armless_refuted"
   ],
   "note": "Proved when every side of the result is the same at both ends; refuted otherwise (corners copy the far arm of a side), for str sides (AttributeError), no side (StopIteration) and one side lacking an arm (AttributeError)."
  },
  {
   "property": "C79",
   "status": "proved",
   "theorems": [
    "C79_corners",
    "C79_joined",
    "C79_bad_count",
    "C79_bad_char"
   ],
   "note": "Characters of the table only; a hand-made BoxDrawingChar is outside the theorem."
  },
  {
   "property": "C80",
   "status": "partial",
   "theorems": [
    "C80_offsets_partial",
    "C80_any_codec_partial",
    "C80_utf8",
    "C80_encoding_refuted",
    "C80_pieces_refuted"
   ],
   "note": "Proved when the text is fed in one piece and positions are counted in the parser's encoding (UTF-8: what expat does with a str); refuted for other encodings and for several feed calls. expat's positions are assumed to be line, column in characters and byte offset."
  },
  {
   "property": "C81",
   "status": "partial",
   "theorems": [
    "C81_tree_partial",
    "C81_covered",
    "C81_tab_refuted",
    "C81_newline_refuted",
    "C81_gt_refuted",
    "C81_text_refuted",
    "C81_empty_value_refuted",
    "C81_value_refuted",
    "C81_quotes_refuted"
   ],
   "note": "Proved for layouts doc_ok (spaces before attributes, no '>' in values, no empty value, text of a childless element not ending in /> or ?>); each excluded layout is refuted by a document. The regular expressions are modelled by a backtracking matcher, value functions are not (see C83)."
  },
  {
   "property": "C82",
   "status": "partial",
   "theorems": [
    "C82_start_tag_partial",
    "C82_end_tag_partial",
    "C82_text"
   ],
   "note": "Start and end tags for the layouts of C81 (refuted outside by C81_*_refuted); texts for all well-formed contents."
  },
  {
   "property": "C83",
   "status": "partial",
   "theorems": [
    "C83_value_partial",
    "C83_last",
    "C83_end_tag",
    "C83_attribute_refuted"
   ],
   "note": "Refuted for start tags with attributes: the lambdas of the loop share one variable, so every tag has the name of the last attribute (C83_last is exact). Proved for start tags without attributes and for end tags."
  },
  {
   "property": "C84",
   "status": "partial",
   "theorems": [
    "C84_from_src",
    "C84_start_tag",
    "C84_start_tag_partial",
    "C84_attribute",
    "C84_prefix_refuted"
   ],
   "note": "from_src and attributes proved; get_qualified_name of a start tag refuted when the element has no prefix but an attribute has one (C84_start_tag is exact), proved otherwise."
  },
  {
   "property": "C85",
   "status": "partial",
   "theorems": [
    "C85_parts",
    "C85_clark",
    "C85_et_clark_partial",
    "C85_et_plain_partial",
    "C85_element_refuted"
   ],
   "note": "Everything but EtName.from_item of a parsed element proved: refuted, it takes the whole text of the element for its name."
  },
  {
   "property": "C86",
   "status": "proved",
   "theorems": [
    "C86_parent",
    "C86_reverse",
    "C86_document"
   ],
   "note": ""
  },
  {
   "property": "C87",
   "status": "partial",
   "theorems": [
    "C87_namespaces_partial",
    "C87_default_refuted",
    "C87_map_refuted"
   ],
   "note": "Proved when no attribute value is xmlns or begins with xmlns:, which the query takes for a declaration (both consequences refuted). The documents are those whose tree is the one of C81."
  },
  {
   "property": "C88",
   "status": "proved",
   "theorems": [
    "C88_tree",
    "C88_one"
   ],
   "note": ""
  },
  {
   "property": "C89",
   "status": "proved",
   "theorems": [
    "C89_tokens",
    "C89_words",
    "C89_outside"
   ],
   "note": ""
  },
  {
   "property": "C90",
   "status": "proved",
   "theorems": [
    "C90_paragraphs",
    "C90_empty"
   ],
   "note": ""
  },
  {
   "property": "C91",
   "status": "proved",
   "theorems": [
    "C91_numbers",
    "C91_longest",
    "C91_all",
    "C91_digits"
   ],
   "note": ""
  },
  {
   "property": "C92",
   "status": "proved",
   "theorems": [
    "C92_sentences"
   ],
   "note": "The exceptions concern the last rule only, as the code has it: Dr. before a frequent first word, two spaces or CRLF does end a sentence (C92_titles)."
  },
  {
   "property": "C93",
   "status": "partial",
   "theorems": [
    "C93_number_partial",
    "C93_kwargs_partial",
    "C93_setters_partial",
    "C93_setters_refuted",
    "C93_kwargs_refuted",
    "C93_chars_partial",
    "C93_chars_refuted",
    "C93_paragraph"
   ],
   "note": "min_separators and the keyword argument thousands_sep work as intended; the keyword arguments decimal_point and thousands_sep_optional raise AttributeError, assignments after construction have no effect on what is found, and chars=True fails on any text with a number and adds nothing otherwise (all refuted or stated exactly). trim_ws and the separators are in C102."
  },
  {
   "property": "C94",
   "status": "partial",
   "theorems": [
    "C94_accepts",
    "C94_rejects_partial",
    "C94_exact",
    "C94_refuted"
   ],
   "note": "Every canonical identifier is accepted; a newline at the end, - and _ in a local identifier and superfluous zeros in it are accepted too (refuted; C94_exact says exactly what is accepted)."
  },
  {
   "property": "C95",
   "status": "partial",
   "theorems": [
    "C95_plain",
    "C95_indented_partial",
    "C95_begins_refuted"
   ],
   "note": "For styles without equi_distant_indent in full; with it, everything but that a table begins at the start of a line (refuted: table.py:40 replaces the look-behind of line 37 instead of adding to it)."
  },
  {
   "property": "C96",
   "status": "partial",
   "theorems": [
    "C96_plain",
    "C96_indented_partial",
    "C96_blank_refuted",
    "C96_short_refuted"
   ],
   "note": "For styles without equi_distant_indent in full; with it, for tables with even indentation and lines of two characters or more below text without blank lines; an empty line above an indented table hides it and so does a line of one character (both refuted, table.py:33)."
  },
  {
   "property": "C97",
   "status": "partial",
   "theorems": [
    "C97_rows_partial",
    "C97_inside_partial",
    "C97_above_end_refuted",
    "C97_merged_refuted"
   ],
   "note": "Rows never reach past a separator line for styles without table_end_pat and post_caption_pat (C97_rows_partial); for every style no row holds a separator line with a line of the row below it (C97_inside_partial); a separator directly above the table end belongs to the row, and two tables with text between are merged into one whose row is the text (both refuted)."
  },
  {
   "property": "C98",
   "status": "partial",
   "theorems": [
    "C98_isinstance_partial",
    "C98_issubclass_partial",
    "C98_issubclass_exact",
    "C98_union_refuted",
    "C98_optional_refuted"
   ],
   "note": "Both functions raise TypeError for typing.Union/typing.Optional (refuted); issubclass_ex of a union asks for one of its alternatives only (refuted; C98_issubclass_exact says what it computes)."
  },
  {
   "property": "C99",
   "status": "proved",
   "theorems": [
    "C99_unhinted",
    "C99_exact_hints",
    "C99_arity",
    "C99_objects_refuted"
   ],
   "note": "All of it, for functions; other callable objects (functools.partial) raise TypeError instead of being accepted (C99_objects_refuted)."
  },
  {
   "property": "C100",
   "status": "partial",
   "theorems": [
    "C100_serves_partial",
    "C100_exact",
    "C100_refuted"
   ],
   "note": "For single-class hints level with the types asked for; a function of a subclass is accepted, a function of a base class, of object or of typing.Any refused (refuted: parameters are compared covariantly); C100_exact says what is accepted."
  },
  {
   "property": "C101",
   "status": "partial",
   "theorems": [
    "C101_wired_partial",
    "C101_typed_partial",
    "C101_lambda",
    "C101_equal_refuted",
    "C101_shift_refuted",
    "C101_star_refuted"
   ],
   "note": "For fully hinted functions without star parameter, unequal values, and unless a positional parameter nothing suits precedes one that gets a value; each of these restrictions is a refuted corner."
  },
  {
   "property": "C102",
   "status": "partial",
   "theorems": [
    "C102_between",
    "C102_empty",
    "C102_trim_partial",
    "C102_trim_refuted"
   ],
   "note": "trim_ws strips the Ito given, not the paragraphs (nlp.py:303-311): the first begins and the last ends without white space, the ones between may carry it; refuted on a text with an indented second paragraph"
  },
  {
   "property": "C103",
   "status": "proved",
   "theorems": [
    "C103_type_1"
   ],
   "note": ""
  },
  {
   "property": "C104",
   "status": "partial",
   "theorems": [
    "C104_type_2_partial",
    "C104_begins_refuted",
    "C104_hidden_refuted",
    "C104_short_refuted"
   ],
   "note": "A table may be found that begins in the middle of a line, and one below a blank line is missed (both refuted, table.py:33, 40); so is one with a line of one character (refuted)."
  },
  {
   "property": "C105",
   "status": "proved",
   "theorems": [
    "C105_of_str",
    "C105_of_ito",
    "C105_spans",
    "C105_place"
   ],
   "note": ""
  },
  {
   "property": "C106",
   "status": "proved",
   "theorems": [
    "C106_repr"
   ],
   "note": ""
  },
  {
   "property": "C107",
   "status": "proved",
   "theorems": [
    "C107_value"
   ],
   "note": ""
  },
  {
   "property": "C108",
   "status": "proved",
   "theorems": [
    "C108_split",
    "C108_chars",
    "C108_join"
   ],
   "note": ""
  },
  {
   "property": "C109",
   "status": "proved",
   "theorems": [
    "C109_refused",
    "C109_split",
    "C109_split_none_left"
   ],
   "note": ""
  },
  {
   "property": "C110",
   "status": "partial",
   "theorems": [
    "C110_clone_partial",
    "C110_others_refuted",
    "C110_attached_refuted"
   ],
   "note": "holds for wrapped functions with nothing attached; every other kind raises TypeError (type(self()) calls self), and a wrapped function loses its connections and postorator (C110_others_refuted, C110_attached_refuted)"
  },
  {
   "property": "C111",
   "status": "proved",
   "theorems": [
    "C111_all",
    "C111_first"
   ],
   "note": ""
  },
  {
   "property": "C112",
   "status": "partial",
   "theorems": [
    "C112_made",
    "C112_assigned",
    "C112_fit_partial",
    "C112_kept_partial",
    "C112_fit_refuted"
   ],
   "note": "holds as long as the pattern is not assigned after the filter; assigning re keeps a filter that does not fit (C112_fit_refuted)"
  },
  {
   "property": "C113",
   "status": "partial",
   "theorems": [
    "C113_same_partial",
    "C113_chain_partial",
    "C113_nuco_partial",
    "C113_operator_refuted"
   ],
   "note": "holds for ordinary left operands; a left operand that is itself an Infix takes the middle one as its argument (C113_operator_refuted)"
  },
  {
   "property": "C114",
   "status": "proved",
   "theorems": [
    "C114_fullmatch",
    "C114_match",
    "C114_search",
    "C114_finditer"
   ],
   "note": ""
  },
  {
   "property": "C115",
   "status": "proved",
   "theorems": [
    "C115_parts",
    "C115_canonical",
    "C115_whole"
   ],
   "note": ""
  },
  {
   "property": "C116",
   "status": "proved",
   "theorems": [
    "C116_split",
    "C116_keep_seps"
   ],
   "note": ""
  },
  {
   "property": "C117",
   "status": "partial",
   "theorems": [
    "C117_postfix",
    "C117_precedence_partial",
    "C117_precedence_refuted",
    "C117_unusable_refuted"
   ],
   "note": "the sequence is a complete postfix expression for every expression; its grouping is the intended one where no bracket has an & behind a ^ or | and no operand both a ! and a quantifier; a|b&c&d is read (a|(b&c))&d (C117_precedence_refuted: op_stack_p is not refreshed in the loop), and Query(src) never returns (C117_unusable_refuted: exit(0))"
  },
  {
   "property": "C118",
   "status": "partial",
   "theorems": [
    "C118_class_partial",
    "C118_type",
    "C118_raises",
    "C118_empty_refuted"
   ],
   "note": "holds for at least one character; without any the text is [] or [^], whose bracket the pattern parser takes for a member (C118_empty_refuted). regex.escape is an argument: a class of characters escaped, containing those special in sets and no letter or digit"
  },
  {
   "property": "C119",
   "status": "partial",
   "theorems": [
    "C119_pipeline_partial",
    "C119_hierarchical_partial",
    "C119_add_hierarchical_partial",
    "C119_refuted"
   ],
   "note": "holds at every moment for pipelines without AddHierarchical connectors, and for all pipelines until an exception; an exception in AddHierarchical leaves a stray child (C119_refuted, the bug of C25_misfit_refuted)"
  },
  {
   "property": "C120",
   "status": "partial",
   "theorems": [
    "C120_connector",
    "C120_wrap",
    "C120_desc",
    "C120_value_func",
    "C120_filter_partial",
    "C120_split",
    "C120_stack",
    "C120_extract_partial",
    "C120_window_partial",
    "C120_postorator_partial",
    "C120_refuted"
   ],
   "note": "holds for connectors, wrap, Desc, ValueFunc, Split, StackedReduce; for Filter except None, for Extract except a str as desc, for WindowedJoin except its desc, for postorators except functions (C120_refuted); Nuco and Invert test nothing"
  },
  {
   "property": "C121",
   "status": "proved",
   "theorems": [
    "C121_find_all",
    "C121_find",
    "C121_place",
    "C121_counterpart",
    "C121_clone",
    "C121_pickle",
    "C121_json",
    "C121_left_alone"
   ],
   "note": ""
  },
  {
   "property": "C122",
   "status": "partial",
   "theorems": [
    "C122_invalid_type_partial",
    "C122_element_partial",
    "C122_unique",
    "C122_each_named",
    "C122_refuted"
   ],
   "note": "holds for every value but a callable that inspect.signature does not know, such as the class dict: its ValueError reaches the caller; typing.Union (Desc) is written as the word Union (C122_refuted)"
  },
  {
   "property": "C123",
   "status": "partial",
   "theorems": [
    "C123_get",
    "C123_get_slice",
    "C123_zero_step",
    "C123_del",
    "C123_del_slice",
    "C123_set_partial",
    "C123_set_slice_partial",
    "C123_extended_refuted"
   ],
   "note": "reading and deleting: full; assignment by index and by slices with step 1: exact, including when it fails (the old value is then gone, see C21); slices with another step: C123_extended_refuted"
  },
  {
   "property": "C124",
   "status": "proved",
   "theorems": [
    "C124_converse",
    "C124_steps",
    "C124_following",
    "C124_root"
   ],
   "note": ""
  },
  {
   "property": "C125",
   "status": "proved",
   "theorems": [
    "C125_compile",
    "C125_accepted",
    "C125_find_all",
    "C125_find"
   ],
   "note": ""
  },
  {
   "property": "C126",
   "status": "proved",
   "theorems": [
    "C126_decode",
    "C126_plain",
    "C126_encoded",
    "C126_single"
   ],
   "note": ""
  },
  {
   "property": "C127",
   "status": "proved",
   "theorems": [
    "C127_filters",
    "C127_subqueries",
    "C127_negated",
    "C127_equivalent",
    "C127_axes"
   ],
   "note": ""
  },
  {
   "property": "C128",
   "status": "proved",
   "theorems": [
    "C128_index",
    "C128_child",
    "C128_count",
    "C128_reversed"
   ],
   "note": ""
  },
  {
   "property": "C129",
   "status": "proved",
   "theorems": [
    "C129_predicates",
    "C129_predicate_raises",
    "C129_values",
    "C129_no_dictionary",
    "C129_texts",
    "C129_numbers"
   ],
   "note": ""
  },
  {
   "property": "C130",
   "status": "proved",
   "theorems": [
    "C130_reflect",
    "C130_desc",
    "C130_value_func",
    "C130_filter",
    "C130_wrap"
   ],
   "note": ""
  },
  {
   "property": "C131",
   "status": "partial",
   "theorems": [
    "C131_zero_widths_partial",
    "C131_flag",
    "C131_twice_partial",
    "C131_invert_twice",
    "C131_empty_refuted"
   ],
   "note": "outside C30's domain (nested non-gaps, non-gaps before the source, an empty source) the code's answers are wrong as shown there; C131_empty_refuted: an empty source before its first non-gap yields an empty Ito even without the flag"
  },
  {
   "property": "C132",
   "status": "partial",
   "theorems": [
    "C132_slice",
    "C132_index",
    "C132_strip",
    "C132_removeprefix",
    "C132_removesuffix",
    "C132_splitlines",
    "C132_split_partial",
    "C132_rsplit_partial",
    "C132_split_refuted",
    "C132_sibling_partial",
    "C132_affix_partial",
    "C132_affix_refuted"
   ],
   "note": "words: for Itos with start == 0 (C12; C132_split_refuted shows words left out otherwise); negative indices, chars == '' and the empty suffix are C05, C09 and C14; removeprefix/removesuffix drop the value function (C132_affix_refuted, ito.py:1305, 1311: Ito(self, ...) instead of clone)"
  },
  {
   "property": "C133",
   "status": "proved",
   "theorems": [
    "C133_compose",
    "C133_halves",
    "C133_strip",
    "C133_split"
   ],
   "note": ""
  },
  {
   "property": "C134",
   "status": "proved",
   "theorems": [
    "C134_children",
    "C134_descendants",
    "C134_up",
    "C134_beside",
    "C134_beside_root"
   ],
   "note": ""
  }
 ]
}