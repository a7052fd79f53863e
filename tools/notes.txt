C05 Holds for nonnegative and out-of-range keys; for negative keys the right segment is returned exactly when start==1 (C05_index_negative_exact); the code computes self.stop+key-1 relative to the string and offsets it again (ito.py:579-581). Refuted: Ito('abc')[-1]=='b'.
C06 Holds unless sub is empty and the normalised start exceeds the normalised end; there the code always differs (C06_search_refuted).
C07 Holds unless an affix is empty and end < -len; witness C07_refuted. str_eq holds without restriction.
C08 All class predicates and isascii hold; isprintable uses any() instead of all(); islower/isupper test isalpha rather than casedness. Exact domains proved, witnesses given.
C09 Holds for chars != ''; chars == '' is treated as white space; identity of str_rstrip/str_strip needs a nonempty Ito. Witnesses given.
C12 Holds for Itos with start == 0; otherwise _nearest_non_ws_sub adds start twice. C12_split_exact: str_split always returns, and passes over as many characters after each word as stand before the Ito (so texts of one word are split correctly); C12_rsplit_never_refuted: str_rsplit() of an Ito that does not begin at 0 and holds a word never returns a list (IndexError or an endless loop); it is right for maxsplit 0 and for blank texts.
C14 removeprefix fully; removesuffix for nonempty suffix; the empty suffix always empties the Ito.
C15 Segments and tiling for max_split <= 0 (negative behaves as 0); a positive max_split performs no split (count is never incremented).
C16 eol as str (not overlapping itself) and as regex match list; C16_by_count, C16_by_split and C16_by_rsplit say it with str.count, split and rsplit for any nonempty eol (only the column of an eol overlapping itself differs from split).
C20 Proved for histories that never add an Ito under a parent of the same span, with the exact condition for one add; refuted: a.children.add(b); b.children.add(a) with equal spans is accepted.
C21 Proved for nonempty spans and values that are unattached; refuted: failing assignment loses the old value, an Ito attached elsewhere is accepted, equal zero-width starts are accepted, an out-of-range negative index is clamped to 0.
C22 remove, pop, clear fully; `in` is proved to compare only .start (true for every child, but also for non-children).
C35 On acyclic heaps (C20); the fuel is length of the heap + 1 and is proved sufficient.
C23 A zero-width node sitting on an end of y does not count as inside y (f_overlap). A failing call leaves a well-formed heap as long as the Ito fits (kept).
C24 Any order of Itos with whatever is below them gives the same tree (nonempty, pairwise different spans); whatever the spans, all orders succeed or all raise (C24_all_or_none). Zero-width spans make the resulting tree order dependent (example).
C25 Proved for Itos without children that fit; misfits are never accepted and raise ValueError whatever they carry. Refuted: a misfit is left in the child list with parent None; a subtree is flattened before the crossing is noticed.
C26 Proved for nonempty spans; refuted with a zero-width sibling, and for key None when the added Ito has a child of its own span.
C38 One-character escape and separator as in the code.
C39 Argument errors (empty chars, escape not of length 1) raise ValueError by definition of the model. start/stop restrict only where separators are looked for, not the pieces.
C40 Equal and different delimiters are separate theorems.
C62 For an Ito the positions are in the coordinates of the underlying string, unlike find_unescaped.
C10 Separator present: proved in full. Absent: proved for childless Itos (partition tiles; rpartition puts both empty Itos at the end of i, so the pieces do not tile). Refuted: an Ito with a child raises ValueError when the separator is absent.
C27 The match object is an arbitrary function from keys to span lists.
C28 The regex engine is an arbitrary list of matches; the limit theorem also counts how many of them are consumed.
C30 Right for non-gaps whose starts and stops both ascend and that do not end before src begins; for any non-gaps with ascending starts C30_ordered_partial says what is given and C30_right_exactly_partial when that is right (never an uncovered part is missed; a part covered by an earlier, longer non-gap may be given). Refuted: nested non-gaps, non-gaps ending before src, empty src with a later non-gap. C30_raises_exactly: ValueError exactly when a non-gap begins before its predecessor and all up to that one end before the end of src.
C33 adopt is modelled on trees as values; ==-equal inputs are merged by the set, as set_order says.
C37 sub is any reflexive antisymmetric subclass relation; == is Python's operator dispatch with the reflected method of a subclass first.
C42 Stated for nodes whose own span (and, for >>>, whose descendants' spans) are not empty; the zero-width exception is exhibited in C42_zero_width.
C43 Proved for the axes evaluated node by node (and '.'). '<<<' and '>>>' use only the last input node (C43_last_only, C43_union_refuted) and raise UnboundLocalError on an empty input (C43_empty_refuted).
C45 '><' removes by == (same string, span, desc), not by identity: full description in C45_dedup, exact claim when == nodes are the same node, counterexample in C45_distinct_refuted.
C46 Proved for expressions written without redundant parentheses around a single filter, for a whole filter part, a whole subquery part, and both together. Refuted: '~([x])' loses the ~, '[a] & ([b])' raises TypeError, an expression ending in ')' before '{' raises ValueError, and an operator between filters and subqueries is ignored.
C47 Proved for every key except predicates, and for predicates with exactly one name; for several names [p:..] accepts what all accept, [~p:..] what all reject (C47_predicates_partial). Refuted: [~p:a,b] with several predicate names is not the negation of [p:a,b].
C48 Parsing p/q gives the phrases of p then those of q, and running the concatenation runs the second part on the results of the first: full. The per-node reading is proved when q is made of axes evaluated node by node; refuted for '>>>'.
C49 The character environment is arbitrary up to: delimiters are plain, int() reads what str() writes, '.' and '*' are printable.
C63 Proved for values that are nonempty, have no leading white space and do not end in a backslash; each exclusion has a counterexample in C63_refuted.
C64 The items are written in decimal; the digits are read back by the environment's int().
C50 Without full_tree: full. With full_tree: proved for every Ito that has a parent, in trees whose non-first children have no zero-width nodes and no only child of the same span below (those add_hierarchical rearranges: C50_echo_refuted, C50_zero_refuted); encoding a root with full_tree raises AttributeError (C50_root_refuted). Value functions are not written. The json text layer is not modelled.
C51 Full for well-formed acyclic heaps; value functions are dropped, as documented. Pickle's byte format is not modelled.
C52 Pipelines are arbitrary graphs of itorators (they may contain themselves); user functions (Itorator.wrap, wrapped postorators, reduce functions) are assumed not to reach outside the objects they are given; the consumer may change the results between two steps. Fuel is the depth to which itorators call each other.
C53 trav (the other itorator) is arbitrary. The Children connectors' effect on the heap: C53_add, C53_replace, C53_delete, C53_add_hierarchical.
C54 Boundaries come from any generator that yields ordered spans inside the Ito (bounds), or from a regex (C54_regex, called end to end).
C55 Proved for nonempty Itos without children. An Ito with children: each piece is cloned with all children, which raises ValueError (C55_refuted_children). An empty Ito is yielded itself (C55_refuted_empty).
C57 The predicate may look at the heap as long as it depends on the items only.
C58 push, pop and reduce as for C57.
C65 Proved when desc is a function. With a str, extract.py:26 sets self._desc and the call then raises AttributeError (C65_refuted).
C59 A dict is the list of its items in insertion order; rules are arbitrary functions on the heap (they may raise and mutate). Key tree and values are stated through the list of (path, value) of every node.
C66 One-character escape, as in the code.
C60 The predicate only reads; print() appends to the output. An empty palette raises StopIteration at the first selected run (example). Text containing ESC itself is excluded from C60_text, not from C60_runs.
C67 Colours are the documented ones: 16 names, RGB and 8-bit components in 0..255.
C61 format(int, spec), repr, ascii, \d, int() and str(value()) are parameters. Abbreviations without % and not starting with a digit (a digit would be read as part of the width; a % starts a new directive).
C68 As C61. A doubled %% is left doubled (C68_case): it is text without a lone %.
C69 Refuted for r = "00" (any zero not spelt "0"): everything is dropped instead of nothing.
C70 Refuted for children=False (a comma after the last member: never JSON). os.linesep and the indentation are JSON white space.
C71 Texts of the Itos and numbers come from Ito.__format__ (C61, C68, C69) and format(int, ",").
C72 children=False is ignored (C72_flat_refuted). Texts of the Itos come from Ito.__format__.
C73 The document is never well-formed (the closing tag is written <itos>); the elements for the Itos are, for descs without quote, tab or line end and texts of XML characters without CR.
C74 Turns by other angles do not add up (C74_fractions): the property says multiples of 45.
C75 With no arm or more than four, fuzzy lookup raises UnboundLocalError (C75_fuzzy_none).
C76 The 128 characters are the table of the code; the eight-fold case analysis is by computation inside the proof.
C77 Proved for texts of printable characters; refuted for others: they are not counted for the width but are for the padding.
C78 Proved when every side of the result is the same at both ends; refuted otherwise (corners copy the far arm of a side), for str sides (AttributeError), no side (StopIteration) and one side lacking an arm (AttributeError).
C79 Characters of the table only; a hand-made BoxDrawingChar is outside the theorem.
C80 Proved when the text is fed in one piece and positions are counted in the parser's encoding (UTF-8: what expat does with a str); refuted for other encodings and for several feed calls. expat's positions are assumed to be line, column in characters and byte offset.
C81 Proved for layouts doc_ok (spaces before attributes, no '>' in values, no empty value, text of a childless element not ending in /> or ?>); each excluded layout is refuted by a document. The regular expressions are modelled by a backtracking matcher, value functions are not (see C83).
C82 Start and end tags for the layouts of C81 (refuted outside by C81_*_refuted); texts for all well-formed contents.
C83 Refuted for start tags with attributes: the lambdas of the loop share one variable, so every tag has the name of the last attribute (C83_last is exact). Proved for start tags without attributes and for end tags.
C84 from_src and attributes proved; get_qualified_name of a start tag refuted when the element has no prefix but an attribute has one (C84_start_tag is exact), proved otherwise.
C85 Everything but EtName.from_item of a parsed element proved: refuted, it takes the whole text of the element for its name.
C87 Proved when no attribute value is xmlns or begins with xmlns:, which the query takes for a declaration (both consequences refuted). The documents are those whose tree is the one of C81.
C92 The exceptions concern the last rule only, as the code has it: Dr. before a frequent first word, two spaces or CRLF does end a sentence (C92_titles).
C93 min_separators and the keyword argument thousands_sep work as intended; the keyword arguments decimal_point and thousands_sep_optional raise AttributeError, assignments after construction have no effect on what is found, and chars=True fails on any text with a number and adds nothing otherwise (all refuted or stated exactly). trim_ws and the separators are in C102.
C94 Every canonical identifier is accepted; a newline at the end, - and _ in a local identifier and superfluous zeros in it are accepted too (refuted; C94_exact says exactly what is accepted).
C95 For styles without equi_distant_indent in full; with it, everything but that a table begins at the start of a line (refuted: table.py:40 replaces the look-behind of line 37 instead of adding to it).
C96 For styles without equi_distant_indent in full; with it, for tables with even indentation and lines of two characters or more below text without blank lines; an empty line above an indented table hides it and so does a line of one character (both refuted, table.py:33).
C97 Rows never reach past a separator line for styles without table_end_pat and post_caption_pat (C97_rows_partial); for every style no row holds a separator line with a line of the row below it (C97_inside_partial); a separator directly above the table end belongs to the row, and two tables with text between are merged into one whose row is the text (both refuted).
C98 Both functions raise TypeError for typing.Union/typing.Optional (refuted); issubclass_ex of a union asks for one of its alternatives only (refuted; C98_issubclass_exact says what it computes).
C99 All of it, for functions; other callable objects (functools.partial) raise TypeError instead of being accepted (C99_objects_refuted).
C100 For single-class hints level with the types asked for; a function of a subclass is accepted, a function of a base class, of object or of typing.Any refused (refuted: parameters are compared covariantly); C100_exact says what is accepted.
C101 For fully hinted functions without star parameter, unequal values, and unless a positional parameter nothing suits precedes one that gets a value; each of these restrictions is a refuted corner.
C102 trim_ws strips the Ito given, not the paragraphs (nlp.py:303-311): the first begins and the last ends without white space, the ones between may carry it; refuted on a text with an indented second paragraph
C104 A table may be found that begins in the middle of a line, and one below a blank line is missed (both refuted, table.py:33, 40); so is one with a line of one character (refuted).
C110 holds for wrapped functions with nothing attached; every other kind raises TypeError (type(self()) calls self), and a wrapped function loses its connections and postorator (C110_others_refuted, C110_attached_refuted)
C112 holds as long as the pattern is not assigned after the filter; assigning re keeps a filter that does not fit (C112_fit_refuted)
C113 holds for ordinary left operands; a left operand that is itself an Infix takes the middle one as its argument (C113_operator_refuted)
C117 the sequence is a complete postfix expression for every expression; its grouping is the intended one where no bracket has an & behind a ^ or | and no operand both a ! and a quantifier; a|b&c&d is read (a|(b&c))&d (C117_precedence_refuted: op_stack_p is not refreshed in the loop), and Query(src) never returns (C117_unusable_refuted: exit(0))
C118 holds for at least one character; without any the text is [] or [^], whose bracket the pattern parser takes for a member (C118_empty_refuted). regex.escape is an argument: a class of characters escaped, containing those special in sets and no letter or digit
C119 holds at every moment for pipelines without AddHierarchical connectors, and for all pipelines until an exception; an exception in AddHierarchical leaves a stray child (C119_refuted, the bug of C25_misfit_refuted)
C120 holds for connectors, wrap, Desc, ValueFunc, Split, StackedReduce; for Filter except None, for Extract except a str as desc, for WindowedJoin except its desc, for postorators except functions (C120_refuted); Nuco and Invert test nothing
C122 holds for every value but a callable that inspect.signature does not know, such as the class dict: its ValueError reaches the caller; typing.Union (Desc) is written as the word Union (C122_refuted)
C123 reading and deleting: full; assignment by index and by slices with step 1: exact, including when it fails (the old value is then gone, see C21); slices with another step: C123_extended_refuted
C131 outside C30's domain (nested non-gaps, non-gaps before the source, an empty source) the code's answers are wrong as shown there; C131_empty_refuted: an empty source before its first non-gap yields an empty Ito even without the flag
C132 words: for Itos with start == 0 (C12; C132_split_refuted shows words left out otherwise); negative indices, chars == '' and the empty suffix are C05, C09 and C14; removeprefix/removesuffix drop the value function (C132_affix_refuted, ito.py:1305, 1311: Ito(self, ...) instead of clone)
