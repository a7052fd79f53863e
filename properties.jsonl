{"id": "C01", "title": "Span.from_indices normalises like Python slicing", "statement": "For every length n>=0 and every pair of optional Python-style indices, Span.from_indices(n,a,b) returns 0<=start<=stop<=n and x[start:stop]==x[a:b] for every sequence x of length n; re-normalising the result changes nothing.", "quantifier": "all lengths, all optional integer start/stop", "why_tests_cant": "Strings, spans and index arguments are unbounded; a test samples a handful of literals.", "anchors": ["pawpaw/span.py:Span.from_indices"]}
{"id": "C02", "title": "Span.offset is a checked translation", "statement": "span.offset(k) adds k to both ends, keeps the length, raises ValueError exactly when k!=0 and an end would become negative, and offsets compose additively whenever neither intermediate raises.", "quantifier": "all spans, all integers k", "why_tests_cant": "Strings, spans and index arguments are unbounded; a test samples a handful of literals.", "anchors": ["pawpaw/span.py:Span.offset"]}
{"id": "C03", "title": "An Ito built on a str or Ito denotes the Python slice of its source", "statement": "Ito(s,a,b) has 0<=start<=stop<=len(s) and str(Ito(s,a,b))==s[a:b]; Ito(i,a,b) lies inside i, keeps i.string and str(Ito(i,a,b))==str(i)[a:b].", "quantifier": "all strings, Itos, optional indices", "why_tests_cant": "Strings, spans and index arguments are unbounded; a test samples a handful of literals.", "anchors": ["pawpaw/ito.py:Ito.__init__"]}
{"id": "C04", "title": "len, slicing and iteration agree with the substring", "statement": "len(i)==len(str(i)); str(i[a:b])==str(i)[a:b] for all optional a,b; i[a:b] is i itself exactly when the span is unchanged; iterating i yields the length-1 segments in order, whose texts concatenate to str(i).", "quantifier": "all Itos and slices", "why_tests_cant": "Strings, spans and index arguments are unbounded; a test samples a handful of literals.", "anchors": ["pawpaw/ito.py:Ito.__getitem__", "pawpaw/ito.py:Ito.__iter__", "pawpaw/ito.py:Ito.__len__"]}
{"id": "C05", "title": "Integer indexing agrees with str indexing", "statement": "For every in-range integer k (negative included) str(i[k])==str(i)[k]; out-of-range k raises IndexError.", "quantifier": "all Itos, all integers k", "why_tests_cant": "The shipped test uses a single Ito whose start is 1; the claim is about every start.", "anchors": ["pawpaw/ito.py:Ito.__getitem__"]}
{"id": "C06", "title": "Search methods equal str methods on the substring", "statement": "str_find, str_rfind, str_index, str_rindex and str_count of an Ito return (or raise) what the str method returns on str(i) for all arguments.", "quantifier": "all Itos, substrings, optional start/end", "why_tests_cant": "Strings, spans and index arguments are unbounded; a test samples a handful of literals.", "anchors": ["pawpaw/ito.py:Ito.str_find", "pawpaw/ito.py:Ito.str_rfind", "pawpaw/ito.py:Ito.str_index", "pawpaw/ito.py:Ito.str_rindex", "pawpaw/ito.py:Ito.str_count"]}
{"id": "C07", "title": "startswith / endswith / str_eq equal str methods on the substring", "statement": "str_startswith, str_endswith (single affix or tuple, with optional start/end) and str_eq return what str.startswith/endswith/== return on str(i).", "quantifier": "all Itos, affixes, optional start/end", "why_tests_cant": "Strings, spans and index arguments are unbounded; a test samples a handful of literals.", "anchors": ["pawpaw/ito.py:Ito.str_startswith", "pawpaw/ito.py:Ito.str_endswith", "pawpaw/ito.py:Ito.str_eq"]}
{"id": "C08", "title": "Character-class predicates equal str predicates on the substring", "statement": "str_isalnum/isalpha/isascii/isdecimal/isdigit/isnumeric/isspace/isprintable/islower/isupper return what the str predicate returns on str(i).", "quantifier": "all Itos, every character classification", "why_tests_cant": "Strings, spans and index arguments are unbounded; a test samples a handful of literals.", "anchors": ["pawpaw/ito.py:Ito.__str_is_helper_all", "pawpaw/ito.py:Ito.__str_is_helper_any", "pawpaw/ito.py:Ito.str_islower", "pawpaw/ito.py:Ito.str_isprintable"]}
{"id": "C09", "title": "Strip methods equal str strip on the substring", "statement": "str(i.str_lstrip(c))==str(i).lstrip(c), and likewise rstrip and strip, for c None or any string; the result stays inside i and i itself is returned when nothing is stripped.", "quantifier": "all Itos, all chars arguments", "why_tests_cant": "Strings, spans and index arguments are unbounded; a test samples a handful of literals.", "anchors": ["pawpaw/ito.py:Ito.str_lstrip", "pawpaw/ito.py:Ito.str_rstrip", "pawpaw/ito.py:Ito.str_strip"]}
{"id": "C10", "title": "partition / rpartition equal str methods and tile the Ito", "statement": "The three results have the texts of str(i).partition(sep) / rpartition(sep), are adjacent and tile i; None or empty sep raises ValueError.", "quantifier": "all Itos (with or without children), all separators", "why_tests_cant": "Strings, spans and index arguments are unbounded; a test samples a handful of literals.", "anchors": ["pawpaw/ito.py:Ito.str_partition", "pawpaw/ito.py:Ito.str_rpartition"]}
{"id": "C11", "title": "Splitting on an explicit separator equals str.split / rsplit", "statement": "For every nonempty sep and every maxsplit the texts of i.str_split(sep,maxsplit) and i.str_rsplit(sep,maxsplit) are str(i).split/rsplit, the pieces lie in order inside i with exactly sep between neighbours.", "quantifier": "all Itos, separators, maxsplit", "why_tests_cant": "Strings, spans and index arguments are unbounded; a test samples a handful of literals.", "anchors": ["pawpaw/ito.py:Ito.str_split", "pawpaw/ito.py:Ito.str_rsplit"]}
{"id": "C12", "title": "Whitespace splitting equals str.split() / rsplit()", "statement": "For every Ito and maxsplit, i.str_split(None,m) and i.str_rsplit(None,m) terminate and have the texts of str(i).split(None,m) / rsplit(None,m).", "quantifier": "all Itos, whitespace predicates, maxsplit", "why_tests_cant": "Shipped tests only use Itos starting at 0 (or with 1-char words); non-termination cannot be observed by a finite test.", "anchors": ["pawpaw/ito.py:Ito._nearest_non_ws_sub", "pawpaw/ito.py:Ito.str_split", "pawpaw/ito.py:Ito.str_rsplit"]}
{"id": "C13", "title": "splitlines equals str.splitlines on the substring", "statement": "The texts of i.str_splitlines(keepends) are str(i).splitlines(keepends).", "quantifier": "all Itos, keepends", "why_tests_cant": "Strings, spans and index arguments are unbounded; a test samples a handful of literals.", "anchors": ["pawpaw/ito.py:Ito.str_splitlines"]}
{"id": "C14", "title": "removeprefix / removesuffix equal the str methods", "statement": "str(i.str_removeprefix(p))==str(i).removeprefix(p) and str(i.str_removesuffix(p))==str(i).removesuffix(p) for every p.", "quantifier": "all Itos, affixes", "why_tests_cant": "Strings, spans and index arguments are unbounded; a test samples a handful of literals.", "anchors": ["pawpaw/ito.py:Ito.str_removeprefix", "pawpaw/ito.py:Ito.str_removesuffix"]}
{"id": "C15", "title": "Regex splitting tiles the Ito", "statement": "For any match sequence a regex engine can return inside i, split_iter yields the segments between the matches in order; with keep_seps=True the pieces tile i exactly; max_split=n>0 performs at most and, when enough matches exist, exactly n splits.", "quantifier": "all Itos, match sequences, max_split", "why_tests_cant": "The regex engine and the text are arbitrary.", "anchors": ["pawpaw/ito.py:Ito.split_iter", "pawpaw/ito.py:Ito.split"]}
{"id": "C16", "title": "to_line_col locates the start", "statement": "to_line_col(eol) returns 1+the number of eol occurrences wholly before i.start and 1+the distance from the end of the last one (or from 0), for every eol that does not overlap itself.", "quantifier": "all strings, starts, eols", "why_tests_cant": "Strings, spans and index arguments are unbounded; a test samples a handful of literals.", "anchors": ["pawpaw/ito.py:Ito.to_line_col"]}
{"id": "C17", "title": "clone makes an independent, equal, deep copy", "statement": "i.clone() returns a fresh root, equal to i, whose whole tree has the same shape, spans, strings, descs and value functions, shares no node with the old tree and leaves every existing object unchanged.", "quantifier": "all well-formed heaps of Itos", "why_tests_cant": "All tree shapes and depths.", "anchors": ["pawpaw/ito.py:Ito.clone"]}
{"id": "C18", "title": "children.add accepts exactly the non-overlapping, contained, unowned Itos", "statement": "parent.children.add(c) succeeds exactly when c has no parent, the same string, lies in the parent span, is not the parent, shares no start with a child and overlaps none; on success c is inserted at its sorted place, everything else is unchanged; on failure nothing changes.", "quantifier": "all heaps satisfying the tree invariant, all parent/child pairs", "why_tests_cant": "The claim ranges over every finite history of calls, including calls that raise and are caught.", "anchors": ["pawpaw/ito.py:ChildItos.add", "pawpaw/ito.py:Ito._set_parent"]}
{"id": "C19", "title": "Tree well-formedness is an invariant of every history", "statement": "After any sequence of constructing, cloning, add (of any number of Itos, even failing midway), remove, pop, del by index or slice and clear: children are sorted, disjoint, inside their parent, share its string; c is in p.children iff c.parent is p; every span is inside its string.", "quantifier": "all finite call sequences including failing calls", "why_tests_cant": "The claim ranges over every finite history of calls, including calls that raise and are caught.", "anchors": ["pawpaw/ito.py:ChildItos"]}
{"id": "C20", "title": "The parent relation never becomes cyclic", "statement": "No sequence of children.add calls makes an Ito its own ancestor, so get_root, walk_descendants and descends_from terminate.", "quantifier": "all call sequences", "why_tests_cant": "The claim ranges over every finite history of calls, including calls that raise and are caught.", "anchors": ["pawpaw/ito.py:ChildItos.add", "pawpaw/ito.py:Ito._set_parent", "pawpaw/ito.py:Ito.get_root"]}
{"id": "C21", "title": "children[...] = ... keeps the tree well-formed", "statement": "Item and slice assignment to children preserves the tree invariant, and a failing assignment leaves the collection as it was.", "quantifier": "all heaps, keys and values", "why_tests_cant": "The claim ranges over every finite history of calls, including calls that raise and are caught.", "anchors": ["pawpaw/ito.py:ChildItos.__setitem__"]}
{"id": "C22", "title": "Membership, remove and pop act on the object named", "statement": "c in p.children is True exactly when c is a child of p; p.children.remove(c) detaches exactly c (parent becomes None) and raises ValueError when c is not a child.", "quantifier": "all heaps satisfying the tree invariant", "why_tests_cant": "The claim ranges over every finite history of calls, including calls that raise and are caught.", "anchors": ["pawpaw/ito.py:ChildItos.__contains__", "pawpaw/ito.py:ChildItos.remove", "pawpaw/ito.py:ChildItos.pop"]}
{"id": "C23", "title": "add_hierarchical inserts by containment and keeps the tree well-formed", "statement": "Adding an Ito (with its subtree) that partially overlaps no descendant keeps the tree well-formed, adds exactly its nodes to the descendants, loses none, and each node ends under the smallest node containing it (a zero-width node on an end of another is not counted as contained in it).", "quantifier": "all trees, all non-crossing Itos", "why_tests_cant": "All tree shapes.", "anchors": ["pawpaw/ito.py:ChildItos.add_hierarchical"]}
{"id": "C24", "title": "add_hierarchical does not depend on insertion order", "statement": "For any family of nonempty, pairwise distinct, non-crossing spans inside the parent, adding them in any order yields the same tree.", "quantifier": "all families, all permutations", "why_tests_cant": "Factorially many orders; the shipped test shuffles one random family.", "anchors": ["pawpaw/ito.py:ChildItos.add_hierarchical", "pawpaw/ito.py:Ito.adopt"]}
{"id": "C25", "title": "A crossing Ito is rejected by add_hierarchical without side effects", "statement": "When the Ito crosses (partially overlaps) an existing descendant, or does not fit the parent, ValueError is raised and the collection is unchanged.", "quantifier": "all trees, all crossing Itos", "why_tests_cant": "The claim ranges over every finite history of calls, including calls that raise and are caught.", "anchors": ["pawpaw/ito.py:ChildItos.add_hierarchical"]}
{"id": "C26", "title": "Duplicate spans nest by key", "statement": "With key given, Itos of equal span end nested in non-decreasing key order whatever the insertion order; with key None they nest in insertion order.", "quantifier": "all sequences of equal-span Itos, all keys", "why_tests_cant": "All orders and lengths.", "anchors": ["pawpaw/ito.py:ChildItos.add_hierarchical"]}
{"id": "C27", "title": "from_match builds the containment forest of the captures", "statement": "For any non-crossing set of capture spans from_match raises nothing and returns a forest whose preorder is the captures sorted by (start,-stop) and in which every node hangs under the nearest preceding capture that contains it; every returned tree is well-formed.", "quantifier": "all capture families", "why_tests_cant": "Capture families are arbitrary.", "anchors": ["pawpaw/ito.py:Ito.from_match"]}
{"id": "C28", "title": "from_re honours limit and yields matches in order", "statement": "from_re yields exactly the concatenated per-match results, truncated to the first limit items when limit is given (nothing for limit<=0), and looks at no match beyond the one reaching the limit.", "quantifier": "all match sequences and limits", "why_tests_cant": "Strings, spans and index arguments are unbounded; a test samples a handful of literals.", "anchors": ["pawpaw/ito.py:Ito.from_re"]}
{"id": "C29", "title": "Group keys are resolved soundly", "statement": "GroupKeys.preferred lists one key per group, the name where there is one; validate raises ValueError exactly when a key is absent or two keys denote the same group; from_filter keeps exactly one key per group accepted under its preferred key or number.", "quantifier": "all regex group tables and key lists", "why_tests_cant": "Strings, spans and index arguments are unbounded; a test samples a handful of literals.", "anchors": ["pawpaw/ito.py:GroupKeys"]}
{"id": "C30", "title": "from_gaps yields exactly the uncovered segments", "statement": "For ordered non-gaps from_gaps yields, in order, the maximal nonempty segments of src covered by no non-gap; every yielded Ito lies in src; unordered input raises ValueError.", "quantifier": "all sources, all ordered non-gap sequences", "why_tests_cant": "Strings, spans and index arguments are unbounded; a test samples a handful of literals.", "anchors": ["pawpaw/ito.py:Ito.from_gaps"]}
{"id": "C31", "title": "invert_children complements the children", "statement": "The children of i.invert_children() are exactly the maximal nonempty segments of i not covered by i.children, i is not changed; children and gaps together tile i.", "quantifier": "all well-formed Itos", "why_tests_cant": "All child layouts.", "anchors": ["pawpaw/ito.py:Ito.invert_children"]}
{"id": "C32", "title": "from_substrings finds leftmost, ordered, disjoint occurrences", "statement": "from_substrings yields, for each substring, its leftmost occurrence at or after the end of the previous one inside src, with that text; raises ValueError exactly when some substring has none.", "quantifier": "all sources and substring sequences", "why_tests_cant": "Strings, spans and index arguments are unbounded; a test samples a handful of literals.", "anchors": ["pawpaw/ito.py:Ito.from_substrings"]}
{"id": "C33", "title": "join and adopt span exactly their inputs", "statement": "join returns an Ito whose start/stop are the min/max of the inputs, childless, and raises ValueError on no input or differing strings, whatever the order of the inputs; adopt of mutually non-crossing inputs has the same span and exactly their nodes as descendants.", "quantifier": "all nonempty Ito sequences, any set iteration order", "why_tests_cant": "Strings, spans and index arguments are unbounded; a test samples a handful of literals.", "anchors": ["pawpaw/ito.py:Ito.join", "pawpaw/ito.py:Ito.adopt"]}
{"id": "C34", "title": "strip_to_children trims exactly to the children", "statement": "strip_to_children returns an Ito spanning from the first child start to the last child stop with equal children, or i itself when nothing is trimmed.", "quantifier": "all well-formed Itos", "why_tests_cant": "Strings, spans and index arguments are unbounded; a test samples a handful of literals.", "anchors": ["pawpaw/ito.py:Ito.strip_to_children"]}
{"id": "C35", "title": "walk_descendants visits every descendant once in document order", "statement": "walk_descendants yields each proper descendant exactly once, parents before children and siblings left to right, with the right levels; reverse=True yields exactly the reversed sequence.", "quantifier": "all trees", "why_tests_cant": "All tree shapes.", "anchors": ["pawpaw/ito.py:Ito.walk_descendants_levels", "pawpaw/ito.py:Ito.walk_descendants"]}
{"id": "C36", "title": "get_root and descends_from decide ancestry", "statement": "On every acyclic tree get_root returns the unique ancestor-or-self without parent and i.descends_from(a) is True exactly when a is a proper ancestor of i.", "quantifier": "all acyclic heaps", "why_tests_cant": "The claim ranges over every finite history of calls, including calls that raise and are caught.", "anchors": ["pawpaw/ito.py:Ito.get_root", "pawpaw/ito.py:Ito.descends_from", "pawpaw/ito.py:Ito.has_descendant"]}
{"id": "C37", "title": "== is an equivalence that hash respects", "statement": "Ito == is reflexive, symmetric and transitive over any class hierarchy, depends only on type, span, value_func, desc and string, and equal Itos hash equally.", "quantifier": "all triples of Itos of any subclasses", "why_tests_cant": "All combinations of types and values.", "anchors": ["pawpaw/ito.py:Ito.__eq__", "pawpaw/ito.py:Ito.__hash__"]}
{"id": "C38", "title": "query escape / descape round-trip", "statement": "descape(escape(v))==v, escape(v) contains no unescaped special character, and a comma-joined list of escaped values splits and descapes back to the list.", "quantifier": "all strings and lists of strings", "why_tests_cant": "Strings, spans and index arguments are unbounded; a test samples a handful of literals.", "anchors": ["pawpaw/query/_query.py:escape", "pawpaw/query/_query.py:descape", "pawpaw/util.py:split_unescaped"]}
{"id": "C39", "title": "find_unescaped / split_unescaped see exactly the unescaped characters", "statement": "find_unescaped yields, relative to src and in order, exactly the positions in [start,stop) holding a wanted character not consumed by an escape, and raises ValueError exactly on a dangling escape; split_unescaped pieces re-joined with the character give back src and none contains an unescaped occurrence.", "quantifier": "all strings/Itos, characters, bounds", "why_tests_cant": "Strings, spans and index arguments are unbounded; a test samples a handful of literals.", "anchors": ["pawpaw/util.py:find_unescaped", "pawpaw/util.py:split_unescaped"]}
{"id": "C40", "title": "find_balanced yields the outermost balanced segments", "statement": "Each yielded segment starts with the left and ends with the right character, is balanced, the segments are ordered, disjoint and maximal; ValueError is raised exactly when the unescaped delimiters are unbalanced.", "quantifier": "all strings, delimiters", "why_tests_cant": "Strings, spans and index arguments are unbounded; a test samples a handful of literals.", "anchors": ["pawpaw/util.py:find_balanced"]}
{"id": "C41", "title": "Axes select exactly the XPath-style node sets", "statement": "Each axis, from one node, selects exactly the documented nodes (root, ancestors, parent, self, children, descendants, leaves, prior/next sibling(s)) nearest first, and - reverses the order.", "quantifier": "all acyclic well-formed trees and nodes", "why_tests_cant": "All tree shapes.", "anchors": ["pawpaw/query/_query.py:Axis.find_all"]}
{"id": "C42", "title": "Preceding and following partition the tree", "statement": "For every node of a tree of nonempty spans: self, ancestors, descendants, preceding and following are pairwise disjoint and together are all nodes of the tree.", "quantifier": "all trees of nonempty spans, all nodes", "why_tests_cant": "All tree shapes.", "anchors": ["pawpaw/query/_query.py:Axis.find_all"]}
{"id": "C43", "title": "Every axis applied to several nodes is the union over the nodes", "statement": "An axis applied to a sequence of nodes yields the concatenation of its results for each node, and nothing for the empty sequence.", "quantifier": "all node sequences", "why_tests_cant": "All sequences.", "anchors": ["pawpaw/query/_query.py:Axis.find_all"]}
{"id": "C44", "title": "The self option and enumeration behave as documented", "statement": "With ! the current node is returned exactly when the axis is empty; with !! always (first, or last when reversed); each per-node result is numbered 0,1,2,... .", "quantifier": "all axis results", "why_tests_cant": "All result lengths.", "anchors": ["pawpaw/query/_query.py:Axis.to_ecs"]}
{"id": "C45", "title": "De-dup keeps one of each node", "statement": ">< removes repeated nodes, keeps first occurrences in order and drops no distinct node.", "quantifier": "all node sequences", "why_tests_cant": "All sequences.", "anchors": ["pawpaw/query/_query.py:Axis.find_all"]}
{"id": "C46", "title": "Filter combinations follow operator precedence and parentheses", "statement": "A filter or subquery expression built from ~, &, ^, | and parentheses evaluates, for every truth assignment, to its value under the documented precedence.", "quantifier": "all expressions, all assignments", "why_tests_cant": "Infinitely many expressions.", "anchors": ["pawpaw/query/_query.py:EcfCombined"]}
{"id": "C47", "title": "A ~ inside the brackets negates the filter", "statement": "[~k:v] accepts exactly the nodes that [k:v] rejects, for every key.", "quantifier": "all filters, nodes, dictionaries", "why_tests_cant": "Strings, spans and index arguments are unbounded; a test samples a handful of literals.", "anchors": ["pawpaw/query/_query.py:EcfFilter._func"]}
{"id": "C48", "title": "Queries compose", "statement": "find_all(p/q) yields the results of q applied to the results of p; find returns the first result or None.", "quantifier": "all queries, all trees", "why_tests_cant": "All queries.", "anchors": ["pawpaw/query/_query.py:Query.find_all", "pawpaw/query/_query.py:Phrase.find_all"]}
{"id": "C49", "title": "path identifies the node", "statement": "root.find(n.path) is n for every node n of a tree; paths of different nodes differ.", "quantifier": "all trees and nodes", "why_tests_cant": "All tree shapes and depths.", "anchors": ["pawpaw/ito.py:Ito.path", "pawpaw/query/_query.py:Query.find"]}
{"id": "C50", "title": "JSON round-trips", "statement": "With full_tree, decoding what was encoded (with or without the string) gives an equal whole tree and in it the Ito at the same path; without full_tree it gives an equal parentless childless Ito. Encoded without the string and decoded without one raises ValueError.", "quantifier": "all well-formed trees and nodes", "why_tests_cant": "All tree shapes.", "anchors": ["pawpaw/ito.py:Ito.JsonEncoder", "pawpaw/ito.py:Ito.JsonDecoderHook"]}
{"id": "C51", "title": "Pickle round-trips the subtree", "statement": "pickle.loads(pickle.dumps(i)) is a fresh parentless Ito whose subtree equals that of i in shape, string, spans and descs, without value functions, with consistent parents.", "quantifier": "all well-formed trees", "why_tests_cant": "All tree shapes.", "anchors": ["pawpaw/ito.py:Ito.__getstate__", "pawpaw/ito.py:Ito.__setstate__"]}
{"id": "C52", "title": "Calling an Itorator never changes its argument", "statement": "itor(i) works on a clone: i, its tree and every pre-existing Ito are unchanged, whatever the pipeline.", "quantifier": "all pipelines, all Itos", "why_tests_cant": "The claim ranges over every finite history of calls, including calls that raise and are caught.", "anchors": ["pawpaw/arborform/itorator/itorator.py:Itorator.__call__"]}
{"id": "C53", "title": "Connectors route as documented", "statement": "Delegate stops the chain; Recurse feeds each result to the next connector; Subroutine discards results; Children connectors set children and pass the node on; a false predicate skips the connector.", "quantifier": "all pipelines", "why_tests_cant": "Arbitrarily nested pipelines.", "anchors": ["pawpaw/arborform/itorator/itorator.py:Itorator._flow"]}
{"id": "C54", "title": "Split tiles its input according to boundary retention", "statement": "For ordered disjoint boundaries inside i: ALL yields pieces tiling i; NONE yields the nonempty gaps; LEADING yields pieces tiling from the first boundary on; TRAILING pieces tiling up to the last; limit n uses only the first n boundaries; no boundary yields the whole or nothing according to return_zero_split.", "quantifier": "all Itos, boundary sequences, limits", "why_tests_cant": "Strings, spans and index arguments are unbounded; a test samples a handful of literals.", "anchors": ["pawpaw/arborform/itorator/split.py:Split._transform"]}
{"id": "C55", "title": "Invert yields the gaps of its itorator", "statement": "For ordered disjoint boundaries inside i, Invert yields exactly the maximal nonempty segments not covered by them.", "quantifier": "all Itos, boundary sequences", "why_tests_cant": "Strings, spans and index arguments are unbounded; a test samples a handful of literals.", "anchors": ["pawpaw/arborform/itorator/invert.py:Invert._transform"]}
{"id": "C56", "title": "Nuco yields the first non-empty result", "statement": "Nuco yields exactly the output of the first itorator that yields anything, or nothing.", "quantifier": "all itorator lists", "why_tests_cant": "All lists.", "anchors": ["pawpaw/arborform/itorator/nuco.py:Nuco._transform"]}
{"id": "C57", "title": "WindowedJoin conserves its input", "statement": "The outputs correspond, in order, to consecutive blocks of the input that are either single items or windows of exactly window_size items accepted by the predicate, together forming the input; a joined window spans its items.", "quantifier": "all input sequences, window sizes, predicates", "why_tests_cant": "All streams.", "anchors": ["pawpaw/arborform/postorator/windowed_join.py:WindowedJoin._transform"]}
{"id": "C58", "title": "StackedReduce conserves its input", "statement": "Every input item is either emitted alone or belongs to exactly one reduced stack, and the concatenation in output order is the input.", "quantifier": "all input sequences and predicates", "why_tests_cant": "All streams.", "anchors": ["pawpaw/arborform/postorator/stacked_reduce.py:StackedReduce._transform"]}
{"id": "C59", "title": "Ontology discovery mirrors the ontology", "statement": "discover returns the same key tree, each node holding rule(i) for each rule then each i in order; walk is the concatenation of the flatten values; filter_empties only removes empty entries; flatten keys are exactly the paths.", "quantifier": "all ontologies, rules, inputs", "why_tests_cant": "All nestings.", "anchors": ["pawpaw/ontology/ontology.py:Ontology.discover", "pawpaw/ontology/ontology.py:Discoveries"]}
{"id": "C60", "title": "Highlighter prints exactly the text", "statement": "Removing the colour codes from what Highlighter.print writes gives str(i), and with all nodes selected adjacent runs get consecutive palette colours.", "quantifier": "all well-formed trees and palettes", "why_tests_cant": "All tree shapes.", "anchors": ["pawpaw/visualization/highlighter.py:Highlighter._print"]}
{"id": "C61", "title": "%-directives respect width", "statement": "A string directive with width w never expands to more than w characters; it is unchanged if it fits and exactly w long otherwise.", "quantifier": "all texts, widths, abbreviations, positions", "why_tests_cant": "Strings, spans and index arguments are unbounded; a test samples a handful of literals.", "anchors": ["pawpaw/ito.py:Ito.__format__"]}
{"id": "C62", "title": "find_escapes yields exactly the non-doubled escapes", "statement": "find_escapes yields, in order and as indices of the underlying string, exactly the positions of escape characters that end a maximal odd run of escapes and are followed by another character.", "quantifier": "all strings", "why_tests_cant": "Strings, spans and index arguments are unbounded; a test samples a handful of literals.", "anchors": ["pawpaw/util.py:find_escapes"]}
{"id": "C63", "title": "escape makes any text usable as a filter value", "statement": "Writing [key:v1,v2,...] with each value escaped accepts exactly the nodes whose desc or text (for the keys d, s, scf, scfew, scfsw, sew, ssw) is one of the values.", "quantifier": "all value lists, all trees, all text keys", "why_tests_cant": "Strings, spans and index arguments are unbounded; a test samples a handful of literals.", "anchors": ["pawpaw/query/_query.py:escape", "pawpaw/query/_query.py:EcfFilter._func"]}
{"id": "C64", "title": "Index filters select exactly the listed indexes", "statement": "[index:...] with items n, a-b and a- keeps exactly the nodes whose number in the axis result is n, in [a,b), or at least a, for any list of such items.", "quantifier": "all index lists, all axis results", "why_tests_cant": "Strings, spans and index arguments are unbounded; a test samples a handful of literals.", "anchors": ["pawpaw/query/_query.py:EcfFilter._func"]}
{"id": "C65", "title": "Extract yields the from_re results of its argument", "statement": "Calling an Extract on i yields exactly the Itos that from_re yields for the pattern, the group filter, the desc and the limit, whether desc was given as a function or as a str, and leaves every existing Ito unchanged.", "quantifier": "all patterns, filters, limits, descs, Itos", "why_tests_cant": "Strings, spans and index arguments are unbounded; a test samples a handful of literals.", "anchors": ["pawpaw/arborform/itorator/extract.py:Extract._transform"]}
{"id": "C66", "title": "Ontology query steps escape and descape", "statement": "descape(escape(v))==v, escape(v) has no unescaped special character and ends in no dangling escape, and a dot-joined list of escaped steps splits at the unescaped dots and descapes back to the list.", "quantifier": "all strings, all nonempty lists of strings", "why_tests_cant": "Strings, spans and index arguments are unbounded; a test samples a handful of literals.", "anchors": ["pawpaw/ontology/_query.py:escape", "pawpaw/ontology/_query.py:descape"]}
{"id": "C67", "title": "SGR colour codes are unambiguous", "statement": "encode of different nonempty number lists differs; two colours (named, RGB, 8-bit) give the same code only if they are the same colour of the same plane (fore or back), and never a reset code; Rgb.from_24_bit splits every 24-bit value into three bytes that recompose to it.", "quantifier": "all number lists, colours, 24-bit values", "why_tests_cant": "All pairs of colours (2^48 RGB pairs).", "anchors": ["pawpaw/visualization/sgr/sgr.py:encode", "pawpaw/visualization/sgr/sgr.py:Fore.from_color", "pawpaw/visualization/sgr/sgr.py:_Colors.Rgb.from_24_bit"]}
{"id": "C68", "title": "Format specs compose", "statement": "In format(i, spec) each %-directive expands on its own: spec a followed by a directive b gives format(i, a) followed by format(i, b); text without a lone % stands for itself; the empty spec is str(i); %string, %substr, %desc, %value, %span, %start, %stop show the named text or numbers and \"% \" shows nothing.", "quantifier": "all Itos, literal texts and sequences of directives", "why_tests_cant": "Strings, spans and index arguments are unbounded; a test samples a handful of literals.", "anchors": ["pawpaw/ito.py:Ito.__format__", "pawpaw/util.py:find_escapes"]}
{"id": "C69", "title": "Conversion slices", "statement": "%name!<l>r<r> (or a) expands to repr (ascii) of the text without its first l and last r characters, a missing l or r counting as 0.", "quantifier": "all Itos, directives and digit strings l, r", "why_tests_cant": "Strings, spans and index arguments are unbounded; a test samples a handful of literals.", "anchors": ["pawpaw/ito.py:Ito.__format__"]}
{"id": "C70", "title": "Json pretty printing is JSON", "statement": "Json(...).dumps(*itos) is a JSON document {\"itos\": [...]} with one object per argument, whose start, stop, desc (null for None), substr and children (recursively, when children=True) are those of the Ito.", "quantifier": "all trees, texts, descs, indentations, argument lists", "why_tests_cant": "Strings, spans and index arguments are unbounded; a test samples a handful of literals.", "anchors": ["pawpaw/visualization/pepo/pepo.py:Json.dump", "pawpaw/visualization/pepo/pepo.py:Json._dump"]}
{"id": "C71", "title": "Compact prints one numbered line per Ito", "statement": "Compact(...).dumps(*itos) consists of one line per argument and, with children=True, per descendant in document order: the indentation once per depth, the 1-based number among its siblings (or among the arguments), \": \", the formatted Ito.", "quantifier": "all trees, format specs, indentations, argument lists", "why_tests_cant": "Strings, spans and index arguments are unbounded; a test samples a handful of literals.", "anchors": ["pawpaw/visualization/pepo/pepo.py:Compact._dump", "pawpaw/visualization/pepo/pepo.py:Compact.dump"]}
{"id": "C72", "title": "Tree draws the tree", "statement": "Tree(...).dumps(*itos) has one line per argument and, with children=True, per descendant in document order, preceded by a bar or blank for each Ito between (blank exactly for last children) and an elbow (last child) or tee; children=False prints the arguments only.", "quantifier": "all trees, format specs, indentations, argument lists", "why_tests_cant": "Strings, spans and index arguments are unbounded; a test samples a handful of literals.", "anchors": ["pawpaw/visualization/pepo/pepo.py:Tree._dump_children", "pawpaw/visualization/pepo/pepo.py:Tree.dump"]}
{"id": "C73", "title": "Xml pretty printing is XML", "statement": "Xml(...).dumps(*itos) is a well-formed XML document whose itos element has one ito element per argument with its start, stop, desc, substring and (with children=True) children.", "quantifier": "all trees, texts, descs, indentations, argument lists", "why_tests_cant": "Strings, spans and index arguments are unbounded; a test samples a handful of literals.", "anchors": ["pawpaw/visualization/pepo/pepo.py:Xml.dump", "pawpaw/visualization/pepo/pepo.py:Xml._dump"]}
{"id": "C74", "title": "Directions turn and mirror like angles", "statement": "Direction.from_degrees(z) is the last direction at or before z mod 360; rotating by multiples of 45 adds the angles (turns add up, 360 degrees is nothing); reflecting sends angle d to 2s - d, is undone by repeating it, and two reflections make a rotation by twice the angle between the surfaces.", "quantifier": "all directions, all int angles (multiples of 45 where turns are added up)", "why_tests_cant": "Strings, spans and index arguments are unbounded; a test samples a handful of literals.", "anchors": ["pawpaw/visualization/ascii_box.py:Direction"]}
{"id": "C75", "title": "Box-drawing characters are found by what they are", "statement": "from_char, from_name and from_direction_styles return the one character of the table with that char, name or set of arms, and raise ValueError when there is none; with fuzzy=True the first of the closest characters with as many arms is returned, the exact one if it exists.", "quantifier": "all strings and all lists of arms in distinct directions (fuzzy: one to four arms)", "why_tests_cant": "Strings, spans and index arguments are unbounded; a test samples a handful of literals.", "anchors": ["pawpaw/visualization/ascii_box.py:BoxDrawingChar.from_char", "pawpaw/visualization/ascii_box.py:BoxDrawingChar.from_name", "pawpaw/visualization/ascii_box.py:BoxDrawingChar.from_direction_styles", "pawpaw/visualization/ascii_box.py:BoxDrawingChar._distance"]}
{"id": "C76", "title": "Quarter turns and mirror images of characters are exact", "statement": "rotate by any multiple of 90 degrees and reflect in any direction return the character of the table with exactly the turned (mirrored) arms; turns add up, a mirror image mirrored again is the character itself.", "quantifier": "all characters of the table, all multiples of 90, all surfaces", "why_tests_cant": "Strings, spans and index arguments are unbounded; a test samples a handful of literals.", "anchors": ["pawpaw/visualization/ascii_box.py:BoxDrawingChar.rotate", "pawpaw/visualization/ascii_box.py:BoxDrawingChar.reflect"]}
{"id": "C77", "title": "Boxed text is aligned", "statement": "Boxer.from_srcs returns a top row, one row per line of the sources in order, and a bottom row; every row is as wide (in printed characters) as the longest line plus four, each line centred.", "quantifier": "all lists of sources with at least one line, all boxes of single characters", "why_tests_cant": "Strings, spans and index arguments are unbounded; a test samples a handful of literals.", "anchors": ["pawpaw/visualization/ascii_box.py:Boxer._from_lines", "pawpaw/visualization/ascii_box.py:Boxer.from_srcs"]}
{"id": "C78", "title": "A box from sides joins up", "statement": "from_sides keeps the sides given (as characters or str), completes the others, and chooses corners whose arms have the styles of the arms they touch whenever such characters exist; ValueError when no side is given or a side lacks an arm.", "quantifier": "all combinations of sides", "why_tests_cant": "Strings, spans and index arguments are unbounded; a test samples a handful of literals.", "anchors": ["pawpaw/visualization/ascii_box.py:from_sides"]}
{"id": "C79", "title": "A box from corners joins up", "statement": "from_corners keeps one to four given corners, each at its own place for which it has both arms (ValueError if there is no such seating, or a str is not a box-drawing character), and chooses sides closest to the styles of the corner arms they touch, so that the box joins up whenever such characters exist.", "quantifier": "all lists of characters of the table or str", "why_tests_cant": "Strings, spans and index arguments are unbounded; a test samples a handful of literals.", "anchors": ["pawpaw/visualization/ascii_box.py:from_corners"]}
{"id": "C80", "title": "XmlParser finds every element at its place", "statement": "For every document given to XmlParser, in any encoding and in any number of pieces, the character offset it derives from the line, column and byte position of each start and end event is the position of that event in the text.", "quantifier": "all texts of Unicode characters, all increasing sequences of positions, all encodings, all ways to feed the text", "why_tests_cant": "Texts, line breaks and multi-byte characters combine without bound; the indexer carries state from event to event.", "anchors": ["pawpaw/xml/xml_parser.py:XmlParser._InternalIndexingParser.char_offset_from_ex", "pawpaw/xml/xml_parser.py:XmlParser.feed", "pawpaw/xml/xml_parser.py:XmlParser._start", "pawpaw/xml/xml_parser.py:XmlParser._end"]}
{"id": "C81", "title": "The Ito tree of a parsed document mirrors the document", "statement": "For every well-formed document, parsing gives the root element an Ito tree with one element node per element spanning it exactly; under it, in order, its start tag (name with prefix, attributes with names and values), text nodes (with processing instructions and comments), child elements, and end tag, each spanning exactly its characters; existing Itos are not changed.", "quantifier": "all documents of the grammar of elements, attributes, text, processing instructions and comments, of any size and depth, anywhere in a text", "why_tests_cant": "Strings, spans and index arguments are unbounded; a test samples a handful of literals.", "anchors": ["pawpaw/xml/xml_parser.py:XmlParser._extract_itos", "pawpaw/xml/xml_parser.py:XmlParser._find_text", "pawpaw/xml/xml_parser.py:XmlParser.close"]}
{"id": "C82", "title": "Tags and texts of a document are taken apart by their own characters", "statement": "The nodes made for a start tag, an end tag or a stretch of text depend only on its own characters: the name and its prefix, each attribute with name and value, each processing instruction and comment with its content, at their exact spans, whatever stands before or after.", "quantifier": "all start tags, end tags and texts, all surroundings", "why_tests_cant": "Strings, spans and index arguments are unbounded; a test samples a handful of literals.", "anchors": ["pawpaw/xml/xml_parser.py:XmlParser._itor_extract_tag", "pawpaw/xml/xml_parser.py:XmlParser._itor_extract_attributes", "pawpaw/xml/xml_parser.py:XmlParser._itor_extract_pi_comments"]}
{"id": "C83", "title": "The value of a tag is its own qualified name", "statement": "In a parsed document, value() of the tag node of a start tag, of each attribute and of an end tag is the qualified name (prefix and local part) written in that tag node.", "quantifier": "all start tags with any number of attributes, all end tags, all names", "why_tests_cant": "Strings, spans and index arguments are unbounded; a test samples a handful of literals.", "anchors": ["pawpaw/xml/xml_parser.py:XmlParser._extract_itos"]}
{"id": "C84", "title": "Qualified names are split at the first colon", "statement": "QualifiedName.from_src splits any Ito at its first colon into prefix and local part without losing a character (str gives back the text), and has no prefix if there is no colon; XmlHelper.get_qualified_name gives the prefix and local part of a start tag or attribute of a parsed document.", "quantifier": "all Itos; all start tags and attributes of parsed documents", "why_tests_cant": "Strings, spans and index arguments are unbounded; a test samples a handful of literals.", "anchors": ["pawpaw/xml/xml_helper.py:QualifiedName.from_src", "pawpaw/xml/xml_helper.py:QualifiedName.__str__", "pawpaw/xml/xml_helper.py:XmlHelper.get_qualified_name"]}
{"id": "C85", "title": "Clark names are split at the closing brace", "statement": "get_namespace and get_local_name split any tag at the first closing brace, and together give the tag; EtName.from_item splits \"{uri}name\" into the namespace with its braces and the name, takes a text that does not begin with a brace as a name, and for an element gives its name.", "quantifier": "all strings, all Itos, all elements", "why_tests_cant": "Strings, spans and index arguments are unbounded; a test samples a handful of literals.", "anchors": ["pawpaw/xml/xml_helper.py:XmlHelper.get_local_name", "pawpaw/xml/xml_helper.py:XmlHelper.get_namespace", "pawpaw/xml/xml_helper.py:EtName.from_item"]}
{"id": "C86", "title": "get_parent_element and reverse_find go up to the nearest element", "statement": "get_parent_element gives the nearest element above a node, None if there is none; in a parsed document it is the element written around it. reverse_find gives the nearest element, beginning with the element itself, that satisfies the predicate, and always ends.", "quantifier": "all Ito trees, all nodes, all predicates; all parsed documents and their elements", "why_tests_cant": "Strings, spans and index arguments are unbounded; a test samples a handful of literals.", "anchors": ["pawpaw/xml/xml_helper.py:XmlHelper.get_parent_element", "pawpaw/xml/xml_helper.py:XmlHelper.reverse_find"]}
{"id": "C87", "title": "Namespace declarations are found where they are written", "statement": "For every element of a parsed document, get_xmlns gives exactly its xmlns attributes with prefix, local name and value; get_prefix_map maps the declared prefixes to their values; get_default_namespace gives the value of the default declaration nearest to the element, on it or around it, and None if there is none.", "quantifier": "all documents, all their elements at any depth", "why_tests_cant": "Strings, spans and index arguments are unbounded; a test samples a handful of literals.", "anchors": ["pawpaw/xml/xml_helper.py:XmlHelper.get_xmlns", "pawpaw/xml/xml_helper.py:XmlHelper.get_prefix_map", "pawpaw/xml/xml_helper.py:XmlHelper.get_default_namespace"]}
{"id": "C88", "title": "SimpleNlp builds document, paragraph, sentence, token", "statement": "SimpleNlp().from_text(text) never fails and gives a well-formed tree over the text: a Document over all of it, whose children are paragraphs, whose children are sentences, whose children are words, without children, and numbers; the result does not depend on other Itos and leaves them unchanged.", "quantifier": "all texts, all decimal points and separators, all character classes, all heaps", "why_tests_cant": "Strings, spans and index arguments are unbounded; a test samples a handful of literals.", "anchors": ["pawpaw/nlp/nlp.py:SimpleNlp.__init__", "pawpaw/nlp/nlp.py:SimpleNlp.from_text"]}
{"id": "C89", "title": "Words and numbers cover every word character, once", "statement": "The words and numbers of a document are in order and do not overlap; every word character of the text lies in one of them; a word consists of word characters joined directly, by one quotation mark, or by a hyphen and white space, and goes on as far as it can unless a number begins there; what lies outside the sentences is white space.", "quantifier": "all texts, all positions", "why_tests_cant": "Strings, spans and index arguments are unbounded; a test samples a handful of literals.", "anchors": ["pawpaw/nlp/nlp.py:SimpleNlp._word_pat", "pawpaw/nlp/nlp.py:SimpleNlp.from_text"]}
{"id": "C90", "title": "Paragraphs are divided by empty lines", "statement": "The paragraphs of a document are what remains of the text between runs of two or more line ends with white space before them; each such run is skipped as a whole, and no paragraph contains one.", "quantifier": "all texts", "why_tests_cant": "Strings, spans and index arguments are unbounded; a test samples a handful of literals.", "anchors": ["pawpaw/nlp/nlp.py:Paragraph"]}
{"id": "C91", "title": "Numbers are exactly the numerals of the text", "statement": "Every number of a sentence is a numeral (sign, integer with or without thousands separators, decimals, exponent), the longest that begins at its place, with its parts as children; wherever a numeral is written in a sentence there is a number; no word contains a digit.", "quantifier": "all texts, all numerals, all marks that can be told apart", "why_tests_cant": "Strings, spans and index arguments are unbounded; a test samples a handful of literals.", "anchors": ["pawpaw/nlp/nlp.py:Number.build_integer_pat", "pawpaw/nlp/nlp.py:Number.build_num_pat_re", "pawpaw/nlp/nlp.py:Number.get_itor"]}
{"id": "C92", "title": "Sentences end where the rules say, at the first place they do", "statement": "Each sentence of a paragraph goes on to the first place where a word character, a terminator and closing marks stand before, and behind: the end of the paragraph, two white spaces, white space and a word that often begins sentences, or white space and a capital or digit when none of the exceptions (titles, numeric abbreviations, initials, U.S. Government) applies; white space is skipped there, and nothing else.", "quantifier": "all texts, all paragraphs", "why_tests_cant": "Strings, spans and index arguments are unbounded; a test samples a handful of literals.", "anchors": ["pawpaw/nlp/nlp.py:Sentence"]}
{"id": "C93", "title": "Settings of the NLP components take effect", "statement": "Number(decimal_point=, thousands_sep=, thousands_sep_optional=) and later assignments determine the numerals found; min_separators determines how many empty lines divide paragraphs; SimpleNlp(chars=True) adds the characters.", "quantifier": "all sequences of settings, all texts", "why_tests_cant": "The claim ranges over every finite history of calls, including calls that raise and are caught.", "anchors": ["pawpaw/nlp/nlp.py:Number.__init__", "pawpaw/nlp/nlp.py:Number.decimal_point", "pawpaw/nlp/nlp.py:Number.thousands_sep_optional", "pawpaw/nlp/nlp.py:SimpleNlp.__init__", "pawpaw/nlp/nlp.py:Paragraph.min_separators"]}
{"id": "C94", "title": "is_canonical decides canonical version identifiers", "statement": "`Version.is_canonical(v)` is True exactly when v is a version identifier in the canonical form of PEP 440: [N!]N(.N)*[{a|b|rc}N][.postN][.devN][+local], numbers without superfluous zeros.", "quantifier": "all texts v", "why_tests_cant": "Strings, spans and index arguments are unbounded; a test samples a handful of literals.", "anchors": ["pawpaw/_version.py:Version.is_canonical"]}
{"id": "C95", "title": "What a StyledTable finds are tables", "statement": "Every Ito that `StyledTable(style).get_itor()` yields spans a table laid out as the style says, beginning at the start of a line (after its indentation) and ending at the end of one; its children are the captions, header row and rows in the order of the text; the tables come in document order and do not overlap.", "quantifier": "all styles whose patterns have no groups or look-around, all texts and spans", "why_tests_cant": "Strings, spans and index arguments are unbounded; a test samples a handful of literals.", "anchors": ["pawpaw/table/table.py:StyledTable._build_re", "pawpaw/table/table.py:StyledTable.get_itor"]}
{"id": "C96", "title": "A StyledTable misses no table", "statement": "Where a table of the style begins at the start of a line, the itorator yields a table that begins there or spans that place.", "quantifier": "all styles whose patterns have no groups or look-around, all texts, all places", "why_tests_cant": "Strings, spans and index arguments are unbounded; a test samples a handful of literals.", "anchors": ["pawpaw/table/table.py:StyledTable._build_re", "pawpaw/table/table.py:StyledTable._re_equi_ident", "pawpaw/table/table.py:StyledTable.get_itor"]}
{"id": "C97", "title": "Rows and tables end where they should", "statement": "A row of a found table goes up to the next line that separates rows; two tables with text between are found as two tables.", "quantifier": "all styles without lower edge and caption below, all texts", "why_tests_cant": "Strings, spans and index arguments are unbounded; a test samples a handful of literals.", "anchors": ["pawpaw/table/table.py:StyledTable._build_re", "pawpaw/table/styles/styles.py:TYPE_1"]}
{"id": "C98", "title": "isinstance_ex and issubclass_ex respect unions and ignore type parameters", "statement": "isinstance_ex(obj, t) is True exactly if obj is an instance of one of the alternatives of t (nested unions flattened, list[int] standing for list); issubclass_ex(a, b) is True exactly if every object of type a is of type b.", "quantifier": "all types built from classes, parameterized types and unions, all class hierarchies, all objects", "why_tests_cant": "The types nest without bound and the subclass relation is arbitrary.", "anchors": ["pawpaw/_type_magic.py:unpack", "pawpaw/_type_magic.py:isinstance_ex", "pawpaw/_type_magic.py:issubclass_ex"]}
{"id": "C99", "title": "Functions without hints are accepted by their number of parameters", "statement": "Where pawpaw takes a function of n arguments (Desc, Filter, ValueFunc, from_re, WindowedJoin...), every function without type hints and with n parameters is accepted, so is every function hinted with the very types asked for, and nothing is accepted that has another number of parameters or is not callable.", "quantifier": "all functions, all signatures asked for, all class hierarchies", "why_tests_cant": "Signatures have any number of parameters; a test tries a few.", "anchors": ["pawpaw/_type_magic.py:functoid_isinstance", "pawpaw/_type_magic.py:is_functoid", "pawpaw/ito.py:Types"]}
{"id": "C100", "title": "Hinted functions are accepted iff they can serve", "statement": "A function with hints is accepted where a function from types P1..Pn to R is asked for exactly if its parameters admit all arguments of types P1..Pn and its result is an R.", "quantifier": "all functions and signatures", "why_tests_cant": "Acceptance has to be right for every combination of hints, wanted types and hierarchy.", "anchors": ["pawpaw/_type_magic.py:functoid_isinstance", "pawpaw/_type_magic.py:_annotation_or_type_hint_matches_type"]}
{"id": "C101", "title": "invoke_func wires values to parameters by type", "statement": "invoke_func(f, *vals) calls f with, for each parameter in order, the first value not yet used whose type suits the hint of the parameter; no value is used twice; parameters no value suits keep their default, and TypeError is raised if they have none; surplus values go to the star parameter, or are dropped.", "quantifier": "all functions, all lists of values", "why_tests_cant": "The pairing depends on all the values and all the parameters together.", "anchors": ["pawpaw/_type_magic.py:invoke_func"]}
{"id": "C102", "title": "Paragraph splits at its separators and trims what it yields", "statement": "Paragraph(min_separators=n).get_itor(), applied to any Ito without children, yields new Itos described as paragraph for what lies between runs of n or more line ends with white space before them: each run is skipped as a whole, no paragraph contains one, and nothing that existed before changes. With trim_ws set, the paragraphs do not begin or end with white space.", "quantifier": "all texts, spans, numbers of separators >= 1", "why_tests_cant": "Strings, spans and index arguments are unbounded; a test samples a handful of literals.", "anchors": ["pawpaw/nlp/nlp.py:Paragraph.get_itor", "pawpaw/nlp/nlp.py:Paragraph.trim_ws", "pawpaw/nlp/nlp.py:trimmable_ws"]}
{"id": "C103", "title": "The style TYPE_1 finds the tables drawn as its documentation shows", "statement": "StyledTable(TYPE_1) yields, in document order and without overlap, Itos that span a line of dashes and pluses, rows each followed by such a line, from the start of a line to the end of one, with the rows as children; no row goes past a line of dashes and pluses; and where a table drawn so begins a line, some Ito spans that place.", "quantifier": "all texts and spans", "why_tests_cant": "Strings, spans and index arguments are unbounded; a test samples a handful of literals.", "anchors": ["pawpaw/table/styles/styles.py:TYPE_1", "pawpaw/table/table.py:StyledTable._build_re", "pawpaw/table/table.py:StyledTable.get_itor"]}
{"id": "C104", "title": "The style TYPE_2 finds the tables drawn as its documentation shows", "statement": "StyledTable(TYPE_2) yields, in document order and without overlap, Itos that span a line of dashes, rows separated by lines of bars and dashes, and a line of dashes, all with the same indentation, from the start of a line to the end of one, with the rows as children; and where a table drawn so begins a line, some Ito spans that place.", "quantifier": "all texts and spans", "why_tests_cant": "Strings, spans and index arguments are unbounded; a test samples a handful of literals.", "anchors": ["pawpaw/table/styles/styles.py:TYPE_2", "pawpaw/table/table.py:StyledTable._build_re", "pawpaw/table/table.py:StyledTable.get_itor"]}
{"id": "C105", "title": "from_spans yields one Ito per span", "statement": "Ito.from_spans(src, spans, desc) yields, in the order of the spans, one Ito per span, whose text is the slice of the basis (the string, or the text of the Ito) that the span denotes, with the descriptor given; spans inside the basis are kept exactly, moved by the start of the basis; none raises.", "quantifier": "all basis strings and Itos, all lists of spans, unordered, overlapping, negative or out of range", "why_tests_cant": "Strings, spans and index arguments are unbounded; a test samples a handful of literals.", "anchors": ["pawpaw/ito.py:Ito.from_spans"]}
{"id": "C106", "title": "repr shows class, span, descriptor and text", "statement": "repr(ito) is the class name and, in parentheses, span, repr of the descriptor and repr of the text.", "quantifier": "all Itos", "why_tests_cant": "Strings, spans and index arguments are unbounded; a test samples a handful of literals.", "anchors": ["pawpaw/ito.py:Ito.__repr__", "pawpaw/ito.py:Ito.__format__"]}
{"id": "C107", "title": "value() follows the last value function assigned", "statement": "Whatever sequence of creations, assignments to value_func (functions or None), clones and unpicklings happens, no assignment fails, and value() of each Ito is its text if its last function is None, else that function applied to this very Ito; a clone starts with the function of its original, applied to the clone.", "quantifier": "all histories", "why_tests_cant": "It ranges over all interleavings of assignments and clones.", "anchors": ["pawpaw/ito.py:Ito.value_func", "pawpaw/ito.py:Ito.value", "pawpaw/ito.py:Ito.clone"]}
{"id": "C108", "title": "Joining the pieces of an Ito gives its span back", "statement": "Ito.join of the pieces of split_iter(keep_seps=True), of the characters of an Ito, or of any Itos that tile a span, is an Ito over the same string with exactly that span.", "quantifier": "all Itos, all matches of the regex", "why_tests_cant": "Strings, spans and index arguments are unbounded; a test samples a handful of literals.", "anchors": ["pawpaw/ito.py:Ito.join", "pawpaw/ito.py:Ito.split_iter", "pawpaw/ito.py:Ito.__iter__"]}
{"id": "C109", "title": "Scanning functions refuse bad arguments and split at any of several characters", "statement": "find_escapes, find_unescaped, split_unescaped and find_balanced raise ValueError before yielding anything when the escape is not one character, when no character is asked for, or when a bracket is not one character; split_unescaped with several separators gives pieces of src which, with one of the separators between each two, give back src, none of them containing an unescaped separator.", "quantifier": "all strings/Itos, arguments, bounds", "why_tests_cant": "Strings, spans and index arguments are unbounded; a test samples a handful of literals.", "anchors": ["pawpaw/util.py:find_escapes", "pawpaw/util.py:find_unescaped", "pawpaw/util.py:split_unescaped", "pawpaw/util.py:find_balanced"]}
{"id": "C110", "title": "Itorator.clone", "statement": "itorator.clone(tag) gives an itorator of the same kind with the tag asked for (its own when none is), which given the same Ito yields the same as the original.", "quantifier": "all itorators, tags, Itos", "why_tests_cant": "Itorators hold arbitrary functions and pipelines; a test samples a few.", "anchors": ["pawpaw/arborform/itorator/itorator.py:Itorator.clone", "pawpaw/arborform/itorator/reflect.py:Reflect.clone", "pawpaw/arborform/itorator/split.py:Split.clone"]}
{"id": "C111", "title": "Searches by local name", "statement": "find_all_descendants_by_local_name yields exactly the elements inside the element (not itself) whose tag without its namespace is the name, each once, in document order; find_descendant_by_local_name gives the first of them, or None when there is none.", "quantifier": "all element trees, names", "why_tests_cant": "Element trees are unbounded; a test samples a few.", "anchors": ["pawpaw/xml/xml_helper.py:XmlHelper.find_all_descendants_by_local_name", "pawpaw/xml/xml_helper.py:XmlHelper.find_descendant_by_local_name"]}
{"id": "C112", "title": "The group filter of an Extract fits its pattern", "statement": "Making an Extract, or assigning its group_filter, succeeds exactly when the keys name groups of the pattern in force, no group twice; a refused one raises ValueError and changes nothing; after any history of assignments to re and group_filter the filter in force fits the pattern in force.", "quantifier": "all histories of assignments", "why_tests_cant": "The claim ranges over every finite history of calls, including calls that raise and are caught.", "anchors": ["pawpaw/arborform/itorator/regex_itorator.py:RegexItorator.re", "pawpaw/arborform/itorator/regex_itorator.py:RegexItorator.group_filter"]}
{"id": "C113", "title": "Infix operators", "statement": "For every operator op = Infix(f) and all operands, a |op| b, a <<op>> b and op(a, b) are f(a, b), and chains group to the left; x |nuco| y is x unless x is None, then y.", "quantifier": "all functions, operands", "why_tests_cant": "Operands and functions are arbitrary objects; a test samples a few.", "anchors": ["pawpaw/infix.py:Infix", "pawpaw/ito.py:nuco"]}
{"id": "C114", "title": "The regex methods of an Ito see its text and nothing else", "statement": "For every pattern without groups, references or look-around: regex_fullmatch succeeds exactly when str(ito) is a text of the pattern; regex_match exactly when str(ito) begins with one; regex_search finds the leftmost one inside str(ito), None only when there is none; regex_finditer and regex_findall give such pieces in order, not overlapping, and miss none that touches no piece found. Spans are those in the underlying string, inside the Ito.", "quantifier": "all Itos, patterns of characters, literals, sequence, alternatives, repetition", "why_tests_cant": "Strings, spans and index arguments are unbounded; a test samples a handful of literals.", "anchors": ["pawpaw/ito.py:Ito.regex_search", "pawpaw/ito.py:Ito.regex_match", "pawpaw/ito.py:Ito.regex_fullmatch", "pawpaw/ito.py:Ito.regex_finditer", "pawpaw/ito.py:Ito.regex_findall"]}
{"id": "C115", "title": "Version.parse_re takes identifiers apart", "statement": "A version identifier (epoch, release, a/b/rc pre-release, .post, .dev, local part), between white space and with or without a v in front, is matched by Version.parse_re, and the groups epoch, release, pre, pre_l, pre_n, post, post_l, post_n2, dev, dev_l, dev_n and local are its parts (None for missing ones). Every text is_canonical accepts is matched. Whatever is matched is white space, perhaps a v, the groups put together, and white space; release is always there, numbers are digits.", "quantifier": "all strings, all identifiers, all character classes of the regex module", "why_tests_cant": "Strings, spans and index arguments are unbounded; a test samples a handful of literals.", "anchors": ["pawpaw/_version.py:Version.parse_re"]}
{"id": "C116", "title": "Splitting an Ito by a pattern", "statement": "For every pattern without groups, references or look-around that does not match the empty text and no limit: regex_split, regex_splititer and split_iter cut str(ito) at texts of the pattern (the pieces with those texts between them are str(ito)), no piece contains a text of the pattern, and every piece lies inside the Ito; with keep_seps every piece but the last ends with its separator and the pieces joined are str(ito).", "quantifier": "all Itos, all such patterns", "why_tests_cant": "Strings, spans and index arguments are unbounded; a test samples a handful of literals.", "anchors": ["pawpaw/ito.py:Ito.split_iter", "pawpaw/ito.py:Ito.regex_split"]}
{"id": "C117", "title": "Ontology queries order their operators by precedence", "statement": "For every expression over entities with &, ^, |, !, quantifiers and brackets, the token sequence an ontology Query works out is a complete postfix expression over the entities in their order, and means what the precedences say (& binds closer than ^ and |, operators of one level group to the left, ! and quantifiers bind closest, brackets first); and Query(src) gives an object or raises.", "quantifier": "all expressions of any length and nesting", "why_tests_cant": "Expressions are unbounded in length and nesting; a test samples a few.", "anchors": ["pawpaw/ontology/_query.py:Query._shunting_yard", "pawpaw/ontology/_query.py:Query._get_precedence", "pawpaw/ontology/_query.py:Query.__init__"]}
{"id": "C118", "title": "Character sets for patterns", "statement": "For every dictionary or iterable of strings, to_re_char_set gives the text of a character set that, wherever it stands in a pattern, is read as one set and matches exactly the characters of the strings (inclusive) or exactly the others (not inclusive), whatever special characters are among them; everything else raises TypeError.", "quantifier": "all collections of strings, both values of inclusive, everything that may follow in the pattern", "why_tests_cant": "Strings, spans and index arguments are unbounded; a test samples a handful of literals.", "anchors": ["pawpaw/nlp/nlp.py:to_re_char_set"]}
{"id": "C119", "title": "Pipelines keep every tree well-formed", "statement": "While a pipeline of arborform runs (any built-in itorator, connector and postorator, with user functions that keep trees well-formed), every Ito is well-formed at every moment -- spans within the string, children inside their parent, sorted, disjoint, and pointing back to it -- whatever the consumer of the results does to them in between, every result is an Ito, and none disappears; also after an exception.", "quantifier": "all pipelines, all well-formed heaps, all consumers that keep trees well-formed, all moments of the run", "why_tests_cant": "The claim ranges over every finite history of calls, including calls that raise and are caught.", "anchors": ["pawpaw/arborform/itorator/itorator.py:Itorator._flow", "pawpaw/arborform/itorator/itorator.py:Connectors", "pawpaw/ito.py:ChildItos.add_hierarchical"]}
{"id": "C120", "title": "Constructors and setters of arborform test their arguments", "statement": "A connector, Itorator.wrap, Postorator.wrap, Desc, ValueFunc, Filter, Extract, Split, Nuco, Invert, WindowedJoin, StackedReduce, and the assignment of a postorator, succeed exactly for the arguments documented, and make of them what is documented (a desc as predicate of a connector tests for that desc, None for its absence, a pattern as splitter stands for its matches); everything else raises TypeError, group keys that do not fit the pattern, a window below 2 and a class that is no Ito raise ValueError.", "quantifier": "all objects as arguments, all functions with any parameters and hints (except typing.Union), all class hierarchies", "why_tests_cant": "Strings, spans and index arguments are unbounded; a test samples a handful of literals.", "anchors": ["pawpaw/arborform/itorator/itorator.py:Connector.__init__", "pawpaw/arborform/itorator/itorator.py:Itorator.wrap", "pawpaw/arborform/itorator/itorator.py:Itorator.postorator", "pawpaw/arborform/itorator/desc.py:Desc.__init__", "pawpaw/arborform/itorator/filter.py:Filter.__init__", "pawpaw/arborform/itorator/value_func.py:ValueFunc.__init__", "pawpaw/arborform/itorator/extract.py:Extract.__init__", "pawpaw/arborform/itorator/split.py:Split.__init__", "pawpaw/arborform/itorator/invert.py:Invert.__init__", "pawpaw/arborform/itorator/nuco.py:Nuco.__init__", "pawpaw/arborform/postorator/windowed_join.py:WindowedJoin.__init__", "pawpaw/arborform/postorator/stacked_reduce.py:StackedReduce.__init__", "pawpaw/arborform/postorator/postorator.py:Postorator.wrap"]}
{"id": "C121", "title": "Queries cannot tell copies apart", "statement": "Two trees of the same form - an Ito and its clone, an Ito without value functions and what loads from its pickle, a tree before and after operations elsewhere - have a one-to-one correspondence of places, under which data and .path agree; .find_all with any path string gives Itos at the same places in the same order, or the same exception after the same results, and .find likewise, whatever the axes, filters, operators and sub-queries, given values and predicates that do not tell them apart.", "quantifier": "all pairs of well-formed acyclic trees of the same form (in any heaps), all starting places, all query texts, all dictionaries of values and predicates that agree on corresponding Itos", "why_tests_cant": "Strings, spans and index arguments are unbounded; a test samples a handful of literals.", "anchors": ["pawpaw/query/_query.py:Query.find_all", "pawpaw/query/_query.py:Query.find", "pawpaw/ito.py:Ito.find_all", "pawpaw/ito.py:Ito.find", "pawpaw/ito.py:Ito.path", "pawpaw/ito.py:Ito.clone", "pawpaw/ito.py:Ito.__getstate__"]}
{"id": "C122", "title": "The exception for a refused argument says what was expected", "statement": "When an argument is refused because of its type, the exception is a TypeError, and its text names the parameter, every type allowed (in the order documented; a union as its members, a type variable as its bound, a function type with its signature), separated by or, and the value that was given.", "quantifier": "all lists of allowed types with any nesting of unions and type variables, all values", "why_tests_cant": "Strings, spans and index arguments are unbounded; a test samples a handful of literals.", "anchors": ["pawpaw/errors.py:Errors._get_type_strs", "pawpaw/errors.py:Errors.parameter_invalid_type", "pawpaw/errors.py:Errors.parameter_iterable_contains_invalid_type"]}
{"id": "C123", "title": "Children are read, deleted and assigned by index and slice as in a list", "statement": "p.children[k] and p.children[a:b:s] give the children at the positions a list of them would give (negative numbers count from the end, slices are clipped, any step); IndexError outside, ValueError for a step of 0. del takes exactly these children out, sets their parent to None and changes nothing else. Assigning Itos of nonempty spans that are not attached elsewhere puts them where the old children stood, attached to p, detaches the old ones and changes nothing else, exactly when they lie in p between the neighbours; otherwise ValueError.", "quantifier": "all well-formed forests, all integer indices, all slices with any bounds and steps", "why_tests_cant": "Strings, spans and index arguments are unbounded; a test samples a handful of literals.", "anchors": ["pawpaw/ito.py:ChildItos.__getitem__", "pawpaw/ito.py:ChildItos.__delitem__", "pawpaw/ito.py:ChildItos.__setitem__"]}
{"id": "C124", "title": "The axes of a query fit together", "statement": "Opposite axes are converses: j is found from i by an axis exactly when i is found from j by the opposite one (ancestors and descendants, parent and children, preceding and following, earlier and later siblings, previous and next sibling). Descendants are the children and the descendants of the children (likewise upwards and sideways); leaves are the descendants without children; following is what XPath defines it to be: the later siblings of the Ito and of those above it, with all below them. The root found from an Ito is the root found from every Ito below that root.", "quantifier": "all well-formed forests whose attached Itos have nonempty spans, all pairs of Itos", "why_tests_cant": "Strings, spans and index arguments are unbounded; a test samples a handful of literals.", "anchors": ["pawpaw/query/_query.py:Axis.find_all", "pawpaw/ito.py:Ito.find_all"]}
{"id": "C125", "title": "Any text is a query or is refused, and any search ends with a known error or in its own tree", "statement": "Compiling any text as a query gives a query or raises ValueError, never another error and never an endless loop; an accepted text has a printable character, no escape character without a successor, and an axis at the start of every phrase. Searching from any Ito of any well-formed tree with any text and any dictionaries ends; every Ito found belongs to the tree of the starting Ito, and the only errors are ValueError (text, missing dictionary, value that cannot be unescaped), TypeError (no binary operator between two groups), UnboundLocalError (<<< or >>> after a phrase that found nothing) and whatever the caller's own predicates and value functions raise.", "quantifier": "all texts, all environments, all well-formed acyclic heaps, all dictionaries and value functions", "why_tests_cant": "Strings, spans and index arguments are unbounded; a test samples a handful of literals.", "anchors": ["pawpaw/query/_query.py:Query", "pawpaw/query/_query.py:Phrase", "pawpaw/query/_query.py:EcfCombined", "pawpaw/query/_query.py:EcfFilter", "pawpaw/query/_query.py:EcfSubquery", "pawpaw/ito.py:Ito.find_all"]}
{"id": "C126", "title": "Any JSON document can be read with the decoder hook", "statement": "json.loads with Ito.JsonDecoderHook on any JSON document, damaged or hostile ones included, ends: either it raises KeyError, TypeError, ValueError or UnboundLocalError, or it returns a value in which every Ito is new and belongs to a well-formed tree (sorted disjoint children inside their parents, no cycles). Itos that existed before are the same afterwards in both cases. A document none of whose objects carries the type and version of an Ito is returned as without a hook (the last of equal keys counts), and what the encoder wrote is read back as in C50 although the hook is offered every inner object, too.", "quantifier": "all JSON documents (any nesting, duplicate keys, wrong types anywhere), all constructor strings, all well-formed acyclic heaps", "why_tests_cant": "Strings, spans and index arguments are unbounded; a test samples a handful of literals.", "anchors": ["pawpaw/ito.py:Ito.JsonDecoderHook", "pawpaw/ito.py:Ito._ItoDecoderHook", "pawpaw/ito.py:ChildItos.add_hierarchical", "pawpaw/ito.py:Ito.find"]}
{"id": "C127", "title": "Filters combine as sets of results do", "statement": "Read off results alone: if the bare axis finds the nodes A (no node twice) and the axis with the single filter [k:v] finds F, without an exception, then the axis followed by an expression of such filters with ~ & ^ | (parentheses around a combination of at least two) finds exactly the nodes of A for which the expression is true when each filter is read as membership in its F, in the order of A; the same holds for expressions of sub-queries {..}; for keys other than predicate, [~k:v] finds what [k:v] leaves of A; and expressions with the same truth table find the same nodes.", "quantifier": "all axes, all expressions, all filters and sub-queries, all trees and starting nodes", "why_tests_cant": "Infinitely many expressions, filters and trees.", "anchors": ["pawpaw/query/_query.py:EcfCombined", "pawpaw/query/_query.py:EcfFilter", "pawpaw/query/_query.py:EcfSubquery", "pawpaw/query/_query.py:Query.find_all"]}
{"id": "C128", "title": "Children are searched like a list", "statement": "children.index(v, start, stop) gives the one position in the range (negative numbers counting from the end) with a child that equals v, and ValueError if there is none; a child is found at its own place, and children[children.index(c)] is c; children.count(v) is 1 if a child equals v and 0 otherwise; reversed(children) gives the children in reverse order.", "quantifier": "all well-formed forests, all Itos searched for, all start and stop numbers", "why_tests_cant": "Strings, spans and index arguments are unbounded; a test samples a handful of literals.", "anchors": ["pawpaw/ito.py:ChildItos"]}
{"id": "C129", "title": "Filters by name use the dictionaries of the call", "statement": "An axis followed by [p:n1,..] gives the nodes of the axis for which every predicate the predicates dictionary holds under one of the names is true ([~p:n1,..]: every one false), in the order of the axis; a predicate that raises ends the search with its exception after the nodes found so far. [v:n1,..] gives the nodes whose value() equals an entry of the values dictionary under one of the names ([~v:..] the others). Without the dictionary: ValueError as soon as there is a node to test. For the keys by text, descriptor and number, [~k:..] gives the nodes of the axis that have none of the values written.", "quantifier": "all axes, trees, dictionaries, predicates (also raising ones), name and value lists that can be written", "why_tests_cant": "Strings, spans and index arguments are unbounded; a test samples a handful of literals.", "anchors": ["pawpaw/query/_query.py:EcfFilter._func", "pawpaw/query/_query.py:Ecf.validate_values", "pawpaw/query/_query.py:Ecf.validate_predicates"]}
{"id": "C130", "title": "The simple Itorators do what they say", "statement": "Called on an Ito, an unconnected Reflect gives one new root with the same tree; Desc the same with the desc its function computes for the copy (an exception of the function reaches the caller); ValueFunc the same with that value function; Filter the copy if the predicate is true of it and nothing otherwise; a wrapped function is called with the copy and its results are given. Apart from the field named, everything in the copy is as in the argument, nothing that existed changes, and the heap stays well-formed.", "quantifier": "all well-formed forests, all Itos, all functions (also raising ones)", "why_tests_cant": "Strings, spans and index arguments are unbounded; a test samples a handful of literals.", "anchors": ["pawpaw/arborform/itorator/desc.py:Desc", "pawpaw/arborform/itorator/value_func.py:ValueFunc", "pawpaw/arborform/itorator/filter.py:Filter", "pawpaw/arborform/itorator/reflect.py:Reflect"]}
{"id": "C131", "title": "Empty gaps on request, and gaps of gaps", "statement": "With return_zero_widths, from_gaps gives, besides the gaps with text, exactly one empty Ito for each place before the end of the source where one non-gap ends and the next begins, all in order; the flag changes neither the Itos with text nor an exception, and without it no empty Ito is given. The gaps between the gaps are the maximal runs of what the non-gaps cover, and invert_children on the result of invert_children gives children covering exactly what the first children cover.", "quantifier": "all sources, all sequences of non-gaps (spans and Itos); all well-formed forests", "why_tests_cant": "Strings, spans and index arguments are unbounded; a test samples a handful of literals.", "anchors": ["pawpaw/ito.py:Ito.from_gaps", "pawpaw/ito.py:Ito.invert_children"]}
{"id": "C132", "title": "The pieces an Ito is cut into stand where their text is", "statement": "Slices, int-indexed characters, stripped Itos, Itos less a prefix or suffix, lines and words are the Ito with stated text cut off in front and behind (not merely Itos with the right text somewhere inside): strips take only characters to strip and only from the side named, removeprefix moves the start by exactly the prefix, the lines with ends tile the Ito and the lines without are these less their line end, and outside the words of str_split(None)/str_rsplit(None) there is only white space. Every piece has the string, descriptor and value function of the Ito.", "quantifier": "all Itos, all bounds, character sets, affixes, white space predicates, maxsplit", "why_tests_cant": "Strings, spans and index arguments are unbounded; a test samples a handful of literals.", "anchors": ["pawpaw/ito.py:Ito.__getitem__", "pawpaw/ito.py:Ito.str_strip", "pawpaw/ito.py:Ito.str_removeprefix", "pawpaw/ito.py:Ito.str_splitlines", "pawpaw/ito.py:Ito.str_split"]}
{"id": "C133", "title": "Cuts of an Ito obey the laws of cutting", "statement": "A slice of a slice is one slice of the Ito (bounds clipped first to the Ito, then to the slice); i[:k] and i[k:] lie end to end over the Ito for every integer k, and joined give its text and place back; strip is rstrip after lstrip, in the other order too when a character stays (when none stays strip stands at the end, the other order at the start); stripping again takes nothing; str_split and str_rsplit without a limit give equal Itos (place, descriptor and value function) if the separator cannot overlap itself.", "quantifier": "all Itos, all bounds (absent, negative, beyond the ends), character sets, separators without self-overlap", "why_tests_cant": "Strings, spans and index arguments are unbounded; a test samples a handful of literals.", "anchors": ["pawpaw/ito.py:Ito.__getitem__", "pawpaw/ito.py:Ito.join", "pawpaw/ito.py:Ito.str_strip", "pawpaw/ito.py:Ito.str_split", "pawpaw/ito.py:Ito.str_rsplit"]}
{"id": "C134", "title": "A query of one axis gives what the members of the Ito give", "statement": "find_all of \"*\" gives the child list and of \"-*\" its reverse; \"**\" gives walk_descendants, \"-**\" its reverse, \"***\" those of them without children; \".\" gives the Ito, \"..\" its parent or nothing, \"....\" what get_root returns, or nothing for an Ito without a parent, \"...\" exactly the Itos that descends_from says yes to; \"<<\" and \">>\" give the children of the parent before and after it, nearest first, \"-<<\" and \"->>\" reversed, \"<\" and \">\" the nearest only; an Ito without a parent has nothing beside it.", "quantifier": "all trees, all nodes, all environments that print the axis characters", "why_tests_cant": "Strings, spans and index arguments are unbounded; a test samples a handful of literals.", "anchors": ["pawpaw/ito.py:Ito.find_all", "pawpaw/ito.py:Ito.get_root", "pawpaw/ito.py:Ito.walk_descendants", "pawpaw/ito.py:Ito.descends_from", "pawpaw/query/_query.py:Axis"]}
