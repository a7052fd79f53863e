#!/usr/bin/env python3
# Generates /verif/properties.jsonl (source of truth for the property texts).
import json
P=[]
def p(id,title,statement,quant,why,*anchors):
    P.append(dict(id=id,title=title,statement=statement,quantifier=quant,why_tests_cant=why,anchors=[a if isinstance(a,str) else ':'.join(a) for a in anchors]))
I='pawpaw/ito.py'; Q='pawpaw/query/_query.py'; U='pawpaw/util.py'; A='pawpaw/arborform/itorator/'; PO='pawpaw/arborform/postorator/'
S='pawpaw/span.py'
inf='Strings, spans and index arguments are unbounded; a test samples a handful of literals.'
hist='The claim ranges over every finite history of calls, including calls that raise and are caught.'
p('C01','Span.from_indices normalises like Python slicing','For every length n>=0 and every pair of optional Python-style indices, Span.from_indices(n,a,b) returns 0<=start<=stop<=n and x[start:stop]==x[a:b] for every sequence x of length n; re-normalising the result changes nothing.','all lengths, all optional integer start/stop',inf,f'{S}:Span.from_indices')
p('C02','Span.offset is a checked translation','span.offset(k) adds k to both ends, keeps the length, raises ValueError exactly when k!=0 and an end would become negative, and offsets compose additively whenever neither intermediate raises.','all spans, all integers k',inf,f'{S}:Span.offset')
p('C03','An Ito built on a str or Ito denotes the Python slice of its source','Ito(s,a,b) has 0<=start<=stop<=len(s) and str(Ito(s,a,b))==s[a:b]; Ito(i,a,b) lies inside i, keeps i.string and str(Ito(i,a,b))==str(i)[a:b].','all strings, Itos, optional indices',inf,f'{I}:Ito.__init__')
p('C04','len, slicing and iteration agree with the substring','len(i)==len(str(i)); str(i[a:b])==str(i)[a:b] for all optional a,b; i[a:b] is i itself exactly when the span is unchanged; iterating i yields the length-1 segments in order, whose texts concatenate to str(i).','all Itos and slices',inf,f'{I}:Ito.__getitem__',f'{I}:Ito.__iter__',f'{I}:Ito.__len__')
p('C05','Integer indexing agrees with str indexing','For every in-range integer k (negative included) str(i[k])==str(i)[k]; out-of-range k raises IndexError.','all Itos, all integers k','The shipped test uses a single Ito whose start is 1; the claim is about every start.',f'{I}:Ito.__getitem__')
p('C06','Search methods equal str methods on the substring','str_find, str_rfind, str_index, str_rindex and str_count of an Ito return (or raise) what the str method returns on str(i) for all arguments.','all Itos, substrings, optional start/end',inf,f'{I}:Ito.str_find',f'{I}:Ito.str_rfind',f'{I}:Ito.str_index',f'{I}:Ito.str_rindex',f'{I}:Ito.str_count')
p('C07','startswith / endswith / str_eq equal str methods on the substring','str_startswith, str_endswith (single affix or tuple, with optional start/end) and str_eq return what str.startswith/endswith/== return on str(i).','all Itos, affixes, optional start/end',inf,f'{I}:Ito.str_startswith',f'{I}:Ito.str_endswith',f'{I}:Ito.str_eq')
p('C08','Character-class predicates equal str predicates on the substring','str_isalnum/isalpha/isascii/isdecimal/isdigit/isnumeric/isspace/isprintable/islower/isupper return what the str predicate returns on str(i).','all Itos, every character classification',inf,f'{I}:Ito.__str_is_helper_all',f'{I}:Ito.__str_is_helper_any',f'{I}:Ito.str_islower',f'{I}:Ito.str_isprintable')
p('C09','Strip methods equal str strip on the substring','str(i.str_lstrip(c))==str(i).lstrip(c), and likewise rstrip and strip, for c None or any string; the result stays inside i and i itself is returned when nothing is stripped.','all Itos, all chars arguments',inf,f'{I}:Ito.str_lstrip',f'{I}:Ito.str_rstrip',f'{I}:Ito.str_strip')
p('C10','partition / rpartition equal str methods and tile the Ito','The three results have the texts of str(i).partition(sep) / rpartition(sep), are adjacent and tile i; None or empty sep raises ValueError.','all Itos (with or without children), all separators',inf,f'{I}:Ito.str_partition',f'{I}:Ito.str_rpartition')
p('C11','Splitting on an explicit separator equals str.split / rsplit','For every nonempty sep and every maxsplit the texts of i.str_split(sep,maxsplit) and i.str_rsplit(sep,maxsplit) are str(i).split/rsplit, the pieces lie in order inside i with exactly sep between neighbours.','all Itos, separators, maxsplit',inf,f'{I}:Ito.str_split',f'{I}:Ito.str_rsplit')
p('C12','Whitespace splitting equals str.split() / rsplit()','For every Ito and maxsplit, i.str_split(None,m) and i.str_rsplit(None,m) terminate and have the texts of str(i).split(None,m) / rsplit(None,m).','all Itos, whitespace predicates, maxsplit','Shipped tests only use Itos starting at 0 (or with 1-char words); non-termination cannot be observed by a finite test.',f'{I}:Ito._nearest_non_ws_sub',f'{I}:Ito.str_split',f'{I}:Ito.str_rsplit')
p('C13','splitlines equals str.splitlines on the substring','The texts of i.str_splitlines(keepends) are str(i).splitlines(keepends).','all Itos, keepends',inf,f'{I}:Ito.str_splitlines')
p('C14','removeprefix / removesuffix equal the str methods','str(i.str_removeprefix(p))==str(i).removeprefix(p) and str(i.str_removesuffix(p))==str(i).removesuffix(p) for every p.','all Itos, affixes',inf,f'{I}:Ito.str_removeprefix',f'{I}:Ito.str_removesuffix')
p('C15','Regex splitting tiles the Ito','For any match sequence a regex engine can return inside i, split_iter yields the segments between the matches in order; with keep_seps=True the pieces tile i exactly; max_split=n>0 performs at most and, when enough matches exist, exactly n splits.','all Itos, match sequences, max_split','The regex engine and the text are arbitrary.',f'{I}:Ito.split_iter',f'{I}:Ito.split')
p('C16','to_line_col locates the start','to_line_col(eol) returns 1+the number of eol occurrences wholly before i.start and 1+the distance from the end of the last one (or from 0), for every eol that does not overlap itself.','all strings, starts, eols',inf,f'{I}:Ito.to_line_col')
p('C17','clone makes an independent, equal, deep copy','i.clone() returns a fresh root, equal to i, whose whole tree has the same shape, spans, strings, descs and value functions, shares no node with the old tree and leaves every existing object unchanged.','all well-formed heaps of Itos','All tree shapes and depths.',f'{I}:Ito.clone')
p('C18','children.add accepts exactly the non-overlapping, contained, unowned Itos','parent.children.add(c) succeeds exactly when c has no parent, the same string, lies in the parent span, is not the parent, shares no start with a child and overlaps none; on success c is inserted at its sorted place, everything else is unchanged; on failure nothing changes.','all heaps satisfying the tree invariant, all parent/child pairs',hist,f'{I}:ChildItos.add',f'{I}:Ito._set_parent')
p('C19','Tree well-formedness is an invariant of every history','After any sequence of constructing, cloning, add (of any number of Itos, even failing midway), remove, pop, del by index or slice and clear: children are sorted, disjoint, inside their parent, share its string; c is in p.children iff c.parent is p; every span is inside its string.','all finite call sequences including failing calls',hist,f'{I}:ChildItos')
p('C20','The parent relation never becomes cyclic','No sequence of children.add calls makes an Ito its own ancestor, so get_root, walk_descendants and descends_from terminate.','all call sequences',hist,f'{I}:ChildItos.add',f'{I}:Ito._set_parent',f'{I}:Ito.get_root')
p('C21','children[...] = ... keeps the tree well-formed','Item and slice assignment to children preserves the tree invariant, and a failing assignment leaves the collection as it was.','all heaps, keys and values',hist,f'{I}:ChildItos.__setitem__')
p('C22','Membership, remove and pop act on the object named','c in p.children is True exactly when c is a child of p; p.children.remove(c) detaches exactly c (parent becomes None) and raises ValueError when c is not a child.','all heaps satisfying the tree invariant',hist,f'{I}:ChildItos.__contains__',f'{I}:ChildItos.remove',f'{I}:ChildItos.pop')
p('C23','add_hierarchical inserts by containment and keeps the tree well-formed','Adding an Ito (with its subtree) that partially overlaps no descendant keeps the tree well-formed, adds exactly its nodes to the descendants, loses none, and each node ends under the smallest node containing it (a zero-width node on an end of another is not counted as contained in it).','all trees, all non-crossing Itos','All tree shapes.',f'{I}:ChildItos.add_hierarchical')
p('C24','add_hierarchical does not depend on insertion order','For any family of nonempty, pairwise distinct, non-crossing spans inside the parent, adding them in any order yields the same tree.','all families, all permutations','Factorially many orders; the shipped test shuffles one random family.',f'{I}:ChildItos.add_hierarchical',f'{I}:Ito.adopt')
p('C25','A crossing Ito is rejected by add_hierarchical without side effects','When the Ito crosses (partially overlaps) an existing descendant, or does not fit the parent, ValueError is raised and the collection is unchanged.','all trees, all crossing Itos',hist,f'{I}:ChildItos.add_hierarchical')
p('C26','Duplicate spans nest by key','With key given, Itos of equal span end nested in non-decreasing key order whatever the insertion order; with key None they nest in insertion order.','all sequences of equal-span Itos, all keys','All orders and lengths.',f'{I}:ChildItos.add_hierarchical')
p('C27','from_match builds the containment forest of the captures','For any non-crossing set of capture spans from_match raises nothing and returns a forest whose preorder is the captures sorted by (start,-stop) and in which every node hangs under the nearest preceding capture that contains it; every returned tree is well-formed.','all capture families','Capture families are arbitrary.',f'{I}:Ito.from_match')
p('C28','from_re honours limit and yields matches in order','from_re yields exactly the concatenated per-match results, truncated to the first limit items when limit is given (nothing for limit<=0), and looks at no match beyond the one reaching the limit.','all match sequences and limits',inf,f'{I}:Ito.from_re')
p('C29','Group keys are resolved soundly','GroupKeys.preferred lists one key per group, the name where there is one; validate raises ValueError exactly when a key is absent or two keys denote the same group; from_filter keeps exactly one key per group accepted under its preferred key or number.','all regex group tables and key lists',inf,f'{I}:GroupKeys')
p('C30','from_gaps yields exactly the uncovered segments','For ordered non-gaps from_gaps yields, in order, the maximal nonempty segments of src covered by no non-gap; every yielded Ito lies in src; unordered input raises ValueError.','all sources, all ordered non-gap sequences',inf,f'{I}:Ito.from_gaps')
p('C31','invert_children complements the children','The children of i.invert_children() are exactly the maximal nonempty segments of i not covered by i.children, i is not changed; children and gaps together tile i.','all well-formed Itos','All child layouts.',f'{I}:Ito.invert_children')
p('C32','from_substrings finds leftmost, ordered, disjoint occurrences','from_substrings yields, for each substring, its leftmost occurrence at or after the end of the previous one inside src, with that text; raises ValueError exactly when some substring has none.','all sources and substring sequences',inf,f'{I}:Ito.from_substrings')
p('C33','join and adopt span exactly their inputs','join returns an Ito whose start/stop are the min/max of the inputs, childless, and raises ValueError on no input or differing strings, whatever the order of the inputs; adopt of mutually non-crossing inputs has the same span and exactly their nodes as descendants.','all nonempty Ito sequences, any set iteration order',inf,f'{I}:Ito.join',f'{I}:Ito.adopt')
p('C34','strip_to_children trims exactly to the children','strip_to_children returns an Ito spanning from the first child start to the last child stop with equal children, or i itself when nothing is trimmed.','all well-formed Itos',inf,f'{I}:Ito.strip_to_children')
p('C35','walk_descendants visits every descendant once in document order','walk_descendants yields each proper descendant exactly once, parents before children and siblings left to right, with the right levels; reverse=True yields exactly the reversed sequence.','all trees','All tree shapes.',f'{I}:Ito.walk_descendants_levels',f'{I}:Ito.walk_descendants')
p('C36','get_root and descends_from decide ancestry','On every acyclic tree get_root returns the unique ancestor-or-self without parent and i.descends_from(a) is True exactly when a is a proper ancestor of i.','all acyclic heaps',hist,f'{I}:Ito.get_root',f'{I}:Ito.descends_from',f'{I}:Ito.has_descendant')
p('C37','== is an equivalence that hash respects','Ito == is reflexive, symmetric and transitive over any class hierarchy, depends only on type, span, value_func, desc and string, and equal Itos hash equally.','all triples of Itos of any subclasses','All combinations of types and values.',f'{I}:Ito.__eq__',f'{I}:Ito.__hash__')
p('C38','query escape / descape round-trip','descape(escape(v))==v, escape(v) contains no unescaped special character, and a comma-joined list of escaped values splits and descapes back to the list.','all strings and lists of strings',inf,f'{Q}:escape',f'{Q}:descape',f'{U}:split_unescaped')
p('C39','find_unescaped / split_unescaped see exactly the unescaped characters','find_unescaped yields, relative to src and in order, exactly the positions in [start,stop) holding a wanted character not consumed by an escape, and raises ValueError exactly on a dangling escape; split_unescaped pieces re-joined with the character give back src and none contains an unescaped occurrence.','all strings/Itos, characters, bounds',inf,f'{U}:find_unescaped',f'{U}:split_unescaped')
p('C40','find_balanced yields the outermost balanced segments','Each yielded segment starts with the left and ends with the right character, is balanced, the segments are ordered, disjoint and maximal; ValueError is raised exactly when the unescaped delimiters are unbalanced.','all strings, delimiters',inf,f'{U}:find_balanced')
p('C41','Axes select exactly the XPath-style node sets','Each axis, from one node, selects exactly the documented nodes (root, ancestors, parent, self, children, descendants, leaves, prior/next sibling(s)) nearest first, and - reverses the order.','all acyclic well-formed trees and nodes','All tree shapes.',f'{Q}:Axis.find_all')
p('C42','Preceding and following partition the tree','For every node of a tree of nonempty spans: self, ancestors, descendants, preceding and following are pairwise disjoint and together are all nodes of the tree.','all trees of nonempty spans, all nodes','All tree shapes.',f'{Q}:Axis.find_all')
p('C43','Every axis applied to several nodes is the union over the nodes','An axis applied to a sequence of nodes yields the concatenation of its results for each node, and nothing for the empty sequence.','all node sequences','All sequences.',f'{Q}:Axis.find_all')
p('C44','The self option and enumeration behave as documented','With ! the current node is returned exactly when the axis is empty; with !! always (first, or last when reversed); each per-node result is numbered 0,1,2,... .','all axis results','All result lengths.',f'{Q}:Axis.to_ecs')
p('C45','De-dup keeps one of each node','>< removes repeated nodes, keeps first occurrences in order and drops no distinct node.','all node sequences','All sequences.',f'{Q}:Axis.find_all')
p('C46','Filter combinations follow operator precedence and parentheses','A filter or subquery expression built from ~, &, ^, | and parentheses evaluates, for every truth assignment, to its value under the documented precedence.','all expressions, all assignments','Infinitely many expressions.',f'{Q}:EcfCombined')
p('C47','A ~ inside the brackets negates the filter','[~k:v] accepts exactly the nodes that [k:v] rejects, for every key.','all filters, nodes, dictionaries',inf,f'{Q}:EcfFilter._func')
p('C48','Queries compose','find_all(p/q) yields the results of q applied to the results of p; find returns the first result or None.','all queries, all trees','All queries.',f'{Q}:Query.find_all',f'{Q}:Phrase.find_all')
p('C49','path identifies the node','root.find(n.path) is n for every node n of a tree; paths of different nodes differ.','all trees and nodes','All tree shapes and depths.',f'{I}:Ito.path',f'{Q}:Query.find')
p('C50','JSON round-trips','With full_tree, decoding what was encoded (with or without the string) gives an equal whole tree and in it the Ito at the same path; without full_tree it gives an equal parentless childless Ito. Encoded without the string and decoded without one raises ValueError.','all well-formed trees and nodes','All tree shapes.',f'{I}:Ito.JsonEncoder',f'{I}:Ito.JsonDecoderHook')
p('C51','Pickle round-trips the subtree','pickle.loads(pickle.dumps(i)) is a fresh parentless Ito whose subtree equals that of i in shape, string, spans and descs, without value functions, with consistent parents.','all well-formed trees','All tree shapes.',f'{I}:Ito.__getstate__',f'{I}:Ito.__setstate__')
p('C52','Calling an Itorator never changes its argument','itor(i) works on a clone: i, its tree and every pre-existing Ito are unchanged, whatever the pipeline.','all pipelines, all Itos',hist,f'{A}itorator.py:Itorator.__call__')
p('C53','Connectors route as documented','Delegate stops the chain; Recurse feeds each result to the next connector; Subroutine discards results; Children connectors set children and pass the node on; a false predicate skips the connector.','all pipelines','Arbitrarily nested pipelines.',f'{A}itorator.py:Itorator._flow')
p('C54','Split tiles its input according to boundary retention','For ordered disjoint boundaries inside i: ALL yields pieces tiling i; NONE yields the nonempty gaps; LEADING yields pieces tiling from the first boundary on; TRAILING pieces tiling up to the last; limit n uses only the first n boundaries; no boundary yields the whole or nothing according to return_zero_split.','all Itos, boundary sequences, limits',inf,f'{A}split.py:Split._transform')
p('C55','Invert yields the gaps of its itorator','For ordered disjoint boundaries inside i, Invert yields exactly the maximal nonempty segments not covered by them.','all Itos, boundary sequences',inf,f'{A}invert.py:Invert._transform')
p('C56','Nuco yields the first non-empty result','Nuco yields exactly the output of the first itorator that yields anything, or nothing.','all itorator lists','All lists.',f'{A}nuco.py:Nuco._transform')
p('C57','WindowedJoin conserves its input','The outputs correspond, in order, to consecutive blocks of the input that are either single items or windows of exactly window_size items accepted by the predicate, together forming the input; a joined window spans its items.','all input sequences, window sizes, predicates','All streams.',f'{PO}windowed_join.py:WindowedJoin._transform')
p('C58','StackedReduce conserves its input','Every input item is either emitted alone or belongs to exactly one reduced stack, and the concatenation in output order is the input.','all input sequences and predicates','All streams.',f'{PO}stacked_reduce.py:StackedReduce._transform')
p('C59','Ontology discovery mirrors the ontology','discover returns the same key tree, each node holding rule(i) for each rule then each i in order; walk is the concatenation of the flatten values; filter_empties only removes empty entries; flatten keys are exactly the paths.','all ontologies, rules, inputs','All nestings.','pawpaw/ontology/ontology.py:Ontology.discover','pawpaw/ontology/ontology.py:Discoveries')
p('C60','Highlighter prints exactly the text','Removing the colour codes from what Highlighter.print writes gives str(i), and with all nodes selected adjacent runs get consecutive palette colours.','all well-formed trees and palettes','All tree shapes.','pawpaw/visualization/highlighter.py:Highlighter._print')
p('C61','%-directives respect width','A string directive with width w never expands to more than w characters; it is unchanged if it fits and exactly w long otherwise.','all texts, widths, abbreviations, positions',inf,f'{I}:Ito.__format__')
p('C62','find_escapes yields exactly the non-doubled escapes','find_escapes yields, in order and as indices of the underlying string, exactly the positions of escape characters that end a maximal odd run of escapes and are followed by another character.','all strings',inf,f'{U}:find_escapes')
p('C63','escape makes any text usable as a filter value','Writing [key:v1,v2,...] with each value escaped accepts exactly the nodes whose desc or text (for the keys d, s, scf, scfew, scfsw, sew, ssw) is one of the values.','all value lists, all trees, all text keys',inf,f'{Q}:escape',f'{Q}:EcfFilter._func')
p('C64','Index filters select exactly the listed indexes','[index:...] with items n, a-b and a- keeps exactly the nodes whose number in the axis result is n, in [a,b), or at least a, for any list of such items.','all index lists, all axis results',inf,f'{Q}:EcfFilter._func')
p('C65','Extract yields the from_re results of its argument','Calling an Extract on i yields exactly the Itos that from_re yields for the pattern, the group filter, the desc and the limit, whether desc was given as a function or as a str, and leaves every existing Ito unchanged.','all patterns, filters, limits, descs, Itos',inf,f'{A}extract.py:Extract._transform')
p('C66','Ontology query steps escape and descape','descape(escape(v))==v, escape(v) has no unescaped special character and ends in no dangling escape, and a dot-joined list of escaped steps splits at the unescaped dots and descapes back to the list.','all strings, all nonempty lists of strings',inf,'pawpaw/ontology/_query.py:escape','pawpaw/ontology/_query.py:descape')
p('C67','SGR colour codes are unambiguous','encode of different nonempty number lists differs; two colours (named, RGB, 8-bit) give the same code only if they are the same colour of the same plane (fore or back), and never a reset code; Rgb.from_24_bit splits every 24-bit value into three bytes that recompose to it.','all number lists, colours, 24-bit values','All pairs of colours (2^48 RGB pairs).','pawpaw/visualization/sgr/sgr.py:encode','pawpaw/visualization/sgr/sgr.py:Fore.from_color','pawpaw/visualization/sgr/sgr.py:_Colors.Rgb.from_24_bit')
p('C68','Format specs compose','In format(i, spec) each %-directive expands on its own: spec a followed by a directive b gives format(i, a) followed by format(i, b); text without a lone % stands for itself; the empty spec is str(i); %string, %substr, %desc, %value, %span, %start, %stop show the named text or numbers and "% " shows nothing.','all Itos, literal texts and sequences of directives',inf,f'{I}:Ito.__format__',f'{U}:find_escapes')
p('C69','Conversion slices','%name!<l>r<r> (or a) expands to repr (ascii) of the text without its first l and last r characters, a missing l or r counting as 0.','all Itos, directives and digit strings l, r',inf,f'{I}:Ito.__format__')
PE='pawpaw/visualization/pepo/pepo.py'
p('C70','Json pretty printing is JSON','Json(...).dumps(*itos) is a JSON document {"itos": [...]} with one object per argument, whose start, stop, desc (null for None), substr and children (recursively, when children=True) are those of the Ito.','all trees, texts, descs, indentations, argument lists',inf,f'{PE}:Json.dump',f'{PE}:Json._dump')
p('C71','Compact prints one numbered line per Ito','Compact(...).dumps(*itos) consists of one line per argument and, with children=True, per descendant in document order: the indentation once per depth, the 1-based number among its siblings (or among the arguments), ": ", the formatted Ito.','all trees, format specs, indentations, argument lists',inf,f'{PE}:Compact._dump',f'{PE}:Compact.dump')
p('C72','Tree draws the tree','Tree(...).dumps(*itos) has one line per argument and, with children=True, per descendant in document order, preceded by a bar or blank for each Ito between (blank exactly for last children) and an elbow (last child) or tee; children=False prints the arguments only.','all trees, format specs, indentations, argument lists',inf,f'{PE}:Tree._dump_children',f'{PE}:Tree.dump')
p('C73','Xml pretty printing is XML','Xml(...).dumps(*itos) is a well-formed XML document whose itos element has one ito element per argument with its start, stop, desc, substring and (with children=True) children.','all trees, texts, descs, indentations, argument lists',inf,f'{PE}:Xml.dump',f'{PE}:Xml._dump')
AB='pawpaw/visualization/ascii_box.py'
p('C74','Directions turn and mirror like angles','Direction.from_degrees(z) is the last direction at or before z mod 360; rotating by multiples of 45 adds the angles (turns add up, 360 degrees is nothing); reflecting sends angle d to 2s - d, is undone by repeating it, and two reflections make a rotation by twice the angle between the surfaces.','all directions, all int angles (multiples of 45 where turns are added up)',inf,f'{AB}:Direction')
p('C75','Box-drawing characters are found by what they are','from_char, from_name and from_direction_styles return the one character of the table with that char, name or set of arms, and raise ValueError when there is none; with fuzzy=True the first of the closest characters with as many arms is returned, the exact one if it exists.','all strings and all lists of arms in distinct directions (fuzzy: one to four arms)',inf,f'{AB}:BoxDrawingChar.from_char',f'{AB}:BoxDrawingChar.from_name',f'{AB}:BoxDrawingChar.from_direction_styles',f'{AB}:BoxDrawingChar._distance')
p('C76','Quarter turns and mirror images of characters are exact','rotate by any multiple of 90 degrees and reflect in any direction return the character of the table with exactly the turned (mirrored) arms; turns add up, a mirror image mirrored again is the character itself.','all characters of the table, all multiples of 90, all surfaces',inf,f'{AB}:BoxDrawingChar.rotate',f'{AB}:BoxDrawingChar.reflect')
p('C77','Boxed text is aligned','Boxer.from_srcs returns a top row, one row per line of the sources in order, and a bottom row; every row is as wide (in printed characters) as the longest line plus four, each line centred.','all lists of sources with at least one line, all boxes of single characters',inf,f'{AB}:Boxer._from_lines',f'{AB}:Boxer.from_srcs')
p('C78','A box from sides joins up','from_sides keeps the sides given (as characters or str), completes the others, and chooses corners whose arms have the styles of the arms they touch whenever such characters exist; ValueError when no side is given or a side lacks an arm.','all combinations of sides',inf,f'{AB}:from_sides')
p('C79','A box from corners joins up','from_corners keeps one to four given corners, each at its own place for which it has both arms (ValueError if there is no such seating, or a str is not a box-drawing character), and chooses sides closest to the styles of the corner arms they touch, so that the box joins up whenever such characters exist.','all lists of characters of the table or str',inf,f'{AB}:from_corners')
XP='pawpaw/xml/xml_parser.py'; XH='pawpaw/xml/xml_helper.py'
p('C80','XmlParser finds every element at its place','For every document given to XmlParser, in any encoding and in any number of pieces, the character offset it derives from the line, column and byte position of each start and end event is the position of that event in the text.','all texts of Unicode characters, all increasing sequences of positions, all encodings, all ways to feed the text','Texts, line breaks and multi-byte characters combine without bound; the indexer carries state from event to event.',f'{XP}:XmlParser._InternalIndexingParser.char_offset_from_ex',f'{XP}:XmlParser.feed',f'{XP}:XmlParser._start',f'{XP}:XmlParser._end')
p('C81','The Ito tree of a parsed document mirrors the document','For every well-formed document, parsing gives the root element an Ito tree with one element node per element spanning it exactly; under it, in order, its start tag (name with prefix, attributes with names and values), text nodes (with processing instructions and comments), child elements, and end tag, each spanning exactly its characters; existing Itos are not changed.','all documents of the grammar of elements, attributes, text, processing instructions and comments, of any size and depth, anywhere in a text',inf,f'{XP}:XmlParser._extract_itos',f'{XP}:XmlParser._find_text',f'{XP}:XmlParser.close')
p('C82','Tags and texts of a document are taken apart by their own characters','The nodes made for a start tag, an end tag or a stretch of text depend only on its own characters: the name and its prefix, each attribute with name and value, each processing instruction and comment with its content, at their exact spans, whatever stands before or after.','all start tags, end tags and texts, all surroundings',inf,f'{XP}:XmlParser._itor_extract_tag',f'{XP}:XmlParser._itor_extract_attributes',f'{XP}:XmlParser._itor_extract_pi_comments')
p('C83','The value of a tag is its own qualified name','In a parsed document, value() of the tag node of a start tag, of each attribute and of an end tag is the qualified name (prefix and local part) written in that tag node.','all start tags with any number of attributes, all end tags, all names',inf,f'{XP}:XmlParser._extract_itos')
p('C84','Qualified names are split at the first colon','QualifiedName.from_src splits any Ito at its first colon into prefix and local part without losing a character (str gives back the text), and has no prefix if there is no colon; XmlHelper.get_qualified_name gives the prefix and local part of a start tag or attribute of a parsed document.','all Itos; all start tags and attributes of parsed documents',inf,f'{XH}:QualifiedName.from_src',f'{XH}:QualifiedName.__str__',f'{XH}:XmlHelper.get_qualified_name')
p('C85','Clark names are split at the closing brace','get_namespace and get_local_name split any tag at the first closing brace, and together give the tag; EtName.from_item splits "{uri}name" into the namespace with its braces and the name, takes a text that does not begin with a brace as a name, and for an element gives its name.','all strings, all Itos, all elements',inf,f'{XH}:XmlHelper.get_local_name',f'{XH}:XmlHelper.get_namespace',f'{XH}:EtName.from_item')
p('C86','get_parent_element and reverse_find go up to the nearest element','get_parent_element gives the nearest element above a node, None if there is none; in a parsed document it is the element written around it. reverse_find gives the nearest element, beginning with the element itself, that satisfies the predicate, and always ends.','all Ito trees, all nodes, all predicates; all parsed documents and their elements',inf,f'{XH}:XmlHelper.get_parent_element',f'{XH}:XmlHelper.reverse_find')
p('C87','Namespace declarations are found where they are written','For every element of a parsed document, get_xmlns gives exactly its xmlns attributes with prefix, local name and value; get_prefix_map maps the declared prefixes to their values; get_default_namespace gives the value of the default declaration nearest to the element, on it or around it, and None if there is none.','all documents, all their elements at any depth',inf,f'{XH}:XmlHelper.get_xmlns',f'{XH}:XmlHelper.get_prefix_map',f'{XH}:XmlHelper.get_default_namespace')
NL='/repo/pawpaw/nlp/nlp.py'.replace('/repo/','')
p('C88','SimpleNlp builds document, paragraph, sentence, token','SimpleNlp().from_text(text) never fails and gives a well-formed tree over the text: a Document over all of it, whose children are paragraphs, whose children are sentences, whose children are words, without children, and numbers; the result does not depend on other Itos and leaves them unchanged.','all texts, all decimal points and separators, all character classes, all heaps',inf,f'{NL}:SimpleNlp.__init__',f'{NL}:SimpleNlp.from_text')
p('C89','Words and numbers cover every word character, once','The words and numbers of a document are in order and do not overlap; every word character of the text lies in one of them; a word consists of word characters joined directly, by one quotation mark, or by a hyphen and white space, and goes on as far as it can unless a number begins there; what lies outside the sentences is white space.','all texts, all positions',inf,f'{NL}:SimpleNlp._word_pat',f'{NL}:SimpleNlp.from_text')
p('C90','Paragraphs are divided by empty lines','The paragraphs of a document are what remains of the text between runs of two or more line ends with white space before them; each such run is skipped as a whole, and no paragraph contains one.','all texts',inf,f'{NL}:Paragraph')
p('C91','Numbers are exactly the numerals of the text','Every number of a sentence is a numeral (sign, integer with or without thousands separators, decimals, exponent), the longest that begins at its place, with its parts as children; wherever a numeral is written in a sentence there is a number; no word contains a digit.','all texts, all numerals, all marks that can be told apart',inf,f'{NL}:Number.build_integer_pat',f'{NL}:Number.build_num_pat_re',f'{NL}:Number.get_itor')
p('C92','Sentences end where the rules say, at the first place they do','Each sentence of a paragraph goes on to the first place where a word character, a terminator and closing marks stand before, and behind: the end of the paragraph, two white spaces, white space and a word that often begins sentences, or white space and a capital or digit when none of the exceptions (titles, numeric abbreviations, initials, U.S. Government) applies; white space is skipped there, and nothing else.','all texts, all paragraphs',inf,f'{NL}:Sentence')
p('C93','Settings of the NLP components take effect','Number(decimal_point=, thousands_sep=, thousands_sep_optional=) and later assignments determine the numerals found; min_separators determines how many empty lines divide paragraphs; SimpleNlp(chars=True) adds the characters.','all sequences of settings, all texts',hist,f'{NL}:Number.__init__',f'{NL}:Number.decimal_point',f'{NL}:Number.thousands_sep_optional',f'{NL}:SimpleNlp.__init__',f'{NL}:Paragraph.min_separators')
p('C94','is_canonical decides canonical version identifiers',"`Version.is_canonical(v)` is True exactly when v is a version identifier in the canonical form of PEP 440: [N!]N(.N)*[{a|b|rc}N][.postN][.devN][+local], numbers without superfluous zeros.",'all texts v',inf,'pawpaw/_version.py:Version.is_canonical')
TB='pawpaw/table/table.py'
p('C95','What a StyledTable finds are tables',"Every Ito that `StyledTable(style).get_itor()` yields spans a table laid out as the style says, beginning at the start of a line (after its indentation) and ending at the end of one; its children are the captions, header row and rows in the order of the text; the tables come in document order and do not overlap.",'all styles whose patterns have no groups or look-around, all texts and spans',inf,f'{TB}:StyledTable._build_re',f'{TB}:StyledTable.get_itor')
p('C96','A StyledTable misses no table',"Where a table of the style begins at the start of a line, the itorator yields a table that begins there or spans that place.",'all styles whose patterns have no groups or look-around, all texts, all places',inf,f'{TB}:StyledTable._build_re',f'{TB}:StyledTable._re_equi_ident',f'{TB}:StyledTable.get_itor')
p('C97','Rows and tables end where they should',"A row of a found table goes up to the next line that separates rows; two tables with text between are found as two tables.",'all styles without lower edge and caption below, all texts',inf,f'{TB}:StyledTable._build_re','pawpaw/table/styles/styles.py:TYPE_1')
TM='pawpaw/_type_magic.py'
p('C98','isinstance_ex and issubclass_ex respect unions and ignore type parameters','isinstance_ex(obj, t) is True exactly if obj is an instance of one of the alternatives of t (nested unions flattened, list[int] standing for list); issubclass_ex(a, b) is True exactly if every object of type a is of type b.','all types built from classes, parameterized types and unions, all class hierarchies, all objects','The types nest without bound and the subclass relation is arbitrary.',(TM,'unpack'),(TM,'isinstance_ex'),(TM,'issubclass_ex'))
p('C99','Functions without hints are accepted by their number of parameters','Where pawpaw takes a function of n arguments (Desc, Filter, ValueFunc, from_re, WindowedJoin...), every function without type hints and with n parameters is accepted, so is every function hinted with the very types asked for, and nothing is accepted that has another number of parameters or is not callable.','all functions, all signatures asked for, all class hierarchies','Signatures have any number of parameters; a test tries a few.',(TM,'functoid_isinstance'),(TM,'is_functoid'),(I,'Types'))
p('C100','Hinted functions are accepted iff they can serve','A function with hints is accepted where a function from types P1..Pn to R is asked for exactly if its parameters admit all arguments of types P1..Pn and its result is an R.','all functions and signatures','Acceptance has to be right for every combination of hints, wanted types and hierarchy.',(TM,'functoid_isinstance'),(TM,'_annotation_or_type_hint_matches_type'))
p('C101','invoke_func wires values to parameters by type','invoke_func(f, *vals) calls f with, for each parameter in order, the first value not yet used whose type suits the hint of the parameter; no value is used twice; parameters no value suits keep their default, and TypeError is raised if they have none; surplus values go to the star parameter, or are dropped.','all functions, all lists of values','The pairing depends on all the values and all the parameters together.',(TM,'invoke_func'))
p('C102','Paragraph splits at its separators and trims what it yields','Paragraph(min_separators=n).get_itor(), applied to any Ito without children, yields new Itos described as paragraph for what lies between runs of n or more line ends with white space before them: each run is skipped as a whole, no paragraph contains one, and nothing that existed before changes. With trim_ws set, the paragraphs do not begin or end with white space.','all texts, spans, numbers of separators >= 1',inf,'pawpaw/nlp/nlp.py:Paragraph.get_itor','pawpaw/nlp/nlp.py:Paragraph.trim_ws','pawpaw/nlp/nlp.py:trimmable_ws')
p('C103','The style TYPE_1 finds the tables drawn as its documentation shows','StyledTable(TYPE_1) yields, in document order and without overlap, Itos that span a line of dashes and pluses, rows each followed by such a line, from the start of a line to the end of one, with the rows as children; no row goes past a line of dashes and pluses; and where a table drawn so begins a line, some Ito spans that place.','all texts and spans',inf,'pawpaw/table/styles/styles.py:TYPE_1','pawpaw/table/table.py:StyledTable._build_re','pawpaw/table/table.py:StyledTable.get_itor')
p('C104','The style TYPE_2 finds the tables drawn as its documentation shows','StyledTable(TYPE_2) yields, in document order and without overlap, Itos that span a line of dashes, rows separated by lines of bars and dashes, and a line of dashes, all with the same indentation, from the start of a line to the end of one, with the rows as children; and where a table drawn so begins a line, some Ito spans that place.','all texts and spans',inf,'pawpaw/table/styles/styles.py:TYPE_2','pawpaw/table/table.py:StyledTable._build_re','pawpaw/table/table.py:StyledTable.get_itor')
p('C105','from_spans yields one Ito per span','Ito.from_spans(src, spans, desc) yields, in the order of the spans, one Ito per span, whose text is the slice of the basis (the string, or the text of the Ito) that the span denotes, with the descriptor given; spans inside the basis are kept exactly, moved by the start of the basis; none raises.','all basis strings and Itos, all lists of spans, unordered, overlapping, negative or out of range',inf,(I,'Ito.from_spans'))
p('C106','repr shows class, span, descriptor and text','repr(ito) is the class name and, in parentheses, span, repr of the descriptor and repr of the text.','all Itos',inf,(I,'Ito.__repr__'),(I,'Ito.__format__'))
p('C107','value() follows the last value function assigned','Whatever sequence of creations, assignments to value_func (functions or None), clones and unpicklings happens, no assignment fails, and value() of each Ito is its text if its last function is None, else that function applied to this very Ito; a clone starts with the function of its original, applied to the clone.','all histories','It ranges over all interleavings of assignments and clones.',(I,'Ito.value_func'),(I,'Ito.value'),(I,'Ito.clone'))
p('C108','Joining the pieces of an Ito gives its span back','Ito.join of the pieces of split_iter(keep_seps=True), of the characters of an Ito, or of any Itos that tile a span, is an Ito over the same string with exactly that span.','all Itos, all matches of the regex',inf,(I,'Ito.join'),(I,'Ito.split_iter'),(I,'Ito.__iter__'))
p('C109','Scanning functions refuse bad arguments and split at any of several characters','find_escapes, find_unescaped, split_unescaped and find_balanced raise ValueError before yielding anything when the escape is not one character, when no character is asked for, or when a bracket is not one character; split_unescaped with several separators gives pieces of src which, with one of the separators between each two, give back src, none of them containing an unescaped separator.','all strings/Itos, arguments, bounds',inf,'pawpaw/util.py:find_escapes','pawpaw/util.py:find_unescaped','pawpaw/util.py:split_unescaped','pawpaw/util.py:find_balanced')
p('C110','Itorator.clone','itorator.clone(tag) gives an itorator of the same kind with the tag asked for (its own when none is), which given the same Ito yields the same as the original.','all itorators, tags, Itos','Itorators hold arbitrary functions and pipelines; a test samples a few.','pawpaw/arborform/itorator/itorator.py:Itorator.clone','pawpaw/arborform/itorator/reflect.py:Reflect.clone','pawpaw/arborform/itorator/split.py:Split.clone')
p('C111','Searches by local name','find_all_descendants_by_local_name yields exactly the elements inside the element (not itself) whose tag without its namespace is the name, each once, in document order; find_descendant_by_local_name gives the first of them, or None when there is none.','all element trees, names','Element trees are unbounded; a test samples a few.','pawpaw/xml/xml_helper.py:XmlHelper.find_all_descendants_by_local_name','pawpaw/xml/xml_helper.py:XmlHelper.find_descendant_by_local_name')
p('C112','The group filter of an Extract fits its pattern','Making an Extract, or assigning its group_filter, succeeds exactly when the keys name groups of the pattern in force, no group twice; a refused one raises ValueError and changes nothing; after any history of assignments to re and group_filter the filter in force fits the pattern in force.','all histories of assignments',hist,'pawpaw/arborform/itorator/regex_itorator.py:RegexItorator.re','pawpaw/arborform/itorator/regex_itorator.py:RegexItorator.group_filter')
p('C113','Infix operators','For every operator op = Infix(f) and all operands, a |op| b, a <<op>> b and op(a, b) are f(a, b), and chains group to the left; x |nuco| y is x unless x is None, then y.','all functions, operands','Operands and functions are arbitrary objects; a test samples a few.','pawpaw/infix.py:Infix','pawpaw/ito.py:nuco')
p('C114','The regex methods of an Ito see its text and nothing else','For every pattern without groups, references or look-around: regex_fullmatch succeeds exactly when str(ito) is a text of the pattern; regex_match exactly when str(ito) begins with one; regex_search finds the leftmost one inside str(ito), None only when there is none; regex_finditer and regex_findall give such pieces in order, not overlapping, and miss none that touches no piece found. Spans are those in the underlying string, inside the Ito.','all Itos, patterns of characters, literals, sequence, alternatives, repetition',inf,'pawpaw/ito.py:Ito.regex_search','pawpaw/ito.py:Ito.regex_match','pawpaw/ito.py:Ito.regex_fullmatch','pawpaw/ito.py:Ito.regex_finditer','pawpaw/ito.py:Ito.regex_findall')
p('C115','Version.parse_re takes identifiers apart','A version identifier (epoch, release, a/b/rc pre-release, .post, .dev, local part), between white space and with or without a v in front, is matched by Version.parse_re, and the groups epoch, release, pre, pre_l, pre_n, post, post_l, post_n2, dev, dev_l, dev_n and local are its parts (None for missing ones). Every text is_canonical accepts is matched. Whatever is matched is white space, perhaps a v, the groups put together, and white space; release is always there, numbers are digits.','all strings, all identifiers, all character classes of the regex module',inf,'pawpaw/_version.py:Version.parse_re')
p('C116','Splitting an Ito by a pattern','For every pattern without groups, references or look-around that does not match the empty text and no limit: regex_split, regex_splititer and split_iter cut str(ito) at texts of the pattern (the pieces with those texts between them are str(ito)), no piece contains a text of the pattern, and every piece lies inside the Ito; with keep_seps every piece but the last ends with its separator and the pieces joined are str(ito).','all Itos, all such patterns',inf,I+':Ito.split_iter',I+':Ito.regex_split')
p('C117','Ontology queries order their operators by precedence','For every expression over entities with &, ^, |, !, quantifiers and brackets, the token sequence an ontology Query works out is a complete postfix expression over the entities in their order, and means what the precedences say (& binds closer than ^ and |, operators of one level group to the left, ! and quantifiers bind closest, brackets first); and Query(src) gives an object or raises.','all expressions of any length and nesting','Expressions are unbounded in length and nesting; a test samples a few.','pawpaw/ontology/_query.py:Query._shunting_yard','pawpaw/ontology/_query.py:Query._get_precedence','pawpaw/ontology/_query.py:Query.__init__')
p('C118','Character sets for patterns','For every dictionary or iterable of strings, to_re_char_set gives the text of a character set that, wherever it stands in a pattern, is read as one set and matches exactly the characters of the strings (inclusive) or exactly the others (not inclusive), whatever special characters are among them; everything else raises TypeError.','all collections of strings, both values of inclusive, everything that may follow in the pattern',inf,'pawpaw/nlp/nlp.py:to_re_char_set')
p('C119','Pipelines keep every tree well-formed','While a pipeline of arborform runs (any built-in itorator, connector and postorator, with user functions that keep trees well-formed), every Ito is well-formed at every moment -- spans within the string, children inside their parent, sorted, disjoint, and pointing back to it -- whatever the consumer of the results does to them in between, every result is an Ito, and none disappears; also after an exception.','all pipelines, all well-formed heaps, all consumers that keep trees well-formed, all moments of the run',hist,f'{A}itorator.py:Itorator._flow',f'{A}itorator.py:Connectors',f'{I}:ChildItos.add_hierarchical')
p('C120','Constructors and setters of arborform test their arguments','A connector, Itorator.wrap, Postorator.wrap, Desc, ValueFunc, Filter, Extract, Split, Nuco, Invert, WindowedJoin, StackedReduce, and the assignment of a postorator, succeed exactly for the arguments documented, and make of them what is documented (a desc as predicate of a connector tests for that desc, None for its absence, a pattern as splitter stands for its matches); everything else raises TypeError, group keys that do not fit the pattern, a window below 2 and a class that is no Ito raise ValueError.','all objects as arguments, all functions with any parameters and hints (except typing.Union), all class hierarchies',inf,f'{A}itorator.py:Connector.__init__',f'{A}itorator.py:Itorator.wrap',f'{A}itorator.py:Itorator.postorator',f'{A}desc.py:Desc.__init__',f'{A}filter.py:Filter.__init__',f'{A}value_func.py:ValueFunc.__init__',f'{A}extract.py:Extract.__init__',f'{A}split.py:Split.__init__',f'{A}invert.py:Invert.__init__',f'{A}nuco.py:Nuco.__init__',f'{PO}windowed_join.py:WindowedJoin.__init__',f'{PO}stacked_reduce.py:StackedReduce.__init__',f'{PO}postorator.py:Postorator.wrap')
p('C121','Queries cannot tell copies apart','Two trees of the same form - an Ito and its clone, an Ito without value functions and what loads from its pickle, a tree before and after operations elsewhere - have a one-to-one correspondence of places, under which data and .path agree; .find_all with any path string gives Itos at the same places in the same order, or the same exception after the same results, and .find likewise, whatever the axes, filters, operators and sub-queries, given values and predicates that do not tell them apart.','all pairs of well-formed acyclic trees of the same form (in any heaps), all starting places, all query texts, all dictionaries of values and predicates that agree on corresponding Itos',inf,f'{Q}:Query.find_all',f'{Q}:Query.find',f'{I}:Ito.find_all',f'{I}:Ito.find',f'{I}:Ito.path',f'{I}:Ito.clone',f'{I}:Ito.__getstate__')
p('C122','The exception for a refused argument says what was expected','When an argument is refused because of its type, the exception is a TypeError, and its text names the parameter, every type allowed (in the order documented; a union as its members, a type variable as its bound, a function type with its signature), separated by or, and the value that was given.','all lists of allowed types with any nesting of unions and type variables, all values',inf,'pawpaw/errors.py:Errors._get_type_strs','pawpaw/errors.py:Errors.parameter_invalid_type','pawpaw/errors.py:Errors.parameter_iterable_contains_invalid_type')
p('C123','Children are read, deleted and assigned by index and slice as in a list','p.children[k] and p.children[a:b:s] give the children at the positions a list of them would give (negative numbers count from the end, slices are clipped, any step); IndexError outside, ValueError for a step of 0. del takes exactly these children out, sets their parent to None and changes nothing else. Assigning Itos of nonempty spans that are not attached elsewhere puts them where the old children stood, attached to p, detaches the old ones and changes nothing else, exactly when they lie in p between the neighbours; otherwise ValueError.','all well-formed forests, all integer indices, all slices with any bounds and steps',inf,'pawpaw/ito.py:ChildItos.__getitem__','pawpaw/ito.py:ChildItos.__delitem__','pawpaw/ito.py:ChildItos.__setitem__')
p('C124','The axes of a query fit together','Opposite axes are converses: j is found from i by an axis exactly when i is found from j by the opposite one (ancestors and descendants, parent and children, preceding and following, earlier and later siblings, previous and next sibling). Descendants are the children and the descendants of the children (likewise upwards and sideways); leaves are the descendants without children; following is what XPath defines it to be: the later siblings of the Ito and of those above it, with all below them. The root found from an Ito is the root found from every Ito below that root.','all well-formed forests whose attached Itos have nonempty spans, all pairs of Itos',inf,'pawpaw/query/_query.py:Axis.find_all','pawpaw/ito.py:Ito.find_all')
p('C125','Any text is a query or is refused, and any search ends with a known error or in its own tree','Compiling any text as a query gives a query or raises ValueError, never another error and never an endless loop; an accepted text has a printable character, no escape character without a successor, and an axis at the start of every phrase. Searching from any Ito of any well-formed tree with any text and any dictionaries ends; every Ito found belongs to the tree of the starting Ito, and the only errors are ValueError (text, missing dictionary, value that cannot be unescaped), TypeError (no binary operator between two groups), UnboundLocalError (<<< or >>> after a phrase that found nothing) and whatever the caller\'s own predicates and value functions raise.','all texts, all environments, all well-formed acyclic heaps, all dictionaries and value functions',inf,'pawpaw/query/_query.py:Query','pawpaw/query/_query.py:Phrase','pawpaw/query/_query.py:EcfCombined','pawpaw/query/_query.py:EcfFilter','pawpaw/query/_query.py:EcfSubquery','pawpaw/ito.py:Ito.find_all')
p('C126','Any JSON document can be read with the decoder hook','json.loads with Ito.JsonDecoderHook on any JSON document, damaged or hostile ones included, ends: either it raises KeyError, TypeError, ValueError or UnboundLocalError, or it returns a value in which every Ito is new and belongs to a well-formed tree (sorted disjoint children inside their parents, no cycles). Itos that existed before are the same afterwards in both cases. A document none of whose objects carries the type and version of an Ito is returned as without a hook (the last of equal keys counts), and what the encoder wrote is read back as in C50 although the hook is offered every inner object, too.','all JSON documents (any nesting, duplicate keys, wrong types anywhere), all constructor strings, all well-formed acyclic heaps',inf,'pawpaw/ito.py:Ito.JsonDecoderHook','pawpaw/ito.py:Ito._ItoDecoderHook','pawpaw/ito.py:ChildItos.add_hierarchical','pawpaw/ito.py:Ito.find')
p('C127','Filters combine as sets of results do','Read off results alone: if the bare axis finds the nodes A (no node twice) and the axis with the single filter [k:v] finds F, without an exception, then the axis followed by an expression of such filters with ~ & ^ | (parentheses around a combination of at least two) finds exactly the nodes of A for which the expression is true when each filter is read as membership in its F, in the order of A; the same holds for expressions of sub-queries {..}; for keys other than predicate, [~k:v] finds what [k:v] leaves of A; and expressions with the same truth table find the same nodes.','all axes, all expressions, all filters and sub-queries, all trees and starting nodes','Infinitely many expressions, filters and trees.',f'{Q}:EcfCombined',f'{Q}:EcfFilter',f'{Q}:EcfSubquery',f'{Q}:Query.find_all')
p('C128','Children are searched like a list','children.index(v, start, stop) gives the one position in the range (negative numbers counting from the end) with a child that equals v, and ValueError if there is none; a child is found at its own place, and children[children.index(c)] is c; children.count(v) is 1 if a child equals v and 0 otherwise; reversed(children) gives the children in reverse order.','all well-formed forests, all Itos searched for, all start and stop numbers',inf,'pawpaw/ito.py:ChildItos')
p('C129','Filters by name use the dictionaries of the call','An axis followed by [p:n1,..] gives the nodes of the axis for which every predicate the predicates dictionary holds under one of the names is true ([~p:n1,..]: every one false), in the order of the axis; a predicate that raises ends the search with its exception after the nodes found so far. [v:n1,..] gives the nodes whose value() equals an entry of the values dictionary under one of the names ([~v:..] the others). Without the dictionary: ValueError as soon as there is a node to test. For the keys by text, descriptor and number, [~k:..] gives the nodes of the axis that have none of the values written.','all axes, trees, dictionaries, predicates (also raising ones), name and value lists that can be written',inf,f'{Q}:EcfFilter._func',f'{Q}:Ecf.validate_values',f'{Q}:Ecf.validate_predicates')
p('C130','The simple Itorators do what they say','Called on an Ito, an unconnected Reflect gives one new root with the same tree; Desc the same with the desc its function computes for the copy (an exception of the function reaches the caller); ValueFunc the same with that value function; Filter the copy if the predicate is true of it and nothing otherwise; a wrapped function is called with the copy and its results are given. Apart from the field named, everything in the copy is as in the argument, nothing that existed changes, and the heap stays well-formed.','all well-formed forests, all Itos, all functions (also raising ones)',inf,'pawpaw/arborform/itorator/desc.py:Desc','pawpaw/arborform/itorator/value_func.py:ValueFunc','pawpaw/arborform/itorator/filter.py:Filter','pawpaw/arborform/itorator/reflect.py:Reflect')
p('C131','Empty gaps on request, and gaps of gaps','With return_zero_widths, from_gaps gives, besides the gaps with text, exactly one empty Ito for each place before the end of the source where one non-gap ends and the next begins, all in order; the flag changes neither the Itos with text nor an exception, and without it no empty Ito is given. The gaps between the gaps are the maximal runs of what the non-gaps cover, and invert_children on the result of invert_children gives children covering exactly what the first children cover.','all sources, all sequences of non-gaps (spans and Itos); all well-formed forests',inf,'pawpaw/ito.py:Ito.from_gaps','pawpaw/ito.py:Ito.invert_children')
p('C132','The pieces an Ito is cut into stand where their text is','Slices, int-indexed characters, stripped Itos, Itos less a prefix or suffix, lines and words are the Ito with stated text cut off in front and behind (not merely Itos with the right text somewhere inside): strips take only characters to strip and only from the side named, removeprefix moves the start by exactly the prefix, the lines with ends tile the Ito and the lines without are these less their line end, and outside the words of str_split(None)/str_rsplit(None) there is only white space. Every piece has the string, descriptor and value function of the Ito.','all Itos, all bounds, character sets, affixes, white space predicates, maxsplit',inf,'pawpaw/ito.py:Ito.__getitem__','pawpaw/ito.py:Ito.str_strip','pawpaw/ito.py:Ito.str_removeprefix','pawpaw/ito.py:Ito.str_splitlines','pawpaw/ito.py:Ito.str_split')
p('C133','Cuts of an Ito obey the laws of cutting','A slice of a slice is one slice of the Ito (bounds clipped first to the Ito, then to the slice); i[:k] and i[k:] lie end to end over the Ito for every integer k, and joined give its text and place back; strip is rstrip after lstrip, in the other order too when a character stays (when none stays strip stands at the end, the other order at the start); stripping again takes nothing; str_split and str_rsplit without a limit give equal Itos (place, descriptor and value function) if the separator cannot overlap itself.','all Itos, all bounds (absent, negative, beyond the ends), character sets, separators without self-overlap',inf,'pawpaw/ito.py:Ito.__getitem__','pawpaw/ito.py:Ito.join','pawpaw/ito.py:Ito.str_strip','pawpaw/ito.py:Ito.str_split','pawpaw/ito.py:Ito.str_rsplit')
p('C134','A query of one axis gives what the members of the Ito give','find_all of "*" gives the child list and of "-*" its reverse; "**" gives walk_descendants, "-**" its reverse, "***" those of them without children; "." gives the Ito, ".." its parent or nothing, "...." what get_root returns, or nothing for an Ito without a parent, "..." exactly the Itos that descends_from says yes to; "<<" and ">>" give the children of the parent before and after it, nearest first, "-<<" and "->>" reversed, "<" and ">" the nearest only; an Ito without a parent has nothing beside it.','all trees, all nodes, all environments that print the axis characters',inf,'pawpaw/ito.py:Ito.find_all','pawpaw/ito.py:Ito.get_root','pawpaw/ito.py:Ito.walk_descendants','pawpaw/ito.py:Ito.descends_from','pawpaw/query/_query.py:Axis')
open('/verif/properties.jsonl','w').write(''.join(json.dumps(x,ensure_ascii=False)+'\n' for x in P))
print(len(P))
