# Formal model of rlayers/pawpaw in Rocq (Coq 8.16.1)

## 1. Approach

The code is Python. Every modelled function is transcribed, branch by branch, as a
total Gallina function; exceptions are values (`res A := Ok a | Err e`), loops are
structural recursion / folds or recursion on explicit fuel whose exhaustion is the
distinguished error `OutOfFuel` (theorems then show that it cannot occur, or say so).
Generators are evaluated eagerly (the list of everything they yield, plus how they
end); where laziness matters (`find`, `limit`) this is said at the definition.

* **Strings** are lists of code points (`pystr := list Z`). CPython string primitives
  (slicing, find/rfind/count/startswith/endswith/split/...) are modelled once, in
  `Py.v`, and each is given a declarative characterisation (vocabulary in `SpecPy.v`, theorems
  `Cnn_python_*` in `Properties_Py.v` and `C06_python_find_is_leftmost`/`rfind`; for the methods
  with loops also that the characterisation has one solution only), so that an equality
  "Ito method = str method on the substring" has content.
* **Character classes** (`isspace`, `isalpha`, ...) are explicit function arguments,
  universally quantified in the theorems: nothing about Unicode tables is assumed.
* **Regex engine** is an oracle: an arbitrary list of match spans; theorems state the
  contract they need (ordered, disjoint, inside the searched span) as a hypothesis.
* **Object graph**: a heap (list of nodes, id = index) for everything about `parent` /
  `children` identity, histories and failures part-way (operations return the heap
  *also when they raise*); a pure labelled tree for shape properties (walks, queries,
  JSON, add_hierarchical canonical form), linked to the heap by a representation
  relation.
* `Properties_*.v` contain only property theorems (closed by `exact lemma`),
  non-vacuity `Example`s and `Print Assumptions`. `Spec*.v` contain the small
  independent specifications the statements use.

Convention when the code violates the intended property (many cases, see section 4):
the property text is the intended one; `X_partial` is proved on the largest domain we
found where it is true, `X_refuted` exhibits a concrete counter-example evaluated by
the kernel; MANIFEST status is then `partial`.

## 2. Plan per property

| id | model | proof |
|----|-------|-------|
| C01 C02 | `Span.from_indices`, `Span.offset` over Z | arithmetic + equality with CPython slice normalisation |
| C03 C04 C05 | Ito constructor, `__str__`, `__len__`, `__getitem__`, `__iter__` on flat Itos | list lemmas on slices; C05 refuted for negative indices, exact domain proved |
| C06 C07 C08 C14 | `str_*` search / affix / predicate methods against CPython primitives | locality lemma: searching `s` in `[a,b)` = searching `s[a:b]`; C06 C07 C08 C14 have refuted corners |
| C09 C10 C11 C12 C13 C15 | strip, partition, split families, `split_iter` | induction on fuel/length; refuted corners for C09 C10 C12 C15 |
| C16 | `to_line_col` | occurrence counting |
| C17 C18 C19 C20 C21 C22 | heap operations | invariants over all op lists; C20 C21 C22 refuted + partial |
| C23 C24 C25 C26 | `add_hierarchical` on trees (pure) and heap | canonical containment tree unique; refuted corners |
| C27 C28 C29 | `from_match`, `from_re`, `GroupKeys` | stack invariant; list lemmas |
| C30 C31 C32 C33 C34 | `from_gaps`, `invert_children`, `from_substrings`, `join`, `adopt`, `strip_to_children` | coverage specification over positions |
| C35 C36 | walks, `get_root`, `descends_from` | induction on trees / parent chains |
| C37 | `__eq__` with dynamic dispatch over a class hierarchy, `__hash__` | case analysis |
| C38 C39 C40 C62 | `util.py`, `escape`/`descape` | automata-style inductions |
| C41 - C49 | query: axes, filters, combination parser, phrases, path | tree-position model; parser for filter expressions |
| C50 C51 | JSON encoder/decoder on the dict level, `__getstate__/__setstate__` | induction on trees; C50 refuted corners |
| C52 C53 C54 C55 C56 | Itorator pipeline, Split, Invert, Nuco | induction over connectors; coverage spec |
| C57 C58 | postorators | list inductions |
| C59 | ontology discover / flatten / filter | induction on key trees |
| C60 C67 | Highlighter, SGR encoder, colours | run decomposition of the text; injectivity of the codes |
| C61 C68 C69 | `__format__`: find the directives, match each, replace from the right | the spec is a list of segments expanded independently; C69 refuted corner |
| C70 C71 C72 C73 | pepo.py: the texts written by Json, Compact, Tree, Xml | trees of JSON/XML grammar derivations; lines paired with the walk; C70/C72/C73 refuted corners |
| C74 C75 C76 C77 C78 C79 | ascii_box.py: directions, the table of 128 characters, exact and fuzzy lookup, turning, boxes around text, boxes from sides and corners | arithmetic modulo 360; the loop of the lookup by induction, facts about the table by `vm_compute` inside proofs; invariants of the four places; C77/C78 refuted corners |
| C80 C81 C82 | xml_parser.py: the indexer from expat positions to offsets, the three regular expressions in a small backtracking matcher, `_extract_itos` on the heap | state invariant of the indexer (it knows the beginning of the current line); grammar of documents with source text, event report and expected tree; leftmost-match lemmas for each pattern; induction on documents; C80/C81 refuted corners |
| C83 C84 C85 C86 C87 | xml_helper.py, and the value functions of xml_parser.py, over the queries of Query.v | `str_split` facts (C11), the Clark pattern in the matcher of C81, exact results of the five query texts (C41, C46), chains of elements of a parsed document, induction over the chain; refuted corners |
| C88 C89 C90 C91 C92 | nlp.py: the patterns of Paragraph, Sentence, Number, SimpleNlp in a matcher with counted repetition and look-around, the pipeline in the connectors of C53 | the languages of the patterns and where the first way to match ends, by induction over the patterns; the pipeline stage by stage (C54 Split, C65 Extract); layout of paragraphs and sentences by induction over the matches |
| C93 | the attributes of Number and Paragraph, setters included | induction over the settings; refuted: setters and two of the keyword arguments |
| C94 | `_parse_canonical_re` (the pattern of PEP 440 appendix B) as an expression of the engine of Nlp.v | the language of the expression, read off its structure; refuted: trailing newline (`$`), local identifiers |
| C95 C96 C97 | table.py: the expression built from a style, the chunks of equal indentation, the itorators; a regex engine with priorities | every way of the engine is a layout and every layout is a way (structural induction on the expression); the search by induction; maximal chunks as chains of lines; first ways for lazy rows; refuted corners by vm_compute |
| C98 C99 C100 C101 | `_type_magic.py`: types as trees of classes and unions, functions as parameter lists with hints, the binding of a Python call | induction over types and parameter lists; the pairing of invoke_func as a relation (`wired`); refuted: typing.Optional, unions on the left, covariant parameters, equal values, skipped parameters, star parameters |
| C102 | Paragraph.get_itor with and without trim_ws, as a pipeline of wrap, Recurse and Split | the layout of C90 for any window and any number of separators; the strip of C09; refuted: paragraphs between the first and the last keep their white space |
| C103 | TYPE_1 as a style of the model, drawn tables (lines of dashes and pluses) in SpecStyle | the texts its patterns stand for; C95, C96 and C97 joined by determinism |
| C104 | the same for TYPE_2, with the shared indentation | C95, C96, the language of its patterns; refuted: tables in mid-line are found, tables below a blank line or with a one-character line are not |
| C105 | from_spans over strings and Itos | C03 for each span; exactness for spans in range |
| C106 | __repr__ through the format spec of the model of __format__ | the three directives evaluated symbolically |
| C107 | value and value_func as the dictionary entry of the instance and the private field, histories of assignments, clones, loads | an invariant that ties both to the last assignment, by induction on the history |
| C108 | join after split_iter, iteration | tilings; C15, C04 and C33 |
| C109 | the argument checks of util.py, split_unescaped with several separators | case analysis; the cuts of C39 |
| C110 | clone of every kind of itorator (ArborClone.v) | unfolding of the pipeline; refuted for all kinds but bare wrapped functions |
| C111 | the searches by local name over element trees (XmlFind.v) | places as paths of child numbers, document order on them, induction over the tree |
| C112 | the setters of RegexItorator as steps of a history (RegexItor.v) | induction over histories with C29; refuted when the pattern changes later |
| C113 | Infix with Python's dispatch of binary operators (Infix.v) | case analysis; refuted for operators as left operands |
| C114 | the regex methods on the engine of Table.v (ItoRegex.v) | engine sound and complete for the language of simple patterns |
| C115 | parse_re on the engine of Table.v, white space and case-insensitive letters as arguments (VersionParse.v) | engine = denotation with captures (DenFacts); an identifier is read in one way only, part by part; soundness part by part |
| C116 | split_iter (ItoStr.v) over the matches of the engine (ItoRegex.v) | C15 on spans + C114 for what lies between matches |
| C117 | `_shunting_yard`, `_get_precedence`, `Query.__init__` on the tokens its parser yields (OntQuery.v) | expressions and their meaning as a grammar (SpecOntQuery.v); induction over expressions, reading the output and stack as a postfix context |
| C118 | `to_re_char_set` over an escaping class (CharSet.v) | a reader of character sets (SpecCharSet.v), induction over the characters |
| C119 | the pipelines of Arbor.v; the moments of a run with an arbitrary consumer (SpecPipe.v) | induction over generators with a structural form of the invariant; add_hierarchical by induction over its recursion, without acyclicity |
| C120 | the constructors over a type of argument objects, with functoid_isinstance of TypeMagic.v (Ctors.v) | documented arguments as inductive relations (SpecCtors.v); case analysis over functoid_exact and validate_spec |
| C121 | Query.v, Axis.v, clone_h, pickle over two heaps | places as routes of child numbers (SpecCopies.v); a relation between the nodes of two heaps that preserves data, parents, children and identity is respected by each axis, filter, combination and sub-query; being at the same place is such a relation |
| C122 | errors.py with its texts (Errors.v) | alternatives and their writing as inductive relations; induction on the size of the types |
| C123 | ChildItos.__getitem__ (ChildSlices.v), __delitem__ and __setitem__ (Heap.v) | the language reference rule for slices as an arithmetic relation (SpecSlices.v); induction on the run of positions and on the inserted list |
| C124 | the axes as in C41 and C42 | from the sets of C41/C42; induction on the ancestor relation for the steps |
| C125 | Query.v as it is | a predicate on compiled functions closed under combination is carried through the constructors (the number of open parentheses and the length of sub-queries decrease), with error kinds and the root of every axis result |
| C126 | new JsonDoc.v: documents, dicts with duplicate keys, the hook called bottom-up with Itos already in place, every failing subscript and argument | add_hierarchical of fresh trees, fitting or not, accepts or raises ValueError (measure: nodes of both trees); induction on the document with the heap extended and old objects sealed |
| C127 | no new model code; results of queries as the only vocabulary | a search that ends without exception has evaluated every filter at every node, so its result determines the filter there (no node twice); then C46 |
| C128 | the mixin methods index, count, __reversed__ of collections.abc.Sequence that ChildItos inherits, over __getitem__ | invariant of the loop; children of a well-formed node have different spans |
| C129 | no new model code (Query.v); escaped name lists, dictionaries as lists of entries, predicates as functions that may raise | the written filter parses to its key and list (C63); the search is the sifting of the axis by it |
| C130 | no new model code (Arbor.v) | a call is a clone (C17) followed by the transform; writing one field of a fresh root keeps the rest |
| C131 | no new model code (Combin.v) | induction over the scan with the flag set, and comparison of the two scans; the complement of a complement from the characterisation of C30 |
| C132 | no new model code (ItoStr.v) | the loops of strip, split and splitlines with an invariant on positions; one cut lemma for every segment |
| C133 | no new model code (ItoStr.v) | positions of the pieces from C132; the split relation shown to contain every limitless rsplit, and unique |
| C134 | no new model code (Query.v, Axis.v, Heap.v) | the query text read by the theorems of C41; each axis compared with the member it repeats |
| C63 C64 C65 C66 | escape -> filter value, index filters, Extract, ontology query escape | reuse of the parsers of C38, C46, C59 |

## 3. Trusted base

* **Coq 8.16.1's kernel** (the `vcheck` rebuild from a clean checkout; no plugins, `_CoqProject`
  flags untouched, no `Unset Guard Checking` and the like).
* **Axioms: none.** Every property theorem is followed by `Print Assumptions`, and each prints
  `Closed under the global context`. No `Axiom`, `Parameter`, section-less `Variable`/`Hypothesis`,
  `Admitted`; no module types, functors, `Declare Module`. (`vcheck` reports the seven
  `Coq.ssr.ssrunder.Under_rel.*` fields of Coq's own ssreflect library: they are loaded by the
  standard library, no theorem here depends on them.) `vm_compute` is used in examples and
  refutations on closed terms; it is part of the kernel.
* **The transcription** Python -> Gallina, done by hand and read against /repo at the pinned commit;
  every definition cites file and lines. Section 5 lists what is not covered.
* **Python semantics** written down in `Py.v` and used everywhere: `str` as a list of code points,
  slicing, the `str` methods, `int` as Z. Where CPython's behaviour comes from tables or C code
  the model takes it as an argument instead (character classes, `repr`, `ascii`, `int()`, number
  formatting, regex matches), and the theorem quantifies over it.
* **Regular expressions of the code itself.** Where the claim is about a pattern written in the source (xml_parser.py, xml_helper.py,
  nlp.py), the pattern is a term of a small regex type and a backtracking matcher in Gallina gives the ways to match in the
  order of the `regex` module (greedy repetition, leftmost alternative, `finditer`). That this matcher agrees with the
  third-party engine is trusted; patterns supplied by the caller stay arguments.
* **Fuel.** Recursions whose termination is not structural carry a fuel argument; theorems show
  that the fuel the entry point supplies suffices (`walk`, `get_root`, `find_all`, `path`,
  `add_hierarchical`, JSON, pickle, `highlight`), or quantify over all sufficient fuels
  (arborform pipelines, where it is the depth of nested calls). Python's own recursion limit and
  memory exhaustion are not modelled.
* **Single thread.** The library starts no threads and uses no shared mutable module state
  (except caches of compiled regexes); only interleavings of a generator with its consumer are
  modelled (`strm` in Arbor.v).

## 4. Findings: where the code at this commit violates the intended property

Each has a `Cnn_*refuted*` theorem (a kernel-evaluated witness) beside the `_partial` theorem.

| id | finding |
|----|---------|
| C05 | `Ito('abc')[-1]` is `'b'`: negative keys are made relative to the string and offset again |
| C06 C07 | empty needle with start > end (C06), empty affix with end < -len (C07) differ from `str` |
| C08 | `str_isprintable` uses any() for all(); `str_islower/isupper` test isalpha |
| C09 C14 | `chars=''` treated as None; `str_removesuffix('')` empties the Ito |
| C10 | `str_partition` with absent separator raises for an Ito with children; `str_rpartition` pieces do not tile |
| C12 | white-space `str_split` wrong, `IndexError` or endless when `start != 0` |
| C15 | positive `max_split` performs no split at all |
| C20 | two Itos of equal span can be made children of each other: cyclic hierarchy |
| C21 | failing item assignment loses the old child; an Ito attached elsewhere is accepted; negative index clamped |
| C22 | `x in i.children` compares only `start` |
| C25 | `add_hierarchical` that raises leaves a misfit in the list, or a flattened subtree |
| C26 | a zero-width sibling makes `add_hierarchical` misplace; key None with same-span child |
| C30 | `from_gaps` wrong for nested non-gaps and non-gaps before `src` |
| C42 C43 | `<<<`/`>>>` use only the last input node; `UnboundLocalError` on an empty input |
| C45 | `><` deduplicates by `==`, not identity |
| C46 | `~([x])` loses the negation; `[a] & ([b])` TypeError; `) {` ValueError |
| C47 | `[~p:a,b]` is not the negation of `[p:a,b]` |
| C48 | `p/q` is not node-wise when q contains `<<<`/`>>>` |
| C50 | `JsonEncoder(full_tree)` on a root raises AttributeError; same-span only child flipped; zero-width nodes moved |
| C55 | Invert clones all children into every piece (ValueError); an empty Ito yields itself |
| C63 | `escape` does not protect leading white space, a trailing backslash, or '' |
| C65 | `Extract(desc=str)` raises AttributeError when used |
| C69 | `%substr!r00` drops everything |
| C70 | `Json(children=False)` writes a comma before `}`: never JSON |
| C72 | `Tree` ignores `children=False` |
| C73 | `Xml` writes `<itos>` for the end tag: never well-formed; a quote in a desc ends the attribute |
| C77 | a character that is not printed is left out of the width but padded for |
| C78 | corners copy the far arms of the sides: `from_sides(n='─', s='━')` does not join up; str sides raise AttributeError; no side raises StopIteration |
| C80 | `encoding` other than UTF-8: expat still counts UTF-8 bytes, offsets drift; a second `feed` replaces the text |
| C81 | a tab or line break after a tag name becomes part of it (ValueError with an attribute); `>` in an attribute value ends the tag; `<a>/></a>` is taken for an empty element; empty and single-quoted values are not seen; `x="u:v=" y="w"` is cut wrongly |
| C83 | `value()` of every tag in a start tag is the name of the last attribute (late binding of a loop variable in lambdas) |
| C84 | `get_qualified_name` of the start tag of `<a x:b="1"/>` is x:a |
| C85 | `EtName.from_item(element)` takes the whole text of a parsed element for its name; '' raises TypeError |
| C87 | `<a b="xmlns"/>` has the default namespace {xmlns}; `p:b="xmlns"` enters the prefix map |
| C93 | `Number(decimal_point=',')` raises AttributeError (the setter reads `_int_pat`, assigned later), as does `Number(thousands_sep_optional=False)`; `number.decimal_point = ','` leaves `number.re` as it was; `SimpleNlp(chars=True).from_text('in 42 days')` raises ValueError, and on texts without numbers no character is added (the delegate takes them first); `SimpleNlp(None)` and the property `SimpleNlp.number` raise AttributeError |
| C94 | `is_canonical('1\n')`, `is_canonical('1+a-b')` and `is_canonical('1+01')` are True |
| C95 | with equi_distant_indent a table is found in the middle of a line: table.py:40 assigns `re` instead of adding to it |
| C96 | an empty line above an indented table hides it (`[^ \t]` in table.py:33 takes the newline) |
| C97 | two tables with text between are found as one table, the text as one of its rows (DOTALL rows); with an end pattern, a separator directly above the lower edge is taken into the last row (`"---\n\|a\|\n\|-\|\n---"`) |
| C98 | `isinstance_ex(1, typing.Optional[int])` raises TypeError; `issubclass_ex(int | None, int)` is True |
| C99 | functools.partial objects are refused with a TypeError from `typing.get_type_hints` |
| C100 | `Filter(f)` refuses `def f(x: object) -> bool` and `def f(x: typing.Any) -> bool` and accepts a function of a subclass of Ito; `-> typing.Optional[str]` raises TypeError |
| C101 | `invoke_func(f, 1, True)` for `f(a: bool, b: int)` calls f(True, True); an unmatched optional parameter gets the value of the next one; *args raises TypeError; bound methods and functions without result hint raise KeyError |
| C102 | `Paragraph(trim_ws=True)` on `"a\n\n  b\n\nc"` yields the paragraph `"  b"`: the whole is stripped before it is split |
| C104 | `StyledTable(TYPE_2)` finds a table that begins within a line (`"x-----\n\| a \|\n-----"`), none below a blank line, and none with a line of one character (C96: `"--\nx\n--"`) |
| C110 | `Reflect().clone()` (and clone of every itorator except a wrapped function) raises TypeError: `type(self())` calls the itorator without argument; the clone of a wrapped function has lost connections and postorator |
| C112 | `e = Extract(regex.compile('(?P<x>.)(?P<y>.)'), group_filter=['y']); e.re = regex.compile('(?P<x>.)')` is accepted, every later use raises ValueError |
| C113 | with f and g Infix objects, `f \|g\| b` calls f's function with g instead of g's with f and b |
| C117 | `a\|b&c&d` is ordered as (a\|(b&c))&d: the loop of `_shunting_yard` compares with the precedence it looked up before popping; `Query(src)` prints and calls `exit(0)` |
| C118 | `to_re_char_set([])` is `[]`: not a set, it swallows what follows up to the next bracket |
| C119 | an itorator behind `Connectors.Children.AddHierarchical` that yields an Ito outside of its parent: the ValueError leaves that Ito among the children of a parent it does not point to |
| C120 | `itor.postorator = f` refuses the functions its hint allows; `Filter(None)` is accepted and raises TypeError when used; Nuco, Invert and the desc of WindowedJoin are not tested |
| C122 | A builtin class such as `dict`, given where it is not allowed, raises ValueError (`no signature found`) instead of TypeError; `Desc(5)` says it must be `type Union` |
| C123 | `children[::2] = itos` puts all the new Itos at the start of the slice instead of one for one: with Itos of exactly the replaced spans it raises ValueError and the old ones are gone |
| C132 | `i.str_removeprefix(p)` and `i.str_removesuffix(p)` build the result with `Ito(self, ...)` instead of `clone` (ito.py:1305, 1311): the value function, which strip, split and slices keep, is lost |

Other observations, not tied to a property: "Overlaps Case B" of `add_hierarchical` is unreachable;
`ontology.Query.__init__` ends in `exit(0)`; `Highlighter` compares `ito.children == 0` (never true);
`Rgb.from_24_bit` does not mask red.

## 5. What is modelled, file by file

| file | modelled | not modelled |
|------|----------|--------------|
| span.py | `from_indices`, `offset` (Span.v) | `__repr__`, type errors of the constructor |
| infix.py | Infix with the dispatch of `\|`, `<<`, `>>` (Infix.v), nuco | calls of a half-applied `x<<op` with two arguments |
| ito.py | GroupKeys, constructor, from_match, from_re, from_spans, from_gaps, from_substrings, clone, parent/children, path, `__getstate__`/`__setstate__`, JSON hooks (Json.v: on what the encoder writes; JsonDoc.v: on any document, the scanner and the recursion limit of the json library not modelled), eq/hash, iter, str/len, getitem, format, adopt, join, strip_to_children, invert_children, split_iter, `str_*`, get_root, walk_descendants, descends_from, find, find_all, to_line_col, ChildItos; `__repr__`, value and value_func (Api.v); regex_search/match/fullmatch/findall/finditer on a modelled engine (ItoRegex.v) | the regex module itself (its matches are an argument, or those of the modelled engine); concurrent and timeout |
| util.py | find_unescaped, find_escapes, escape/descape, split_unescaped, find_balanced | |
| query/_query.py | axes, filters, combinations, phrases, subqueries, parser | error message texts |
| arborform | Itorator connectors and traversal, Reflect, Wrap, Desc, ValueFunc, Filter, Extract, Split, Invert, Nuco, Regex, `clone` (ArborClone.v), the setters of RegexItorator (RegexItor.v), the argument tests of the constructors (Ctors.v); WindowedJoin, StackedReduce | logging; nlp-specific itorators |
| ontology/ontology.py | Discoveries, Ontology, rules as functions, `_query.py` escape, token ordering (OntQuery.v) | the parser of `_query.py` Query, `_Entity`, `_Mul`, find_all (unreachable: `exit(0)`) |
| visualization | highlighter.py, sgr.py encoders and colours, pepo.py printers, ascii_box.py | palettes.py constants; BoxDrawingChar objects made by the caller |
| xml/xml_parser.py | `_InternalIndexingParser`, `feed`, `_extract_itos`, `_find_text`, the extraction patterns | expat and ElementTree (what they report is an argument), value functions of elements and attribute lists (they return ElementTree objects), line/column/byte spans |
| xml/xml_helper.py | QualifiedName, EtName, get_qualified_name, get_xmlns, get_prefix_map, get_default_namespace, get_local_name, get_namespace, get_parent_element, reverse_find, get_text_itos, find_*_by_local_name (XmlFind.v) | get_element_text_if_found (only calls ElementTree's find) |
| nlp/nlp.py | the patterns of Paragraph, Sentence, Number, the word pattern; to_re_char_set (CharSet.v); Number's attributes and setters; min_separators, trim_ws; SimpleNlp and its pipeline | KeyedPrefix, unicode_bullets, Paragraph.separators (its setter always raises) |
| _version.py | `Version.is_canonical`, `__version__` (Version.v), `Version.parse_re` (VersionParse.v) | the module-level check that `__version__` is canonical |
| _type_magic.py | unpack, isinstance_ex, issubclass_ex, functoid_isinstance, invoke_func (TypeMagic.v) | type variables, Literal, Annotated; classes and some builtins as functions; hints postponed by `from __future__ import annotations` in invoke_func |
| table/table.py, table/styles/styles.py | `_build_re`, `_re_equi_ident`, `get_itor`, TYPE_1, TYPE_2 (Table.v), on a backtracking engine with lazy repetition and back-references; the patterns of a style as parsed expressions | a pattern with `\|` outside parentheses (inserted without parentheses, table.py:48-66); look-around, groups and references in the patterns of a style |
| errors.py | the exceptions made for parameters, with their texts (Errors.v) | str() and repr() of types and values: arguments |
