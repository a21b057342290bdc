# Formal model of arne-cl/discoursegraphs in Rocq (Coq 8.16.1)

## Trusted base

* The Coq 8.16.1 kernel (including `vm_compute`, used only for closed
  computations in examples and counterexamples).
* Assumptions: every property file prints `Print Assumptions` after each
  theorem; all of them print `Closed under the global context` (no axioms, not
  even those of the standard library).
* std++ (`stdpp`) is used for notations, lists, permutations and decision
  procedures; it adds no axioms. Loading it loads `Coq.ssr.ssrunder` of Coq's
  own library, whose module contains declared constants that `vcheck` lists as
  library axioms; no theorem here depends on them.
* The hand translation of the Python 2 code into Gallina. Every model
  definition cites file and lines in /repo and says where it simplifies.
* The behaviour of third party libraries (networkx 1.x `MultiDiGraph`,
  `nltk.Tree`, `lxml`, `re`) as described in the comments of the model.

## Conventions

* Files `Prop*.v` contain only property theorems, one-line proofs or short
  derivations, `Example ..._hyp` showing that the hypotheses can be met, and
  `Print Assumptions`.
* `Spec*.v` contain the vocabulary of the statements, independent of the model
  helpers.
* Python exceptions are values; a mutating call returns the (possibly partly
  changed) graph and the exception, so the state after a failed call is visible.
* A theorem `..._refuted` proves that the property as documented/expected is
  false of the code, by a concrete counterexample that is reachable through the
  API. `..._partial` proves a named part of a property.
* Nondeterminism (iteration order of plain dicts and sets, the topological sort
  of networkx) is a relation; theorems hold for every outcome.

## Which code is modelled

Modelled function by function (see the header of each file):
* `DocGraph.v`, `Relabel.v`: discoursegraph.py mutators, relabel.py, merging.
* `Query.v`: read-only functions of discoursegraph.py, util.py sorting.
* `Text.v`: string functions of util.py, readwrite/generic.py, mmax2.py, dot.py,
  exmaralda.py.
* `Tree.v`: readwrite/tree.py traversal and bracket output, freqt.py.
* `Rst.v`: rs3filewriter.py, rs3tree.py. `Dis.v`: dis writer and reader.
  `Nltk.v`: the nltk functions these call (from the nltk 3 source).
* `Statistics.v`: statistics.py. `Salt.v`: readwrite/salt/ (SaltXMIGraph and printing excepted). `Dot.v`: dot.py (drawing excepted). `Export.v`: gexf.py, graphml.py and the helpers in generic.py (up to networkx). `Merging.v`: the merging loops of corpora.py and merging.py. `Pcc.v`: corpora.py.
* further files are listed with the properties below.

Not modelled: command line entry points, XML parsing and serialising (documents
are element trees), file and codec handling, graph drawing, the neo4j and
networkx/numpy backends, and the readers/writers not named in
this file.

## Properties

For each property: what is modelled, how it is proved. Statements are in the
`Prop*.v` files, the English in properties.jsonl.

* **C01** Every node and edge carries a layers set. Model: DocGraph.v: all mutators; reachable histories as an inductive relation over API calls. Proof: invariant 'every node and edge has a layers set', induction over histories. Holds for histories in which add_nodes_from receives (id, dict) tuples and no empty layers tuple; the two excluded cases are refuted by reachable counterexamples (defects of the code).
* **C02** Layers are append-only. Model: DocGraph.v. Proof: per-call lemma: layers after = old union requested; induction over call lists. Bare ids in add_nodes_from replace layers: refuted by C02_bare_ids_refuted.
* **C03** Adjacency consistency. Model: DocGraph.v (node, adj and pred dictionaries of networkx). Proof: invariant Consistent, induction over histories incl. relabel and merge. All API calls, successful or not.
* **C04** add_edge without key adds exactly one new edge. Model: DocGraph.v add_edge. Proof: effect lemma comparing every edge before/after.
* **C05** add_node merges attributes and touches nothing else. Model: DocGraph.v add_node. Proof: effect lemma over the whole graph.
* **C06** add_nodes_from attribute precedence. Model: DocGraph.v add_nodes_from. Proof: induction over the node list. The documented precedence fails for existing nodes: refuted.
* **C07** add_edges_from attribute precedence and layer union. Model: DocGraph.v add_edges_from. Proof: induction over the edge list.
* **C08** add_edge creates missing endpoints in the graph namespace. Model: DocGraph.v add_edge. Proof: effect lemma. The docstring (edge only between existing nodes) does not hold; the statement describes the code.
* **C09** In-place relabelling is an isomorphism. Model: Relabel.v relabel_nodes(copy=False), topological order as a relation. Proof: induction over the mapping; isomorphism as a spec predicate.
* **C10** Relabelling corner cases. Model: Relabel.v. Proof: computed counterexamples and a general theorem on identity mappings. The desired property is false of the code; theorems state what happens instead.
* **C11** create_token_mapping is the positional bijection or an error. Model: Relabel.v create_token_mapping. Proof: induction over both token lists. Longer second document accepted silently: refuted.
* **C12** merge_graphs preserves the receiving graph. Model: Relabel.v merge_graphs. Proof: composition of effect lemmas. Requires different root ids, see C14.
* **C13** merge_graphs brings over all annotation of the other graph. Model: Relabel.v merge_graphs. Proof: composition of effect lemmas. Requires different root ids, see C14.
* **C14** merge_graphs corner cases. Model: Relabel.v merge_graphs. Proof: concrete reachable counterexamples. The desired property is false of the code: each clause is refuted.
* **C15** add_precedence_relations builds the token chain. Model: DocGraph.v add_precedence_relations. Proof: induction over the token list.
* **C16** Character offsets address the document text. Model: Query.v add_offsets, get_text. Proof: induction over tokens with running offset. Needs distinct token ids; refuted otherwise.
* **C17** get_offsets computes offsets on demand. Model: Query.v get_offsets. Proof: case analysis on presence of offsets. Stale and unlisted cases refuted/described.
* **C18** get_span returns exactly the tokens below a node. Model: Query.v get_span with recursion budget. Proof: soundness by induction on the budget, completeness by acyclicity measure.
* **C19** Span offsets enclose the span. Model: Query.v get_span_offsets. Proof: from C16-C18.
* **C20** is_continuous decides contiguity. Model: Query.v is_continuous. Proof: reduction to index intervals.
* **C21** Node and edge selection are exact filters. Model: Query.v select_*. Proof: filter lemmas over the edge/node lists. Untyped edges make select_edges_by fail: refuted.
* **C22** get_pointing_chains yields maximal chains. Model: Query.v get_pointing_chains. Proof: path induction, maximality.
* **C23** get_kwic cuts the text around the keyword. Model: Query.v get_kwic (util.py). Proof: list arithmetic with Python slice semantics on Z. Negative index wraps: refuted.
* **C24** natural sort orders embedded numbers numerically. Model: Query.v natural_sort_key, stable insertion sort for sorted(). Proof: lexicographic order on (string|number) lists.
* **C25** TokenMapper is a bijection between token ids and positions. Model: Query.v TokenMapper. Proof: induction over tokens.
* **C26** Segment token offsets are the first and last token index. Model: Query.v get_segment_token_offsets. Proof: min/max over index lists.
* **C27** MMAX2 span strings denote inclusive ranges. Model: Text.v convert_spanstring/spanstring2tokens. Proof: string splitting lemmas. Leading zeros are lost: refuted.
* **C28** pydot quoting round trip. Model: Text.v quote_for_pydot/unquote_from_pydot. Proof: character induction, graphviz reader as spec. Backslash cases refuted.
* **C29** FREQT export is balanced and faithful. Model: Tree.v node2freqt/sentence2freqt/docgraph2freqt. Proof: independent s-expression reader as spec. Escape is ambiguous: refuted.
* **C30** xpointer-compatible ids. Model: Text.v ensure_xpointer_compatibility. Proof: character induction. Collisions: refuted injectivity.
* **C31** EXMARaLDA ranges are half open. Model: Text.v gen_token_range. Proof: numeric ranges.
* **C32** RS3 writer produces a well-formed rs3 document. Model: Rst.v RS3FileWriter. Proof: structural induction over trees, layout of element blocks. Two satellites under one relation: cycle, refuted.
* **C33** RS3 write/read round trip. Model: Rst.v RSTTree reader. Proof: writer layout + reader evaluation, structural induction. Equal EDU texts and two-typed names refuted.
* **C34** RS3 relation headers depend only on the tree. Model: Rst.v class-level dictionary as explicit state. Proof: induction over the list of trees written before. History independence refuted; the exact header is proved.
* **C35** dis writer span indices. Model: Dis.v. Proof: structural induction with running unit number.
* **C36** dis write/read round trip. Model: Dis.v, Nltk.v (pformat, fromstring, re.sub as scans on text). Proof: token stream of every layout is the token stream of the tree; escaping inverse; structural induction. Each restriction on texts/names is shown necessary by a _refuted theorem.
* **C37** Discourse parser output conversion preserves text and nuclearity. Model: Parsers.v (hilda.py, dplp.py, stagedp.py) with Nltk.v for reading bracketed text. Proof: structural induction over parses; token stream lemmas for text; merge file line/field splitting lemmas. Class names in texts and underscores in StageDP tokens refuted (defects of the code).
* **C38** Heilman/Sagae conversion totality. Model: Parsers.v (heilman_sagae_2015.py). Proof: structural induction over parser trees, outcome lemma covering both cases. Trees with several satellites always raise NameError: C38_several_satellites_refuted states it for all of them.
* **C39** PTB import keeps all constituents and tokens in order. Model: Ptb.v (ptb.py on the trees that nltk yields), SpecPtb.v (numbering of constituents), PathFacts.v (spans of nested parts). Proof: structural induction over parse trees with the invariant "the graph has exactly the nodes and edges of the constituents read so far and all ids are below the counter"; spans by the nesting of the numbered constituents. Ignore_traces=False has no effect below the top level, single-word sentences raise KeyError, unary constituents lose their category, several words in one constituent are merged: the _refuted theorems.
* **C40** Bracketed output: text, balance and nesting. Model: Brackets.v (brackets.py) on top of the pointing chains of Query.v. Proof: token loop as a list of open/close groups, balance by counting, nesting by induction over span trees. Labels are right for nested spans where an outer span that starts at the same token has the id that sorts first; swapped, crossing and repeated spans refuted.
* **C41** Anaphoricity reading and writing. Model: Anaphora.v (anaphoricity.py: regular expression, reader, writer), ImportFacts.v for the nodes and edges built. Proof: loop invariant "the graph has exactly these nodes and edges" over the words; leftmost match as a relation; writing as Forall2 over the words. Certain annotations always come back uncertain and the text around a match inside a word is lost: C41_certain_refuted (for all texts), C41_search_refuted.
* **C42** CoNLL 2009 export: words, sentences and a balanced coreference column. Model: Conll.v (Conll2009File/write_conll on top of Query.v: pointing chains, select_nodes_by_layer, get_span; set order is a parameter, the tokens attribute of sentences a function), SpecConll.v (file format, entries, reader). Proof: invariants of the two mapper loops, Forall2 between tokens and columns; balance by counting (markable, chain) pairs per first/last token. A token reached twice leaves its chain open and line breaks in words break rows: the _refuted theorems.
* **C43** ConAno import. Model: Conano.v (conano.py on an XML tree type; lxml parsing itself is not modelled), SpecOutline.v (generic outline of nested nodes and words). Proof: induction over XML trees with the invariant "the graph has exactly the nodes and edges of the outline read so far"; spans by induction over the nesting. Spans with shared connective ids and with precedence edges refuted (C43_repeated_refuted, C43_shared_refuted, C43_precedence_span_refuted).
* **C44** DeCour import. Model: Decour.v (decour.py on an XML tree type), SpecOutline.v. Proof: same invariant as C43; the converse by case analysis: content exists or the run raises. Order of acts, second acts and equal turn numbers refuted (C44_order_refuted, C44_same_number_refuted).
* **C45** make_labels_explicit labels every element once. Model: Text.v make_labels_explicit. Proof: dictionary lemmas. Parallel edges refuted.
* **C46** sorted breadth-first traversal visits each node once. Model: Tree.v sorted_bfs_edges. Proof: loop invariant of the breadth first search. Cyclic graphs: order clause refuted.
* **C47** Bracket strings denote the tree. Model: Tree.v tree2bracket. Proof: independent s-expression reader as spec. Bracket tokens refuted.
* **C48** Geoff export lists every node and edge once. Model: Geoff.v (geoff.py, neo4j.py, layerset2list; the JSON encoder is a parameter, set and dict orders are relations), SpecGeoff.v. Proof: Forall2 between nodes/edges and lines; injectivity of the line formats by cutting at the first/last delimiter. Ids with line ends and equal texts of number and string ids: the _refuted theorems.
* **C49** brat offsets agree with the text file. Model: Brat.v (brat.py on top of the pointing chains of Query.v and spanstring2tokens of Text.v), SpecBrat.v. Proof: invariant of the markable loop (first token -> markables, markable -> last number), division of the markables by first token, segment lemma of joined words. Discontinuous and shared mentions: the _refuted theorems.
* **C50** Simultaneous string replacement. Model: Text.v create_multiple_replace_func. Proof: scan lemmas. Dict order / empty map refuted.
* **C51** Integer relabelling is a bijection. Model: Convert.v (relabel.py:152-207 on top of Relabel.v), SpecConvert.v (order of labels, degree, numbering). Proof: the numbering is a renaming as in C09 (relabel_inplace_iso); sorted orders by permutation and strictness of the sort. Tokens, root and sentences of the result dangle, own numbers and loops at 0 lose data, swapped numbers raise: the _refuted theorems.
* **C52** add_prefix renames keys only. Model: Text.v add_prefix. Proof: dictionary lemmas.
* **C53** Sentences are sorted in text order. Model: Text.v sort_sentences_by_token_order. Proof: stable sort lemmas.
* **C54** CoNLL import is faithful and total. Model: ConllRead.v (conll.py:48-335, ConllDocumentGraph on the text of the file), SpecConllRead.v (lines, columns, features, words, nodes and edges). Proof: text: splitting lemmas for paragraphs/lines/columns; graph: invariant "exactly these nodes (up to order) and edges" over sentences and rows; acceptance by case analysis on the text. Precedence=True only for rejection; features named token and equal word ids: the _refuted theorems.
* **C55** Dependency spans of CoNLL documents. Model: get_span of Query.v on the graph of C54. Proof: each node has one parent, acyclicity by climbing the chain of heads, below = governed by induction; order by natural sorting of the ids.
* **C56** traverse_dependencies_up follows the chain of heads. Model: traverse_up (conll.py:480-497) on the graph of C54. Proof: induction over the chain of heads; divergence by induction over the fuel.
* **C57** write_conll output can be read back. Model: composition of Conll.v (C42) and ConllRead.v (C54). Proof: the written text is the text of an explicit document of lines, whose words are computed. Empty sentences: the _refuted theorem; coreference columns are not read in this format.
* **C58** Literal arguments: no hidden sharing between elements or graphs. Model: Alias.v (the mutators of discoursegraph.py:74-640 on an explicit heap of dict and set objects; adjacency dictionaries and token lists stay values), SpecAlias.v. Proof: refinement of the value model DocGraph.v: ownership invariant (distinct dictionaries, layer sets referenced once) kept by every call, simulation of every mutator; isolation from the value semantics. The excluded call: C58_keyword_layers_refuted.
* **C59** Arguments that are existing objects: what a call may share. Model: Alias.v, calls given arbitrary references. Proof: the same simulation for one call under the ownership condition on arguments and graphs. The five _refuted theorems are concrete heaps that violate the condition, two of them as merge_graphs/merge_rootnodes do.
* **C60** merge_graphs: effect on the graph that is merged in and on all others. Model: AliasMerge.v (merge_graphs and merge_rootnodes, discoursegraph.py:703-743, on the heap of Alias.v; the renaming before it, merged_rootnodes and the sharing of the token list are not modelled), SpecAliasMerge.v. Proof: simulation of merge_renamed (Relabel.v) phase by phase under the ownership invariant; a frame relation (which addresses may be written) shows that the dictionaries of the other graph are only written in the root loop. Hypothesis: token attributes are not sets; C60_merged_layer_refuted shows the sharing that remains.
* **C61** TigerXML: the graph of a sentence. Model: Tiger.v (tiger.py on the element tree; the "tokens" list of a root is an object id, its contents are kept beside the graph), SpecTiger.v (mentions, layers, edges read off the elements). Proof: invariant "exactly the nodes described by the mentions so far and exactly these edges" over the loops for tokens, phrases and edges; rejection by inversion of successful runs. The four _refuted theorems.
* **C62** TigerXML: spans of constituents. Model: get_span of Query.v on the graph of C61. Proof: covers = under, acyclicity because unattached nodes have no children, climbing to the root in trees, uniqueness of parents for duplicates. The two _refuted theorems.
* **C63** TigerXML: documents. Model: read_tiger (tiger.py:56-114) on top of tiger_sentence. Proof: copying a graph of known contents into another one (BuiltFrom.v), combination of equal ids; spans stay inside sentences. Spans are proved for the namespace tiger only (C63_namespace_refuted shows why).
* **C64** TigerXML: queries. Model: terminals_and_nonterminals, unconnected_nodes, subordinate_clauses of Tiger.v. Proof: properties of filters, degrees and of select_edges_by_attribute (C21).
* **C65** MMAX2: import of a project. Model: Mmax.v (mmax2.py:95-338 on element trees; the project is given as words, levels and annotation files; the set object that all markables of a level share is modelled by a list of its holders), SpecMmax.v (nodes and edges read off the elements). Proof: invariant "exactly these nodes and edges" over words, levels and markables; acceptance by inversion of successful runs. Antecedents that name a level only in the _refuted theorems; ignore_sentence_annotations=False is modelled but not part of a theorem.
* **C66** MMAX2: spans and coreference chains. Model: get_span and pointing chains of Query.v on the graph of C65. Proof: the only spans edges are those of markables to words, so that covering is one step; chains by C24 on the points_to edges. With precedence or connected: the _refuted theorems.
* **C67** MMAX2: sentences. Model: get_sentences_and_token_nodes, sort_sentences_by_token_order. Proof: sorting lemmas of C27/StrNum.v.
* **C68** MMAX2: text of spans and potential markables. Model: spanstring2text, get_potential_markables. Proof: rmap/rfilter lemmas. The two _refuted theorems.
* **C69** RST trees in LaTeX: the figure. Model: Latex.v (rstlatex.py on nltk trees; text is ASCII), SpecLatex.v (RST trees, figures and their LaTeX text). Proof: structural induction over trees; the satellite loop of bundles by an invariant (satellites before, nucleus, satellites after); unique reading of figures by induction with the rest of the text; braces by counting depth. The writer to a file (adds a line end) is not modelled; the _refuted theorems.
* **C70** RST trees in LaTeX: accepted trees. Model: Latex.v. Proof: induction over the size of trees, success of each phase of the writer as an equivalence.
* **C71** RS3 files as document graphs: nodes. Model: Rs3Graph.v (rs3graph.py; XML as the list of elements of Rst.v), SpecRs3Graph.v (nodes and edges of a file). Proof: invariant over the prefixes of segments + groups: the attributes of each node as a function of the elements read (Rs3Desc.v, Rs3Read.v), tokens as a second loop (Rs3Doc.v); failures: loop lemmas. The name of the graph and the attribute tokenized are not modelled; the _refuted theorems.
* **C72** RS3 files as document graphs: edges. Model: as C71. Proof: as C71.
* **C73** RS3 files as document graphs: text and EDUs. Model: as C71, get_text and get_edus. Proof: as C71.
* **C74** RS3 files as document graphs: spans. Model: get_span of Query.v on the graph of C71. Proof: paths in the graph = paths in the file (Rs3Span.v), every node has at most one incoming edge. The _refuted theorem.
* **C75** RS3 files as document graphs: relations. Model: get_rst_relations, get_rst_spans. Proof: get_rst_relations per element by a fold over its edges in any order (Rs3Rel.v), extents by min/max (Rs3Spans.v), lists up to permutation. The _refuted theorems.
* **C76** URML documents: nodes and edges. Model: Urml.v (urml.py; a document as its segments and relations), SpecUrml.v (nodes and edges of a document). Proof: invariant "described nodes, else bare mentions" over segments and relations (UrmlFacts.v, UrmlDoc.v); failures: loop lemmas, cycles make the distances run out (UrmlPath.v). URMLCorpus: C106; the attributes tokenized, segment_types are not modelled; the _refuted theorem.
* **C77** URML documents: the root. Model: dag_longest_path of networkx 1.11 as recursion over predecessors. Proof: distances = lengths of longest paths by induction over the fuel, acyclicity bounds the fuel (UrmlPath.v). The _refuted theorem.
* **C78** URML documents: text, EDUs and spans. Model: get_text, get_edus, get_span of Query.v on the graph of C76. Proof: paths in the graph = links in the document (UrmlSpan.v). The _refuted theorems.
* **C79** Exmaralda documents: nodes and edges. Model: Exb.v (exmaralda.py:274-450; a document as its timeline of ids and times and its tiers of events; times are integers), SpecExb.v (nodes and edges of a document). Proof: invariant over tiers: attributes of each point are the marks read so far, span nodes and edges appended (ExbRead.v, ExbDoc.v); rejection by loop lemmas. Times that are no numbers are not modelled; the _refuted theorem.
* **C80** Exmaralda documents: text and spans. Model: get_text and get_span of Query.v on the graph of C79. Proof: every node has its children in the list of edges, points have none (ExbSpan.v); order by natural sorting of the ids.
* **C81** Exmaralda export: tiers and events. Model: Exb.v (exmaralda.py:24-271 and 452-491; the header and the speaker table are constant and not modelled; the order of sets and dictionaries and the pointing chains are parameters), SpecExbWrite.v (what a tier says about a graph). Proof: Forall2 between attributes, layers, chains and tiers (ExbWrite.v); success of each loop as an equivalence. The _refuted theorem.
* **C82** Exmaralda export and import. Model: composition of C81 and C79; absent text for empty strings (lxml) is part of the model. Proof: the written document is formed and distinct because of its numbering; values by looking up the last mark of a point (ExbBack.v, ExbTrip.v). The _refuted theorem.
* **C83** PAULA export: text and tokens. Model: Paula.v (paula.py:78-202 and 583-601; an XML file is its id and content; comments of human_readable are not modelled), relabelling of Relabel.v, SpecPaula.v (what the files say). Proof: the relabelled graph is the image of the graph under the renaming (MergeFacts.v); offsets by induction over the words (PaulaFacts.v); loss of a token as an invariant of the relabelling loop (PaulaLost.v). That bytes are valid XML characters is assumed; the _refuted theorem.
* **C84** PAULA export: spans, hierarchies and features. Model: Paula.v (paula.py:204-401), SpecPaula.v. Proof: grouping by source as an invariant of the loop over edges, preimages under the renaming (PaulaDoc.v). The _refuted theorems.
* **C85** PAULA export: edges. Model: Paula.v (paula.py:403-553), SpecPaula.v. Proof: the same grouping, flattened to pairs (PaulaDoc.v). Which of several parallel edges is exported is left open; the _refuted theorems.
* **C86** PAULA export: set of files. Model: Paula.v (paula.py:95-117 and 555-581), SpecPaula.v. Proof: names are distinct because the part before the first dot is (PaulaAll.v).
* **C87** ExportXML: the graph of a document. Model: Exportxml.v (exportxml.py:171-718; element trees; the values of tokens and connective are kept beside the graph; text is bytes), SpecExportxml.v (nodes and edges described by each element). Proof: reading flattened to one step per element (ExportxmlStep.v), per-element lemmas (ExportxmlElem.v), induction over the elements read with the view of the graph as a function of what was said (ExportxmlFacts.v, ExportxmlDoc.v). The <text> element is given: what stands above it is not modelled; non-ASCII ids are not modelled.
* **C88** ExportXML: which documents are read. Model: as C87. Proof: step_only: a step that succeeds meets the needs of its element, by inversion; the converse is C87. The _refuted theorem.
* **C89** ExportXML: how often an element is read. Model: as C87. Proof: the list of elements read is a permutation of the elements and the children of words (ExportxmlMore.v). Hypothesis: no word is a child of a word; the _refuted theorem.
* **C90** ExportXML: spans. Model: get_span of Query.v on the graph of C87. Proof: covers = over; edges from a node of its own by the kind of its element; climbing from a word to its sentence in an acyclic domination (ExportxmlSpan.v). Without precedence; the _refuted theorem.
* **C91** ExportXML: ignored elements. Model: as C87. Proof: what is said with an option is what the remaining elements say without it (ExportxmlMore.v). That the document is read is a hypothesis: ignoring elements can remove a node that a later connective needs.
* **C92** ExportXML: iteration over a corpus. Model: the corpus of Exportxml.v (exportxml.py:66-164): the texts that the iterator has not given. Proof: induction over calls. The _refuted theorem; debug=True is not modelled.
* **C93** .dis files as graphs: the graph of a file. Model: Disgraph.v (disgraph.py:20-160, dis/common.py:65-133; the text of the file is the argument; text is bytes), SpecDisgraph.v (units and spans, what each says about nodes and edges). Proof: loop over the tree with a view of the graph as a function of what was said (DisgraphFacts.v, DisgraphDoc.v). That the text is the bracketed tree t is stated with the model of the bracket reader (dis_file); the form of t is the specification.
* **C94** .dis files as graphs: text, lost units and spans. Model: as C93, get_span and get_text of Query.v. Proof: units that are read as a sublist of all units (DisgraphMore.v); an edge without a type on every path to a word (DisgraphSpan.v).
* **C95** .dis files as graphs: files written from trees. Model: composition with Dis.v (the writer of .dis files, C35/C36). Proof: the written tree has the form of the document of the tree; units left by induction over the tree (DisgraphRst.v). The _refuted theorems.
* **C96** Node and edge statistics. Model: Statistics.v (statistics.py:17-70; printing collects lines; the order of dictionaries is a parameter), SpecStatistics.v (counts). Proof: counting as a fold with an invariant (StatisticsFacts.v), stable sort of StrNum.v; uniqueness of sorted counts. Networkx.info is not modelled; keys are printed as bytes.
* **C97** What a SaltDocument contains. Model: Salt.v (readwrite/salt/: labels, elements, nodes, edges, layers, SaltDocument; element trees; attribute values are bytes; the reference to the tree and printing are left out), SpecSalt.v (what an element says). Proof: an equivalence per constructor (SaltFacts.v, SaltDoc.v); elements below the root = preorder. The _refuted theorem.
* **C98** Salt elements survive writing. Model: to_etree of Salt.v. Proof: each written attribute is read by the lemmas of C97 (SaltBack.v). Hypothesis only_labels: annotations in other children are not written.
* **C99** LinguisticDocument completes the nodes. Model: LinguisticDocument of Salt.v; the order of dictionaries is a parameter. Proof: loops over edges as lists of attribute writes, the last write counts (SaltLing.v, SaltDone.v). References counting from the end are excluded by hypothesis; the _refuted theorem.
* **C100** What is drawn of a document graph. Model: Dot.v (dot.py:38-80; strings are ASCII; orders of nodes and edges are parameters; keys of parallel edges are left out), SpecDot.v (quoted strings, labels that can be shown). Proof: an equivalence per node and edge, adding nodes with distinct keys is appending (DotFacts.v). Drawing (pydot, graphviz) is not modelled; the _refuted theorem.
* **C101** Annotation layers of a graph. Model: the layer queries of Query.v. Proof: membership in concatenated lists of layers; splitting at the first colon (PaulaAll.v).
* **C102** The graph that is written to GEXF and GraphML. Model: Export.v (generic.py: layerset2str, attriblist2str, remove_root_metadata; gexf.py and graphml.py up to the call of networkx), SpecExport.v (exported attributes, prepared graphs). Proof: changing attributes of every node and every edge with an idempotent function (parallel edges are visited once per edge) changes each as intended and keeps the structure (change_ok, ExportFacts.v). Str() and which opaque values are lists are parameters (str of a string is the string); what networkx writes is not modelled; the _refuted theorem.
* **C103** Merging any number of annotation layers. Model: Merging.v (the merging loops of corpora.py:101-107 and merging.py:60-91 over merge_graphs of Relabel.v), SpecMerging.v (documents over one text, what their merge contains). Proof: one merge meets the conditions of the next (MergingFacts.v); contents compose from the front, by induction over the documents (MergingThm.v); the first merge into a new document (MergingEmpty.v). Choosing and reading files, and removing anaphoricity:root_node are not modelled; the _refuted theorem.
* **C104** Documents of the Potsdam Commentary Corpus. Model: Pcc.v (corpora.py:31-117; files and read functions are parameters; file names are bytes; slices, random documents and get_files_by_* are not modelled), SpecPcc.v (file names). Proof: the only place of maz- in a file name (PccFacts.v); the greedy match of the id is the last one; merging by C103. Ids with wildcards of fnmatch are excluded by hypothesis; the _refuted theorem.
* **C105** Reading files of the CODRA parser. Model: Codra.v (dis/codra.py:10-35 over read_dis of Dis.v; texts are bytes), SpecCodra.v (opened, unescaped, closed). Proof: each substitution is equivalent to its relation; occurrences of the escape cannot overlap (CodraFacts.v); round trip by C36. The tree of the .dis reader is that of the model; word_wrap=0.
* **C106** Iteration over a URML corpus. Model: UrmlCorpus.v (urml.py:22-128; an opening of the file is a position in the list of its documents, generators are Ready, Waiting or Finished; documents are read by read_urml of Urml.v), SpecUrmlCorpus.v (which opening a call asks, what it gave, which iterators have ended, as relations on the history of calls and answers). Proof: invariant over histories (UrmlCorpusFacts.v): positions, iterators and emptied elements as functions of the history. Documents are not nested; generators that are dropped do not run on (reference counting); C106_elements speaks of the emptied elements of the model.
