{"id": "C01", "title": "Every node and edge carries a layers set", "statement": "Starting from DiscourseDocumentGraph(namespace=..., root=...), after any sequence of add_node, add_nodes_from, add_edge, add_edges_from, add_layer, remove_node and add_precedence_relations calls that do not raise, every node and every edge of the graph has a 'layers' attribute whose value is a set of strings. It is non-empty unless the caller passed an explicit empty set inside an add_nodes_from tuple (which the code accepts).", "quantifier": "all namespaces, roots and all finite histories of mutating API calls with any arguments", "why_tests_cant": "the invariant is over unbounded call histories and argument shapes; tests sample a few short histories", "anchors": ["src/discoursegraphs/discoursegraph.py:DiscourseDocumentGraph.__init__", "src/discoursegraphs/discoursegraph.py:DiscourseDocumentGraph.add_node", "src/discoursegraphs/discoursegraph.py:DiscourseDocumentGraph.add_nodes_from", "src/discoursegraphs/discoursegraph.py:DiscourseDocumentGraph.add_edge", "src/discoursegraphs/discoursegraph.py:DiscourseDocumentGraph.add_edges_from", "src/discoursegraphs/discoursegraph.py:DiscourseDocumentGraph.add_layer"]}
{"id": "C02", "title": "Layers are append-only", "statement": "No add_node, add_edge, add_edges_from, add_layer call, nor add_nodes_from with (id, dict) tuples, ever removes a layer from a node or edge that is already in the graph; the layers of an addressed element become exactly the union of old and requested layers (documented: 'layers can only be added not overwritten or deleted'). add_nodes_from(ids, layers=...) with bare ids violates this.", "quantifier": "all graphs reachable by API histories, all arguments", "why_tests_cant": "monotonicity over all histories; the violating call shape is not covered by the doctests", "anchors": ["src/discoursegraphs/discoursegraph.py:add_node", "src/discoursegraphs/discoursegraph.py:add_nodes_from", "src/discoursegraphs/discoursegraph.py:add_edge", "src/discoursegraphs/discoursegraph.py:add_edges_from", "src/discoursegraphs/discoursegraph.py:add_layer"]}
{"id": "C03", "title": "Adjacency consistency", "statement": "After any history of API calls, v is a successor of u iff u is a predecessor of v iff there is at least one keyed edge u->v; both endpoints of every edge are nodes; no node, neighbour or edge key is listed twice. remove_node deletes the node with all its incident edges and nothing else.", "quantifier": "all finite histories of mutating API calls", "why_tests_cant": "an invariant of two redundant indices under arbitrary interleavings of mutators including self-loops and parallel edges", "anchors": ["src/discoursegraphs/discoursegraph.py:add_edge", "src/discoursegraphs/discoursegraph.py:add_node", "src/discoursegraphs/discoursegraph.py:add_nodes_from", "networkx 1.x MultiDiGraph.remove_node"]}
{"id": "C04", "title": "add_edge without key adds exactly one new edge", "statement": "add_edge(u, v) without key never changes or removes an existing edge between u and v (or anywhere else): it adds exactly one new edge under a key not used before; with an explicit key that exists it updates exactly that edge (new attribute values win, others kept, layers unioned).", "quantifier": "all graphs, nodes, keys and attribute dicts", "why_tests_cant": "the fresh-key search must be right for every set of already used keys, including non-contiguous and user-chosen ones", "anchors": ["src/discoursegraphs/discoursegraph.py:DiscourseDocumentGraph.add_edge"]}
{"id": "C05", "title": "add_node merges attributes and touches nothing else", "statement": "After add_node(n, layers, attr_dict, **attr): n is in the graph; every attribute of the call has the given value; attributes n had before and not mentioned keep their value; all other nodes, all edges, tokens and sentences are unchanged. Keyword attributes win over attr_dict.", "quantifier": "all graphs, node ids, attribute dicts", "why_tests_cant": "frame condition over arbitrary graphs and attribute dictionaries", "anchors": ["src/discoursegraphs/discoursegraph.py:DiscourseDocumentGraph.add_node"]}
{"id": "C06", "title": "add_nodes_from attribute precedence", "statement": "Documented: 'Node attributes specified in nodes as a tuple take precedence over attributes specified generally'. This holds for nodes that are new; for nodes already in the graph the general attributes win (the documented claim is false there).", "quantifier": "all graphs, node lists and keyword attributes", "why_tests_cant": "precedence must hold for every combination of existing/new node and colliding attribute", "anchors": ["src/discoursegraphs/discoursegraph.py:DiscourseDocumentGraph.add_nodes_from"]}
{"id": "C07", "title": "add_edges_from attribute precedence and layer union", "statement": "add_edges_from: attributes in an edge tuple win over attr_dict/keyword attributes, which win over attributes already on an addressed edge; the resulting layers are the union of the existing, tuple and general layers. Every 3-tuple adds one fresh parallel edge; a 4-tuple updates or creates the edge with the given key; all other edges are unchanged.", "quantifier": "all graphs, edge lists and attribute dicts", "why_tests_cant": "precedence and frame over arbitrary edge bunches with repeated edges", "anchors": ["src/discoursegraphs/discoursegraph.py:DiscourseDocumentGraph.add_edges_from"]}
{"id": "C08", "title": "add_edge creates missing endpoints in the graph namespace", "statement": "add_edge(u, v) on missing endpoints creates exactly those missing nodes with layers {ns} and no other attribute (the docstring claims 'an edge can only be added if the nodes u and v already exist'; the code does not enforce it), and never alters an existing node.", "quantifier": "all graphs and node ids, including u == v", "why_tests_cant": "frame condition over arbitrary graphs", "anchors": ["src/discoursegraphs/discoursegraph.py:DiscourseDocumentGraph.add_edge"]}
{"id": "C09", "title": "In-place relabelling is an isomorphism", "statement": "relabel_nodes(G, mapping, copy=False) with a mapping that is injective on its domain and whose new labels are not nodes of G renames exactly the mapped nodes: the relabelled graph has the image of every node with the same attributes and layers, and the image of every edge with the same key, attributes and layers, and nothing else.", "quantifier": "all graphs (including self-loops, parallel edges, edges among renamed nodes) and all injective mappings to fresh labels", "why_tests_cant": "relabelling is done one node at a time with edge re-insertion; correctness is needed for all graphs and all mapping orders", "anchors": ["src/discoursegraphs/relabel.py:_relabel_inplace", "src/discoursegraphs/relabel.py:relabel_nodes"]}
{"id": "C10", "title": "Relabelling corner cases", "statement": "A mapping that maps a node to itself must leave that node (attributes, layers, edges) unchanged, and a falsy new label must be treated as any other label. The code violates both: an identity pair deletes the node data, and a self-loop node renamed to 0 (or the empty string) resurrects the old label.", "quantifier": "all graphs and mappings", "why_tests_cant": "corner cases of the mapping and label domain not covered by tests", "anchors": ["src/discoursegraphs/relabel.py:_relabel_inplace"]}
{"id": "C11", "title": "create_token_mapping is the positional bijection or an error", "statement": "create_token_mapping(old, new) returns the mapping from the i-th token of old to the i-th token of new only if the token strings agree at each compared position; any disagreement raises ValueError. Graphs of different length must be rejected: if old has fewer tokens StopIteration is raised, but if old has more tokens the extra ones are silently dropped only when the zip is exhausted (the documented requirement is not enforced).", "quantifier": "all pairs of token sequences", "why_tests_cant": "must hold for all tokenizations and lengths", "anchors": ["src/discoursegraphs/discoursegraph.py:create_token_mapping", "src/discoursegraphs/discoursegraph.py:rename_tokens"]}
{"id": "C12", "title": "merge_graphs preserves the receiving graph", "statement": "If self.merge_graphs(other) succeeds and the root ids differ, every node of self is still there with all its layers, every edge of self is still there with unchanged attributes, self.tokens/sentences/name are unchanged when non-empty.", "quantifier": "all pairs of document graphs", "why_tests_cant": "needs every pair of graphs with arbitrary annotation", "anchors": ["src/discoursegraphs/discoursegraph.py:DiscourseDocumentGraph.merge_graphs", "src/discoursegraphs/discoursegraph.py:DiscourseDocumentGraph.merge_rootnodes"]}
{"id": "C13", "title": "merge_graphs brings over all annotation of the other graph", "statement": "After self.merge_graphs(other), every node of other except its root is in self under its (renamed) id with its layers and attributes, every edge not touching the other root is in self with its attributes and layers, every edge leaving the other root leaves self.root instead, and the other root is not in self.", "quantifier": "all pairs of document graphs with identical tokenization", "why_tests_cant": "needs every pair of graphs with arbitrary annotation", "anchors": ["src/discoursegraphs/discoursegraph.py:DiscourseDocumentGraph.merge_graphs", "src/discoursegraphs/discoursegraph.py:DiscourseDocumentGraph.merge_rootnodes", "src/discoursegraphs/discoursegraph.py:rename_tokens"]}
{"id": "C14", "title": "merge_graphs corner cases", "statement": "Merging must not lose layers of edges leaving the other root, must not remove self.root, and must be all-or-nothing. The code violates all three: layers of root edges are replaced by {self.ns}, merging graphs with equal root ids removes the root, and the 'no ingoing edges' assertion fires after nodes and edges have been added.", "quantifier": "all pairs of document graphs", "why_tests_cant": "corner cases of root naming and failure point", "anchors": ["src/discoursegraphs/discoursegraph.py:DiscourseDocumentGraph.merge_rootnodes"]}
{"id": "C15", "title": "add_precedence_relations builds the token chain", "statement": "On a graph with at least two tokens add_precedence_relations adds exactly the edges root->t0, t0->t1, ..., each of type precedes with layers {ns, ns:precedence}, and changes no existing node or edge; with fewer than two tokens it raises and changes nothing.", "quantifier": "all graphs and token lists", "why_tests_cant": "for all token lists, including repeated token ids and pre-existing parallel edges", "anchors": ["src/discoursegraphs/discoursegraph.py:DiscourseDocumentGraph.add_precedence_relations"]}
{"id": "C16", "title": "Character offsets address the document text", "statement": "After add_offsets, for every token t of a document with distinct token ids, get_text(doc)[onset(t):offset(t)] is the token string, consecutive tokens are separated by exactly one blank position, and the last offset is the text length.", "quantifier": "all token sequences (any length, any strings including empty)", "why_tests_cant": "arithmetic relation for all token sequences", "anchors": ["src/discoursegraphs/discoursegraph.py:DiscourseDocumentGraph.add_offsets", "src/discoursegraphs/discoursegraph.py:get_text"]}
{"id": "C17", "title": "get_offsets computes offsets on demand", "statement": "get_offsets(token) on a listed token returns the offsets that add_offsets would assign, whether or not offsets had been added before, and a second call returns the same pair without changing the graph; for a node that is not a token it raises AssertionError. Refuted parts: get_offsets() for all tokens raises KeyError when offsets are missing (the generator body runs after the try block is left); offsets are not recomputed after the token list changed; a token node that is not in docgraph.tokens (or an unknown id) makes the call recurse forever.", "quantifier": "all documents and call histories of add_offsets/get_offsets", "why_tests_cant": "history-dependent and lazy-evaluation-dependent behaviour", "anchors": ["src/discoursegraphs/discoursegraph.py:DiscourseDocumentGraph.get_offsets", "src/discoursegraphs/discoursegraph.py:DiscourseDocumentGraph._get_all_offsets"]}
{"id": "C18", "title": "get_span returns exactly the tokens below a node", "statement": "On every document graph whose non-pointing edges are acyclic, get_span(doc, n) returns exactly the token nodes reachable from n via edges that are not pointing relations (n itself if it is a token), in natural sort order; on a cycle it never returns; each token is listed once if no node has two covering edges into it (otherwise a token below two paths is listed twice). get_text(doc, n) is the blank-joined text of that span, except for falsy ids (0, ''), which mean the whole document.", "quantifier": "all graphs with acyclic dominance/spanning structure", "why_tests_cant": "reachability over arbitrary graph shapes", "anchors": ["src/discoursegraphs/discoursegraph.py:get_span", "src/discoursegraphs/discoursegraph.py:istoken", "src/discoursegraphs/util.py:natural_sort_key"]}
{"id": "C19", "title": "Span offsets enclose the span", "statement": "get_span_offsets(doc, n) returns the smallest onset and the largest offset of the tokens below n, so the interval encloses every token of the span; for a node that covers no token it raises ValueError (the code intends KeyError).", "quantifier": "all documents and nodes", "why_tests_cant": "min/max over arbitrary spans", "anchors": ["src/discoursegraphs/discoursegraph.py:get_span_offsets", "src/discoursegraphs/discoursegraph.py:get_span"]}
{"id": "C20", "title": "is_continuous decides contiguity", "statement": "is_continuous(doc, n) is True iff every token of doc.tokens that lies between two tokens below n is below n itself, for documents with distinct token ids in which all token nodes are listed.", "quantifier": "all documents, all spans", "why_tests_cant": "iff over arbitrary spans", "anchors": ["src/discoursegraphs/discoursegraph.py:is_continuous"]}
{"id": "C21", "title": "Node and edge selection are exact filters", "statement": "select_nodes_by_layer, select_nodes_by_attribute, select_neighbors_by_layer, select_edges_by and select_edges_by_attribute yield exactly the nodes/edges that satisfy the filter, each once, in graph order (for a collection of edge attribute values: each once, grouped by value). One edge without edge_type makes select_edges_by(edge_type=...) raise KeyError.", "quantifier": "all graphs, layers and attribute filters", "why_tests_cant": "exactness (soundness and completeness) over arbitrary graphs", "anchors": ["src/discoursegraphs/discoursegraph.py:select_nodes_by_layer", "src/discoursegraphs/discoursegraph.py:select_nodes_by_attribute", "src/discoursegraphs/discoursegraph.py:select_neighbors_by_layer", "src/discoursegraphs/discoursegraph.py:select_edges_by", "src/discoursegraphs/discoursegraph.py:select_edges_by_attribute"]}
{"id": "C22", "title": "get_pointing_chains yields maximal chains", "statement": "If pointing edges are acyclic, get_pointing_chains returns only paths of pointing relations that start in a node without incoming pointing edge and end in a node without outgoing pointing edge, and returns every such path; every markable that takes part in a pointing relation occurs in some chain.", "quantifier": "all graphs with acyclic pointing relations", "why_tests_cant": "path enumeration over arbitrary DAGs", "anchors": ["src/discoursegraphs/discoursegraph.py:get_pointing_chains", "src/discoursegraphs/discoursegraph.py:__walk_chain"]}
{"id": "C23", "title": "get_kwic cuts the text around the keyword", "statement": "get_kwic(tokens, index, context_window=w) for 0 <= index < len(tokens) returns (before, tokens[index], after) where before + [keyword] + after is a contiguous slice of tokens, len(before) = min(index, w) and len(after) = min(w, len(tokens)-index-1); index >= len(tokens) raises IndexError. For negative indices the contexts are wrong.", "quantifier": "all token lists, indices and window sizes", "why_tests_cant": "boundary behaviour at document start/end for all sizes", "anchors": ["src/discoursegraphs/discoursegraph.py:get_kwic"]}
{"id": "C24", "title": "natural sort orders embedded numbers numerically", "statement": "natural_sort_key is a total preorder on ids under which prefix+str(i) sorts before prefix+str(j) iff i < j, for every prefix not ending in a digit; sorting is a stable permutation.", "quantifier": "all strings and numbers", "why_tests_cant": "a law over all strings; the order is what makes get_span return document order", "anchors": ["src/discoursegraphs/util.py:natural_sort_key"]}
{"id": "C25", "title": "TokenMapper is a bijection between token ids and positions", "statement": "For a document with distinct token ids, TokenMapper(docgraph).id2index[t] == i iff docgraph.tokens[i] == t iff index2id[i] == t; nothing else is in either dict.", "quantifier": "all token lists", "why_tests_cant": "bijection over arbitrary lists", "anchors": ["src/discoursegraphs/util.py:TokenMapper"]}
{"id": "C26", "title": "Segment token offsets are the first and last token index", "statement": "get_segment_token_offsets(segment, id2index) for a non-empty list of document tokens in any order returns (i, j) with i <= j such that tokens[i] and tokens[j] belong to the segment and every token of the segment has its index in [i, j].", "quantifier": "all segment lists", "why_tests_cant": "partition property over arbitrary inputs", "anchors": ["src/discoursegraphs/util.py:get_segment_token_offsets"]}
{"id": "C27", "title": "MMAX2 span strings denote inclusive ranges", "statement": "convert_spanstring expands \"p_i..p_j\" to exactly p_i, ..., p_j in ascending order and a comma list to the concatenation of its parts; a span string that denotes no word at all raises IndexError; every result has ids of one prefix (otherwise AssertionError). spanstring2tokens keeps that order, maps each word to the node of that name or to the node it was renamed to, and leaves out words without node. Ranges written with leading zeros do not contain their own ends.", "quantifier": "all span strings", "why_tests_cant": "numeric ranges and comma lists of any size", "anchors": ["src/discoursegraphs/readwrite/generic.py:convert_spanstring", "src/discoursegraphs/readwrite/mmax2.py:spanstring2tokens"]}
{"id": "C28", "title": "pydot quoting round trip", "statement": "unquote_from_pydot(quote_for_pydot(s)) == s for every string without line breaks (a line break raises AttributeError), quoting is injective, and graphviz reads the quoted string back as s if s has no backslash; a backslash at the end or before a quote breaks the DOT string.", "quantifier": "all strings", "why_tests_cant": "a law over all strings, including backslashes and quotes", "anchors": ["src/discoursegraphs/readwrite/dot.py:quote_for_pydot", "src/discoursegraphs/readwrite/dot.py:unquote_from_pydot"]}
{"id": "C29", "title": "FREQT export is balanced and faithful", "statement": "For every tree and whatever the label strings, the FREQT string is balanced and reads back as the tree of the escaped labels, labels in preorder, with or without part-of-speech level; the document export has one line per sentence. The escape is not injective, and integer ids of unlabelled nodes raise TypeError.", "quantifier": "all document graphs reachable through the API, all roots, all label and token strings", "why_tests_cant": "well-formedness for all trees and token strings, including tokens with parentheses", "anchors": ["src/discoursegraphs/readwrite/freqt.py:node2freqt", "src/discoursegraphs/readwrite/freqt.py:sentence2freqt"]}
{"id": "C30", "title": "xpointer-compatible ids", "statement": "ensure_xpointer_compatibility maps every id to one which contains no forbidden character, leaves compatible ids unchanged, is idempotent; distinct ids may collide.", "quantifier": "all strings", "why_tests_cant": "law over all strings", "anchors": ["src/discoursegraphs/util.py:ensure_xpointer_compatibility"]}
{"id": "C31", "title": "EXMARaLDA ranges are half open", "statement": "gen_token_range(start, end) yields exactly the token indices from start up to but excluding end, in order; spans of adjacent timeline events do not overlap and chain to the whole.", "quantifier": "all timeline ids", "why_tests_cant": "index arithmetic for all ids", "anchors": ["src/discoursegraphs/readwrite/exmaralda.py:gen_token_range"]}
{"id": "C32", "title": "RS3 writer produces a well-formed rs3 document", "statement": "For every RST tree of nucleus-satellite and multinuclear relations in which each relation name has one type, the rs3 writer succeeds; element ids are distinct, exactly one element has no parent, every other parent reference is the id of an element and climbing parents ends at that root, relation names are declared or 'span', and the segments are the EDUs in text order. For any tree at all that is accepted, ids are distinct and segments are the leaves in order; but a relation with two satellites is accepted and yields a parent cycle.", "quantifier": "all RST trees, all earlier states of the class dictionary", "why_tests_cant": "structural well-formedness for all trees", "anchors": ["src/discoursegraphs/readwrite/rst/rs3/rs3filewriter.py:RS3FileWriter", "src/discoursegraphs/readwrite/rst/rs3/rs3filewriter.py:RS3FileWriter.get_relname_and_parent"]}
{"id": "C33", "title": "RS3 write/read round trip", "statement": "Reading (RSTTree) the rs3 file written for an RST tree yields the same tree: same nuclearity, relation names, shape, order and EDU texts, for trees whose relation names have one type and EDU texts are distinct and free of superfluous white space. It fails for equal EDU texts and for names used with both types.", "quantifier": "all RST trees of nucleus-satellite and multinuclear relations, any depth and width, all earlier states of the class dictionary", "why_tests_cant": "round trip over unbounded trees", "anchors": ["src/discoursegraphs/readwrite/rst/rs3/rs3tree.py:RSTTree", "src/discoursegraphs/readwrite/rst/rs3/rs3filewriter.py:RS3FileWriter"]}
{"id": "C34", "title": "RS3 relation headers depend only on the tree", "statement": "The <relations> header written for a tree should depend only on that tree. The code mutates a class-level dictionary: the header declares exactly the built-in relations and those of all trees written before in the process and of the tree itself, the last use of a name deciding its type. The elements of the document do not depend on the history. An earlier tree can change the header and even how a later file is read.", "quantifier": "all sequences of trees written in one process", "why_tests_cant": "history dependence across instances", "anchors": ["src/discoursegraphs/readwrite/rst/rs3/rs3filewriter.py:RS3FileWriter.default_relations"]}
{"id": "C35", "title": "dis writer span indices", "statement": "For every RST tree of nucleus-satellite and multinuclear relations with at least two EDUs whose texts are words separated by single blanks, the .dis writer succeeds; the written tree numbers the EDUs 1..n in text order, each leaf holding the words of that EDU between the marks _!, every internal node carries the span (first last) of the EDUs below it, siblings cover adjacent spans and the Root is (1 n).", "quantifier": "all RST trees, any depth and width", "why_tests_cant": "index bookkeeping for all trees", "anchors": ["src/discoursegraphs/readwrite/rst/dis/disfilewriter.py:DisFileWriter", "src/discoursegraphs/readwrite/rst/dis/disfilewriter.py:make_span"]}
{"id": "C36", "title": "dis write/read round trip", "statement": "Reading the .dis text written for an RST tree yields the tree that was written (same nuclearity, relation names, shape, order and EDU texts), for trees with at least two EDUs, relation names that are single words without brackets, and EDU texts that contain neither the mark _!, nor the comment )//TT_ERR, nor an escape sequence for a bracket. It fails for a tree that is a single EDU and where any of these restrictions is dropped.", "quantifier": "all RST trees of nucleus-satellite and multinuclear relations, any depth and width; the text layout (line breaking, indentation) is that of the bracketed pretty printer", "why_tests_cant": "round trip over unbounded trees", "anchors": ["src/discoursegraphs/readwrite/rst/dis/disfilewriter.py:DisFileWriter", "src/discoursegraphs/readwrite/rst/dis/common.py:DisFile", "src/discoursegraphs/readwrite/rst/dis/distree.py:DisRSTTree"]}
{"id": "C37", "title": "Discourse parser output conversion preserves text and nuclearity", "statement": "Converting the output of the HILDA, DPLP and StageDP parsers yields, for every parse, the tree whose leaves are the texts of its discourse units in order (DPLP: the tokens of the rows of the merge file with that unit number; StageDP: the words between the _! marks without the sentence and paragraph marks), whose relation nodes carry the relation names and whose N/S nodes carry the nuclearity of the parser label. Without a relation with two satellites it is an RST tree. It holds for one-line relation names; HILDA and DPLP output that mentions the class names ParseTree/ParentedTree inside names or texts is altered, and underscores inside StageDP tokens are lost.", "quantifier": "all binary parses of any depth with any relation names and units; for StageDP all texts that write the tree with any white space; for DPLP all merge files with LF or CRLF line ends", "why_tests_cant": "structural induction over all trees", "anchors": ["src/discoursegraphs/readwrite/rst/hilda.py:HILDARSTTree", "src/discoursegraphs/readwrite/rst/dplp.py:DPLPRSTTree", "src/discoursegraphs/readwrite/rst/stagedp.py:StageDPRSTTree"]}
{"id": "C38", "title": "Heilman/Sagae conversion totality", "statement": "The Heilman & Sagae converter turns every parser tree of nuclei and satellites into a tree with the units in order, the roles and (capitalised) relation names of the parser labels, provided no node has one nucleus with several satellites; for every tree that has such a node anywhere it raises NameError.", "quantifier": "all parser trees of any depth and width, all token lists, all layouts of the tree text", "why_tests_cant": "failure only on a tree shape absent from fixtures", "anchors": ["src/discoursegraphs/readwrite/rst/heilman_sagae_2015.py:HS2015RSTTree", "src/discoursegraphs/readwrite/rst/heilman_sagae_2015.py:transform_hs2015_document"]}
{"id": "C39", "title": "PTB import keeps all constituents and tokens in order", "statement": "Reading Penn Treebank parses gives exactly one node per constituent and per tagged word outside of traces, with different ids, one dominance edge from each constituent to what it directly contains and from the root to each sentence; docgraph.tokens lists one node per non-trace word, in text order, with the unescaped word and its tag. get_span of every constituent is exactly its words in order; the spans of the sentences are disjoint consecutive pieces of the text. limit reads the first n sentences. (ignore_traces=False has no effect except for constituents of the sentence itself; a sentence that is one tagged word raises KeyError; constituents with one child get no category; several words directly in one constituent are merged.)", "quantifier": "all phrase-structure trees of any depth, numbers of sentences, namespaces and options", "why_tests_cant": "induction over tree shape with a running id counter", "anchors": ["src/discoursegraphs/readwrite/ptb.py:PTBDocumentGraph"]}
{"id": "C40", "title": "Bracketed output: text, balance and nesting", "statement": "gen_bracketed_output prints every token exactly once and in order, each preceded by one [ per markable of a pointing chain that starts there and followed by one ]_{chain} per markable that ends there. If all spans are inside the document and none ends before it starts, the call succeeds and the brackets are balanced, whatever the spans. If the spans are nested and, among spans that start at the same token, the id of the outer one sorts first, each closing bracket carries the chain of its own span. (Otherwise labels are swapped; a markable of several chains is bracketed several times; spans outside the document raise IndexError.)", "quantifier": "all graphs, layers, chain orders and families of spans of any nesting depth", "why_tests_cant": "nesting for all span families", "anchors": ["src/discoursegraphs/readwrite/brackets.py:gen_bracketed_output"]}
{"id": "C41", "title": "Anaphoricity reading and writing", "statement": "Reading an anaphoricity text gives exactly one token node per white-space separated word, numbered 0.. in text order, with the word (or, if it contains an annotated das/es, the anaphor, its annotation type and certainty 1.0/0.5), plus the root and, if connected, one edge from the root to each token. gen_anaphoricity_str writes every token once and in order, with the annotation of the chosen anaphor (in any case), and fails for any other anaphor. Text whose annotations are all uncertain ones of the chosen anaphor round-trips. (Certain annotations are always written as uncertain ones; the annotation is searched anywhere in a word and the text around it is lost.)", "quantifier": "all texts, namespaces, connectedness and anaphors; for writing all documents", "why_tests_cant": "every word may or may not be annotated; wrong for every certain annotation, which is not tested", "anchors": ["src/discoursegraphs/readwrite/anaphoricity.py:gen_anaphoricity_str", "src/discoursegraphs/readwrite/anaphoricity.py:AnaphoraDocumentGraph"]}
{"id": "C42", "title": "CoNLL 2009 export: words, sentences and a balanced coreference column", "statement": "write_conll writes one row per token, sentence by sentence (numbered from 1, a blank line after each sentence), with the word in the second field; the last field has, for each markable that covers the token and each chain of that markable, '(c' at the first token of its span, 'c)' at the last, '(c)' if it is the only one, 'c' in between, and '_' if there is none; chains are numbered by position, markables without chain after them. Read back, each chain number is opened as often as it is closed, and never closed before it is opened if token ids are in natural order. (A token reached twice from a markable leaves the chain open; line breaks in words break rows.)", "quantifier": "all reachable documents with typed edges and no cycles, all markable families, chains and set iteration orders", "why_tests_cant": "balance must hold for every family of nested, crossing and shared markables and every iteration order of Python sets", "anchors": ["src/discoursegraphs/readwrite/conll.py:Conll2009File", "src/discoursegraphs/readwrite/conll.py:write_conll"]}
{"id": "C43", "title": "ConAno import", "statement": "Reading a ConAno XML document (any nesting of elements with text before, between and after them) gives one node per element and one token per white-space separated word in document order, numbered token:1.., each attached by one edge to the element that contains it, in the layers of that element; an element without id or type raises an error and nothing else does. check_tokens passes if and only if no tag splits a word. If the ids are distinct, get_span of an element is exactly the words in it, in order, and get_conano_units lists every unit once in natural order with its words; get_connective gives the lower-case text of the connective of a unit. Precedence edges form a chain from the root over all tokens and change nothing else. (Where a connective has several parts, a unit containing both lists its words twice, and units that contain one part also span the words of the other; with precedence edges spans run to the end of the document.)", "quantifier": "all XML trees, namespaces and flags", "why_tests_cant": "mixed content (text, children, tail) of any nesting", "anchors": ["src/discoursegraphs/readwrite/conano.py:ConanoDocumentGraph", "src/discoursegraphs/readwrite/conano.py:get_conano_units", "src/discoursegraphs/readwrite/conano.py:get_connective"]}
{"id": "C44", "title": "DeCour import", "statement": "Reading a DeCour document gives the nodes intro, turn_N, act_K, utterance_N and conclu, nested as in the document, and one token per word of their texts, numbered token_1.., attached to the part that contains it; the tokens of utterances have the normalised form, lemma and part of speech at the same position. Every document without intro, with a missing number or text, or with an utterance that lacks one of three annotation lists or has fewer values than words is rejected with an exception, and no other one is. If turns have different numbers and utterances too, get_span of each part is exactly its words, in order. Precedence edges are a chain over all tokens. (An act is placed before the utterances of its turn wherever it stands, further acts of a turn are lost, turns with equal numbers are merged.)", "quantifier": "all XML trees, namespaces and flags", "why_tests_cant": "counter threading over all documents", "anchors": ["src/discoursegraphs/readwrite/decour.py:DecourDocumentGraph"]}
{"id": "C45", "title": "make_labels_explicit labels every element once", "statement": "In a graph with at most one edge per node pair, make_labels_explicit appends _<node id> to each existing node label and _<edge type> to each existing edge label, gives unlabelled edges their type as label and changes nothing else; with parallel edges labels are taken from another edge and appended to repeatedly.", "quantifier": "all multigraphs", "why_tests_cant": "parallel edges absent from tests", "anchors": ["src/discoursegraphs/util.py:make_labels_explicit"]}
{"id": "C46", "title": "sorted breadth-first traversal visits each node once", "statement": "sorted_bfs_edges yields for each node reachable by dominance edges exactly one tree edge, whose parent was entered before, parents in the order in which they were entered, siblings in the order of their first tokens, and nothing else. It ends on every graph without dominance cycles, and succeeds on every forest in which each node below the root covers a token; if a token lies below a dominance cycle it never ends.", "quantifier": "all document graphs reachable through the API, all roots, all sentence token lists", "why_tests_cant": "traversal over arbitrary graphs", "anchors": ["src/discoursegraphs/readwrite/tree.py:sorted_bfs_edges", "src/discoursegraphs/readwrite/tree.py:sorted_bfs_successors"]}
{"id": "C47", "title": "Bracket strings denote the tree", "statement": "For every root, the string of tree2bracket reads back (as an s-expression) as the ordered tree of the traversal with each node's part of speech, token or label, provided these contain no brackets and blanks; if no node has a gap in its tokens the tokens appear in text order. Brackets in tokens are not escaped, so strings with such tokens are not balanced.", "quantifier": "all document graphs reachable through the API, all roots, all label strings", "why_tests_cant": "round trip over unbounded trees", "anchors": ["src/discoursegraphs/readwrite/tree.py:tree2bracket", "src/discoursegraphs/readwrite/tree.py:node2bracket", "src/discoursegraphs/readwrite/tree.py:t"]}
{"id": "C48", "title": "Geoff export lists every node and edge once", "statement": "convert_to_geoff(docgraph) returns exactly one line per node, '(id {attributes})', in the order of the graph, followed by exactly one line per edge (parallel edges included), '(source)-[:LINKS_TO {attributes}]->(target)', whose ends are declared nodes; the encoder is given all attributes, layers as a list, and the id as label of string nodes without one. The only failure is an encoder failure. Ids without blanks and parentheses can be read off the lines. (Ids with line ends break lines; the ids 1 and '1' get the same name.)", "quantifier": "all reachable document graphs, JSON encoders and set/dict iteration orders", "why_tests_cant": "counting over arbitrary graphs including parallel edges", "anchors": ["src/discoursegraphs/readwrite/geoff.py:graph2geoff", "src/discoursegraphs/readwrite/neo4j.py:convert_to_geoff", "src/discoursegraphs/readwrite/generic.py:layerset2list"]}
{"id": "C49", "title": "brat offsets agree with the text file", "statement": "write_brat writes one T line per markable of a pointing chain, in text order; for contiguous spans the character offsets select from the .txt file exactly the words of the markable at its position. Markables are numbered from 1 chain by chain in natural id order; the R lines connect neighbouring mentions of a chain, later one first, and only name declared T ids. If no markable is in two chains the T ids are exactly 1..n. A mention without span attribute makes the export fail. (Discontinuous spans get offsets of other text; a mention in two chains is written twice under one id.)", "quantifier": "all documents, chains and contiguous spans, all set iteration orders", "why_tests_cant": "offset arithmetic for all documents", "anchors": ["src/discoursegraphs/readwrite/brat.py:brat_output", "src/discoursegraphs/readwrite/brat.py:write_brat", "src/discoursegraphs/discoursegraph.py:get_text"]}
{"id": "C50", "title": "Simultaneous string replacement", "statement": "create_multiple_replace_func(map)(s) replaces in a single pass: text produced by one replacement is never replaced again, text containing no key is unchanged, and the result is independent of the dict order if no key begins with another key; with such keys it depends on the order, and an empty map raises KeyError on every text.", "quantifier": "all strings and maps", "why_tests_cant": "law over all strings", "anchors": ["src/discoursegraphs/util.py:create_multiple_replace_func"]}
{"id": "C51", "title": "Integer relabelling is a bijection", "statement": "convert_node_labels_to_integers(G, first_label, ordering) returns a graph isomorphic to G (same attributes, edges, keys, document data, name '(..)_with_int_labels') whose nodes are exactly first_label..first_label+n-1, numbered in the requested order (insertion order, Python order of labels, degree); label_attribute adds the old label to every node; unknown orderings raise NetworkXError. (Holds when no node already carries one of the new numbers and the node numbered 0 has no loop; otherwise attributes or the renaming may be lost or NetworkXUnfeasible be raised. root, tokens and sentences are never translated, so they name no node of the result.)", "quantifier": "all reachable document graphs, first labels, orderings and set iteration orders", "why_tests_cant": "bijection over arbitrary graphs", "anchors": ["src/discoursegraphs/relabel.py:convert_node_labels_to_integers"]}
{"id": "C52", "title": "add_prefix renames keys only", "statement": "add_prefix(d, p) has exactly the keys p+k for the keys k of d, with the same values; no two keys collide.", "quantifier": "all dicts and prefixes", "why_tests_cant": "law over all strings", "anchors": ["src/discoursegraphs/util.py:add_prefix"]}
{"id": "C53", "title": "Sentences are sorted in text order", "statement": "sort_sentences_by_token_order returns each (root, tokens) pair once, ordered by the natural order of the first token id, which for ids prefix+number is the numeric order (word_9 before word_10).", "quantifier": "all sentence lists", "why_tests_cant": "sorting law over all lists", "anchors": ["src/discoursegraphs/readwrite/mmax2.py:sort_sentences_by_token_order"]}
{"id": "C54", "title": "CoNLL import is faithful and total", "statement": "Reading a CoNLL 2009/2010 file yields exactly one sentence node per blank-line separated block and one token node per row (comments skipped), with ids s<i> and s<i>_t<word id>, the columns and decoded grammatical features of the row as attributes, a dependency edge from each word's head (the sentence if the head is \"0\", an attribute-less placeholder if the head is no word of the sentence) and a dominance edge from the root to each sentence; tokens, sentences and the 'tokens' lists of the sentences are in file order and carry the texts of the file. A file is accepted iff every line is a comment or a row with the right number of columns and an integer word id; otherwise TypeError or ValueError is raised; other formats raise AssertionError. (Needs distinct word ids per sentence; a feature named 'token' replaces the text.)", "quantifier": "all file texts, column choices, names and namespaces", "why_tests_cant": "the space of files (sentences, rows, feature notations, dangling heads) is unbounded and acceptance must be decided for every text", "anchors": ["src/discoursegraphs/readwrite/conll.py: ConllDocumentGraph"]}
{"id": "C55", "title": "Dependency spans of CoNLL documents", "statement": "In the graph of a CoNLL file without head cycles, what lies below a word or sentence is exactly the words whose chain of heads reaches it; if words are numbered from 1, get_span of a word or sentence lists them (and the word itself) in file order, and if every word is governed by its sentence, get_span of a sentence and of the root node list the tokens of the sentence and of the document in file order.", "quantifier": "all readable files with acyclic heads, all words", "why_tests_cant": "the dependency trees are unbounded in size and shape, and the order rests on natural sorting of all ids", "anchors": ["src/discoursegraphs/readwrite/conll.py: ConllDocumentGraph", "src/discoursegraphs/discoursegraph.py: get_span"]}
{"id": "C56", "title": "traverse_dependencies_up follows the chain of heads", "statement": "traverse_dependencies_up(docgraph, token, column) yields the non-empty values of the column of the heads of the token, from the nearest to the last, and stops at the sentence or a placeholder head; if the token is (indirectly) its own head, it does not terminate.", "quantifier": "all readable files, all words, all columns", "why_tests_cant": "chains of heads are unbounded; non-termination cannot be tested", "anchors": ["src/discoursegraphs/readwrite/conll.py: traverse_dependencies_up"]}
{"id": "C57", "title": "write_conll output can be read back", "statement": "Reading what write_conll wrote yields the same words in the same sentences (plus one final sentence without words, and with sentence nodes that dominate nothing, as no heads are written), provided words have no tabs or line breaks and no sentence but the first is empty; otherwise the file is unreadable.", "quantifier": "all exportable documents, all coreference columns, reader options and set orders", "why_tests_cant": "documents, chains and words range over unbounded sets", "anchors": ["src/discoursegraphs/readwrite/conll.py: ConllDocumentGraph", "src/discoursegraphs/readwrite/conll.py: traverse_dependencies_up", "src/discoursegraphs/readwrite/conll.py: Conll2009File"]}
{"id": "C58", "title": "Literal arguments: no hidden sharing between elements or graphs", "statement": "In every program that creates document graphs and calls their mutators with arguments written as literals (including calls that raise), each call changes the graph it is called on exactly as if graphs, attribute dictionaries and layer sets were immutable values, and no call changes another graph: a graph is the result of the calls made on it, whatever other graphs were built in between. The one exception is add_nodes_from(bare ids, layers={...}) on existing nodes, which then share one set (a later add_layer on one of them affects all).", "quantifier": "all programs (sequences of constructor and mutator calls on any number of graphs), all literal arguments", "why_tests_cant": "sharing shows up only later, through a mutation of another element or another graph; all interleavings of calls on all graphs have to be excluded", "anchors": ["src/discoursegraphs/discoursegraph.py: DiscourseDocumentGraph.add_node", "src/discoursegraphs/discoursegraph.py: DiscourseDocumentGraph.add_nodes_from", "src/discoursegraphs/discoursegraph.py: DiscourseDocumentGraph.add_edge", "src/discoursegraphs/discoursegraph.py: DiscourseDocumentGraph.add_edges_from", "src/discoursegraphs/discoursegraph.py: DiscourseDocumentGraph.add_layer", "src/discoursegraphs/discoursegraph.py: DiscourseDocumentGraph.add_precedence_relations"]}
{"id": "C59", "title": "Arguments that are existing objects: what a call may share", "statement": "If the dictionaries passed to a mutator are distinct objects that no graph holds, and their layer sets are referenced nowhere else, the call acts on its graph as on values, changes no other graph and leaves every element with objects of its own. Without this the call leaks: one attr_dict or one layers set for two nodes ties them together, a node's own dictionary passed back to add_node loses the node's layers, add_nodes_from(other.nodes(data=True)) as in merge_graphs makes later add_layer calls change the other graph, and add_edge(..., attr_dict=attrs) as in merge_rootnodes overwrites the layers of the other graph's edge.", "quantifier": "all heaps of shared dict and set objects, all graphs, all calls", "why_tests_cant": "object identity ranges over all aliasing patterns between arguments and all live graphs", "anchors": ["src/discoursegraphs/discoursegraph.py: DiscourseDocumentGraph.add_node", "src/discoursegraphs/discoursegraph.py: DiscourseDocumentGraph.add_nodes_from", "src/discoursegraphs/discoursegraph.py: DiscourseDocumentGraph.add_edge", "src/discoursegraphs/discoursegraph.py: DiscourseDocumentGraph.add_edges_from", "src/discoursegraphs/discoursegraph.py: DiscourseDocumentGraph.add_layer", "src/discoursegraphs/discoursegraph.py: DiscourseDocumentGraph.add_precedence_relations", "src/discoursegraphs/discoursegraph.py: DiscourseDocumentGraph.merge_graphs", "src/discoursegraphs/discoursegraph.py: DiscourseDocumentGraph.merge_rootnodes"]}
{"id": "C60", "title": "merge_graphs: effect on the graph that is merged in and on all others", "statement": "merge_graphs(other), when no token has to be renamed, makes the receiving graph exactly what merging graphs as values gives, although it is handed the dictionaries of the other graph. No third graph changes. The other graph keeps its nodes and all edges, except that every edge leaving its root has its layers replaced by {namespace of the receiving graph}. Afterwards the receiving graph and all graphs but the merged one hold objects of their own, while the merged one shares layer sets: a layer given to a merged node later appears in it as well.", "quantifier": "all programs building any number of graphs with literal arguments, all pairs of graphs, all outcomes", "why_tests_cant": "the effect is on an argument and on unrelated live graphs, through shared dict and set objects; it has to be excluded for all graphs and all elements", "anchors": ["src/discoursegraphs/discoursegraph.py: DiscourseDocumentGraph.merge_graphs", "src/discoursegraphs/discoursegraph.py: DiscourseDocumentGraph.merge_rootnodes", "src/discoursegraphs/discoursegraph.py: DiscourseDocumentGraph.add_nodes_from", "src/discoursegraphs/discoursegraph.py: DiscourseDocumentGraph.add_edges_from", "src/discoursegraphs/discoursegraph.py: DiscourseDocumentGraph.add_edge"]}
{"id": "C61", "title": "TigerXML: the graph of a sentence", "statement": "Reading a sentence succeeds exactly if the graph has a root and no id, word, cat, idref or label that the reader needs is missing (and a phrase with a secondary edge has an edge or follows a phrase with one). Then the graph has one node for the root and for each token, phrase and edge target, in document order, with the layers of its first mention (root and tokens: their layers in any case) and the attributes of all its declarations in the namespace; one edge of type spans or dominates per edge, one of type points_to per secondary edge, and one edge from the root to each node without edges (if there are at least two nodes). The tokens are the token ids in natural order; if the root is a token, a virtual root replaces it. (The label of a secondary edge is taken from the edge before; phrases mentioned before their declaration lack the layer of phrases; a root without edges is attached to itself.)", "quantifier": "all sentence elements and namespaces", "why_tests_cant": "arbitrary trees with crossing, missing and secondary edges in any document order", "anchors": ["src/discoursegraphs/readwrite/tiger.py: TigerSentenceGraph"]}
{"id": "C62", "title": "TigerXML: spans of constituents", "statement": "If no phrase is part of itself, get_span of any node of the sentence graph terminates and gives exactly the tokens that are reached over edges of phrases (or from the root over the edges to unattached nodes), in natural order. If the phrases form a tree, token ids are distinct and the root is not a token, the root spans exactly the tokens of the sentence in order. In a sentence of at least two nodes every node but the virtual root has an edge. (In a one-token sentence the virtual root has no edge and spans nothing; a token that only has a secondary edge is not spanned.)", "quantifier": "all sentence elements, namespaces and nodes", "why_tests_cant": "reachability in arbitrary trees and graphs", "anchors": ["src/discoursegraphs/readwrite/tiger.py: TigerSentenceGraph", "src/discoursegraphs/discoursegraph.py: get_span"]}
{"id": "C63", "title": "TigerXML: documents", "statement": "Reading a document succeeds exactly if it has an id and all sentences can be read. The graph has the root, the nodes of all sentences (a node that several sentences mention gets all layers and the latest attributes) and their edges, and one edge from the root to each sentence; tokens are listed sentence by sentence. In the namespace tiger, if sentences share no ids, each node spans the tokens it spans in its sentence, and if all are trees the root spans all tokens. (Sentences are listed in natural order while their tokens are not; one-token sentences share one virtual root, which has no tokens attribute; with another namespace no node counts as a token.)", "quantifier": "all documents", "why_tests_cant": "any number and order of sentences, with any overlap of ids", "anchors": ["src/discoursegraphs/readwrite/tiger.py: TigerDocumentGraph"]}
{"id": "C64", "title": "TigerXML: queries", "statement": "_get_terminals_and_nonterminals divides the nodes of any graph into those without and with outgoing edges, each in natural order; get_unconnected_nodes gives exactly the nodes without edges, in graph order, and nothing for a graph of one node; get_subordinate_clauses never fails and gives exactly the non-tokens that a node of category S has an edge labelled MO, RC or SB to (once per edge).", "quantifier": "all graphs that can be built with the API", "why_tests_cant": "all graphs", "anchors": ["src/discoursegraphs/readwrite/tiger.py: _get_terminals_and_nonterminals", "src/discoursegraphs/readwrite/tiger.py: get_unconnected_nodes", "src/discoursegraphs/readwrite/tiger.py: get_subordinate_clauses"]}
{"id": "C65", "title": "MMAX2: import of a project", "statement": "If no antecedent names a level, reading an MMAX2 project succeeds exactly if every word has an id and text, all annotation files exist, every markable has an id and a readable span, there is a sentence, and every sentence has a word of the text (with precedence: at least two words). Then the graph has exactly the root, a node per word, per markable (with its attributes in the namespace, and the layer of its level) and per antecedent, and exactly one edge per markable and existing word of its span, one per antecedent, and the edges between words asked for; tokens are listed in document order. (An antecedent of another level gives that level's layer to the markables read before and after it, and its edge label lacks a colon; a graph name that is not a file name makes the reader fail; a project without sentences is rejected.)", "quantifier": "all projects (words, levels, markables), options and orders in which Python lists the levels", "why_tests_cant": "arbitrary markables with any overlap of ids, in any order of levels", "anchors": ["src/discoursegraphs/readwrite/mmax2.py: MMAXDocumentGraph", "src/discoursegraphs/readwrite/mmax2.py: MMAXDocumentGraph.add_token_layer", "src/discoursegraphs/readwrite/mmax2.py: MMAXDocumentGraph.add_annotation_layer"]}
{"id": "C66", "title": "MMAX2: spans and coreference chains", "statement": "If word ids differ from the other ids and no markable has an attribute token, get_span of a markable gives exactly the words in the span strings of the markables with its id that exist, in natural order; if no markable of a level refers to itself over antecedents, the pointing chains of that level (or of all) are exactly the maximal chains of its antecedent relation. (With precedence edges or connected words get_span does not give that.)", "quantifier": "all projects with acyclic antecedents, all markables", "why_tests_cant": "arbitrary span strings and antecedent relations", "anchors": ["src/discoursegraphs/readwrite/mmax2.py: MMAXDocumentGraph.add_annotation_layer", "src/discoursegraphs/discoursegraph.py: get_span, get_pointing_chains"]}
{"id": "C67", "title": "MMAX2: sentences", "statement": "The sentences of the graph are those of the sentence level, each once, in the order of their first words; each has the existing words of its span, in the order of the span string. (A sentence without any word in the text, or no sentence at all, makes the reader fail.)", "quantifier": "all projects", "why_tests_cant": "any number and order of sentences and spans", "anchors": ["src/discoursegraphs/readwrite/mmax2.py: MMAXDocumentGraph.get_sentences_and_token_nodes", "src/discoursegraphs/readwrite/mmax2.py: sort_sentences_by_token_order"]}
{"id": "C68", "title": "MMAX2: text of spans and potential markables", "statement": "spanstring2text gives the words of the existing tokens of a span, joined by blanks. In a graph in which each syntax node has a category, get_potential_markables succeeds and lists exactly the PPs, the PPs over an NP, and the NPs without a PP above them. (A PP over an NP is listed twice; a Tiger document with a virtual root raises KeyError.)", "quantifier": "all graphs and span strings; all graphs that can be built with the API", "why_tests_cant": "all graphs", "anchors": ["src/discoursegraphs/readwrite/mmax2.py: spanstring2tokens", "src/discoursegraphs/readwrite/mmax2.py: spanstring2text", "src/discoursegraphs/readwrite/mmax2.py: get_potential_markables"]}
{"id": "C69", "title": "RST trees in LaTeX: the figure", "statement": "write_rstlatex of an RST tree of relations (one nucleus and one satellite in either order, several nuclei, or a bundle of relations with one nucleus whose first satellite, or none, comes first) whose texts contain no relation command gives, apart from line ends and tabs, the rst.sty commands of the tree: \\dirrel with the satellites before the nucleus, the nucleus and the satellites after it, each group in order, \\multirel with all nuclei in order, \\rstsegment with the normalised text of a unit. Braces are balanced if those of texts and names are; if texts and names have no braces, line ends or tabs and names are not empty, different figures (and different trees without bundles) give different texts. (A single unit yields a carriage return instead of the command; other bundles get a wrong order or become multinuclear; empty names and braces break the figure.)", "quantifier": "all RST trees of any depth and width", "why_tests_cant": "arbitrarily nested trees", "anchors": ["src/discoursegraphs/readwrite/rst/rstlatex.py: rsttree2rstlatex", "src/discoursegraphs/readwrite/rst/rstlatex.py: make_nucsat", "src/discoursegraphs/readwrite/rst/rstlatex.py: make_multinuc", "src/discoursegraphs/readwrite/rst/rstlatex.py: make_multisat", "src/discoursegraphs/readwrite/rst/rstlatex.py: write_rstlatex"]}
{"id": "C70", "title": "RST trees in LaTeX: accepted trees", "statement": "write_rstlatex succeeds on exactly those nltk trees that are a leaf, an N or S node with a child, or a relation node whose children are all N or S nodes, with acceptable grandchildren, and which has at least one child and only nuclei, or is a bundle (named MONONUC-MULTISAT) of at least two relations, the first of which has a nucleus and all parts of which have an acceptable first child, or has exactly two children, one N and one S, with two grandchildren in total. (So a nucleus with two children beside an empty satellite is accepted, and its second child is drawn as the satellite.)", "quantifier": "all nltk trees", "why_tests_cant": "all trees, well-formed or not", "anchors": ["src/discoursegraphs/readwrite/rst/rstlatex.py: rsttree2rstlatex", "src/discoursegraphs/readwrite/rst/rstlatex.py: make_nucsat", "src/discoursegraphs/readwrite/rst/rstlatex.py: make_multisat"]}
{"id": "C71", "title": "RS3 files as document graphs: nodes", "statement": "Reading an RS3 file with distinct ids (none of them, nor a parent, is root_node), at most one group without a parent, a relation name wherever there is a parent and a type at each group succeeds (with precedence relations: if there are two words), and the graph has exactly one node for each segment and group, for each parent that is missing, for each word (if tokenized) and, only if no group is parentless, the default root. Each node has exactly the layers, label, stripped text, group type, segment type and relation name that the file implies: the type is that of its own relation unless a satellite makes it a nucleus; the relation is that of the last relation attached to it. The parentless group is the root. Without names or types reading fails. (A satellite before its nucleus segment does not make it a nucleus; of two parentless groups the first vanishes with its links.)", "quantifier": "all RS3 files with distinct ids, no element that is its own parent, at most one group without a parent, any header, namespace and options", "why_tests_cant": "every file, in every order of its elements; nodes are built up by several elements", "anchors": ["src/discoursegraphs/readwrite/rst/rs3/rs3graph.py: RSTGraph.__init__", "src/discoursegraphs/readwrite/rst/rs3/rs3graph.py: RSTGraph.__add_segment", "src/discoursegraphs/readwrite/rst/rs3/rs3graph.py: RSTGraph.__add_group", "src/discoursegraphs/readwrite/rst/rs3/rs3graph.py: RSTGraph.__add_parent_relation", "src/discoursegraphs/readwrite/rst/rs3/rs3graph.py: RSTGraph.__get_segment_types"]}
{"id": "C72", "title": "RS3 files as document graphs: edges", "statement": "The graph read from such a file has exactly one edge from each parent to each element attached to it, with the relation, its type in the header (the last declaration counts), a label, and the type dominates for a relation and spans otherwise; if tokenized, one spans edge from each segment to each of its words; and with precedence relations, one edge from the root to the first word and from each word to the next. (Edges to words are in the layers rst and rst:token in every namespace.)", "quantifier": "all RS3 files with distinct ids, no element that is its own parent, at most one group without a parent, any header, namespace and options", "why_tests_cant": "every file, in every order of its elements", "anchors": ["src/discoursegraphs/readwrite/rst/rs3/rs3graph.py: RSTGraph.__add_parent_relation", "src/discoursegraphs/readwrite/rst/rs3/rs3graph.py: RSTGraph.__tokenize_segments"]}
{"id": "C73", "title": "RS3 files as document graphs: text and EDUs", "statement": "The tokens of the graph are the words of all segments in file order, with distinct ids; the text of the document is these words joined by blanks; get_edus returns the nodes of the segments in file order.", "quantifier": "all RS3 files with distinct ids, no element that is its own parent, at most one group without a parent, any header, namespace and options", "why_tests_cant": "every file", "anchors": ["src/discoursegraphs/readwrite/rst/rs3/rs3graph.py: RSTGraph.__tokenize_segments", "src/discoursegraphs/readwrite/rst/rs3/rs3graph.py: get_edus"]}
{"id": "C74", "title": "RS3 files as document graphs: spans", "statement": "If no element is below itself, get_span of a segment or group returns, once each and sorted by id, exactly the words of the segments attached to it directly or indirectly, including itself. (With precedence relations it also returns the rest of the document, and words twice.)", "quantifier": "all RS3 files with distinct ids, no element that is its own parent, at most one group without a parent, any header, namespace and options", "why_tests_cant": "unbounded depth", "anchors": ["src/discoursegraphs/readwrite/rst/rs3/rs3graph.py: RSTGraph", "src/discoursegraphs/discoursegraph.py: get_span"]}
{"id": "C75", "title": "RS3 files as document graphs: relations", "statement": "If the relations of the file are a tree in which every element contains a word, has at most one nucleus in a span and a nucleus for its satellites, and no relation is called span, get_rst_spans returns exactly: for each element with nuclei of a multinuclear relation, one tuple N1, N2, ... per nucleus named after the element and all nuclei; for each satellite, a tuple N and a tuple S named after nucleus and satellite; each with the relation name and the positions of the first and last word of the nucleus or satellite; where the nucleus of a satellite is the element in the same span, else all nuclei, else the segment's own words. (With precedence relations the spans are too long; a blank segment raises ValueError; in another namespace no relation is found.)", "quantifier": "all RS3 files with distinct ids, no element that is its own parent, at most one group without a parent, any header, namespace and options; any order in which Python lists nodes and edges", "why_tests_cant": "unbounded trees, arbitrary dict order", "anchors": ["src/discoursegraphs/readwrite/rst/rs3/rs3graph.py: get_rst_relation_root_nodes", "src/discoursegraphs/readwrite/rst/rs3/rs3graph.py: get_rst_relations", "src/discoursegraphs/readwrite/rst/rs3/rs3graph.py: get_rst_spans"]}
{"id": "C76", "title": "URML documents: nodes and edges", "statement": "Reading a URML document in which segments, words and relations have distinct ids (none the default root) succeeds exactly if each hypRelation has one nucleus and one satellite, the links form no cycle, there is at least one link, and, if precedence relations are asked for, there are two words. Then the graph has exactly one node per segment (with its text, stripped or joined from its parts, and a label that shows whether it was last mentioned as nucleus, satellite or not at all), per word (with its string), per parRelation and hypRelation (with name and type), and one bare node per unit that is only mentioned; and exactly one spans edge from each segment to each word, one spans edge from each parRelation to each part, one dominates edge from each hypRelation to its nucleus and one from the nucleus to the satellite, with the name and type of the relation; and the precedence edges. Other relations are ignored; the default root is gone. (A document of one segment without tokens raises IndexError.)", "quantifier": "all URML documents with distinct ids, any namespace, name and options", "why_tests_cant": "every document; exact set of nodes and edges; acceptance is an equivalence", "anchors": ["src/discoursegraphs/readwrite/rst/urml.py: URMLDocumentGraph.__init__", "src/discoursegraphs/readwrite/rst/urml.py: URMLDocumentGraph.__urml2graph", "src/discoursegraphs/readwrite/rst/urml.py: URMLDocumentGraph.__add_segment", "src/discoursegraphs/readwrite/rst/urml.py: URMLDocumentGraph.__add_relation", "src/discoursegraphs/readwrite/rst/urml.py: URMLDocumentGraph.__add_token", "src/discoursegraphs/readwrite/rst/urml.py: extract_segment_types"]}
{"id": "C77", "title": "URML documents: the root", "statement": "The root of the graph read from a URML document is a node without incoming links where a longest path of links starts. If only one linked node has no incoming link, it is the root and all linked nodes are below it. (If there are several trees, the root is the top of one with a longest path, and the other trees are not below it.)", "quantifier": "all URML documents with distinct ids, any namespace, name and options; paths of any length", "why_tests_cant": "maximality over all paths of all documents", "anchors": ["src/discoursegraphs/readwrite/rst/urml.py: URMLDocumentGraph.__urml2graph"]}
{"id": "C78", "title": "URML documents: text, EDUs and spans", "statement": "The tokens of the graph are the words of all segments in document order; the text is these words joined by blanks; get_edus returns the nodes of all segments in document order. If relations hold between units, get_span of a unit returns, sorted by id, exactly the words of the segments it is linked to directly or indirectly, itself included, so a nucleus covers also its satellites; each word once, if no unit is linked from two places. (Otherwise words are repeated in the text; with precedence relations a unit covers what follows; a word without text makes get_text raise TypeError.)", "quantifier": "all URML documents with distinct ids, any namespace, name and options, with text at each word", "why_tests_cant": "unbounded nesting", "anchors": ["src/discoursegraphs/readwrite/rst/urml.py: URMLDocumentGraph", "src/discoursegraphs/discoursegraph.py: get_span", "src/discoursegraphs/discoursegraph.py: get_text"]}
{"id": "C79", "title": "Exmaralda documents: nodes and edges", "statement": "Reading an Exmaralda document succeeds exactly if all events start and end at points Tn, words last exactly one point, and the points of words and of one-point annotations are in the timeline. Then the tokens are the points of the timeline in the order of their times (equal times: document order); each point carries its word (as namespace:token) and, for each tier whose events all last one point, the text of its event there (as namespace:category; the last event counts); each other tier has a node with its category, type and display name and one node per event with the event's text as label and annotation; and exactly these edges exist: root dominates tier, tier dominates event, event spans each of its points from its start up to, but not including, its end. Ignored tiers leave nothing. (An event that reaches beyond the timeline makes nodes that are no tokens.)", "quantifier": "all Exmaralda documents with distinct ids (points, tiers and the nodes made of events), any namespace, name of the word tier, and list of ignored tiers", "why_tests_cant": "every document; exact set of nodes and edges; acceptance is an equivalence", "anchors": ["src/discoursegraphs/readwrite/exmaralda.py: ExmaraldaDocumentGraph.__init__", "src/discoursegraphs/readwrite/exmaralda.py: ExmaraldaDocumentGraph.__add_tokenization", "src/discoursegraphs/readwrite/exmaralda.py: ExmaraldaDocumentGraph.__add_tier", "src/discoursegraphs/readwrite/exmaralda.py: ExmaraldaDocumentGraph.__add_tokens", "src/discoursegraphs/readwrite/exmaralda.py: ExmaraldaDocumentGraph.is_token_annotation_tier", "src/discoursegraphs/readwrite/exmaralda.py: ExmaraldaDocumentGraph.__add_token_annotation_tier", "src/discoursegraphs/readwrite/exmaralda.py: ExmaraldaDocumentGraph.__add_span_tier", "src/discoursegraphs/readwrite/exmaralda.py: ExmaraldaDocumentGraph.get_token_ids", "src/discoursegraphs/readwrite/exmaralda.py: ExmaraldaDocumentGraph.indexdelta", "src/discoursegraphs/readwrite/exmaralda.py: ExmaraldaDocumentGraph.gen_token_range"]}
{"id": "C80", "title": "Exmaralda documents: text and spans", "statement": "The text of the graph of an Exmaralda document can be read exactly if every point of the timeline has a word, and then it is these words in the order of the timeline, joined by blanks; get_token of a point without a word raises KeyError. get_span of an event returns exactly its points that have a word, in order; get_span of a tier and of the root returns, sorted, exactly the points with a word of all events below.", "quantifier": "all Exmaralda documents with distinct ids (points, tiers and the nodes made of events), any namespace, name of the word tier, and list of ignored tiers, events of any length inside the timeline", "why_tests_cant": "unbounded documents and spans", "anchors": ["src/discoursegraphs/readwrite/exmaralda.py: ExmaraldaDocumentGraph", "src/discoursegraphs/discoursegraph.py: get_span", "src/discoursegraphs/discoursegraph.py: get_text"]}
{"id": "C81", "title": "Exmaralda export: tiers and events", "statement": "Exporting a document graph with n tokens to Exmaralda writes the timeline T0..Tn, a tier with the words, one tier per token attribute (except token, id, word, morph, lemma, and layers/label) with one event per token that has it, one tier per informative layer with one event per node of the layer that spans tokens (from its first to one past its last token, with its label or an empty text), and one tier per pointing chain of at least three nodes, in this order; tiers are numbered and their category is the part of the name after the last colon. It succeeds exactly if all exported values and labels are strings, all words exist and all spans can be computed. (An attribute that is a number raises TypeError.)", "quantifier": "all consistent document graphs with distinct tokens, every list of pointing chains, every order of sets and dictionaries, with or without redundant layers", "why_tests_cant": "every graph, every iteration order of sets", "anchors": ["src/discoursegraphs/readwrite/exmaralda.py: ExmaraldaFile.__init__", "src/discoursegraphs/readwrite/exmaralda.py: ExmaraldaFile.__add_document_structure", "src/discoursegraphs/readwrite/exmaralda.py: ExmaraldaFile.__add_annotation_tier", "src/discoursegraphs/readwrite/exmaralda.py: ExmaraldaFile.__add_coreference_chain_tiers", "src/discoursegraphs/readwrite/exmaralda.py: ExmaraldaFile.__add_token_tiers", "src/discoursegraphs/readwrite/exmaralda.py: ExmaraldaFile.__span2event", "src/discoursegraphs/readwrite/exmaralda.py: is_informative"]}
{"id": "C82", "title": "Exmaralda export and import", "statement": "Exporting a document graph to Exmaralda and reading the file gives a graph whose tokens are T0..Tn: the i-th of the n words is the word of Ti (an empty word becomes None), and Tn has no word, so that get_text of the whole graph always raises. String attributes of tokens come back at the same tokens, and only there. In a layer with at least one node of several tokens each node comes back as a node with the same label that spans all points from its first to its last token, so gaps are filled. In a layer of single tokens the labels come back as attributes of the points. (A layer named token without labels overwrites the words.)", "quantifier": "all exported graphs in which no exported attribute or layer is called tok or token, any name and namespace of the reader", "why_tests_cant": "round trip for every graph", "anchors": ["src/discoursegraphs/readwrite/exmaralda.py: ExmaraldaFile", "src/discoursegraphs/readwrite/exmaralda.py: ExmaraldaDocumentGraph"]}
{"id": "C83", "title": "PAULA export: text and tokens", "statement": "The primary text file of a PAULA export is the words of the document joined by blanks, and the token file has one mark per token, in order, named by the token's id with _ for each colon, whose string-range starts (counted from 1) exactly where that word starts in the text and has its length. The export of such a document always ends with a set of files. If, however, the id of some token has no colon (so that it is mapped to itself), the token loses its text in the internal relabelling and every export of the document fails.", "quantifier": "all document graphs built by any calls with non-empty layers, in which every id is a string with a colon and ids stay apart when _ is written for colons, every edge has a type and the exported values are strings; all corpus names and layers without dots; both settings of saltnpepper_compatible; every iteration order of dictionaries and sets; for the failure: all graphs with a token id without colon that no other id is mapped to", "why_tests_cant": "every text and number of tokens; every order of relabelling", "anchors": ["src/discoursegraphs/readwrite/paulaxml/paula.py: PaulaDocument.__init__", "src/discoursegraphs/readwrite/paulaxml/paula.py: PaulaDocument.__make_xpointer_compatible", "src/discoursegraphs/readwrite/paulaxml/paula.py: PaulaDocument.__gen_primary_text_file", "src/discoursegraphs/readwrite/paulaxml/paula.py: PaulaDocument.__gen_tokenization_file", "src/discoursegraphs/readwrite/paulaxml/paula.py: get_onsets", "src/discoursegraphs/relabel.py: relabel_nodes", "src/discoursegraphs/util.py: ensure_xpointer_compatibility"]}
{"id": "C84", "title": "PAULA export: spans, hierarchies and features", "statement": "For every top level layer: the token feature file names every token in order with exactly its string attributes whose names start with the layer name and are not among the ignored ones; the span file has one mark per node with spans edges in the layer, listing its targets in natural order (or the first and last of them); the hierarchy file has one struct per source of a dominates edge, or of a spans edge to a token, in the layer, with one rel per target, named rel_source_target, carrying an edge type the two nodes have and pointing to the token file exactly for tokens; the node feature file has exactly the non-token nodes of the layer with exactly their attributes that are not ignored. An export only happens if the exported node values are strings: after get_offsets (numbers) it fails. (Attributes of other layers that start with the same letters are also taken, and the root node is exported although the code tries to leave it out.)", "quantifier": "all document graphs built by any calls with non-empty layers, in which every id is a string with a colon and ids stay apart when _ is written for colons, every edge has a type and the exported values are strings; all corpus names and layers without dots; both settings of saltnpepper_compatible; every iteration order of dictionaries and sets; every top level layer", "why_tests_cant": "every graph and layer; exact sets of sources, targets and features", "anchors": ["src/discoursegraphs/readwrite/paulaxml/paula.py: PaulaDocument.__gen_token_anno_file", "src/discoursegraphs/readwrite/paulaxml/paula.py: PaulaDocument.__gen_span_markables_file", "src/discoursegraphs/readwrite/paulaxml/paula.py: PaulaDocument.__gen_hierarchy_file", "src/discoursegraphs/readwrite/paulaxml/paula.py: PaulaDocument.__gen_struct_anno_files"]}
{"id": "C85", "title": "PAULA export: edges", "statement": "For every top level layer: the relation feature file has one entry per pair of nodes with a dominates edge in the layer, with exactly the attributes of such an edge that are not ignored; the pointing file has one relation per pair of nodes with a points_to edge, whose source and target are looked up in the token file exactly if they are tokens and in the hierarchy file otherwise, and the pointing feature file has its attributes. (The hierarchy file need not contain the node, and two different pairs may get the same relation name.)", "quantifier": "all document graphs built by any calls with non-empty layers, in which every id is a string with a colon and ids stay apart when _ is written for colons, every edge has a type and the exported values are strings; all corpus names and layers without dots; both settings of saltnpepper_compatible; every iteration order of dictionaries and sets; every top level layer", "why_tests_cant": "every multigraph with parallel edges", "anchors": ["src/discoursegraphs/readwrite/paulaxml/paula.py: PaulaDocument.__gen_rel_anno_file", "src/discoursegraphs/readwrite/paulaxml/paula.py: PaulaDocument.__gen_pointing_file", "src/discoursegraphs/readwrite/paulaxml/paula.py: PaulaDocument.__gen_pointing_anno_file", "src/discoursegraphs/readwrite/paulaxml/paula.py: PaulaDocument.__gen_node_href"]}
{"id": "C86", "title": "PAULA export: set of files", "statement": "A PAULA export consists of exactly the text file, the token file, seven files for each top level layer (the part before the first colon of the layers that nodes and edges of the document carry), and the annoSet file; no two of them have the same name, and the annoSet file lists all others exactly once, numbered from 0. The document name is cut at its first dot.", "quantifier": "all document graphs built by any calls with non-empty layers, in which every id is a string with a colon and ids stay apart when _ is written for colons, every edge has a type and the exported values are strings; all corpus names and layers without dots; both settings of saltnpepper_compatible; every iteration order of dictionaries and sets", "why_tests_cant": "every set of layers and every order in which it is read", "anchors": ["src/discoursegraphs/readwrite/paulaxml/paula.py: PaulaDocument.__init__", "src/discoursegraphs/readwrite/paulaxml/paula.py: PaulaDocument.__gen_annoset_file", "src/discoursegraphs/discoursegraph.py: get_top_level_layers"]}
{"id": "C87", "title": "ExportXML: the graph of a document", "statement": "Reading an ExportXML document gives exactly the graph that its elements describe: the nodes are the root, the elements' nodes and the ends of the edges; each node has the layers of all elements about it and, for each attribute, the value given last; the edges are exactly those of the elements (dominates for sentences, phrases and words, spans for units, ranges, topics, named entities and sets of antecedents, points_to for relations, discourse relations and secondary edges), plus, with precedence, the chain from the root through the words. Tokens and sentences are listed in document order, the name defaults to the id of the text, and the attributes tokens and connective have the values given last.", "quantifier": "all <text> elements: trees of elements with any tags, attributes, ids and nesting; all settings of precedence, ignore_relations, ignore_splitrelations, ignore_secedges, name and namespace", "why_tests_cant": "every nesting, missing id and order of elements; later elements change nodes of earlier ones", "anchors": ["src/discoursegraphs/readwrite/exportxml.py: ExportXMLDocumentGraph.__init__", "src/discoursegraphs/readwrite/exportxml.py: ExportXMLDocumentGraph.add_connective", "src/discoursegraphs/readwrite/exportxml.py: ExportXMLDocumentGraph.add_discrel", "src/discoursegraphs/readwrite/exportxml.py: ExportXMLDocumentGraph.add_edu", "src/discoursegraphs/readwrite/exportxml.py: ExportXMLDocumentGraph.add_edurange", "src/discoursegraphs/readwrite/exportxml.py: ExportXMLDocumentGraph.add_ne", "src/discoursegraphs/readwrite/exportxml.py: ExportXMLDocumentGraph.add_node_element", "src/discoursegraphs/readwrite/exportxml.py: ExportXMLDocumentGraph.add_relation", "src/discoursegraphs/readwrite/exportxml.py: ExportXMLDocumentGraph.add_secedge", "src/discoursegraphs/readwrite/exportxml.py: ExportXMLDocumentGraph.add_sentence", "src/discoursegraphs/readwrite/exportxml.py: ExportXMLDocumentGraph.add_splitrelation", "src/discoursegraphs/readwrite/exportxml.py: ExportXMLDocumentGraph.add_topic", "src/discoursegraphs/readwrite/exportxml.py: ExportXMLDocumentGraph.add_word", "src/discoursegraphs/readwrite/exportxml.py: ExportXMLDocumentGraph.parse_child_elements", "src/discoursegraphs/readwrite/exportxml.py: get_element_id", "src/discoursegraphs/readwrite/exportxml.py: get_parent_id", "src/discoursegraphs/readwrite/exportxml.py: get_sentence_id", "src/discoursegraphs/readwrite/exportxml.py: element_attribs_to_dict"]}
{"id": "C88", "title": "ExportXML: which documents are read", "statement": "A document is read without an exception if and only if the text has an id, every element has a known tag, its obligatory attributes (form, cat, type, relation, arg2, target, description) and an own or inherited id, every connective, discourse relation and relation belongs to a node that is already there when it is met, spans of sentences can be resolved, and, with precedence, there are at least two words. (So a text of one word cannot be read with precedence.)", "quantifier": "all <text> elements: trees of elements with any tags, attributes, ids and nesting; all settings of precedence, ignore_relations, ignore_splitrelations, ignore_secedges, name and namespace", "why_tests_cant": "an equivalence over all documents; depends on everything read before an element", "anchors": ["src/discoursegraphs/readwrite/exportxml.py: ExportXMLDocumentGraph.__init__", "src/discoursegraphs/readwrite/exportxml.py: ExportXMLDocumentGraph.add_word", "src/discoursegraphs/readwrite/exportxml.py: ExportXMLDocumentGraph.add_relation", "src/discoursegraphs/readwrite/exportxml.py: ExportXMLDocumentGraph.add_connective", "src/discoursegraphs/readwrite/exportxml.py: get_element_id", "src/discoursegraphs/readwrite/exportxml.py: get_parent_id", "src/discoursegraphs/readwrite/exportxml.py: get_sentence_id"]}
{"id": "C89", "title": "ExportXML: how often an element is read", "statement": "If no word is a direct child of a word, every word becomes a token exactly once, in document order, and the edges of the graph are those of every element once, plus those of the children of words once more: a relation, split relation or secondary edge below a word gives two parallel edges, although it was annotated once.", "quantifier": "all <text> elements: trees of elements with any tags, attributes, ids and nesting; all settings of precedence, ignore_relations, ignore_splitrelations, ignore_secedges, name and namespace, without words as children of words", "why_tests_cant": "multiplicities over all documents", "anchors": ["src/discoursegraphs/readwrite/exportxml.py: ExportXMLDocumentGraph.add_word", "src/discoursegraphs/readwrite/exportxml.py: ExportXMLDocumentGraph.parse_child_elements", "src/discoursegraphs/readwrite/exportxml.py: ExportXMLDocumentGraph.__init__"]}
{"id": "C90", "title": "ExportXML: spans", "statement": "Without precedence, the span of any node consists of exactly the tokens that can be reached from it over edges that are no pointing relations, in natural order. In a tidy document (distinct ids of the elements with nodes of their own, phrases and words attached to phrases or sentences) units and topics span exactly the words inside them, ranges the words of the units inside them, phrases and sentences the words that they dominate, and a sentence that has all and only the phrases and words inside it spans exactly the words inside it. (With precedence, spans run on to the end of the text.)", "quantifier": "all <text> elements: trees of elements with any tags, attributes, ids and nesting; all settings of precedence, ignore_relations, ignore_splitrelations, ignore_secedges, name and namespace, read without precedence, without an attribute token, in which the edges that are no pointing relations have no cycle", "why_tests_cant": "every depth of nesting and any attachment by the attribute parent", "anchors": ["src/discoursegraphs/discoursegraph.py: get_span", "src/discoursegraphs/readwrite/exportxml.py: ExportXMLDocumentGraph.add_edu", "src/discoursegraphs/readwrite/exportxml.py: ExportXMLDocumentGraph.add_edurange", "src/discoursegraphs/readwrite/exportxml.py: ExportXMLDocumentGraph.add_topic", "src/discoursegraphs/readwrite/exportxml.py: ExportXMLDocumentGraph.add_sentence", "src/discoursegraphs/readwrite/exportxml.py: ExportXMLDocumentGraph.add_node_element", "src/discoursegraphs/readwrite/exportxml.py: ExportXMLDocumentGraph.add_word"]}
{"id": "C91", "title": "ExportXML: ignored elements", "statement": "Reading with ignore_relations, ignore_splitrelations or ignore_secedges gives exactly the graph described by the elements other than the ignored ones: relations, discourse relations and split relations; split relations; and secondary edges. Tokens are the same.", "quantifier": "all <text> elements: trees of elements with any tags, attributes, ids and nesting; all settings of precedence, ignore_relations, ignore_splitrelations, ignore_secedges, name and namespace", "why_tests_cant": "every document and all combinations of options", "anchors": ["src/discoursegraphs/readwrite/exportxml.py: ExportXMLDocumentGraph.__init__", "src/discoursegraphs/readwrite/exportxml.py: ExportXMLDocumentGraph.add_relation", "src/discoursegraphs/readwrite/exportxml.py: ExportXMLDocumentGraph.add_discrel", "src/discoursegraphs/readwrite/exportxml.py: ExportXMLDocumentGraph.add_splitrelation", "src/discoursegraphs/readwrite/exportxml.py: ExportXMLDocumentGraph.add_secedge"]}
{"id": "C92", "title": "ExportXML: iteration over a corpus", "statement": "Calls of next() give the documents of the file one after the other, each once, and then StopIteration; after any calls and a reset, the list of documents is again that of the whole file, but without a reset a list continues where the last call stopped and a second list is empty. len() is the number of texts in the file and does not affect the iteration, except for one file name, for which it is always 3258.", "quantifier": "all files and all sequences of next(), list(), len() and _reset_corpus_iterator()", "why_tests_cant": "every history of calls", "anchors": ["src/discoursegraphs/readwrite/exportxml.py: ExportXMLCorpus.__init__", "src/discoursegraphs/readwrite/exportxml.py: ExportXMLCorpus._reset_corpus_iterator", "src/discoursegraphs/readwrite/exportxml.py: ExportXMLCorpus.__len__", "src/discoursegraphs/readwrite/exportxml.py: ExportXMLCorpus.__iter__", "src/discoursegraphs/readwrite/exportxml.py: ExportXMLCorpus.next", "src/discoursegraphs/readwrite/exportxml.py: ExportXMLCorpus.text_iter"]}
{"id": "C93", "title": ".dis files as graphs: the graph of a file", "statement": "Reading a .dis file gives exactly the graph that the units and spans that are read describe (all parts of the root; of every other span, all parts but the first): a node for the root, for each unit (text, label and, if tokenized, one node per word with an edge to it) and for each span (relation); the root dominates its parts; a span of nuclei has an edge with its relation to each of them; a nucleus dominates its satellite and is spanned by the span above it; with precedence, a chain from the root through the words. Nothing else is in the graph. Tokens are in the order of the text. The file is read without an exception if and only if the parts that are read of every span are nuclei, or one nucleus and one satellite, or, in a nucleus, one satellite, and, with precedence, there are at least two words.", "quantifier": "all .dis texts whose bracketed tree is a root over nuclei and satellites, each a unit with a marked text or a span of further nuclei and satellites; any nesting, names, relations and texts; both settings of tokenize and precedence", "why_tests_cant": "every nesting, number and order of parts; an equivalence over all files", "anchors": ["src/discoursegraphs/readwrite/rst/dis/disgraph.py: RSTLispDocumentGraph.__init__", "src/discoursegraphs/readwrite/rst/dis/disgraph.py: RSTLispDocumentGraph.parse_dis_tree", "src/discoursegraphs/readwrite/rst/dis/common.py: get_node_id", "src/discoursegraphs/readwrite/rst/dis/common.py: get_edu_text", "src/discoursegraphs/readwrite/rst/dis/common.py: get_relation_type", "src/discoursegraphs/readwrite/rst/dis/common.py: get_child_types", "src/discoursegraphs/readwrite/rst/dis/common.py: DisFile"]}
{"id": "C94", "title": ".dis files as graphs: text, lost units and spans", "statement": "The text of the graph is the words of the units that are read, joined by blanks; the nodes are the root, those units and spans and their words. The first part of every span other than the root, with everything inside it, has no node: if every such span has two parts, only one unit for each part of the root is left. Because the edges to words have no edge type, the span and the text of a node from which a word can be reached cannot be computed; in particular not that of the root.", "quantifier": "all .dis texts whose bracketed tree is a root over nuclei and satellites, each a unit with a marked text or a span of further nuclei and satellites; any nesting, names, relations and texts; both settings of tokenize and precedence; distinct ids of units (for the text) and of units and spans (for the loss)", "why_tests_cant": "all nestings; which units remain depends on every level above them", "anchors": ["src/discoursegraphs/readwrite/rst/dis/disgraph.py: RSTLispDocumentGraph.parse_dis_tree", "src/discoursegraphs/discoursegraph.py: get_text", "src/discoursegraphs/discoursegraph.py: get_span"]}
{"id": "C95", "title": ".dis files as graphs: files written from trees", "statement": "A file written from a rhetorical structure tree of more than one unit is such a file, and is read as a graph if and only if the following holds for the root's parts, followed down along what is read: no satellite consists of a nucleus followed by a satellite. The text of the graph is then that of the units that are left, which are some of the units of the tree in their order, and all of them if and only if the root has only units below it.", "quantifier": "all rhetorical structure trees (any depth, nuclearity and number of nuclei) with texts and relation names that can be written to .dis files", "why_tests_cant": "composition of two converters over all trees", "anchors": ["src/discoursegraphs/readwrite/rst/dis/disgraph.py: RSTLispDocumentGraph.parse_dis_tree", "src/discoursegraphs/readwrite/rst/dis/disfilewriter.py: DisFileWriter", "src/discoursegraphs/readwrite/rst/dis/common.py: DisFile"]}
{"id": "C96", "title": "Node and edge statistics", "statement": "For every document graph that the API can build, the statistics name each layer (and each attribute) of a node exactly once, with the number of nodes that have it, the most frequent first, and nothing else; the same for edges, where the number of parallel edges counts; at most five sources (targets) of edges are named with their number of edges, and no other source (target) has more edges. Which statistics are given is determined up to the order of equally frequent names, and the numbers of sources (targets) add up to the number of edges. No exception is raised.", "quantifier": "all document graphs reachable by the API, all iteration orders of dictionaries", "why_tests_cant": "all graphs, with any number of nodes, parallel edges, layers and attributes", "anchors": ["src/discoursegraphs/statistics.py: node_statistics", "src/discoursegraphs/statistics.py: edge_statistics", "src/discoursegraphs/statistics.py: print_sorted_counter", "src/discoursegraphs/statistics.py: print_most_common"]}
{"id": "C97", "title": "What a SaltDocument contains", "statement": "SaltDocument accepts an element tree exactly if some document can be read from it, and then contains one object for each <nodes>, <edges> and <layers> element below the root, in document order, each with its xsi:type, all its labels (in order, with a missing hexadecimal value computed from the value), its name (first SNAME label), id, layers, annotations (the last one of a name counts), and by type: the primary text, source and target, character positions, or the nodes and edges of a layer; the id of the document is its first id label. The classes TokenNode, SpanNode, StructureNode and SpanningRelation are never instantiated: their elements are read as plain nodes and edges.", "quantifier": "all element trees", "why_tests_cant": "all trees, with any labels, references and types of elements in any order and depth", "anchors": ["src/discoursegraphs/readwrite/salt/saltxmi.py: SaltDocument, create_class_instance, get_doc_id", "src/discoursegraphs/readwrite/salt/elements.py: SaltElement.from_etree, get_elements, get_annotations, get_layer_ids", "src/discoursegraphs/readwrite/salt/nodes.py: SaltNode.from_etree, PrimaryTextNode.from_etree", "src/discoursegraphs/readwrite/salt/edges.py: SaltEdge.from_etree, TextualRelation.from_etree, DominanceRelation.from_etree, get_node_id, get_string_onset, get_string_offset", "src/discoursegraphs/readwrite/salt/layers.py: SaltLayer.from_etree", "src/discoursegraphs/readwrite/salt/labels.py: SaltLabel.from_etree", "src/discoursegraphs/readwrite/salt/util.py: get_xsi_type, string2xmihex"]}
{"id": "C98", "title": "Salt elements survive writing", "statement": "For every element that is read (and that has no children other than labels), to_etree succeeds, gives an element with the tag of its kind, and reading that element gives an equal object: type, labels, ids, layers, annotations, ends, positions and members are kept. A document written element by element, below any root with the id label first, is read as the same document.", "quantifier": "all elements and documents that can be read, all roots", "why_tests_cant": "all elements with any labels and any (also negative or large) references", "anchors": ["src/discoursegraphs/readwrite/salt/nodes.py: SaltNode.to_etree", "src/discoursegraphs/readwrite/salt/edges.py: SaltEdge.to_etree", "src/discoursegraphs/readwrite/salt/layers.py: SaltLayer.to_etree", "src/discoursegraphs/readwrite/salt/labels.py: SaltLabel.to_etree"]}
{"id": "C99", "title": "LinguisticDocument completes the nodes", "statement": "A LinguisticDocument can be made from a SaltDocument (whose edges do not count from the end) exactly if the first node is the primary text and all ends of textual and dominance relations exist. It has the same id, edges, layers and number of nodes, and the text of the first node; each node gets the character positions of the last textual relation it is the source of, and the lists of nodes it dominates and is dominated by, in the order of the edges, and is unchanged otherwise. Refuted: sentences are found and tokens can be printed (the list of sentences is always empty and print_token never succeeds).", "quantifier": "all SaltDocuments read from element trees, all iteration orders of dictionaries", "why_tests_cant": "all documents, with any number of (parallel) edges between any nodes", "anchors": ["src/discoursegraphs/readwrite/salt/saltxmi.py: LinguisticDocument.__init__, _add_offsets_to_token_nodes, _add_token_node_ids_to_span_nodes, _add_span_node_ids_to_token_nodes, _add_dominance_relation__to__nodes, print_token, print_sentence, subtype_ids", "src/discoursegraphs/readwrite/salt/nodes.py: extract_sentences"]}
{"id": "C100", "title": "What is drawn of a document graph", "statement": "For every document graph that the API can build and whose labels (if any) are strings or numbers, preprocess_for_pydot gives a graph with the same name that has exactly one edge for each edge (parallel edges included) and one node for each text of a node id, all ids and labels in quotes with their own quotes escaped, and no other attributes; if no number has the text of a string among the ids, it has exactly one node, with its label, for each node. It fails (with TypeError) exactly if some label is neither a string nor a number. Refuted: nodes are always kept apart (the nodes 1 and '1' become one).", "quantifier": "all document graphs reachable by the API, all iteration orders", "why_tests_cant": "all graphs, ids and labels with any characters", "anchors": ["src/discoursegraphs/readwrite/dot.py: preprocess_for_pydot", "src/discoursegraphs/readwrite/dot.py: _preprocess_nodes_for_pydot", "src/discoursegraphs/readwrite/dot.py: _preprocess_edges_for_pydot", "src/discoursegraphs/readwrite/dot.py: quote_for_pydot"]}
{"id": "C101", "title": "Annotation layers of a graph", "statement": "For every document graph that the API can build, get_node_annotation_layers (get_edge_annotation_layers) gives exactly the layers of its nodes (edges), get_annotation_layers exactly all of these, and get_top_level_layers exactly the parts of these before the first colon; none of them fails.", "quantifier": "all document graphs reachable by the API", "why_tests_cant": "all graphs with any layers, also merged and relabelled ones", "anchors": ["src/discoursegraphs/discoursegraph.py: get_annotation_layers", "src/discoursegraphs/discoursegraph.py: get_top_level_layers", "src/discoursegraphs/discoursegraph.py: get_node_annotation_layers", "src/discoursegraphs/discoursegraph.py: get_edge_annotation_layers"]}
{"id": "C102", "title": "The graph that is written to GEXF and GraphML", "statement": "For every document graph that the API can build and that still has its root node, write_gexf and write_graphml both hand networkx a copy with the same nodes and edges (parallel edges included) and the same attributes, except that layers are strings, list values are strings, and the metadata of the root node, the generic root node and the former root nodes of merged graphs are removed (only there). If the root node is gone, both fail with KeyError. Refuted: every document graph can be written (the API lets users remove the root node).", "quantifier": "all document graphs reachable by the API, all opaque attribute values, all lists of former root nodes", "why_tests_cant": "all graphs with any attributes and parallel edges", "anchors": ["src/discoursegraphs/readwrite/generic.py: layerset2str", "src/discoursegraphs/readwrite/generic.py: attriblist2str", "src/discoursegraphs/readwrite/generic.py: remove_root_metadata", "src/discoursegraphs/readwrite/gexf.py: write_gexf", "src/discoursegraphs/readwrite/graphml.py: write_graphml"]}
{"id": "C103", "title": "Merging any number of annotation layers", "statement": "Given any number of document graphs that the API can build over the same token texts, with no nodes in common and roots without ingoing edges, merging all of them into the first (as PCC.get_document does) always succeeds: the result has exactly the nodes of all documents (tokens merged by position, other roots gone), non-token nodes keep their layers and attributes, each token has the layers of that token in every document and for each attribute the value of the last document that has it, the text is unchanged, and there is exactly one edge for each edge of each document. The order of the other documents matters neither for the nodes, nor for layers, nor for attributes of non-tokens. The same holds when all layers are merged into a new document without text (as the command line tool does). Refuted: the text survives even if another document has an attribute on its tokens named like the text of the first.", "quantifier": "all lists of document graphs reachable by the API with the same text, all outcomes of merge_graphs", "why_tests_cant": "any number of documents of any size, every order", "anchors": ["src/discoursegraphs/corpora.py: PCC.get_document", "src/discoursegraphs/merging.py: merging_cli", "src/discoursegraphs/discoursegraph.py: DiscourseDocumentGraph.merge_graphs"]}
{"id": "C104", "title": "Documents of the Potsdam Commentary Corpus", "statement": "If all files of the corpus are named dir/maz-<number>.<ext>, then document_ids are the ids of all tokenization files in sorted order, len is their number, pcc[i] is the document of the i-th id (negative i counting from the end; IndexError outside), and get_document(id) reads exactly the files of that id in all layers: it fails with TypeError if there are none, and otherwise, if these are annotations of one text, gives the merge of all of them as in C103. Refuted: a part of an id selects one document (the files of several are mixed).", "quantifier": "all lists of layers and files named this way, all read functions, all ids and indices", "why_tests_cant": "any number of files, ids that are prefixes or suffixes of others", "anchors": ["src/discoursegraphs/corpora.py: PCC.document_ids", "src/discoursegraphs/corpora.py: PCC.__len__", "src/discoursegraphs/corpora.py: PCC.get_document", "src/discoursegraphs/corpora.py: PCC.__getitem__"]}
{"id": "C105", "title": "Reading files of the CODRA parser", "statement": "Reading a CODRA file gives the tree of the .dis reader, same shape and labels, in which each text has lost one leading _! and one final _! (also before a final line break), and every quote escaped by three backslashes is a quote; the errors are those of the .dis reader. Any text t comes back from _! + t with escaped quotes + _!, and a tree whose texts are written with escaped quotes reads back as the tree.", "quantifier": "all file contents, all texts, all RST trees with texts and relation names as in C36", "why_tests_cant": "any number and placement of backslashes, quotes and marks, trees of any size", "anchors": ["src/discoursegraphs/readwrite/rst/dis/codra.py: CodraRSTTree.__init__", "src/discoursegraphs/readwrite/rst/dis/codra.py: CodraRSTTree.cleanup_codra_edus"]}
{"id": "C106", "title": "Iteration over a URML corpus", "statement": "In every history of iter(corpus), next(iterator), corpus.next(), len(corpus) and _reset_corpus_iterator(), the iterators made since the last opening of the file and corpus.next() share its documents: each such call answers with the next document of the file that nobody got before (its graph, or the exception of the reader), and with StopIteration when there is none left; iterators made before a reset keep their own opening. An iterator whose document raised has ended, the other documents can still be read. len() is always the number of documents. In debug mode an element is emptied exactly when the iterator that gave it is asked again. Refuted: list(corpus) in debug mode gives the documents (all are emptied); a loop that ends has seen all documents.", "quantifier": "all files and all histories of calls with any number of iterators and resets", "why_tests_cant": "every interleaving of iterators", "anchors": ["src/discoursegraphs/readwrite/rst/urml.py: URMLCorpus.__init__", "src/discoursegraphs/readwrite/rst/urml.py: URMLCorpus._reset_corpus_iterator", "src/discoursegraphs/readwrite/rst/urml.py: URMLCorpus.__len__", "src/discoursegraphs/readwrite/rst/urml.py: URMLCorpus.__iter__", "src/discoursegraphs/readwrite/rst/urml.py: URMLCorpus.next", "src/discoursegraphs/readwrite/rst/urml.py: URMLCorpus.document_iter"]}
