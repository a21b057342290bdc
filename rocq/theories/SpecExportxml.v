(** * SpecExportxml: what an ExportXML document describes (C87-C91)

    Read from the elements of the <text> element. *)
From Verif Require Import PyBase DocGraph Relabel StrNum Query Text Rst Nltk SpecGraph SpecQuery SpecImport Conano Exportxml.

(** ** Elements and their places *)
Definition att (key : string) (x : xml) : option string := dget key (x_attrib x).
Definition has (key : string) (x : xml) : Prop := is_Some (att key x).
Definition get (key : string) (x : xml) : string := default "" (att key x).
Definition own_id (x : xml) : option string := att "{http://www.w3.org/XML/1998/namespace}id" x.
(** the id of the element around the element *)
Definition outer_id (p : place) : option string := head p.1 ≫= own_id.
(** the id of an element is its own one, or that of the element around it *)
Definition id_in (p : place) : option string := match own_id p.2 with Some i => Some i | None => outer_id p end.
Definition node_at (p : place) : nid := NStr (default "" (id_in p)).
(** what an element without own id annotates; the attribute parent takes precedence *)
Definition parent_in (p : place) : option string := match att "parent" p.2 with Some i => Some i | None => outer_id p end.
(** everything inside an element, in document order *)
Fixpoint inside_of (anc : list xml) (x : xml) : list place :=
  concat ((λ k, (x :: anc, k) :: inside_of (x :: anc) k) <$> x_kids x).
Definition inside (p : place) : list place := inside_of p.1 p.2.
Definition tagged (tag : string) (l : list place) : list place := filter (λ p : place, x_tag p.2 = tag) l.
Definition words_inside (p : place) : list nid := node_at <$> tagged "word" (inside p).
Definition children (p : place) : list place := (λ k, (p.2 :: p.1, k)) <$> x_kids p.2.
(** the closest element around a place that has one of the tags *)
Fixpoint closest (tags : list string) (anc : list xml) : option place :=
  match anc with
  | [] => None
  | y :: anc => if decide (x_tag y ∈ tags) then Some (anc, y) else closest tags anc
  end.
(** what precedes the first "_" of an id *)
Definition before_underscore (s : string) : string := str (default [] (head (split_char "_"%char (chs s)))).
(** the sentence of an element: the one around it, or the one its id begins with *)
Definition sentence_at (p : place) : option string :=
  match closest ["sentence"] p.1 with Some q => id_in q | None => before_underscore <$> id_in p end.
(** what dominates a phrase *)
Definition above_phrase (p : place) : option string := match att "parent" p.2 with Some i => Some i | None => sentence_at p end.
(** what dominates a word: the attribute parent counts only directly inside a phrase or a
    sentence *)
Definition above_word (p : place) : option string :=
  match p.1 with
  | [] => None
  | y :: _ =>
    if decide (x_tag y = "node" ∨ x_tag y = "sentence") then parent_in p
    else match closest ["node"; "sentence"] p.1 with Some q => id_in q | None => before_underscore <$> id_in p end
  end.
Definition to_node (o : option string) : nid := NStr (default "" o).

(** ** What an element says *)
(** the other attributes of an element, in the namespace of the document *)
Definition features (ns : string) (x : xml) : attrs :=
  (λ p : string * string, (ns +:+ ":" +:+ p.1, VStr p.2)) <$> filter (λ p : string * string, p.1 ≠ "{http://www.w3.org/XML/1998/namespace}id") (x_attrib x).
Definition antecedents (x : xml) : list chars := split_blanks (chs (get "target" x)).
Definition antecedent_span (x : xml) : nid := NStr (str (Conll.join_with (chs "__") (antecedents x))).
(** the tokens of a sentence: its span, or the words inside *)
Definition sentence_tokens (p : place) : list nid :=
  match att "span" p.2 with
  | Some s => match convert_spanstring (chs s) with Ok ts => (λ t, NStr (str t)) <$> ts | Err _ => [] end
  | None => words_inside p
  end.
Section Says.
  Context (ns : string) (o : xopts) (root : nid).
  Notation L l := (ns +:+ ":" +:+ l).
  (** about nodes: layers besides [ns], and attributes *)
  Definition about_nodes (p : place) : list node_info :=
    let x := p.2 in
    let n := node_at p in
    if decide (x_tag x = "connective") then [(n, [L "connective"], [("connective", VObj 1)])]
    else if decide (x_tag x = "discRel") then
      if no_relations o then [] else [(n, [L "discourse"; L "relation"], features ns x)]
    else if decide (x_tag x = "edu") then [(n, [L "edu"], ("tokens", VObj 0) :: features ns x)]
    else if decide (x_tag x = "edu-range") then [(n, [L "edu:range"], features ns x)]
    else if decide (x_tag x = "ne") then [(n, [L "ne"], ("label", VStr ("ne:" +:+ get "type" x)) :: features ns x)]
    else if decide (x_tag x = "node") then [(n, [L "syntax"], ("label", VStr (get "cat" x)) :: features ns x)]
    else if decide (x_tag x = "relation") then
      if no_relations o then [] else
      (to_node (parent_in p), [L (get "type" x)], [("relation", VStr (get "type" x))]) ::
      match att "target" x with
      | Some q => [(to_node (parent_in p), [L "markable"], []); (NStr q, [L "markable"], [])]
      | None => []
      end
    else if decide (x_tag x = "secEdge") then []
    else if decide (x_tag x = "sentence") then [(n, [], [("tokens", VObj 0)])]
    else if decide (x_tag x = "splitRelation") then
      if no_relations o || no_splitrelations o then [] else
      [(n, [L "relation"; L (get "type" x); L "markable"], []);
       (antecedent_span x, [L "targetspan"; L (get "type" x); L "markable"], [])]
    else if decide (x_tag x = "topic") then [(n, [L "topic"], [("tokens", VObj 0); ("description", VStr (get "description" x))])]
    else if decide (x_tag x = "word") then
      [(n, [L "token"], (L "token", VStr (get "form" x)) :: ("label", VStr (get "form" x)) :: features ns x)]
    else [].
  (** about edges *)
  Definition about_edges (p : place) : list edge_info :=
    let x := p.2 in
    let n := node_at p in
    if decide (x_tag x = "connective") then []
    else if decide (x_tag x = "discRel") then
      if no_relations o then [] else
      [(n, NStr (get "arg2" x), [ns; L "discourse"; L "relation"],
        [("edge_type", VStr "points_to"); ("relation", VStr (get "relation" x)); ("label", VStr ("discourse:" +:+ get "relation" x))])]
    else if decide (x_tag x = "edu") then (λ w, (n, w, [ns; L "edu"], [("edge_type", VStr "spans")])) <$> words_inside p
    else if decide (x_tag x = "edu-range") then
      (λ e, (n, e, [ns; L "edu:range"], [("edge_type", VStr "spans")])) <$> (node_at <$> tagged "edu" (inside p))
    else if decide (x_tag x = "ne") then
      (λ k, (n, k, [ns; L "ne"], [("edge_type", VStr "spans"); ("label", VStr ("ne:" +:+ get "type" x))])) <$> (node_at <$> children p)
    else if decide (x_tag x = "node") then [(to_node (above_phrase p), n, [ns], [("edge_type", VStr "dominates")])]
    else if decide (x_tag x = "relation") then
      if no_relations o then [] else
      match att "target" x with
      | Some q => [(to_node (parent_in p), NStr q, [ns; L (get "type" x); L "coreference"], [("label", VStr (get "type" x)); ("edge_type", VStr "points_to")])]
      | None => []
      end
    else if decide (x_tag x = "secEdge") then
      if no_secedges o then [] else
      [(to_node (parent_in p), n, [ns; L "secedge"], [("label", VStr ("secedge:" +:+ get "cat" x)); ("edge_type", VStr "points_to")])]
    else if decide (x_tag x = "sentence") then [(root, n, [ns], [("edge_type", VStr "dominates")])]
    else if decide (x_tag x = "splitRelation") then
      if no_relations o || no_splitrelations o then [] else
      (n, antecedent_span x, [ns; L "coreference"; L "splitrelation"; L (get "type" x)], [("edge_type", VStr "points_to")]) ::
      ((λ c, (antecedent_span x, NStr (str c), [ns; L (get "type" x)], [("edge_type", VStr "spans")])) <$> antecedents x)
    else if decide (x_tag x = "topic") then (λ w, (n, w, [ns; L "topic"], [("edge_type", VStr "spans")])) <$> words_inside p
    else if decide (x_tag x = "word") then [(to_node (above_word p), n, [ns], [("edge_type", VStr "dominates")])]
    else [].

  (** ** What an element needs *)
  Definition all_named (l : list place) : Prop := Forall (λ p, is_Some (id_in p)) l.
  (** [known] are the nodes there are when the element is read *)
  Definition element_ok (known : list nid) (p : place) : Prop :=
    let x := p.2 in
    let named := is_Some (id_in p) in
    if decide (x_tag x = "connective") then named ∧ node_at p ∈ known
    else if decide (x_tag x = "discRel") then no_relations o = true ∨ (named ∧ node_at p ∈ known ∧ has "arg2" x ∧ has "relation" x)
    else if decide (x_tag x = "edu") then named ∧ all_named (tagged "word" (inside p))
    else if decide (x_tag x = "edu-range") then named ∧ all_named (tagged "edu" (inside p))
    else if decide (x_tag x = "ne") then named ∧ has "type" x ∧ all_named (children p)
    else if decide (x_tag x = "node") then named ∧ has "cat" x ∧ is_Some (above_phrase p)
    else if decide (x_tag x = "relation") then
      no_relations o = true ∨ (is_Some (parent_in p) ∧ to_node (parent_in p) ∈ known ∧ has "type" x)
    else if decide (x_tag x = "secEdge") then no_secedges o = true ∨ (named ∧ is_Some (parent_in p) ∧ has "cat" x)
    else if decide (x_tag x = "sentence") then
      is_Some (own_id x) ∧ match att "span" x with
                           | Some s => ∃ ts, convert_spanstring (chs s) = Ok ts
                           | None => all_named (tagged "word" (inside p))
                           end
    else if decide (x_tag x = "splitRelation") then
      (no_relations o = true ∨ no_splitrelations o = true) ∨ (named ∧ has "target" x ∧ has "type" x)
    else if decide (x_tag x = "topic") then named ∧ has "description" x ∧ all_named (tagged "word" (inside p))
    else if decide (x_tag x = "word") then named ∧ is_Some (above_word p) ∧ has "form" x
    else False.
End Says.

(** ** The document *)
(** what is read when an element is met: the element; and, if it is a word, its children *)
Fixpoint read_at (anc : list xml) (x : xml) : list place :=
  (anc, x) :: if decide (x_tag x = "word") then concat (read_at (x :: anc) <$> x_kids x) else [].
Definition read_of (x : xml) : list place := p ← inside ([], x); read_at p.1 p.2.
Definition root_of (ns : string) (x : xml) : nid :=
  match own_id x with Some i => if decide (i = "") then NStr (ns +:+ ":root_node") else NStr i | None => NStr "" end.
Definition facts (ns : string) (o : xopts) (l : list place) : list node_info := p ← l; about_nodes ns o p.
Definition links (ns : string) (o : xopts) (root : nid) (l : list place) : list edge_info := p ← l; about_edges ns o root p.
Definition edge_ends (E : list edge_info) : list nid := e ← E; [e.1.1.1; e.1.1.2].
(** the root, the nodes spoken about, and the ends of the edges *)
Definition known_nodes (ns : string) (o : xopts) (root : nid) (l : list place) : list nid :=
  root :: ((λ f : node_info, f.1.1) <$> facts ns o l) ++ edge_ends (links ns o root l).
(** layers are collected, and a later attribute replaces an earlier one *)
Definition layers_about (F : list node_info) (n : nid) : list string := f ← filter (λ f : node_info, f.1.1 = n) F; f.1.2.
Definition attrs_about (F : list node_info) (n : nid) : attrs := f ← reverse (filter (λ f : node_info, f.1.1 = n) F); f.2.
Definition tokens_of (l : list place) : list nid := node_at <$> tagged "word" l.
Definition sentences_of (l : list place) : list nid := node_at <$> tagged "sentence" l.
(** root -> first token -> second token -> ... *)
Definition order_links (ns : string) (root : nid) (ts : list nid) : list edge_info :=
  (λ e : nid * nid, (e.1, e.2, [ns; ns +:+ ":precedence"], [("edge_type", VStr "precedes")])) <$> zip (root :: ts) ts.
(** the graph [g] says exactly what the elements [l] say *)
Record says_exactly (ns : string) (o : xopts) (precedence : bool) (root : nid) (l : list place) (g : graph) : Prop := {
  se_nodes : ∀ n, n ∈ nodes g ↔ n ∈ known_nodes ns o root l;
  se_about : ∀ n a, node_attrs g n = Some a → attrs_are a (ns :: layers_about (facts ns o l) n) (attrs_about (facts ns o l) n);
  se_edges : has_edges g (links ns o root l ++ if precedence then order_links ns root (tokens_of l) else []);
}.
(** each element finds what it needs; an order of tokens needs two tokens *)
Definition readable (ns : string) (o : xopts) (precedence : bool) (x : xml) : Prop :=
  is_Some (own_id x) ∧ (∀ l1 p l2, read_of x = l1 ++ p :: l2 → element_ok o (known_nodes ns o (root_of ns x) l1) p) ∧
  (precedence = true → 1 < length (tokens_of (read_of x))).
(** the last value given to a node *)
Definition last_given {A} (n : nid) (l : list (nid * A)) : option A := snd <$> last (filter (λ q : nid * A, q.1 = n) l).
Definition token_lists (l : list place) : list (nid * list nid) :=
  p ← l; if decide (x_tag p.2 ∈ ["edu"; "topic"]) then [(node_at p, words_inside p)]
         else if decide (x_tag p.2 = "sentence") then [(node_at p, sentence_tokens p)] else [].
Definition connectives (l : list place) : list (nid * dict string string) :=
  p ← l; if decide (x_tag p.2 = "connective") then [(node_at p, filter (λ q : string * string, q.1 ≠ "konn") (x_attrib p.2))] else [].
(** no word contains a word *)
Definition flat_words (x : xml) : Prop := ∀ p y, p ∈ inside ([], x) → x_tag p.2 = "word" → y ∈ x_kids p.2 → x_tag y ≠ "word".

(** ** Spans *)
(** [u] has an edge to [v] that is not a pointing relation *)
Definition over (ns : string) (o : xopts) (x : xml) (u v : nid) : Prop :=
  ∃ e, e ∈ links ns o (root_of ns x) (read_of x) ∧ e.1.1.1 = u ∧ e.1.1.2 = v ∧ dget "edge_type" e.2 ≠ Some (VStr "points_to").
Definition proper_over (ns : string) (o : xopts) (x : xml) (u v : nid) : Prop := u ≠ v ∧ over ns o x u v.
(** the attribute "token" is the one of words *)
Definition no_token_atts (x : xml) : Prop := ∀ p, p ∈ inside ([], x) → att "token" p.2 = None.
(** the elements with a node of their own *)
Definition own_node (p : place) : Prop := x_tag p.2 ∈ ["edu"; "edu-range"; "ne"; "node"; "sentence"; "topic"; "word"].
Definition phrase (p : place) : Prop := x_tag p.2 = "node" ∨ x_tag p.2 = "sentence".
(** what dominates the node of a phrase or of a word *)
Definition above (p : place) : option string := if decide (x_tag p.2 = "node") then above_phrase p else above_word p.
(** these nodes are distinct; phrases and words are dominated by phrases or sentences; a
    set of antecedents has a node of its own *)
Record tidy (ns : string) (x : xml) : Prop := {
  td_ids : NoDup (root_of ns x :: (node_at <$> filter (λ p : place, x_tag p.2 ∈ ["edu"; "edu-range"; "ne"; "node"; "sentence"; "topic"; "word"]) (inside ([], x))));
  td_above : ∀ p, p ∈ inside ([], x) → x_tag p.2 = "node" ∨ x_tag p.2 = "word" → ∃ q, q ∈ inside ([], x) ∧ phrase q ∧ to_node (above p) = node_at q;
  td_antecedents : ∀ p q, p ∈ inside ([], x) → q ∈ inside ([], x) → x_tag p.2 = "splitRelation" → own_node q → antecedent_span p.2 ≠ node_at q;
}.
(** phrases over phrases and words *)
Definition dominated (x : xml) (u v : nid) : Prop :=
  ∃ q, q ∈ inside ([], x) ∧ (x_tag q.2 = "node" ∨ x_tag q.2 = "word") ∧ u = to_node (above q) ∧ v = node_at q.
(** a sentence that has all and only the phrases and words inside it *)
Definition closed_sentence (x : xml) (p : place) : Prop :=
  ∀ q, q ∈ inside ([], x) → x_tag q.2 = "node" ∨ x_tag q.2 = "word" →
    (q ∈ inside p ↔ to_node (above q) = node_at p ∨ ∃ r, r ∈ inside p ∧ x_tag r.2 = "node" ∧ to_node (above q) = node_at r).

(** ** Elements that are read twice, or not at all *)
(** the children of words *)
Definition word_children (x : xml) : list place := p ← tagged "word" (inside ([], x)); children p.
(** the options leave the element in *)
Definition kept (o : xopts) (p : place) : Prop :=
  (x_tag p.2 ∈ ["relation"; "discRel"; "splitRelation"] → no_relations o = false) ∧
  (x_tag p.2 = "splitRelation" → no_splitrelations o = false) ∧
  (x_tag p.2 = "secEdge" → no_secedges o = false).
Global Instance kept_dec o p : Decision (kept o p).
Proof. unfold kept. apply _. Defined.
Definition all_options : xopts := XOpts false false false.

(** ** The corpus *)
Inductive corpus_call := CNext | CList | CReset | CLen.
(** the corpus after a call *)
Definition after_call (c : xcorpus) (k : corpus_call) : xcorpus :=
  match k with CNext => (next_document c).1 | CList => (list_corpus c).1 | CReset => reset_corpus c | CLen => (corpus_len c).1 end.
(** the results of [k] calls of next() *)
Fixpoint nexts (k : nat) (c : xcorpus) : list (res xstate) :=
  match k with O => [] | S k => (next_document c).2 :: nexts k (next_document c).1 end.
Definition all_read (texts : list xml) (gs : list xstate) : Prop := Forall2 (λ x g, document_of x = Ok g) texts gs.
