(** * Exportxml: documents in the Negra ExportXML format

    Model of readwrite/exportxml.py.  Simplifications: elements are element trees (as in
    Conano.v) without comments and processing instructions; nothing above the <text>
    element is seen; text is made of bytes, so that every id and layer is a [str].  The
    values of the node attributes "tokens" (a list) and "connective" (a dictionary) are
    kept beside the graph, by node; in the graph they are the opaque objects [VObj 0] and
    [VObj 1].  [ns] is self.ns.  A constructor that raises gives the caller no graph, so
    only the fact that it raises matters. *)
From Verif Require Import PyBase DocGraph Relabel StrNum Query Text Rst Nltk Parsers Anaphora Conano Decour Ptb Convert Conll.

(** exportxml.py:713-718, add_ns('id') *)
Definition xml_id : string := "{http://www.w3.org/XML/1998/namespace}id".
(** an element and its ancestors, the parent first *)
Notation place := (list xml * xml)%type.
(** the arguments ignore_relations, ignore_splitrelations, ignore_secedges *)
Record xopts := XOpts { no_relations : bool; no_splitrelations : bool; no_secedges : bool }.
(** the graph, and the values of the attributes "tokens" and "connective" *)
Record xstate := XState { xs_graph : graph; xs_tokens : dict nid (list nid); xs_connective : dict nid (dict string string) }.
Notation xprog := (xstate → xstate * option exc).

(** ** Control *)
Definition x_skip : xprog := λ st, (st, None).
Definition x_then (p q : xprog) : xprog := λ st, match p st with (st, Some e) => (st, Some e) | (st, None) => q st end.
Notation "p ;> q" := (x_then p q) (at level 100, right associativity).
Definition x_need {A} (r : res A) (k : A → xprog) : xprog := λ st, match r with Ok a => k a st | Err e => (st, Some e) end.
Definition on_graph (f : graph → outcome) : xprog := λ st, let r := f (xs_graph st) in (XState r.1 (xs_tokens st) (xs_connective st), r.2).
Definition x_each {A} (f : A → xprog) (l : list A) : xprog := loop f l.

(** ** Looking around *)
(** exportxml.py:678-692, get_element_id *)
Definition get_element_id (anc : list xml) (x : xml) : res string :=
  match dget xml_id (x_attrib x) with
  | Some i => Ok i
  | None => match anc with [] => Err AttributeError | p :: _ => x_get (x_attrib p) xml_id end
  end.
(** exportxml.py:694-699, get_parent_id *)
Definition get_parent_id (anc : list xml) (x : xml) : res string :=
  match dget "parent" (x_attrib x) with
  | Some i => Ok i
  | None => match anc with [] => Err AttributeError | p :: _ => x_get (x_attrib p) xml_id end
  end.
(** [element.iterancestors(tags).next()], with the ancestors of the element found *)
Fixpoint iterancestors (tags : list string) (anc : list xml) : option place :=
  match anc with
  | [] => None
  | p :: anc => if decide (x_tag p ∈ tags) then Some (anc, p) else iterancestors tags anc
  end.
(** [id.split('_')[0]] *)
Definition first_part (s : string) : string := str (default [] (head (split_char "_"%char (chs s)))).
(** exportxml.py:701-710, get_sentence_id *)
Definition get_sentence_id (anc : list xml) (x : xml) : res string :=
  match iterancestors ["sentence"] anc with
  | Some p => get_element_id p.1 p.2
  | None => let! i := get_element_id anc x in Ok (first_part i)
  end.
(** [element.iterdescendants()], in document order *)
Fixpoint iterdescendants (anc : list xml) (x : xml) : list place :=
  concat ((λ k, (x :: anc, k) :: iterdescendants (x :: anc) k) <$> x_kids x).
(** the ids of [element.iterdescendants(tag)] *)
Definition ids_below (tag : string) (anc : list xml) (x : xml) : res (list nid) :=
  rmap (λ p : place, let! i := get_element_id p.1 p.2 in Ok (NStr i)) (filter (λ p : place, x_tag p.2 = tag) (iterdescendants anc x)).

Section Read.
  Context (ns : string) (o : xopts).
  (** exportxml.py:668-675, element_attribs_to_dict; the keys of an element are distinct *)
  Definition attribs_to_dict (x : xml) : attrs :=
    (λ p : string * string, (ns +:+ ":" +:+ p.1, VStr p.2)) <$> filter (λ p : string * string, p.1 ≠ xml_id) (x_attrib x).
  Definition in_layer (l : string) : string := ns +:+ ":" +:+ l.

  (** exportxml.py:252-273, add_connective *)
  Definition add_connective (anc : list xml) (x : xml) : xprog :=
    x_need (get_element_id anc x) (λ i,
      on_graph (λ g, add_layer_node g (NStr i) (in_layer "connective")) ;>
      on_graph (λ g, node_update g (NStr i) [("connective", VObj 1)]) ;>
      λ st, (XState (xs_graph st) (xs_tokens st) (dset (NStr i) (filter (λ p : string * string, p.1 ≠ "konn") (x_attrib x)) (xs_connective st)), None)).
  (** exportxml.py:275-319, add_discrel *)
  Definition add_discrel (anc : list xml) (x : xml) : xprog :=
    if no_relations o then x_skip else
    x_need (get_element_id anc x) (λ a, x_need (x_get (x_attrib x) "arg2") (λ b, x_need (x_get (x_attrib x) "relation") (λ r,
      on_graph (λ g, node_update g (NStr a) (attribs_to_dict x)) ;>
      on_graph (λ g, add_layer_node g (NStr a) (in_layer "discourse")) ;>
      on_graph (λ g, add_layer_node g (NStr a) (in_layer "relation")) ;>
      on_graph (λ g, add_edge g (NStr a) (NStr b) (VSet [ns; in_layer "discourse"; in_layer "relation"]) None None
                       [("edge_type", VStr points_to); ("relation", VStr r); ("label", VStr ("discourse:" +:+ r))])))).
  (** exportxml.py:345-353 and :624-631: edges to all words below, and the attribute "tokens" *)
  Definition add_word_edges (i : string) (layer : string) (anc : list xml) (x : xml) : xprog :=
    x_need (ids_below "word" anc x) (λ ws,
      x_each (λ w, on_graph (λ g, add_edge g (NStr i) w (VSet [ns; in_layer layer]) None None [("edge_type", VStr spans)])) ws ;>
      on_graph (λ g, node_update g (NStr i) [("tokens", VObj 0)]) ;>
      λ st, (XState (xs_graph st) (dset (NStr i) ws (xs_tokens st)) (xs_connective st), None)).
  (** exportxml.py:321-353, add_edu *)
  Definition add_edu (anc : list xml) (x : xml) : xprog :=
    x_need (get_element_id anc x) (λ i,
      on_graph (λ g, add_node g (NStr i) (VSet [ns; in_layer "edu"]) (Some (attribs_to_dict x)) []) ;>
      add_word_edges i "edu" anc x).
  (** exportxml.py:355-394, add_edurange *)
  Definition add_edurange (anc : list xml) (x : xml) : xprog :=
    x_need (get_element_id anc x) (λ i,
      on_graph (λ g, add_node g (NStr i) (VSet [ns; in_layer "edu:range"]) (Some (attribs_to_dict x)) []) ;>
      x_need (ids_below "edu" anc x) (λ es,
        x_each (λ e, on_graph (λ g, add_edge g (NStr i) e (VSet [ns; in_layer "edu:range"]) None None [("edge_type", VStr spans)])) es)).
  (** exportxml.py:396-421, add_ne *)
  Definition add_ne (anc : list xml) (x : xml) : xprog :=
    x_need (get_element_id anc x) (λ i, x_need (x_get (x_attrib x) "type") (λ t,
      on_graph (λ g, add_node g (NStr i) (VSet [ns; in_layer "ne"]) (Some (attribs_to_dict x)) [("label", VStr ("ne:" +:+ t))]) ;>
      x_need (rmap (λ k, let! i := get_element_id (x :: anc) k in Ok (NStr i)) (x_kids x)) (λ ks,
        x_each (λ k, on_graph (λ g, add_edge g (NStr i) k (VSet [ns; in_layer "ne"]) None None [("edge_type", VStr spans); ("label", VStr ("ne:" +:+ t))])) ks))).
  (** exportxml.py:423-457, add_node_element *)
  Definition add_node_element (anc : list xml) (x : xml) : xprog :=
    x_need (get_element_id anc x) (λ i,
    x_need (if dmem "parent" (x_attrib x) then get_parent_id anc x else get_sentence_id anc x) (λ p,
    x_need (x_get (x_attrib x) "cat") (λ c,
      on_graph (λ g, add_node g (NStr i) (VSet [ns; in_layer "syntax"]) (Some (attribs_to_dict x)) [("label", VStr c)]) ;>
      on_graph (λ g, add_edge g (NStr p) (NStr i) VNone None None [("edge_type", VStr dominates)])))).
  (** exportxml.py:459-504, add_relation *)
  Definition add_relation (anc : list xml) (x : xml) : xprog :=
    if no_relations o then x_skip else
    x_need (get_parent_id anc x) (λ p, x_need (x_get (x_attrib x) "type") (λ t,
      on_graph (λ g, node_update g (NStr p) [("relation", VStr t)]) ;>
      on_graph (λ g, add_layer_node g (NStr p) (in_layer t)) ;>
      match dget "target" (x_attrib x) with
      | None => x_skip
      | Some q =>
        on_graph (λ g, add_layer_node g (NStr p) (in_layer "markable")) ;>
        on_graph (λ g, add_edge g (NStr p) (NStr q) (VSet [ns; in_layer t; in_layer "coreference"]) None None [("label", VStr t); ("edge_type", VStr points_to)]) ;>
        on_graph (λ g, add_layer_node g (NStr q) (in_layer "markable"))
      end)).
  (** exportxml.py:506-529, add_secedge *)
  Definition add_secedge (anc : list xml) (x : xml) : xprog :=
    if no_secedges o then x_skip else
    x_need (get_parent_id anc x) (λ p, x_need (get_element_id anc x) (λ i, x_need (x_get (x_attrib x) "cat") (λ c,
      on_graph (λ g, add_edge g (NStr p) (NStr i) (VSet [ns; in_layer "secedge"]) None None [("label", VStr ("secedge:" +:+ c)); ("edge_type", VStr points_to)])))).
  (** exportxml.py:531-557, add_sentence *)
  Definition add_sentence (anc : list xml) (x : xml) : xprog :=
    x_need (x_get (x_attrib x) xml_id) (λ i,
      on_graph (λ g, add_edge g (g_root g) (NStr i) VNone None None [("edge_type", VStr dominates)]) ;>
      on_graph (λ g, (set_sentences (g_sentences g ++ [NStr i]) g, None)) ;>
      x_need (match dget "span" (x_attrib x) with
              | Some s => let! ts := convert_spanstring (chs s) in Ok ((λ t, NStr (str t)) <$> ts)
              | None => ids_below "word" anc x
              end) (λ ts,
        on_graph (λ g, node_update g (NStr i) [("tokens", VObj 0)]) ;>
        λ st, (XState (xs_graph st) (dset (NStr i) ts (xs_tokens st)) (xs_connective st), None))).
  (** exportxml.py:559-600, add_splitrelation *)
  Definition add_splitrelation (anc : list xml) (x : xml) : xprog :=
    if no_relations o || no_splitrelations o then x_skip else
    x_need (get_element_id anc x) (λ i, x_need (x_get (x_attrib x) "target") (λ q,
      let ts := split_blanks (chs q) in
      let span := str (join_with (chs "__") ts) in
      x_need (x_get (x_attrib x) "type") (λ t,
        on_graph (λ g, add_node g (NStr i) (VSet [ns; in_layer "relation"; in_layer t; in_layer "markable"]) None []) ;>
        on_graph (λ g, add_node g (NStr span) (VSet [ns; in_layer "targetspan"; in_layer t; in_layer "markable"]) None []) ;>
        on_graph (λ g, add_edge g (NStr i) (NStr span) (VSet [ns; in_layer "coreference"; in_layer "splitrelation"; in_layer t]) None None [("edge_type", VStr points_to)]) ;>
        x_each (λ c : chars, on_graph (λ g, add_edge g (NStr span) (NStr (str c)) (VSet [ns; in_layer t]) None None [("edge_type", VStr spans)])) ts))).
  (** exportxml.py:602-631, add_topic *)
  Definition add_topic (anc : list xml) (x : xml) : xprog :=
    x_need (get_element_id anc x) (λ i, x_need (x_get (x_attrib x) "description") (λ d,
      on_graph (λ g, add_node g (NStr i) (VSet [ns; in_layer "topic"]) None [("description", VStr d)]) ;>
      add_word_edges i "topic" anc x)).
  (** exportxml.py:641-653: the node a word is attached to *)
  Definition word_parent (anc : list xml) (x : xml) : res string :=
    match anc with
    | [] => Err AttributeError
    | p :: _ =>
      if decide (x_tag p ∈ ["node"; "sentence"]) then get_parent_id anc x
      else match iterancestors ["node"; "sentence"] anc with
           | Some q => get_element_id q.1 q.2
           | None => let! i := get_element_id anc x in Ok (first_part i)
           end
    end.
  (** exportxml.py:633-665, add_word, before parse_child_elements *)
  Definition add_word (anc : list xml) (x : xml) : xprog :=
    x_need (get_element_id anc x) (λ i, x_need (word_parent anc x) (λ p,
      on_graph (λ g, (set_tokens (g_tokens g ++ [NStr i]) g, None)) ;>
      x_need (of_option KeyError (dget (in_layer "form") (attribs_to_dict x))) (λ f,
        on_graph (λ g, add_node g (NStr i) (VSet [ns; in_layer "token"]) (Some (dupdate (attribs_to_dict x) [(in_layer "token", f); ("label", f)])) []) ;>
        on_graph (λ g, add_edge g (NStr p) (NStr i) VNone None None [("edge_type", VStr dominates)])))).
  (** exportxml.py:222-237, self.parsers, and :666, where a word calls the parsers of
      its children (:242-245, parse_child_elements) *)
  Fixpoint parse (anc : list xml) (x : xml) {struct x} : xprog :=
    let tag := x_tag x in
    if decide (tag = "connective") then add_connective anc x
    else if decide (tag = "discRel") then add_discrel anc x
    else if decide (tag = "edu") then add_edu anc x
    else if decide (tag = "edu-range") then add_edurange anc x
    else if decide (tag = "ne") then add_ne anc x
    else if decide (tag = "node") then add_node_element anc x
    else if decide (tag = "relation") then add_relation anc x
    else if decide (tag = "secEdge") then add_secedge anc x
    else if decide (tag = "sentence") then add_sentence anc x
    else if decide (tag = "splitRelation") then add_splitrelation anc x
    else if decide (tag = "topic") then add_topic anc x
    else if decide (tag = "word") then
      add_word anc x ;> match x with XElem _ _ _ kids _ => loop (parse (x :: anc)) kids end
    else λ st, (st, Some KeyError).
End Read.

(** exportxml.py:171-240 and :247-250, __init__ with a <text> element *)
Definition read_text (name : option string) (ns : string) (precedence : bool) (o : xopts) (x : xml) : res xstate :=
  let! i := x_get (x_attrib x) xml_id in
  let name := match name with Some (String c s) => String c s | _ => i end in
  let st := XState (set_name name (init_graph "" ns (Some (NStr i)))) [] [] in
  match x_each (λ p : place, parse ns o p.1 p.2) (iterdescendants [] x) st with
  | (_, Some e) => Err e
  | (st, None) =>
    if precedence then match on_graph add_precedence_relations st with (_, Some e) => Err e | (st, None) => Ok st end
    else Ok st
  end.

(** ** The corpus *)
(** exportxml.py:66-164, ExportXMLCorpus: the <text> elements that the iterator over the
    file has not given yet *)
Record xcorpus := XCorpus { xc_name : string; xc_file : list xml; xc_rest : list xml; xc_count : option nat }.
(** :77-112, __init__ and _reset_corpus_iterator *)
Definition open_corpus (name : string) (texts : list xml) : xcorpus := XCorpus name texts texts None.
Definition reset_corpus (c : xcorpus) : xcorpus := XCorpus (xc_name c) (xc_file c) (xc_file c) (xc_count c).
(** :136-164, one step of text_iter; a document that raises is used up *)
Definition document_of (x : xml) : res xstate := let! i := x_get (x_attrib x) xml_id in read_text (Some i) "exportxml" false (XOpts false false false) x.
Definition next_document (c : xcorpus) : xcorpus * res xstate :=
  match xc_rest c with
  | [] => (c, Err StopIteration)
  | x :: l => (XCorpus (xc_name c) (xc_file c) l (xc_count c), document_of x)
  end.
(** [list(corpus)]: a loop that ends with the first exception *)
Fixpoint take_documents (l : list xml) : list xml * res (list xstate) :=
  match l with
  | [] => ([], Ok [])
  | x :: l =>
    match document_of x with
    | Err e => (l, Err e)
    | Ok g => match take_documents l with (l, Ok gs) => (l, Ok (g :: gs)) | (l, Err e) => (l, Err e) end
    end
  end.
Definition list_corpus (c : xcorpus) : xcorpus * res (list xstate) :=
  let '(l, r) := take_documents (xc_rest c) in (XCorpus (xc_name c) (xc_file c) l (xc_count c), r).
(** :115-133, __len__ *)
Definition corpus_len (c : xcorpus) : xcorpus * Z :=
  match xc_count c with
  | Some n => (c, Z.of_nat n)
  | None =>
    if decide (xc_name c = "tuebadz-8.0-mit-NE+Anaphern+Diskurs.exml.xml") then (c, 3258%Z)
    else (XCorpus (xc_name c) (xc_file c) (xc_rest c) (Some (length (xc_file c))), Z.of_nat (length (xc_file c)))
  end.
