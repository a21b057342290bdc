(** * Tiger: syntax trees in TigerXML

    Model of readwrite/tiger.py.  Simplifications: the file is its element tree (as in
    Conano.v); text is made of bytes, so that [ensure_unicode] does not change it;
    [name] is the name of the document after the default was applied.  The attribute
    "tokens" of the root of sentence number i is the list object i: the model keeps
    the contents of these lists beside the graph. *)
From Verif Require Import PyBase DocGraph Relabel StrNum Query Text Rst Nltk Parsers Anaphora Conano Decour Ptb Convert.

(** element.iterfind('./a/b/c') *)
Fixpoint x_path (path : list string) (x : xml) : list xml :=
  match path with
  | [] => [x]
  | tag :: path => y ← x_findall tag x; x_path path y
  end.
(** [add_prefix(element.attrib, ns+':')] *)
Definition x_feats (ns : string) (x : xml) : attrs :=
  (λ p : string * string, (p.1, VStr p.2)) <$> add_prefix (x_attrib x) (ns +:+ ":").
(** [if to_id not in self: self.add_node(to_id, ...)], tiger.py:204-205, 235-236, 256-257 *)
Definition tiger_target (n : nid) (g : graph) : outcome :=
  if decide (n ∈ nodes g) then (g, None) else add_node g n (VSet [g_ns g; g_ns g +:+ ":secedge"]) None [].
(** tiger.py:200-209: a secondary edge of a token *)
Definition tiger_t_secedge (t : nid) (x : xml) (g : graph) : outcome :=
  match x_get (x_attrib x) "idref" with
  | Err e => (g, Some e)
  | Ok to =>
    match tiger_target (NStr to) g with
    | (g, Some e) => (g, Some e)
    | (g, None) => add_edge g t (NStr to) (VSet [g_ns g; g_ns g +:+ ":secedge"]) None (Some (x_feats (g_ns g) x)) [("edge_type", VStr points_to)]
    end
  end.
(** tiger.py:184-209: a token; the state is the graph and [token_ids] *)
Notation ttstate := (graph * list nid)%type.
Definition tiger_terminal (x : xml) (s : ttstate) : ttstate * option exc :=
  let '(g, ts) := s in
  match x_get (x_attrib x) "id" with
  | Err e => (s, Some e)
  | Ok i =>
    let feats := x_feats (g_ns g) x in
    match dget (g_ns g +:+ ":word") feats with
    | None => ((g, ts ++ [NStr i]), Some KeyError)
    | Some w =>
      match add_node g (NStr i) (VSet [g_ns g; g_ns g +:+ ":token"]) (Some (dset (g_ns g +:+ ":token") w feats)) [("label", w)] with
      | (g, Some e) => ((g, ts ++ [NStr i]), Some e)
      | (g, None) => let r := loop (tiger_t_secedge (NStr i)) (x_findall "secedge" x) g in ((r.1, ts ++ [NStr i]), r.2)
      end
    end
  end.
(** the graph and [edge_attribs[ns:label]]: the variable keeps the attributes of the
    last edge that was read, of whatever node; None while it is not bound *)
Notation nstate := (graph * option (option pyval))%type.
(** tiger.py:231-250: an edge of a phrase *)
Definition tiger_edge (n : nid) (x : xml) (s : nstate) : nstate * option exc :=
  let '(g, last) := s in
  match x_get (x_attrib x) "idref" with
  | Err e => (s, Some e)
  | Ok to =>
    match tiger_target (NStr to) g with
    | (g, Some e) => ((g, last), Some e)
    | (g, None) =>
      let feats := x_feats (g_ns g) x in
      let label := dget (g_ns g +:+ ":label") feats in
      let prep :=
        let! a := of_option KeyError (node_attrs g (NStr to)) in
        let! l := of_option KeyError (dget "layers" a) in
        let! ls := match l with VSet ls => Ok ls | _ => Err TypeError end in
        let! lab := of_option KeyError label in
        Ok (if decide (g_ns g +:+ ":token" ∈ ls) then spans else dominates, lab) in
      match prep with
      | Err e => ((g, Some label), Some e)
      | Ok (ty, lab) =>
        let r := add_edge g n (NStr to) (VSet [g_ns g; g_ns g +:+ ":edge"]) None (Some feats) [("label", lab); ("edge_type", VStr ty)] in
        ((r.1, Some label), r.2)
      end
    end
  end.
(** tiger.py:252-263: a secondary edge of a phrase, with the label of [edge_attribs] *)
Definition tiger_n_secedge (n : nid) (x : xml) (s : nstate) : nstate * option exc :=
  let '(g, last) := s in
  match x_get (x_attrib x) "idref" with
  | Err e => (s, Some e)
  | Ok to =>
    match tiger_target (NStr to) g with
    | (g, Some e) => ((g, last), Some e)
    | (g, None) =>
      match (let! l := of_option NameError last in of_option KeyError l) with
      | Err e => ((g, last), Some e)
      | Ok lab =>
        let r := add_edge g n (NStr to) (VSet [g_ns g; g_ns g +:+ ":secedge"]) None (Some (x_feats (g_ns g) x)) [("label", lab); ("edge_type", VStr points_to)] in
        ((r.1, last), r.2)
      end
    end
  end.
(** tiger.py:218-263: a phrase *)
Definition tiger_nonterminal (x : xml) (s : nstate) : nstate * option exc :=
  let '(g, last) := s in
  match x_get (x_attrib x) "id" with
  | Err e => (s, Some e)
  | Ok i =>
    let feats := x_feats (g_ns g) x in
    match dget (g_ns g +:+ ":cat") feats with
    | None => (s, Some KeyError)
    | Some cat =>
      let feats := dset "label" cat feats in
      match (if decide (NStr i ∈ nodes g) then node_update g (NStr i) feats
             else add_node g (NStr i) (VSet [g_ns g; g_ns g +:+ ":syntax"]) (Some feats) []) with
      | (g, Some e) => ((g, last), Some e)
      | (g, None) =>
        match loop (tiger_edge (NStr i)) (x_findall "edge" x) (g, last) with
        | (s, Some e) => (s, Some e)
        | (s, None) => loop (tiger_n_secedge (NStr i)) (x_findall "secedge" x) s
        end
      end
    end
  end.
(** tiger.py:157-263, __tigersentence2graph.  The second component is the list that
    becomes the attribute "tokens" of the root *)
Definition tiger_sentence2graph (i : nat) (x : xml) (g : graph) : ttstate * option exc :=
  match add_node g (g_root g) (VSet [g_ns g; g_ns g +:+ ":sentence"; g_ns g +:+ ":sentence:root"; g_ns g +:+ ":syntax"]) None [] with
  | (g, Some e) => ((g, []), Some e)
  | (g, None) =>
    match loop tiger_terminal (x_path ["graph"; "terminals"; "t"] x) (g, []) with
    | ((g, _), Some e) => ((g, []), Some e)
    | ((g, ts), None) =>
      let sorted := nat_sorted ts in
      match node_update g (g_root g) [("tokens", VObj i)] with
      | (g, Some e) => ((g, []), Some e)
      | (g, None) =>
        let r := loop tiger_nonterminal (x_path ["graph"; "nonterminals"; "nt"] x) (set_tokens sorted g, None) in
        ((r.1.1, sorted), r.2)
      end
    end
  end.
(** tiger.py:317-338, get_unconnected_nodes *)
Definition unconnected_nodes (g : graph) : list nid := filter (λ n, node_degree g n = 0 ∧ 1 < length (nodes g)) (nodes g).
Definition set_root (root : nid) (g : graph) : graph :=
  mkGraph (g_name g) (g_ns g) root (g_node g) (g_succ g) (g_pred g) (g_tokens g) (g_sentences g) (g_meta g).
(** tiger.py:280-284: an edge to an unconnected node *)
Definition tiger_attach (n : nid) (g : graph) : outcome :=
  add_edge g (g_root g) n (VSet [g_ns g; g_ns g +:+ ":sentence"; g_ns g +:+ ":unconnected"]) None None [("edge_type", VStr dominates)].
(** tiger.py:265-284, __repair_unconnected_nodes *)
Definition tiger_repair (g : graph) : outcome :=
  let unconnected := unconnected_nodes g in
  match istoken g (g_root g) with
  | Err e => (g, Some e)
  | Ok b =>
    match (if b then
             let g := set_root (NStr (g_ns g +:+ ":VROOT")) g in
             add_node g (g_root g) (VSet ["tiger"; "tiger:syntax"; "tiger:sentence"; "tiger:sentence:root"]) None []
           else (g, None)) with
    | (g, Some e) => (g, Some e)
    | (g, None) => loop tiger_attach unconnected g
    end
  end.
(** tiger.py:120-155, TigerSentenceGraph.__init__.  The dictionary
    sentence_attributes (tiger.py:145-152) is computed and never used. *)
Definition tiger_sentence (i : nat) (ns : string) (x : xml) : ttstate * option exc :=
  let g := init_graph "" ns None in
  match remove_node g (g_root g) with
  | (g, Some e) => ((g, []), Some e)
  | (g, None) =>
    match (let! graph := of_option AttributeError (x_find "graph" x) in x_get (x_attrib graph) "root") with
    | Err e => ((g, []), Some e)
    | Ok root =>
      let g := set_name (default "" (dget "id" (x_attrib x))) (set_root (NStr root) (set_tokens [] g)) in
      match tiger_sentence2graph i x g with
      | (s, Some e) => (s, Some e)
      | ((g, ts), None) => let r := tiger_repair g in ((r.1, ts), r.2)
      end
    end
  end.
(** [graph.nodes(data=True)], [graph.edges(data=True)] as arguments of add_nodes_from,
    add_edges_from *)
Definition nodes_with_data (g : graph) : list nspec := (λ p : nid * attrs, NTup p.1 p.2) <$> g_node g.
Definition edges_with_data (g : graph) : list espec := (λ e : nid * nid * nid * attrs, ESpec e.1.1.1 e.1.1.2 None e.2) <$> edges g.
(** the graph and the lists of tokens of the sentences *)
Notation tdstate := (graph * list (list nid))%type.
(** tiger.py:89-114, __add_sentence_to_document, for sentence number [length s.2] *)
Definition tiger_add_sentence (x : xml) (s : tdstate) : tdstate * option exc :=
  let '(g, ls) := s in
  match tiger_sentence (length ls) "tiger" x with
  | (_, Some e) => (s, Some e)
  | ((sg, ts), None) =>
    let ls := ls ++ [ts] in
    let g := set_tokens (g_tokens g ++ g_tokens sg) g in
    match add_nodes_from g (nodes_with_data sg) [] with
    | (g, Some e) => ((g, ls), Some e)
    | (g, None) =>
      match add_edges_from g (edges_with_data sg) None [] with
      | (g, Some e) => ((g, ls), Some e)
      | (g, None) =>
        match add_edge g (g_root g) (g_root sg) (VSet [g_ns g; g_ns g +:+ ":sentence"]) None None [("edge_type", VStr dominates)] with
        | (g, Some e) => ((g, ls), Some e)
        | (g, None) => ((set_sentences (g_sentences g ++ [g_root sg]) g, ls), None)
        end
      end
    end
  end.
(** tiger.py:56-87, __init__ *)
Definition read_tiger (name ns : string) (x : xml) : tdstate * option exc :=
  let g := set_name name (init_graph "" ns None) in
  match x_get (x_attrib x) "id" with
  | Err e => ((g, []), Some e)
  | Ok _ =>
    match loop tiger_add_sentence (x_path ["body"; "s"] x) (set_sentences [] (set_tokens [] g), []) with
    | (s, Some e) => (s, Some e)
    | ((g, ls), None) => ((set_sentences (nat_sorted (g_sentences g)) g, ls), None)
    end
  end.
(** [tdg.node[n]['tokens']] *)
Definition tiger_tokens_of (s : tdstate) (n : nid) : res (list nid) :=
  let! a := of_option KeyError (node_attrs s.1 n) in
  let! v := of_option KeyError (dget "tokens" a) in
  match v with VObj i => of_option IndexError (s.2 !! i) | _ => Err TypeError end.
(** tiger.py:287-314, _get_terminals_and_nonterminals; the nodes of a graph are
    distinct, so that building the sets first changes nothing *)
Definition terminals_and_nonterminals (g : graph) : list nid * list nid :=
  (nat_sorted (filter (λ n, out_edges g n = []) (nodes g)), nat_sorted (filter (λ n, out_edges g n ≠ []) (nodes g))).
(** tiger.py:341-367, get_subordinate_clauses *)
Definition subordinate_clauses (g : graph) : res (list nid) :=
  let! es := select_edges_by_attribute g (Some "tiger:label") (EIn ["MO"; "RC"; "SB"]) in
  rconcat (λ e : edge,
    let! a := of_option KeyError (node_attrs g e.1.1.1) in
    if decide (dget "tiger:cat" a = Some (VStr "S")) then
      let! b := istoken g e.1.1.2 in Ok (if b then [] else [e.1.1.2])
    else Ok []) es.
