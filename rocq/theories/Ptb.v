(** * Ptb: Penn Treebank parses as document graphs

    Model of readwrite/ptb.py.  Simplifications: the file is the list of trees that
    nltk's BracketParseCorpusReader yields; text is made of bytes; [name] is the
    name of the document after the default was applied. *)
From Verif Require Import PyBase DocGraph Relabel StrNum Query Text Rst Anaphora Conano.

(** ptb.py:18-25 *)
Definition ptb_unescape_table : dict string string :=
  [("-LRB-", "("); ("-RRB-", ")"); ("-LSB-", "["); ("-RSB-", "]"); ("-LCB-", "{"); ("-RCB-", "}")].
(** [PTB_BRACKET_UNESCAPE.get(node_label, node_label)] *)
Definition ptb_unescape (s : string) : string := default s (dget s ptb_unescape_table).
(** ptb.py:129-135, get_nodelabel *)
Definition ptb_label (t : ntree) : string := match t with NLeaf s => s | NTree l _ => l end.
(** [self.node[n].update(d)], [self.node[n][key] = value] *)
Definition node_update (g : graph) (n : nid) (d : attrs) : outcome :=
  match dget n (g_node g) with
  | None => (g, Some KeyError)
  | Some a => (set_node (dset n (dupdate a d) (g_node g)) g, None)
  end.
(** [self.node[n]['label']] *)
Definition node_label (g : graph) (n : nid) : res pyval :=
  let! a := of_option KeyError (dget n (g_node g)) in of_option KeyError (dget "label" a).
(** the state is the graph and [self._node_id] *)
(** ptb.py:162-172: a word below [parent]; the tag is read from the label of the
    parent, which the word then replaces *)
Definition ptb_word (parent : option nid) (w : string) (s : tstate) : tstate * option exc :=
  let '(g, k) := s in
  match parent with
  | None => (s, Some KeyError)
  | Some p =>
    match node_label g p with
    | Err e => (s, Some e)
    | Ok tag =>
      match node_update g p [("label", VStr w); (g_ns g +:+ ":token", VStr w); (g_ns g +:+ ":pos", tag)] with
      | (g, Some e) => ((g, k), Some e)
      | (g, None) => ((set_tokens (g_tokens g ++ [p]) g, k), None)
      end
    end
  end.
(** ptb.py:148-160: the node of a subtree *)
Definition ptb_node (root : nid) (label : string) (many : bool) (s : tstate) : tstate * option exc :=
  let '(g, k) := s in
  let lay := if many then [g_ns g; g_ns g +:+ ":syntax"] else [g_ns g] in
  let at_ := ("label", VStr label) :: (if many then [(g_ns g +:+ ":cat", VStr label)] else []) in
  match add_node g (NInt k) (VSet lay) (Some at_) [] with
  | (g, Some e) => ((g, k), Some e)
  | (g, None) =>
    match add_edge g root (NInt k) VNone None None [("edge_type", VStr dominates)] with
    | (g, e) => ((g, k), e)
    end
  end.
(** ptb.py:127-175, _parse_sentencetree.  [ignore_traces] is not handed on to the
    recursive call, where it is True. *)
Fixpoint ptb_parse (parent : option nid) (ignore : bool) (t : ntree) (s : tstate) : tstate * option exc :=
  match t with
  | NLeaf _ => (s, Some AttributeError)
  | NTree l kids =>
    let root := NInt s.2 in
    match node_update s.1 root [("label", VStr l)] with
    | (g, Some e) => ((g, s.2), Some e)
    | (g, None) =>
      loop (λ kid s,
        let s : tstate := (s.1, (s.2 + 1)%Z) in
        let label := ptb_unescape (ptb_label kid) in
        if andb ignore (bool_decide (label = "-NONE-")) then (s, None)
        else match kid with
             | NLeaf _ => ptb_word parent label s
             | NTree _ ks =>
               match ptb_node root label (1 <? length ks)%nat s with
               | (s, Some e) => (s, Some e)
               | (s, None) => ptb_parse (Some (NInt s.2)) true kid s
               end
             end) kids (g, s.2)
    end
  end.
(** ptb.py:112-125, _add_sentence *)
Definition ptb_sentence (ignore : bool) (t : ntree) (s : tstate) : tstate * option exc :=
  let '(g, k) := s in
  let g := set_sentences (g_sentences g ++ [NInt k]) g in
  match add_edge g (g_root g) (NInt k) VNone None None [("edge_type", VStr dominates)] with
  | (g, Some e) => ((g, k), Some e)
  | (g, None) =>
    match ptb_parse None ignore t (g, k) with
    | (s, Some e) => (s, Some e)
    | (s, None) => ((s.1, (s.2 + 1)%Z), None)
    end
  end.
(** ptb.py:44-99, __init__; [doc] is None without a file path *)
Definition read_ptb (name ns : string) (precedence : bool) (limit : option Z) (ignore : bool) (doc : option (list ntree)) : outcome :=
  let g := init_graph "" "discoursegraph" None in
  match (if decide (NStr "discoursegraph:root_node" ∈ nodes g) then remove_node g (NStr "discoursegraph:root_node") else (g, None)) with
  | (g, Some e) => (g, Some e)
  | (g, None) =>
    let g := mkGraph (g_name g) ns (g_root g) (g_node g) (g_succ g) (g_pred g) (g_tokens g) (g_sentences g) (g_meta g) in
    match doc with
    | None => (g, None)
    | Some trees =>
      let g := set_sentences [] (set_document name ns (NInt 0) g) in
      match add_node g (NInt 0) (VSet [ns]) None [("label", VStr (ns +:+ ":root_node"))] with
      | (g, Some e) => (g, Some e)
      | (g, None) =>
        let trees := match limit with None => trees | Some n => if decide (n = 0%Z) then trees else slice trees 0 n end in
        match loop (ptb_sentence ignore) trees (g, 1%Z) with
        | ((g, _), Some e) => (g, Some e)
        | ((g, _), None) => if precedence then add_precedence_relations g else (g, None)
        end
      end
    end
  end.
