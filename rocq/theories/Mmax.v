(** * Mmax: MMAX2 annotation projects

    Model of the reader in readwrite/mmax2.py.  Simplifications: the XML files are
    element trees (as in Conano.v), paths are file names in one directory, text is made
    of bytes.  The attribute "tokens" of a sentence is a list object; the model keeps
    the contents of these lists beside the graph (as in Tiger.v).

    The reader gives ONE set object, [default_layers], to all nodes and edges of an
    annotation layer, and changes it in place (mmax2.py:280, 327).  Graphs are values
    here, so the model keeps the list of the nodes and edges that hold this very object
    and changes their layers with it.  A node or edge holds the object if it was new
    when it was added; add_node on an existing node and add_edge for a pair that already
    has an edge store a new set (discoursegraph.py:256-262, 459-485, as in Alias.v). *)
From Verif Require Import PyBase DocGraph Relabel StrNum Query Text Rst Nltk Parsers Anaphora Conano Decour Ptb Convert Tiger.

(** the files of a project: the word elements of the words file, the level names with
    their file extensions (common_paths.xml), and the elements of the annotation files
    by file name *)
Record mmax := MMAX { mx_words : list xml; mx_levels : dict string string; mx_file : string → option (list xml) }.
(** [os.path.basename(f)[:-5]], mmax2.py:229-235 *)
Definition file_id (f : string) : string := str (take (length (chs f) - 5) (chs f)).

(** ** Words *)
(** mmax2.py:258-268: one word.  The connecting edge has no edge type. *)
Definition mmax_word (connected : bool) (w : xml) (g : graph) : outcome :=
  match x_get (x_attrib w) "id" with
  | Err e => (g, Some e)
  | Ok i =>
    let g := set_tokens (g_tokens g ++ [NStr i]) g in
    match of_option ValueError (x_text w) with
    | Err e => (g, Some e)
    | Ok t =>
      match add_node g (NStr i) (VSet [g_ns g; g_ns g +:+ ":token"]) (Some [(g_ns g +:+ ":token", VStr (str t)); ("label", VStr (str t))]) [] with
      | (g, Some e) => (g, Some e)
      | (g, None) =>
        if connected then add_edge g (g_root g) (NStr i) (VSet [g_ns g; g_ns g +:+ ":token"]) None None [] else (g, None)
      end
    end
  end.

(** ** Annotation layers *)
Inductive mref := RNode (n : nid) | REdge (u v k : nid).
Global Instance mref_eq_dec : EqDecision mref.
Proof. solve_decision. Defined.
(** the graph, the contents of [default_layers], and who holds it *)
Notation mstate := (graph * list string * list mref)%type.
Definition mm_graph (s : mstate) : graph := s.1.1.
Definition mm_layers (s : mstate) : list string := s.1.2.
(** the set object held by a node or edge has the contents [ls] *)
Definition set_layers_of (ls : list string) (g : graph) (r : mref) : graph :=
  match r with
  | RNode n =>
    match dget n (g_node g) with
    | None => g
    | Some a => set_node (dset n (dset "layers" (VSet ls) a) (g_node g)) g
    end
  | REdge u v k =>
    match dget u (g_succ g) with
    | None => g
    | Some nbrs =>
      match dget v nbrs with
      | None => g
      | Some kd =>
        match dget k kd with
        | None => g
        | Some a => set_succ (dset u (dset v (dset k (dset "layers" (VSet ls) a) kd) nbrs) (g_succ g)) g
        end
      end
    end
  end.
(** [default_layers.add(l)] *)
Definition mm_add_layer (l : string) (s : mstate) : mstate :=
  let '(g, ls, held) := s in
  let ls := set_union ls [l] in (foldl (set_layers_of ls) g held, ls, held).
(** [self.add_node(n, layers=default_layers, ...)] *)
Definition mm_add_node (n : nid) (ad : option attrs) (kw : attrs) (s : mstate) : mstate * option exc :=
  let '(g, ls, held) := s in
  let r := add_node g n (VSet ls) ad kw in
  ((r.1, ls, if decide (n ∈ nodes g) then filter (λ x, x ≠ RNode n) held else RNode n :: held), r.2).
(** [self.add_edge(u, v, layers=default_layers, ...)]; both nodes are in the graph *)
Definition mm_add_edge (u v : nid) (kw : attrs) (s : mstate) : mstate * option exc :=
  let '(g, ls, held) := s in
  let isnew := bool_decide (dget v (default [] (dget u (g_succ g))) = None) in
  let r := add_edge g u v (VSet ls) None None kw in
  ((r.1, ls, if isnew then REdge u v (NInt 0) :: held else held), r.2).
(** mmax2.py:291-305: a token of a markable.  The targets are nodes of the graph
    ([spanstring2tokens] leaves out all others), so that nothing is added in :294-300 *)
Definition mmax_span_edge (layer : string) (m t : nid) (s : mstate) : mstate * option exc :=
  let ns := g_ns (mm_graph s) in
  mm_add_edge m t [("edge_type", VStr spans); ("label", VStr (ns +:+ ":" +:+ layer))] s.
(** mmax2.py:315-338: an antecedent of a markable *)
Definition mmax_antecedent (m : nid) (antecedent : chars) (s : mstate) : mstate * option exc :=
  let ns := g_ns (mm_graph s) in
  let parts := split_char ":"%char antecedent in
  let label := match parts with [p; _] => str p +:+ ":antecedent" | _ => ":antecedent" end in
  let n := NStr (str (List.last parts [])) in
  let s := match parts with [p; _] => mm_add_layer (ns +:+ ":" +:+ str p) s | _ => s end in
  match (if decide (n ∈ nodes (mm_graph s)) then (s, None) else mm_add_node n None [] s) with
  | (s, Some e) => (s, Some e)
  | (s, None) => mm_add_edge m n [("edge_type", VStr points_to); ("label", VStr (ns +:+ label))] s
  end.
(** mmax2.py:308-315 and 341-358, has_antecedent *)
Definition mm_antecedents (m : xml) : list chars :=
  match dget "anaphor_antecedent" (x_attrib m) with
  | None => []
  | Some a => if decide (a = "empty") then [] else split_char ";"%char (chs a)
  end.
(** mmax2.py:283-338: a markable *)
Definition mmax_markable (layer : string) (m : xml) (s : mstate) : mstate * option exc :=
  match x_get (x_attrib m) "id" with
  | Err e => (s, Some e)
  | Ok i =>
    match mm_add_node (NStr i) (Some (x_feats (g_ns (mm_graph s)) m)) [("label", VStr (i +:+ ":" +:+ layer))] s with
    | (s, Some e) => (s, Some e)
    | (s, None) =>
      match (let! span := x_get (x_attrib m) "span" in spanstring2tokens (mm_graph s) None (chs span)) with
      | Err e => (s, Some e)
      | Ok ts =>
        match loop (mmax_span_edge layer (NStr i)) ts s with
        | (s, Some e) => (s, Some e)
        | (s, None) => loop (mmax_antecedent (NStr i)) (mm_antecedents m) s
        end
      end
    end
  end.
(** mmax2.py:151-158 and 270-338, add_annotation_layer *)
Definition mmax_layer (base : string) (p : mmax) (layer : string) (g : graph) : outcome :=
  match of_option KeyError (dget layer (mx_levels p)) with
  | Err e => (g, Some e)
  | Ok ext =>
    match of_option AssertionError (mx_file p (file_id base +:+ ext)) with
    | Err e => (g, Some e)
    | Ok ms =>
      let r := loop (mmax_markable layer) ms (g, [g_ns g; g_ns g +:+ ":markable"; g_ns g +:+ ":" +:+ layer], []) in
      (mm_graph r.1, r.2)
    end
  end.

(** ** Sentences *)
(** the graph and the lists of roots and of their tokens *)
Notation sstate := (graph * list nid * list (list nid))%type.
(** mmax2.py:202-212: a sentence, if sentence annotations are ignored *)
Definition mmax_sentence (m : xml) (s : sstate) : sstate * option exc :=
  let '(g, roots, toks) := s in
  match x_get (x_attrib m) "id" with
  | Err e => (s, Some e)
  | Ok i =>
    let roots := roots ++ [NStr i] in
    match (let! span := x_get (x_attrib m) "span" in spanstring2tokens g None (chs span)) with
    | Err e => ((g, roots, toks), Some e)
    | Ok ts =>
      let ts := filter (λ t, t ∈ g_tokens g) ts in
      let r := loop (λ (_ : nid) g, add_node g (NStr i) (VSet [g_ns g; g_ns g +:+ ":sentence"]) None []) ts g in
      ((r.1, roots, toks ++ [ts]), r.2)
    end
  end.
(** mmax2.py:169-227, get_sentences_and_token_nodes *)
Definition mmax_sentences (ignore : bool) (p : mmax) (g : graph) : sstate * option exc :=
  if ignore then
    match of_option KeyError (dget "sentence" (mx_levels p)) with
    | Err e => ((g, [], []), Some e)
    | Ok ext =>
      match of_option IOError (mx_file p (file_id (g_name g) +:+ ext)) with
      | Err e => ((g, [], []), Some e)
      | Ok ms => loop mmax_sentence ms (g, [], [])
      end
    end
  else
    match select_nodes_by_layer g (LOne (g_ns g +:+ ":sentence")) with
    | Err e => ((g, [], []), Some e)
    | Ok roots =>
      match rmap (λ n,
        let! a := of_option KeyError (node_attrs g n) in
        let! v := of_option KeyError (dget (g_ns g +:+ ":span") a) in
        let! ts := match v with VStr s => spanstring2tokens g None (chs s) | _ => Err AttributeError end in
        Ok (filter (λ t, t ∈ g_tokens g) ts)) roots with
      | Err e => ((g, roots, []), Some e)
      | Ok toks => ((g, roots, toks), None)
      end
    end.
(** mmax2.py:166-167 *)
Definition mmax_set_tokens (g : graph) (l : list nid) : outcome :=
  loop (λ (p : nat * nid) g, node_update g p.2 [("tokens", VObj p.1)]) (imap pair l) g.

(** ** Documents *)
(** mmax2.py:95-167, __init__.  [base] is the name of the file, [order] the order in
    which Python lists the levels that are read *)
Definition read_mmax (base : string) (name : option string) (ns : string) (precedence connected ignore : bool) (order : list string) (p : mmax) :
    graph * list (list nid) * option exc :=
  let name := match name with Some n => if decide (n = "") then base else n | None => base end in
  let g := set_name name (init_graph "" ns None) in
  match (if precedence then
           match loop (mmax_word false) (mx_words p) g with
           | (g, Some e) => (g, Some e)
           | (g, None) => add_precedence_relations g
           end
         else loop (mmax_word connected) (mx_words p) g) with
  | (g, Some e) => (g, [], Some e)
  | (g, None) =>
    match loop (mmax_layer base p) order g with
    | (g, Some e) => (g, [], Some e)
    | (g, None) =>
      match mmax_sentences ignore p g with
      | ((g, _, _), Some e) => (g, [], Some e)
      | ((g, roots, toks), None) =>
        match sort_sentences roots toks with
        | Err e => (g, [], Some e)
        | Ok [] => (g, [], Some ValueError) (* zip() of nothing *)
        | Ok l => let r := mmax_set_tokens (set_sentences l.*1 g) l.*1 in (r.1, l.*2, r.2)
        end
      end
    end
  end.

(** ** Other functions *)
(** mmax2.py:406-413, spanstring2text *)
Definition spanstring2text (g : graph) (renamed : option (dict nid nid)) (s : chars) : res string :=
  let! ts := spanstring2tokens g renamed s in
  let! ws := rmap (λ t,
    let! a := of_option KeyError (node_attrs g t) in
    let! v := of_option KeyError (dget (g_ns g +:+ ":token") a) in
    match v with VStr w => Ok w | _ => Err TypeError end) ts in
  Ok (join_sp ws).
(** mmax2.py:447-480, get_potential_markables *)
Definition potential_markables (g : graph) : res (list nid) :=
  let! l := select_nodes_by_layer g (LOne "tiger:syntax") in
  rconcat (λ n,
    let! a := of_option KeyError (node_attrs g n) in
    let! cat := of_option KeyError (dget "tiger:cat" a) in
    if decide (cat = VStr "NP") then
      let! pps := rfilter (λ u, let! b := of_option KeyError (node_attrs g u) in Ok (bool_decide (dget "tiger:cat" b = Some (VStr "PP"))))
        ((λ e : edge, e.1.1.1) <$> in_edges g n) in
      Ok (match pps with [] => [n] | _ => pps end)
    else if decide (cat = VStr "PP") then Ok [n] else Ok []) l.
