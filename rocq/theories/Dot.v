(** * Dot: graphs for graphviz

    Model of readwrite/dot.py:38-80 (_preprocess_nodes_for_pydot, _preprocess_edges_for_pydot,
    preprocess_for_pydot).  Strings are bytes (ASCII); the iteration order of the nodes and
    the edges of the document graph is that of unknown functions [ordn] and [orde].  The new
    networkx graph is its name, its nodes with their labels (in the order they were added) and the
    list of its edges with their labels; the keys of parallel edges are left out.
    Making a string out of it (pydot) is not modelled. *)
From Verif Require Import PyBase DocGraph StrNum Query Text.

Record dotgraph := DotGraph { d_name : string; d_nodes : dict chars (option chars); d_edges : list (chars * chars * option chars) }.
(** dot.py:20-28, quote_for_pydot: integers (also True and False) are converted, of what is no
    string there is no substitution *)
Definition quote_value (v : pyval) : res chars :=
  match v with
  | VStr s => Ok (quote_for_pydot (chs s))
  | VInt z => Ok (quote_for_pydot (chs (str_Z z)))
  | VBool b => Ok (quote_for_pydot (chs (if b then "True" else "False")))
  | _ => Err TypeError
  end.
Definition quote_id (n : nid) : chars := quote_for_pydot (chs (nid_str n)).
(** the attributes that are kept: the label *)
Definition dot_label (a : attrs) : res (option chars) :=
  match dget "label" a with Some v => let! q := quote_value v in Ok (Some q) | None => Ok None end.
(** dot.py:38-45 *)
Definition dot_node (p : nid * attrs) : res (chars * option chars) := let! l := dot_label p.2 in Ok (quote_id p.1, l).
(** dot.py:48-55 *)
Definition dot_edge (e : nid * nid * nid * attrs) : res (chars * chars * option chars) :=
  let! l := dot_label e.2 in Ok (quote_id e.1.1.1, quote_id e.1.1.2, l).
(** networkx 1.11, add_nodes_from: the attributes of a node that exists are updated *)
Definition add_dot_node (d : dict chars (option chars)) (p : chars * option chars) : dict chars (option chars) :=
  dset p.1 (match p.2 with Some l => Some l | None => default None (dget p.1 d) end) d.
(** networkx 1.11, add_edges_from: ends that do not exist are added *)
Definition touch (d : dict chars (option chars)) (n : chars) : dict chars (option chars) := if dmem n d then d else dset n None d.
(** dot.py:58-80, preprocess_for_pydot *)
Definition preprocess_for_pydot (ordn : list (nid * attrs) → list (nid * attrs)) (orde : list (nid * nid * nid * attrs) → list (nid * nid * nid * attrs)) (g : graph) : res dotgraph :=
  let! ns := rmap dot_node (ordn (g_node g)) in
  let d := foldl add_dot_node [] ns in
  let! es := rmap dot_edge (orde (edges g)) in
  Ok (DotGraph (g_name g) (foldl (λ d e, touch (touch d e.1.1) e.1.2) d es) es).
