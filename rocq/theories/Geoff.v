(** * Geoff: Neo4j/Geoff export

    Model of readwrite/geoff.py, readwrite/neo4j.py and layerset2list
    (readwrite/generic.py:69-86).  The JSON encoder is a parameter [enc]; document
    graphs are directed, so the branch for undirected graphs is left out. *)
From Verif Require Import PyBase DocGraph StrNum Query Text.

(** values as the encoder sees them: layers are lists by then *)
Inductive jval := JVal (v : pyval) | JList (l : list string).
Definition jattrs : Type := list (string * jval).
(** generic.py:79-81,83-86: [list(layers)] of one attribute; the order of a set is open *)
Definition item_view (p : string * pyval) (q : string * jval) : Prop :=
  q.1 = p.1 ∧ if decide (p.1 = "layers") then ∃ l l', p.2 = VSet l ∧ l' ≡ₚ l ∧ q.2 = JList l' else q.2 = JVal p.2.
(** ... of an attribute dict; the order of its keys is open *)
Definition json_view (a : attrs) (d : jattrs) : Prop := ∃ d0, Forall2 item_view a d0 ∧ d ≡ₚ d0.
(** generic.py:69-86, layerset2list can fail: no layers, or no set (a string would be
    taken apart into characters; TypeError here) *)
Definition layers_ok (a : attrs) : res () :=
  match dget "layers" a with None => Err KeyError | Some (VSet _) => Ok () | Some _ => Err TypeError end.
Definition layerset2list_ok (g : graph) : res () :=
  let! _ := rmap (λ p : nid * attrs, layers_ok p.2) (g_node g) in
  let! _ := rmap (λ e : nid * nid * nid * attrs, layers_ok e.2) (edges g) in Ok ().
(** neo4j.py:18-33, add_node_ids_as_labels, one node *)
Definition with_label (n : nid) (a : attrs) : attrs :=
  match n with NStr s => if dmem "label" a then a else dset "label" (VStr s) a | NInt _ => a end.
(** geoff.py:13-35, node2geoff *)
Definition node2geoff (enc : jattrs → res chars) (n : nid) (d : jattrs) : res chars :=
  if decide (length d = 0) then Ok ("("%char :: chs (nid_str n) ++ [")"%char])
  else let! x := enc d in Ok ("("%char :: chs (nid_str n) ++ " "%char :: x ++ [")"%char]).
(** geoff.py:38-68, edge2geoff *)
Definition edge2geoff (enc : jattrs → res chars) (rel : string) (u v : nid) (d : jattrs) : res chars :=
  if decide (length d = 0) then Ok ("("%char :: chs (nid_str u) ++ chs ")-[:" ++ chs rel ++ chs "]->(" ++ chs (nid_str v) ++ [")"%char])
  else let! x := enc d in Ok ("("%char :: chs (nid_str u) ++ chs ")-[:" ++ chs rel ++ " "%char :: x ++ chs "]->(" ++ chs (nid_str v) ++ [")"%char]).
(** '\n'.join *)
Fixpoint join_nl (l : list chars) : chars :=
  match l with [] => [] | [s] => s | s :: l => s ++ nl :: join_nl l end.
(** geoff.py:71-119, graph2geoff: a line per node, then a line per edge; [nds] and [eds]
    are the attribute dicts as the encoder sees them *)
Definition graph2geoff (enc : jattrs → res chars) (rel : string) (ns : list (nid * jattrs)) (es : list (nid * nid * jattrs)) : res chars :=
  let! nls := rmap (λ p, node2geoff enc p.1 p.2) ns in
  let! els := rmap (λ p, edge2geoff enc rel p.1.1 p.1.2 p.2) es in
  Ok (join_nl (nls ++ els)).
(** neo4j.py:36-51, convert_to_geoff, on a copy of the graph *)
Inductive convert_to_geoff (enc : jattrs → res chars) (g : graph) : res chars → Prop :=
| GE_layers e : layerset2list_ok g = Err e → convert_to_geoff enc g (Err e)
| GE_lines nds eds : layerset2list_ok g = Ok () →
    Forall2 (λ (p : nid * attrs) d, json_view (with_label p.1 p.2) d) (g_node g) nds →
    Forall2 (λ (e : nid * nid * nid * attrs) d, json_view e.2 d) (edges g) eds →
    convert_to_geoff enc g (graph2geoff enc "LINKS_TO" (zip (nodes g) nds) (zip ((λ e : nid * nid * nid * attrs, e.1.1) <$> edges g) eds)).
