(** * Export: graphs for GEXF and GraphML

    Model of readwrite/generic.py:89-153 (layerset2str, attriblist2str, remove_root_metadata),
    readwrite/gexf.py:15-25 and readwrite/graphml.py:15-25 up to the call of networkx, which writes
    the prepared copy.  [py_str] is str(); [list_text] gives the str() of those opaque values that
    are lists; [merged] is the attribute merged_rootnodes, if there is one. *)
From Verif Require Import PyBase DocGraph.

Section export.
  Context (py_str : pyval → string) (list_text : nat → option string) (merged : option (list nid)).
  (** a loop that stops at the first exception *)
  Definition each {A S} (f : A → S → res S) (l : list A) (s : S) : res S := foldl (λ r a, let! s := r in f a s) (Ok s) l.
  (** changing the attributes of a node, of an edge *)
  Definition change_node (f : attrs → res attrs) (n : nid) (g : graph) : res graph :=
    let! a := of_option KeyError (node_attrs g n) in
    let! a' := f a in
    Ok (set_node (dset n a' (g_node g)) g).
  Definition put_attr (u v k : nid) (a : attrs) (g : graph) : graph :=
    set_succ (dset u (dset v (dset k a (keydict_of g u v)) (default [] (dget u (g_succ g)))) (g_succ g)) g.
  Definition change_edge (f : attrs → res attrs) (u v k : nid) (g : graph) : res graph :=
    let! a := of_option KeyError (edge_attrs g u v k) in
    let! a' := f a in
    Ok (put_attr u v k a' g).
  (** all nodes, then for each edge all edges between its ends *)
  Definition change_all (f : attrs → res attrs) (g : graph) : res graph :=
    let! g := each (change_node f) (nodes g) g in
    each (λ (e : nid * nid * nid * attrs) g, each (change_edge f e.1.1.1 e.1.1.2) (dkeys (keydict_of g e.1.1.1 e.1.1.2)) g) (edges g) g.
  Definition layers_text (a : attrs) : res attrs :=
    let! v := of_option KeyError (dget "layers" a) in Ok (dset "layers" (VStr (py_str v)) a).
  (** generic.py:89-107 *)
  Definition layerset2str (g : graph) : res graph := change_all layers_text g.
  Definition list_value (v : pyval) : pyval := match v with VObj i => match list_text i with Some s => VStr s | None => v end | _ => v end.
  Definition lists_text (a : attrs) : res attrs := Ok ((λ p : string * pyval, (p.1, list_value p.2)) <$> a).
  (** generic.py:110-135 *)
  Definition attriblist2str (g : graph) : res graph := change_all lists_text g.
  Definition drop_metadata (a : attrs) : res attrs := Ok (ddel "metadata" a).
  Definition drop_if_there (n : nid) (g : graph) : res graph := if dmem n (g_node g) then change_node drop_metadata n g else Ok g.
  (** generic.py:138-157 *)
  Definition remove_root_metadata (g : graph) : res graph :=
    let! g := change_node drop_metadata (g_root g) g in
    let! g := drop_if_there (NStr "discoursegraph:root_node") g in
    match merged with Some ns => each drop_if_there ns g | None => Ok g end.
  (** gexf.py:15-25, on a copy *)
  Definition gexf_copy (g : graph) : res graph :=
    let! g := remove_root_metadata g in let! g := layerset2str g in attriblist2str g.
  (** graphml.py:15-25, on a copy *)
  Definition graphml_copy (g : graph) : res graph :=
    let! g := layerset2str g in let! g := attriblist2str g in remove_root_metadata g.
End export.
