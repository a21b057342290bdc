(** * DocGraph: the mutators of DiscourseDocumentGraph

    Model of /repo/src/discoursegraphs/discoursegraph.py:36-640 and of the
    networkx 1.x methods it inherits (remove_node).  Every mutator returns the
    graph it leaves behind together with its result, so that the partial
    effects of a call that raises are part of the model.

    Simplifications, valid for the whole file:
    - values are immutable: Python's sharing of one dict/set object by several
      elements is modelled separately (Alias.v);
    - the iteration order of plain dicts is insertion order; the graph, node
      and adjacency dictionaries are OrderedDicts in the code
      (discoursegraph.py:70-72). *)
From Verif Require Import PyBase.

(** [g_succ u v] is the key dictionary of the parallel edges u->v
    (discoursegraph.py:476-485 stores the same object in succ[u][v] and
    pred[v][u]; the model keeps it in [g_succ] and only the key set in
    [g_pred]).  metadata of the root node (discoursegraph.py:94) is kept in
    [g_meta]. *)
Record graph := mkGraph {
  g_name : string;
  g_ns : string;
  g_root : nid;
  g_node : dict nid attrs;
  g_succ : dict nid (dict nid (dict nid attrs));
  g_pred : dict nid (list nid);
  g_tokens : list nid;
  g_sentences : list nid;
  g_meta : dict string pyval;
}.

Definition set_node (f : dict nid attrs) (g : graph) : graph :=
  mkGraph (g_name g) (g_ns g) (g_root g) f (g_succ g) (g_pred g) (g_tokens g) (g_sentences g) (g_meta g).
Definition set_succ (f : dict nid (dict nid (dict nid attrs))) (g : graph) : graph :=
  mkGraph (g_name g) (g_ns g) (g_root g) (g_node g) f (g_pred g) (g_tokens g) (g_sentences g) (g_meta g).
Definition set_pred (f : dict nid (list nid)) (g : graph) : graph :=
  mkGraph (g_name g) (g_ns g) (g_root g) (g_node g) (g_succ g) f (g_tokens g) (g_sentences g) (g_meta g).
Definition set_tokens (l : list nid) (g : graph) : graph :=
  mkGraph (g_name g) (g_ns g) (g_root g) (g_node g) (g_succ g) (g_pred g) l (g_sentences g) (g_meta g).
Definition set_sentences (l : list nid) (g : graph) : graph :=
  mkGraph (g_name g) (g_ns g) (g_root g) (g_node g) (g_succ g) (g_pred g) (g_tokens g) l (g_meta g).
Definition set_name (s : string) (g : graph) : graph :=
  mkGraph s (g_ns g) (g_root g) (g_node g) (g_succ g) (g_pred g) (g_tokens g) (g_sentences g) (g_meta g).
Definition set_meta (m : dict string pyval) (g : graph) : graph :=
  mkGraph (g_name g) (g_ns g) (g_root g) (g_node g) (g_succ g) (g_pred g) (g_tokens g) (g_sentences g) m.

(** Outcome of a mutator: the graph left behind and None / the exception. *)
Notation outcome := (graph * option exc)%type.

(** discoursegraph.py:239-244 (and 436-441): default and validation of the
    [layers] argument. *)
Definition check_layers (ns : string) (layers : pyval) : res (list string) :=
  match (if truthy layers then layers else VSet [ns]) with
  | VSet l => Ok l
  | _ => Err AssertionError
  end.

(** discoursegraph.py:192-273, add_node.  [attr_dict = None] is the default
    argument; a non-dict attr_dict is excluded by typing. *)
Definition add_node (g : graph) (n : nid) (layers : pyval)
    (attr_dict : option attrs) (attr : attrs) : outcome :=
  match check_layers (g_ns g) layers with
  | Err e => (g, Some e)
  | Ok l =>
    let attr' := dset "layers" (VSet l) attr in
    let ad := match attr_dict with None => attr' | Some d => dupdate d attr' end in
    if dmem n (g_succ g) then
      match dget n (g_node g) with
      | None => (g, Some KeyError)
      | Some old =>
        match dget "layers" old with
        | None => (g, Some KeyError)
        | Some existing =>
          match py_union existing l with
          | Err e => (g, Some e)
          | Ok all_layers =>
            let wo := ddel "layers" ad in
            (set_node (dset n (dset "layers" all_layers (dupdate old wo)) (g_node g)) g, None)
          end
        end
      end
    else
      (set_node (dset n ad (g_node g))
         (set_pred (dset n [] (g_pred g)) (set_succ (dset n [] (g_succ g)) g)), None)
  end.

(** discoursegraph.py:74-96, __init__.  [root = ""] behaves like None
    ([root if root else ...]). *)
Definition init_graph (name ns : string) (root : option nid) : graph :=
  let r := match root with
           | None => NStr (ns +:+ ":root_node")
           | Some (NStr "") => NStr (ns +:+ ":root_node")
           | Some (NInt 0%Z) => NStr (ns +:+ ":root_node")
           | Some r => r
           end in
  (add_node (mkGraph name ns r [] [] [] [] [] []) r (VSet [ns]) None []).1.

(** An element of the [nodes] argument of add_nodes_from: a bare id or an
    (id, attribute dict) tuple (told apart in discoursegraph.py:318-321 by
    the dict being unhashable). *)
Inductive nspec := NBare (n : nid) | NTup (n : nid) (d : attrs).

(** discoursegraph.py:317-362, body of the loop of add_nodes_from. *)
Definition add_nodes_from1 (g : graph) (attr : attrs) (s : nspec) : outcome :=
  match s with
  | NTup n nd =>
    let nd := if dmem "layers" nd then nd else dset "layers" (VSet [g_ns g]) nd in
    match dget "layers" nd with
    | Some (VSet layers) =>
      if dmem n (g_succ g) then
        match dget n (g_node g) with
        | None => (g, Some KeyError)
        | Some old =>
          match dget "layers" old with
          | None => (g, Some KeyError)
          | Some existing =>
            match py_union existing layers with
            | Err e => (g, Some e)
            | Ok all_layers =>
              (set_node (dset n (dset "layers" all_layers
                                   (dupdate (dupdate old nd) attr)) (g_node g)) g, None)
            end
          end
        end
      else
        (set_node (dset n (dupdate attr nd) (g_node g))
           (set_pred (dset n [] (g_pred g)) (set_succ (dset n [] (g_succ g)) g)), None)
    | _ => (g, Some AssertionError)
    end
  | NBare n =>
    if dmem n (g_succ g) then
      match dget n (g_node g) with
      | None => (g, Some KeyError)
      | Some old => (set_node (dset n (dupdate old attr) (g_node g)) g, None)
      end
    else
      (set_node (dset n (dset "layers" (VSet [g_ns g]) attr) (g_node g))
         (set_pred (dset n [] (g_pred g)) (set_succ (dset n [] (g_succ g)) g)), None)
  end.

(** A for loop of mutations: stops at the first exception, keeping the effects
    of the earlier iterations. *)
Fixpoint for_each {A} (f : graph → A → outcome) (l : list A) (g : graph) : outcome :=
  match l with
  | [] => (g, None)
  | x :: l' => match f g x with
               | (g', None) => for_each f l' g'
               | (g', Some e) => (g', Some e)
               end
  end.

(** discoursegraph.py:275-362 *)
Definition add_nodes_from (g : graph) (nodes : list nspec) (attr : attrs) : outcome :=
  for_each (λ g s, add_nodes_from1 g attr s) nodes g.

(** discoursegraph.py:468-470 and 595-597: [key = len(keydict); while key in
    keydict: key += 1].  The fuel is one more than the number of keys;
    [fresh_key_Some] (DocGraphFacts) shows it never runs out. *)
Fixpoint fresh_key_loop {V} (fuel : nat) (k : Z) (kd : dict nid V) : option nid :=
  match fuel with
  | O => None
  | S f => if dmem (NInt k) kd then fresh_key_loop f (k + 1) kd else Some (NInt k)
  end.
Definition fresh_key {V} (kd : dict nid V) : option nid :=
  fresh_key_loop (S (length kd)) (Z.of_nat (length kd)) kd.

(** discoursegraph.py:454-457: endpoints that are missing are added. *)
Definition ensure_node (g : graph) (n : nid) : outcome :=
  if dmem n (g_node g) then (g, None) else add_node g n (VSet [g_ns g]) None [].

(** discoursegraph.py:459-485: the edge itself, [l] and [ad] being the
    validated layers and the attribute dict (which includes layers). *)
Definition insert_edge (g : graph) (u v : nid) (l : list string) (key : option nid)
    (ad : attrs) : outcome :=
  match dget u (g_succ g) with
  | None => (g, Some KeyError)
  | Some nbrs =>
    match dget v nbrs with
    | Some keydict =>
      match (match key with Some k => Some k | None => fresh_key keydict end) with
      | None => (g, Some OutOfFuel)
      | Some k =>
        let datadict := default [] (dget k keydict) in
        let existing := default (VSet []) (dget "layers" datadict) in
        match py_union existing l with
        | Err e => (g, Some e)
        | Ok all_layers =>
          let datadict' := dset "layers" all_layers (dupdate datadict ad) in
          (set_succ (dset u (dset v (dset k datadict' keydict) nbrs) (g_succ g)) g, None)
        end
      end
    | None =>
      let k := default (NInt 0) key in
      match dget v (g_pred g) with
      | None => (set_succ (dset u (dset v [(k, ad)] nbrs) (g_succ g)) g, Some KeyError)
      | Some ps =>
        (set_pred (dset v (if decide (u ∈ ps) then ps else ps ++ [u]) (g_pred g))
           (set_succ (dset u (dset v [(k, ad)] nbrs) (g_succ g)) g), None)
      end
    end
  end.

(** discoursegraph.py:364-485, add_edge. *)
Definition add_edge (g : graph) (u v : nid) (layers : pyval) (key : option nid)
    (attr_dict : option attrs) (attr : attrs) : outcome :=
  match check_layers (g_ns g) layers with
  | Err e => (g, Some e)
  | Ok l =>
    let attr' := dset "layers" (VSet l) attr in
    let ad := match attr_dict with None => attr' | Some d => dupdate d attr' end in
    match for_each ensure_node [u; v] g with
    | (g1, Some e) => (g1, Some e)
    | (g1, None) => insert_edge g1 u v l key ad
    end
  end.

(** An element of [ebunch]: (u,v,d) or (u,v,key,d); other tuple lengths raise
    AttributeError (discoursegraph.py:560-569) and are not represented. *)
Record espec := ESpec { e_u : nid; e_v : nid; e_key : option nid; e_d : attrs }.

(** discoursegraph.py:577-585: [attr_dict.get('layers', {})] and the union. *)
Definition additional_layers (ad : attrs) : res (list string) :=
  match dget "layers" ad with
  | None => Ok []
  | Some (VSet l) => Ok l
  | Some v => if truthy v then Err AssertionError
              else match v with VStr _ => Ok [] | _ => Err TypeError end
  end.

(** discoursegraph.py:556-612, body of the loop of add_edges_from.  The data
    dictionary of an existing edge is updated in place before add_edge is
    called (:600-602). *)
Definition add_edges_from1 (g : graph) (ad : attrs) (e : espec) : outcome :=
  let u := e_u e in let v := e_v e in
  let dd := if dmem "layers" (e_d e) then e_d e else dset "layers" (VSet [g_ns g]) (e_d e) in
  match dget "layers" dd with
  | Some (VSet layers) =>
    match additional_layers ad with
    | Err x => (g, Some x)
    | Ok add_l =>
      let new_layers := set_union layers add_l in
      let nbrs := default [] (dget u (g_succ g)) in
      let keydict := default [] (dget v nbrs) in
      match (match e_key e with Some k => Some k | None => fresh_key keydict end) with
      | None => (g, Some OutOfFuel)
      | Some k =>
        let old := default [] (dget k keydict) in
        let existing := default (VSet []) (dget "layers" old) in
        let datadict := dupdate (dupdate old ad) dd in
        let g1 := match dget k keydict with
                  | None => g
                  | Some _ => set_succ (dset u (dset v (dset k datadict keydict) nbrs) (g_succ g)) g
                  end in
        match py_union existing new_layers with
        | Err x => (g1, Some x)
        | Ok all_layers =>
          add_edge g1 u v all_layers (Some k) (Some (ddel "layers" datadict)) []
        end
      end
    end
  | _ => (g, Some AssertionError)
  end.

(** discoursegraph.py:487-612, add_edges_from; [attr_dict] defaults to the
    keyword attributes. *)
Definition add_edges_from (g : graph) (ebunch : list espec)
    (attr_dict : option attrs) (attr : attrs) : outcome :=
  let ad := match attr_dict with None => attr | Some d => dupdate d attr end in
  for_each (λ g e, add_edges_from1 g ad e) ebunch g.

(** discoursegraph.py:614-640, add_layer on a node. *)
Definition add_layer_node (g : graph) (n : nid) (layer : string) : outcome :=
  match dget n (g_node g) with
  | None => (g, Some KeyError)
  | Some a =>
    match dget "layers" a with
    | None => (g, Some KeyError)
    | Some (VSet l) =>
        (set_node (dset n (dset "layers" (VSet (set_add layer l)) a) (g_node g)) g, None)
    | Some VBadSet => (g, None)
    | Some _ => (g, Some AttributeError)
    end
  end.

(** discoursegraph.py:629-636: the loop over the parallel edges of (u,v). *)
Fixpoint add_layer_keydict (layer : string) (kd : dict nid attrs) : dict nid attrs * option exc :=
  match kd with
  | [] => ([], None)
  | (k, a) :: kd' =>
    match dget "layers" a with
    | None => ((k, a) :: kd', Some KeyError)
    | Some (VSet l) =>
        let '(r, e) := add_layer_keydict layer kd' in
        ((k, dset "layers" (VSet (set_add layer l)) a) :: r, e)
    | Some VBadSet => let '(r, e) := add_layer_keydict layer kd' in ((k, a) :: r, e)
    | Some _ => ((k, a) :: kd', Some AttributeError)
    end
  end.
(** discoursegraph.py:614-636, add_layer on an edge (source, target). *)
Definition add_layer_edge (g : graph) (u v : nid) (layer : string) : outcome :=
  match dget u (g_succ g) with
  | None => (g, Some KeyError)
  | Some nbrs =>
    match dget v nbrs with
    | None => (g, Some KeyError)
    | Some kd => let '(kd', e) := add_layer_keydict layer kd in
                 (set_succ (dset u (dset v kd' nbrs) (g_succ g)) g, e)
    end
  end.

(** networkx 1.x DiGraph.remove_node (inherited by MultiDiGraph):
<<
    nbrs = self.succ[n]; del self.node[n]
    for u in nbrs: del self.pred[u][n]
    del self.succ[n]
    for u in self.pred[n]: del self.succ[u][n]
    del self.pred[n]
>>
    A [del] of a missing key (impossible in a consistent graph) would raise
    KeyError; the model ignores it, and [Consistent] (DocGraphFacts) shows
    that no reachable graph has such a key. *)
Definition remove_node (g : graph) (n : nid) : outcome :=
  match dget n (g_succ g), dget n (g_node g) with
  | Some nbrs, Some _ =>
    let pred1 := foldl (λ p u, match dget u p with
                               | Some ps => dset u (filter (λ x, x ≠ n) ps) p
                               | None => p end) (g_pred g) (dkeys nbrs) in
    let succ1 := ddel n (g_succ g) in
    let succ2 := foldl (λ s u, match dget u s with
                               | Some nb => dset u (ddel n nb) s
                               | None => s end) succ1 (default [] (dget n pred1)) in
    (mkGraph (g_name g) (g_ns g) (g_root g) (ddel n (g_node g)) succ2 (ddel n pred1)
       (g_tokens g) (g_sentences g) (g_meta g), None)
  | _, _ => (g, Some NetworkXError)
  end.

(** discoursegraph.py:25-33, EdgeTypes *)
Definition points_to := "points_to".
Definition dominates := "dominates".
Definition is_dominated_by := "is_dominated_by".
Definition spans := "spans".
Definition precedes := "precedes".

(** discoursegraph.py:753-760: one precedence edge. *)
Definition add_prec_edge (g : graph) (p : nid * nid) : outcome :=
  add_edge g p.1 p.2 (VSet [g_ns g; g_ns g +:+ ":precedence"]) None None
    [("edge_type", VStr precedes)].

(** discoursegraph.py:745-760, add_precedence_relations.  The edges are
    root->t0 and then (tokens[i], tokens[i+1]). *)
Definition add_precedence_relations (g : graph) : outcome :=
  match g_tokens g with
  | t0 :: _ :: _ =>
      for_each add_prec_edge ((g_root g, t0) :: zip (g_tokens g) (tail (g_tokens g))) g
  | _ => (g, Some AssertionError)
  end.

(** One API call on a document graph. *)
Inductive op :=
| OAddNode (n : nid) (layers : pyval) (attr_dict : option attrs) (attr : attrs)
| OAddNodesFrom (nodes : list nspec) (attr : attrs)
| OAddEdge (u v : nid) (layers : pyval) (key : option nid) (attr_dict : option attrs) (attr : attrs)
| OAddEdgesFrom (ebunch : list espec) (attr_dict : option attrs) (attr : attrs)
| OAddLayerNode (n : nid) (layer : string)
| OAddLayerEdge (u v : nid) (layer : string)
| ORemoveNode (n : nid)
| OSetTokens (l : list nid)
| OSetSentences (l : list nid)
| OAddPrecedence.

Definition step (g : graph) (o : op) : outcome :=
  match o with
  | OAddNode n l ad a => add_node g n l ad a
  | OAddNodesFrom ns a => add_nodes_from g ns a
  | OAddEdge u v l k ad a => add_edge g u v l k ad a
  | OAddEdgesFrom es ad a => add_edges_from g es ad a
  | OAddLayerNode n l => add_layer_node g n l
  | OAddLayerEdge u v l => add_layer_edge g u v l
  | ORemoveNode n => remove_node g n
  | OSetTokens l => (set_tokens l g, None)
  | OSetSentences l => (set_sentences l g, None)
  | OAddPrecedence => add_precedence_relations g
  end.

(** A history: calls that raise leave their partial effects and the user
    goes on. *)
Definition run (g : graph) (os : list op) : graph := foldl (λ g o, (step g o).1) g os.

(** ** Observations *)
(** [g.node.get(n)] *)
Definition node_attrs (g : graph) (n : nid) : option attrs := dget n (g_node g).
(** [g.succ.get(u, {}).get(v, {})] *)
Definition keydict_of (g : graph) (u v : nid) : dict nid attrs :=
  default [] (dget v (default [] (dget u (g_succ g)))).
(** [g.edge[u][v].get(k)] *)
Definition edge_attrs (g : graph) (u v k : nid) : option attrs := dget k (keydict_of g u v).
(** [g.successors(u)], [g.predecessors(v)] ([] for unknown nodes) *)
Definition successors (g : graph) (u : nid) : list nid := dkeys (default [] (dget u (g_succ g))).
Definition predecessors (g : graph) (v : nid) : list nid := default [] (dget v (g_pred g)).
(** [g.nodes()] *)
Definition nodes (g : graph) : list nid := dkeys (g_node g).
(** [g.edges(keys=True, data=True)] *)
Definition edges (g : graph) : list (nid * nid * nid * attrs) :=
  p ← g_succ g; q ← p.2; r ← q.2; [(p.1, q.1, r.1, r.2)].
