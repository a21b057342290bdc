(** * Alias: the mutators on a heap of shared dict and set objects

    DocGraph.v models the mutators of DiscourseDocumentGraph on immutable
    values.  In Python, attribute dictionaries and the [layers] sets are
    objects: add_node stores the very [attr_dict] it was given
    (discoursegraph.py:262), add_nodes_from copies a dictionary but not the
    set inside it (:336-338), add_edge writes into its [attr_dict] argument
    (:449), add_layer changes a set in place (:634, :639).  This file models
    the same functions with those objects on an explicit heap: an object is
    its address, and two elements that hold the same address share it.

    Simplifications, valid for the whole file:
    - only attribute dictionaries and sets of strings are heap objects; the
      adjacency dictionaries are never handed out by the modelled functions,
      and the token and sentence lists are plain values;
    - the keyword arguments ([**attr]) of a call are one more dictionary
      object, which Python makes anew for every call; the values in it are
      references;
    - as in DocGraph.v, plain dicts iterate in insertion order. *)
From Verif Require Import PyBase DocGraph.

(** Attribute values: [HSet l] is a reference to the set object at address
    [l]; the other cases are those of [pyval]. *)
Inductive hval :=
| HNone | HBool (b : bool) | HInt (z : Z) | HStr (s : string)
| HSet (l : nat) | HBadSet | HObj (i : nat).

(** A heap: set objects and dictionary objects; the address of an object is
    its position. *)
Record heap := mkHeap {
  hp_sets : list (list string);
  hp_dicts : list (dict string hval);
}.
Definition set_at (h : heap) (l : nat) : list string := default [] (hp_sets h !! l).
Definition dict_at (h : heap) (l : nat) : dict string hval := default [] (hp_dicts h !! l).
(** a new set object / dictionary object *)
Definition new_set (h : heap) (s : list string) : heap * nat :=
  (mkHeap (hp_sets h ++ [s]) (hp_dicts h), length (hp_sets h)).
Definition new_dict (h : heap) (d : dict string hval) : heap * nat :=
  (mkHeap (hp_sets h) (hp_dicts h ++ [d]), length (hp_dicts h)).
(** changing an object in place *)
Definition put_set (h : heap) (l : nat) (s : list string) : heap :=
  mkHeap (<[l := s]> (hp_sets h)) (hp_dicts h).
Definition put_dict (h : heap) (l : nat) (d : dict string hval) : heap :=
  mkHeap (hp_sets h) (<[l := d]> (hp_dicts h)).

(** [f] on all the values of a dictionary *)
Definition dmap {K V W} (f : V → W) (d : dict K V) : dict K W := (λ p, (p.1, f p.2)) <$> d.

(** What a reference, a dictionary and an address show. *)
Definition val (h : heap) (v : hval) : pyval :=
  match v with
  | HNone => VNone | HBool b => VBool b | HInt z => VInt z | HStr s => VStr s
  | HSet l => VSet (set_at h l) | HBadSet => VBadSet | HObj i => VObj i
  end.
Definition see (h : heap) (d : dict string hval) : attrs := dmap (val h) d.
Definition see_at (h : heap) (l : nat) : attrs := see h (dict_at h l).

(** A document graph whose elements hold addresses of attribute
    dictionaries; the fields are those of [graph] (DocGraph.v). *)
Record hgraph := mkH {
  h_name : string;
  h_ns : string;
  h_root : nid;
  h_node : dict nid nat;
  h_succ : dict nid (dict nid (dict nid nat));
  h_pred : dict nid (list nid);
  h_tokens : list nid;
  h_sentences : list nid;
  h_meta : dict string pyval;
}.
Definition hset_node (f : dict nid nat) (g : hgraph) : hgraph :=
  mkH (h_name g) (h_ns g) (h_root g) f (h_succ g) (h_pred g) (h_tokens g) (h_sentences g) (h_meta g).
Definition hset_succ (f : dict nid (dict nid (dict nid nat))) (g : hgraph) : hgraph :=
  mkH (h_name g) (h_ns g) (h_root g) (h_node g) f (h_pred g) (h_tokens g) (h_sentences g) (h_meta g).
Definition hset_pred (f : dict nid (list nid)) (g : hgraph) : hgraph :=
  mkH (h_name g) (h_ns g) (h_root g) (h_node g) (h_succ g) f (h_tokens g) (h_sentences g) (h_meta g).
Definition hset_tokens (l : list nid) (g : hgraph) : hgraph :=
  mkH (h_name g) (h_ns g) (h_root g) (h_node g) (h_succ g) (h_pred g) l (h_sentences g) (h_meta g).
Definition hset_sentences (l : list nid) (g : hgraph) : hgraph :=
  mkH (h_name g) (h_ns g) (h_root g) (h_node g) (h_succ g) (h_pred g) (h_tokens g) l (h_meta g).

(** The value of a graph: what [graph.nodes(data=True)],
    [graph.edges(keys=True, data=True)] etc. print. *)
Definition graph_of (h : heap) (g : hgraph) : graph :=
  mkGraph (h_name g) (h_ns g) (h_root g) (dmap (see_at h) (h_node g))
    (dmap (dmap (dmap (see_at h))) (h_succ g)) (h_pred g) (h_tokens g) (h_sentences g) (h_meta g).

Notation houtcome := (heap * hgraph * option exc)%type.

(** discoursegraph.py:239-244: default and validation of the [layers]
    argument; the default is a new set. *)
Definition h_check_layers (h : heap) (ns : string) (layers : hval) : heap * res nat :=
  if truthy (val h layers) then
    (h, match layers with HSet l => Ok l | _ => Err AssertionError end)
  else let '(h, l) := new_set h [ns] in (h, Ok l).

(** [existing_layers.union(layers)] makes a new set. *)
Definition h_union (h : heap) (v : hval) (l : nat) : heap * res hval :=
  match v with
  | HSet l0 => let '(h', s) := new_set h (set_union (set_at h l0) (set_at h l)) in (h', Ok (HSet s))
  | HBadSet => (h, Ok HBadSet)
  | _ => (h, Err AttributeError)
  end.

(** discoursegraph.py:248-254 (and 445-453): the keyword dictionary itself,
    or the [attr_dict] argument, into which the former is written. *)
Definition attr_object (h : heap) (attr_dict : option nat) (attr : nat) : heap * nat :=
  match attr_dict with
  | None => (h, attr)
  | Some a => (put_dict h a (dupdate (dict_at h a) (dict_at h attr)), a)
  end.

(** discoursegraph.py:192-273, add_node: a new node holds the attribute
    dictionary itself (:262). *)
Definition h_add_node (h : heap) (g : hgraph) (n : nid) (layers : hval)
    (attr_dict : option nat) (attr : nat) : houtcome :=
  match h_check_layers h (h_ns g) layers with
  | (h, Err e) => (h, g, Some e)
  | (h, Ok l) =>
    let h := put_dict h attr (dset "layers" (HSet l) (dict_at h attr)) in
    let '(h, a) := attr_object h attr_dict attr in
    if dmem n (h_succ g) then
      match dget n (h_node g) with
      | None => (h, g, Some KeyError)
      | Some o =>
        match dget "layers" (dict_at h o) with
        | None => (h, g, Some KeyError)
        | Some existing =>
          match h_union h existing l with
          | (h, Err e) => (h, g, Some e)
          | (h, Ok all_layers) =>
            let wo := ddel "layers" (dict_at h a) in
            let h := put_dict h o (dupdate (dict_at h o) wo) in
            (put_dict h o (dset "layers" all_layers (dict_at h o)), g, None)
          end
        end
      end
    else
      (h, hset_node (dset n a (h_node g))
            (hset_pred (dset n [] (h_pred g)) (hset_succ (dset n [] (h_succ g)) g)), None)
  end.

(** discoursegraph.py:74-96, __init__ (see [init_graph] in DocGraph.v). *)
Definition h_init (h : heap) (name ns : string) (root : option nid) : heap * hgraph :=
  let r := match root with
           | None => NStr (ns +:+ ":root_node")
           | Some (NStr "") => NStr (ns +:+ ":root_node")
           | Some (NInt 0%Z) => NStr (ns +:+ ":root_node")
           | Some r => r
           end in
  let '(h, l) := new_set h [ns] in
  let '(h, a) := new_dict h [] in
  (h_add_node h (mkH name ns r [] [] [] [] [] []) r (HSet l) None a).1.

(** An element of the [nodes] argument of add_nodes_from. *)
Inductive hnspec := HBare (n : nid) | HTup (n : nid) (d : nat).

(** discoursegraph.py:317-362, body of the loop of add_nodes_from: the
    dictionary of a tuple gets its default layers in place (:324-325); a new
    node holds a copy of the dictionary (:336-338), with the same set
    objects in it. *)
Definition h_add_nodes_from1 (h : heap) (g : hgraph) (attr : nat) (s : hnspec) : houtcome :=
  match s with
  | HTup n d =>
    let h := if dmem "layers" (dict_at h d) then h
             else let '(h, l) := new_set h [h_ns g] in
                  put_dict h d (dset "layers" (HSet l) (dict_at h d)) in
    match dget "layers" (dict_at h d) with
    | Some (HSet layers) =>
      if dmem n (h_succ g) then
        match dget n (h_node g) with
        | None => (h, g, Some KeyError)
        | Some o =>
          match dget "layers" (dict_at h o) with
          | None => (h, g, Some KeyError)
          | Some existing =>
            match h_union h existing layers with
            | (h, Err e) => (h, g, Some e)
            | (h, Ok all_layers) =>
              let h := put_dict h o (dupdate (dict_at h o) (dict_at h d)) in
              let h := put_dict h o (dupdate (dict_at h o) (dict_at h attr)) in
              (put_dict h o (dset "layers" all_layers (dict_at h o)), g, None)
            end
          end
        end
      else
        let '(h, a) := new_dict h (dupdate (dict_at h attr) (dict_at h d)) in
        (h, hset_node (dset n a (h_node g))
              (hset_pred (dset n [] (h_pred g)) (hset_succ (dset n [] (h_succ g)) g)), None)
    | _ => (h, g, Some AssertionError)
    end
  | HBare n =>
    if dmem n (h_succ g) then
      match dget n (h_node g) with
      | None => (h, g, Some KeyError)
      | Some o => (put_dict h o (dupdate (dict_at h o) (dict_at h attr)), g, None)
      end
    else
      let '(h, l) := new_set h [h_ns g] in
      let '(h, a) := new_dict h (dset "layers" (HSet l) (dict_at h attr)) in
      (h, hset_node (dset n a (h_node g))
            (hset_pred (dset n [] (h_pred g)) (hset_succ (dset n [] (h_succ g)) g)), None)
  end.

(** A for loop of mutations (see [for_each] in DocGraph.v). *)
Fixpoint h_for_each {A} (f : heap → hgraph → A → houtcome) (l : list A) (h : heap) (g : hgraph) : houtcome :=
  match l with
  | [] => (h, g, None)
  | x :: l' => match f h g x with
               | (h', g', None) => h_for_each f l' h' g'
               | (h', g', Some e) => (h', g', Some e)
               end
  end.

(** discoursegraph.py:275-362 *)
Definition h_add_nodes_from (h : heap) (g : hgraph) (nodes : list hnspec) (attr : nat) : houtcome :=
  h_for_each (λ h g s, h_add_nodes_from1 h g attr s) nodes h g.

(** discoursegraph.py:454-457: endpoints that are missing are added. *)
Definition h_ensure_node (h : heap) (g : hgraph) (n : nid) : houtcome :=
  if dmem n (h_node g) then (h, g, None)
  else let '(h, l) := new_set h [h_ns g] in
       let '(h, a) := new_dict h [] in h_add_node h g n (HSet l) None a.

(** discoursegraph.py:459-485: the edge itself.  [a] is the address of the
    attribute dictionary, [l] of the layers set.  An existing edge is updated
    in place; a new edge holds a new dictionary with the same set object. *)
Definition h_insert_edge (h : heap) (g : hgraph) (u v : nid) (l : nat) (key : option nid) (a : nat) : houtcome :=
  match dget u (h_succ g) with
  | None => (h, g, Some KeyError)
  | Some nbrs =>
    match dget v nbrs with
    | Some keydict =>
      match (match key with Some k => Some k | None => fresh_key keydict end) with
      | None => (h, g, Some OutOfFuel)
      | Some k =>
        let '(h, o) := match dget k keydict with Some o => (h, o) | None => new_dict h [] end in
        let '(h, existing) := match dget "layers" (dict_at h o) with
                              | Some v => (h, v)
                              | None => let '(h, s) := new_set h [] in (h, HSet s)
                              end in
        match h_union h existing l with
        | (h, Err e) => (h, g, Some e)
        | (h, Ok all_layers) =>
          let h := put_dict h o (dupdate (dict_at h o) (dict_at h a)) in
          let h := put_dict h o (dset "layers" all_layers (dict_at h o)) in
          (h, hset_succ (dset u (dset v (dset k o keydict) nbrs) (h_succ g)) g, None)
        end
      end
    | None =>
      let k := default (NInt 0) key in
      let '(h, o) := new_dict h (dict_at h a) in
      match dget v (h_pred g) with
      | None => (h, hset_succ (dset u (dset v [(k, o)] nbrs) (h_succ g)) g, Some KeyError)
      | Some ps =>
        (h, hset_pred (dset v (if decide (u ∈ ps) then ps else ps ++ [u]) (h_pred g))
              (hset_succ (dset u (dset v [(k, o)] nbrs) (h_succ g)) g), None)
      end
    end
  end.

(** discoursegraph.py:364-485, add_edge. *)
Definition h_add_edge (h : heap) (g : hgraph) (u v : nid) (layers : hval) (key : option nid)
    (attr_dict : option nat) (attr : nat) : houtcome :=
  match h_check_layers h (h_ns g) layers with
  | (h, Err e) => (h, g, Some e)
  | (h, Ok l) =>
    let h := put_dict h attr (dset "layers" (HSet l) (dict_at h attr)) in
    let '(h, a) := attr_object h attr_dict attr in
    match h_for_each h_ensure_node [u; v] h g with
    | (h, g1, Some e) => (h, g1, Some e)
    | (h, g1, None) => h_insert_edge h g1 u v l key a
    end
  end.

(** An element of [ebunch]: (u,v,d) or (u,v,key,d). *)
Record hespec := HESpec { he_u : nid; he_v : nid; he_key : option nid; he_d : nat }.

(** discoursegraph.py:577-585 *)
Definition h_additional_layers (h : heap) (ad : nat) : res (list string) :=
  match dget "layers" (dict_at h ad) with
  | None => Ok []
  | Some (HSet l) => Ok (set_at h l)
  | Some v => if truthy (val h v) then Err AssertionError
              else match v with HStr _ => Ok [] | _ => Err TypeError end
  end.

(** discoursegraph.py:556-612, body of the loop of add_edges_from; [ad] is
    the address of the attribute dictionary of the call.  The dictionary of
    the tuple gets its default layers in place (:571-572), the one of an
    existing edge is updated in place (:601-602), and add_edge is called with
    new objects. *)
Definition h_add_edges_from1 (h : heap) (g : hgraph) (ad : nat) (e : hespec) : houtcome :=
  let u := he_u e in let v := he_v e in let d := he_d e in
  let h := if dmem "layers" (dict_at h d) then h
           else let '(h, l) := new_set h [h_ns g] in
                put_dict h d (dset "layers" (HSet l) (dict_at h d)) in
  match dget "layers" (dict_at h d) with
  | Some (HSet layers) =>
    match h_additional_layers h ad with
    | Err x => (h, g, Some x)
    | Ok add_l =>
      let '(h, new_layers) := new_set h (set_union (set_at h layers) add_l) in
      let nbrs := default [] (dget u (h_succ g)) in
      let keydict := default [] (dget v nbrs) in
      match (match he_key e with Some k => Some k | None => fresh_key keydict end) with
      | None => (h, g, Some OutOfFuel)
      | Some k =>
        let '(h, o) := match dget k keydict with Some o => (h, o) | None => new_dict h [] end in
        let '(h, existing) := match dget "layers" (dict_at h o) with
                              | Some v => (h, v)
                              | None => let '(h, s) := new_set h [] in (h, HSet s)
                              end in
        let h := put_dict h o (dupdate (dict_at h o) (dict_at h ad)) in
        let h := put_dict h o (dupdate (dict_at h o) (dict_at h d)) in
        let '(h, updated_attrs) := new_dict h (ddel "layers" (dict_at h o)) in
        match h_union h existing new_layers with
        | (h, Err x) => (h, g, Some x)
        | (h, Ok all_layers) =>
          let '(h, kw) := new_dict h [] in
          h_add_edge h g u v all_layers (Some k) (Some updated_attrs) kw
        end
      end
    end
  | _ => (h, g, Some AssertionError)
  end.

(** discoursegraph.py:487-612, add_edges_from. *)
Definition h_add_edges_from (h : heap) (g : hgraph) (ebunch : list hespec)
    (attr_dict : option nat) (attr : nat) : houtcome :=
  let '(h, ad) := attr_object h attr_dict attr in
  h_for_each (λ h g e, h_add_edges_from1 h g ad e) ebunch h g.

(** discoursegraph.py:637-640, add_layer on a node: the set object itself is
    changed; storing it again (:640) changes nothing. *)
Definition h_add_layer_at (h : heap) (l : nat) (layer : string) : heap * option exc :=
  match dget "layers" (dict_at h l) with
  | None => (h, Some KeyError)
  | Some (HSet s) => (put_set h s (set_add layer (set_at h s)), None)
  | Some HBadSet => (h, None)
  | Some _ => (h, Some AttributeError)
  end.
Definition h_add_layer_node (h : heap) (g : hgraph) (n : nid) (layer : string) : houtcome :=
  match dget n (h_node g) with
  | None => (h, g, Some KeyError)
  | Some l => let '(h, e) := h_add_layer_at h l layer in (h, g, e)
  end.
(** discoursegraph.py:631-636: the loop over the parallel edges. *)
Fixpoint h_add_layer_keydict (h : heap) (layer : string) (kd : dict nid nat) : heap * option exc :=
  match kd with
  | [] => (h, None)
  | (_, l) :: kd' => match h_add_layer_at h l layer with
                     | (h, None) => h_add_layer_keydict h layer kd'
                     | (h, Some e) => (h, Some e)
                     end
  end.
Definition h_add_layer_edge (h : heap) (g : hgraph) (u v : nid) (layer : string) : houtcome :=
  match dget u (h_succ g) with
  | None => (h, g, Some KeyError)
  | Some nbrs =>
    match dget v nbrs with
    | None => (h, g, Some KeyError)
    | Some kd => let '(h, e) := h_add_layer_keydict h layer kd in (h, g, e)
    end
  end.

(** networkx 1.x DiGraph.remove_node (see DocGraph.v). *)
Definition h_remove_node (h : heap) (g : hgraph) (n : nid) : houtcome :=
  match dget n (h_succ g), dget n (h_node g) with
  | Some nbrs, Some _ =>
    let pred1 := foldl (λ p u, match dget u p with
                               | Some ps => dset u (filter (λ x, x ≠ n) ps) p
                               | None => p end) (h_pred g) (dkeys nbrs) in
    let succ1 := ddel n (h_succ g) in
    let succ2 := foldl (λ s u, match dget u s with
                               | Some nb => dset u (ddel n nb) s
                               | None => s end) succ1 (default [] (dget n pred1)) in
    (h, mkH (h_name g) (h_ns g) (h_root g) (ddel n (h_node g)) succ2 (ddel n pred1)
          (h_tokens g) (h_sentences g) (h_meta g), None)
  | _, _ => (h, g, Some NetworkXError)
  end.

(** discoursegraph.py:745-760, add_precedence_relations: every edge gets a new
    set of layers. *)
Definition h_add_prec_edge (h : heap) (g : hgraph) (p : nid * nid) : houtcome :=
  let '(h, l) := new_set h [h_ns g; h_ns g +:+ ":precedence"] in
  let '(h, kw) := new_dict h [("edge_type", HStr precedes)] in
  h_add_edge h g p.1 p.2 (HSet l) None None kw.
Definition h_add_precedence_relations (h : heap) (g : hgraph) : houtcome :=
  match h_tokens g with
  | t0 :: _ :: _ =>
      h_for_each h_add_prec_edge ((h_root g, t0) :: zip (h_tokens g) (tail (h_tokens g))) h g
  | _ => (h, g, Some AssertionError)
  end.

(** One API call, its arguments being references. *)
Inductive hop :=
| HAddNode (n : nid) (layers : hval) (attr_dict : option nat) (attr : nat)
| HAddNodesFrom (nodes : list hnspec) (attr : nat)
| HAddEdge (u v : nid) (layers : hval) (key : option nid) (attr_dict : option nat) (attr : nat)
| HAddEdgesFrom (ebunch : list hespec) (attr_dict : option nat) (attr : nat)
| HAddLayerNode (n : nid) (layer : string)
| HAddLayerEdge (u v : nid) (layer : string)
| HRemoveNode (n : nid)
| HSetTokens (l : list nid)
| HSetSentences (l : list nid)
| HAddPrecedence.

Definition h_step (h : heap) (g : hgraph) (o : hop) : houtcome :=
  match o with
  | HAddNode n l ad a => h_add_node h g n l ad a
  | HAddNodesFrom ns a => h_add_nodes_from h g ns a
  | HAddEdge u v l k ad a => h_add_edge h g u v l k ad a
  | HAddEdgesFrom es ad a => h_add_edges_from h g es ad a
  | HAddLayerNode n l => h_add_layer_node h g n l
  | HAddLayerEdge u v l => h_add_layer_edge h g u v l
  | HRemoveNode n => h_remove_node h g n
  | HSetTokens l => (h, hset_tokens l g, None)
  | HSetSentences l => (h, hset_sentences l g, None)
  | HAddPrecedence => h_add_precedence_relations h g
  end.

(** ** Calls written with literals: every set display and every dict display
    in the source of a call evaluates to a new object. *)
Definition lit_val (h : heap) (v : pyval) : heap * hval :=
  match v with
  | VNone => (h, HNone) | VBool b => (h, HBool b) | VInt z => (h, HInt z) | VStr s => (h, HStr s)
  | VSet l => let '(h, s) := new_set h l in (h, HSet s)
  | VBadSet => (h, HBadSet) | VObj i => (h, HObj i)
  end.
Fixpoint lit_attrs (h : heap) (a : attrs) : heap * dict string hval :=
  match a with
  | [] => (h, [])
  | (k, v) :: a' => let '(h, v) := lit_val h v in let '(h, a') := lit_attrs h a' in (h, (k, v) :: a')
  end.
Definition lit_dict (h : heap) (a : attrs) : heap * nat :=
  let '(h, d) := lit_attrs h a in new_dict h d.
Definition lit_opt (h : heap) (a : option attrs) : heap * option nat :=
  match a with None => (h, None) | Some a => let '(h, l) := lit_dict h a in (h, Some l) end.
Fixpoint lit_list {A B} (f : heap → A → heap * B) (h : heap) (l : list A) : heap * list B :=
  match l with
  | [] => (h, [])
  | x :: l' => let '(h, y) := f h x in let '(h, l') := lit_list f h l' in (h, y :: l')
  end.
Definition lit_nspec (h : heap) (s : nspec) : heap * hnspec :=
  match s with
  | NBare n => (h, HBare n)
  | NTup n d => let '(h, l) := lit_dict h d in (h, HTup n l)
  end.
Definition lit_espec (h : heap) (e : espec) : heap * hespec :=
  let '(h, l) := lit_dict h (e_d e) in (h, HESpec (e_u e) (e_v e) (e_key e) l).
Definition lit_op (h : heap) (o : op) : heap * hop :=
  match o with
  | OAddNode n l ad a =>
      let '(h, ad) := lit_opt h ad in let '(h, a) := lit_dict h a in
      let '(h, l) := lit_val h l in (h, HAddNode n l ad a)
  | OAddNodesFrom ns a =>
      let '(h, ns) := lit_list lit_nspec h ns in let '(h, a) := lit_dict h a in (h, HAddNodesFrom ns a)
  | OAddEdge u v l k ad a =>
      let '(h, ad) := lit_opt h ad in let '(h, a) := lit_dict h a in
      let '(h, l) := lit_val h l in (h, HAddEdge u v l k ad a)
  | OAddEdgesFrom es ad a =>
      let '(h, es) := lit_list lit_espec h es in let '(h, ad) := lit_opt h ad in
      let '(h, a) := lit_dict h a in (h, HAddEdgesFrom es ad a)
  | OAddLayerNode n l => (h, HAddLayerNode n l)
  | OAddLayerEdge u v l => (h, HAddLayerEdge u v l)
  | ORemoveNode n => (h, HRemoveNode n)
  | OSetTokens l => (h, HSetTokens l)
  | OSetSentences l => (h, HSetSentences l)
  | OAddPrecedence => (h, HAddPrecedence)
  end.

(** ** Programs with several graphs *)
(** A statement of a program: a new graph, or a call with literal arguments on
    graph number [i]. *)
Inductive cmd := CNew (name ns : string) (root : option nid) | CCall (i : nat) (o : op).
Record store := mkStore { st_heap : heap; st_graphs : list hgraph }.
Definition exec (st : store) (c : cmd) : store * option exc :=
  match c with
  | CNew name ns root =>
      let '(h, g) := h_init (st_heap st) name ns root in (mkStore h (st_graphs st ++ [g]), None)
  | CCall i o =>
    match st_graphs st !! i with
    | None => (st, Some NameError)
    | Some g =>
      let '(h, o) := lit_op (st_heap st) o in
      let '(h, g, e) := h_step h g o in (mkStore h (<[i := g]> (st_graphs st)), e)
    end
  end.
(** A program goes on after a call that raises; the result is the store it
    leaves and what each statement raised. *)
Fixpoint exec_all (st : store) (cs : list cmd) : store * list (option exc) :=
  match cs with
  | [] => (st, [])
  | c :: cs' => let '(st, e) := exec st c in let '(st, es) := exec_all st cs' in (st, e :: es)
  end.
Definition empty_store : store := mkStore (mkHeap [] []) [].
