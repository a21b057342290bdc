(** * SpecGraph: the vocabulary in which the document graph properties are stated

    Only definitions; everything is phrased over the observations of a graph
    (node_attrs, edge_attrs, edges, nodes, successors, predecessors) and never
    over the way the mutators work. *)
From Verif Require Import PyBase DocGraph Relabel.

(** ** Layers and attributes *)
(** "has a layers attribute which is a set of str" *)
Definition layered (a : attrs) : Prop := ∃ l, dget "layers" a = Some (VSet l).
Definition Layered (g : graph) : Prop :=
  (∀ n a, node_attrs g n = Some a → layered a) ∧
  (∀ u v k a, edge_attrs g u v k = Some a → layered a).
(** ... and is not empty *)
Definition nlayered (a : attrs) : Prop := ∃ x l, dget "layers" a = Some (VSet (x :: l)).
Definition NLayered (g : graph) : Prop :=
  (∀ n a, node_attrs g n = Some a → nlayered a) ∧
  (∀ u v k a, edge_attrs g u v k = Some a → nlayered a).

(** [x] is among the layers of an attribute dict. *)
Definition has_layer (a : attrs) (x : string) : Prop :=
  ∃ l, dget "layers" a = Some (VSet l) ∧ x ∈ l.
(** the same for an element that may not exist *)
Definition ohas_layer (o : option attrs) (x : string) : Prop :=
  ∃ a, o = Some a ∧ has_layer a x.
Definition oget (o : option attrs) (key : string) : option pyval :=
  match o with Some a => dget key a | None => None end.
(** [a] is the attribute dict of an element that had attributes [old]
    (None: a new element) after a call that asks for layers [l] and
    attributes [given]. *)
Definition attr_merge (old : option attrs) (l : list string) (given a : attrs) : Prop :=
  (∃ L, dget "layers" a = Some (VSet L) ∧ ∀ x, x ∈ L ↔ x ∈ l ∨ ohas_layer old x) ∧
  ∀ key, key ≠ "layers" →
    dget key a = match dget key given with Some v => Some v | None => oget old key end.

(** The attributes a caller passes: keyword attributes override attr_dict. *)
Definition given_attrs (attr_dict : option attrs) (attr : attrs) : attrs :=
  dupdate (default [] attr_dict) attr.

(** The [layers] argument asks for the layers [l]: a non-empty set of strings,
    or nothing, which stands for the namespace of the graph. *)
Definition asked_layers (ns : string) (layers : pyval) (l : list string) : Prop :=
  (layers = VSet l ∧ l ≠ []) ∨ (truthy layers = false ∧ l = [ns]).
(** ... or is neither *)
Definition bad_layers (layers : pyval) : Prop :=
  truthy layers = true ∧ ∀ l, layers ≠ VSet l.

(** No layer of any node or edge is lost. *)
Definition layers_le (g g' : graph) : Prop :=
  (∀ n a, node_attrs g n = Some a → ∃ a', node_attrs g' n = Some a' ∧
      ∀ x, has_layer a x → has_layer a' x) ∧
  (∀ u v k a, edge_attrs g u v k = Some a → ∃ a', edge_attrs g' u v k = Some a' ∧
      ∀ x, has_layer a x → has_layer a' x).

(** Attributes of a precedence edge in a graph with namespace [ns]. *)
Definition prec_attrs (ns : string) (a : attrs) : Prop :=
  dget "edge_type" a = Some (VStr "precedes") ∧
  (∀ x, has_layer a x ↔ x = ns ∨ x = ns +:+ ":precedence") ∧
  (∀ key, key ≠ "edge_type" → key ≠ "layers" → dget key a = None).

(** ** Calls that are excluded from some statements *)
(** add_nodes_from with bare ids and a [layers] keyword *)
Definition is_bare (s : nspec) : Prop := match s with NBare _ => True | NTup _ _ => False end.
Definition no_bare_layers (o : op) : Prop :=
  match o with
  | OAddNodesFrom ns attr => (∃ s, s ∈ ns ∧ is_bare s) → dget "layers" attr = None
  | _ => True
  end.
(** no explicit empty layer set inside an add_nodes_from tuple *)
Definition no_empty_tuple (o : op) : Prop :=
  match o with
  | OAddNodesFrom ns _ => ∀ n d, NTup n d ∈ ns → dget "layers" d ≠ Some (VSet [])
  | _ => True
  end.

(** ** Renaming *)
(** equal attributes, layers compared as sets *)
Definition attr_eqv (a b : attrs) : Prop :=
  (∀ x, has_layer a x ↔ has_layer b x) ∧
  ∀ key, key ≠ "layers" → dget key a = dget key b.

(** [g'] is the image of [g] under the renaming [f]. *)
Record iso (f : nid → nid) (g g' : graph) : Prop := {
  iso_inj : ∀ x y, x ∈ nodes g → y ∈ nodes g → f x = f y → x = y;
  iso_node : ∀ n a, node_attrs g n = Some a →
    ∃ a', node_attrs g' (f n) = Some a' ∧ attr_eqv a a';
  iso_node_inv : ∀ m, m ∈ nodes g' → ∃ n, n ∈ nodes g ∧ m = f n;
  iso_edge : ∀ u v k a, edge_attrs g u v k = Some a →
    ∃ a', edge_attrs g' (f u) (f v) k = Some a' ∧ attr_eqv a a';
  iso_edge_inv : ∀ u' v' k a', edge_attrs g' u' v' k = Some a' →
    ∃ u v a, u' = f u ∧ v' = f v ∧ edge_attrs g u v k = Some a;
}.
Definition same_doc (g g' : graph) : Prop :=
  g_name g' = g_name g ∧ g_ns g' = g_ns g ∧ g_root g' = g_root g ∧
  g_tokens g' = g_tokens g ∧ g_sentences g' = g_sentences g ∧ g_meta g' = g_meta g.

Definition mapped (m : dict nid nid) (x : nid) : nid := default x (dget x m).

(** Conditions under which an in-place renaming is possible at all. *)
Record mapping_ok (m : dict nid nid) (g : graph) : Prop := {
  mo_keys : NoDup m.*1;
  mo_vals : NoDup m.*2;
  mo_in : ∀ o, o ∈ m.*1 → o ∈ nodes g;
  mo_fresh : ∀ n, n ∈ m.*2 → n ∈ nodes g → n ∈ m.*1;
  mo_noid : ∀ o n, (o, n) ∈ m → o ≠ n;
  mo_loop : ∀ o n, (o, n) ∈ m → nid_truthy n = false → ∀ k, edge_attrs g o o k = None;
}.

(** ** Merging *)
(** an edge with the same endpoints and attributes (the key may differ) *)
Definition same_edge (e e' : nid * nid * nid * attrs) : Prop :=
  e'.1.1 = e.1.1 ∧ attr_eqv e.2 e'.2.
(** an edge of the other root, now starting in [root]: attributes kept,
    layers replaced by {ns} *)
Definition moved_edge (ns : string) (root : nid) (e e' : nid * nid * nid * attrs) : Prop :=
  e'.1.1 = (root, e.1.1.2) ∧
  (∀ x, has_layer e'.2 x ↔ x = ns) ∧
  (∀ key, key ≠ "layers" → dget key e'.2 = dget key e.2).

(** What merge_graphs does once the tokens of the other graph are renamed. *)
Record merged (g og g' : graph) : Prop := {
  mg_nodes : ∀ n, node_attrs g' n = None ↔ n = g_root og ∨ (n ∉ nodes g ∧ n ∉ nodes og);
  mg_own : ∀ n, n ∉ nodes og → node_attrs g' n = node_attrs g n;
  mg_shared : ∀ n a, n ≠ g_root og → node_attrs og n = Some a →
    ∃ a', node_attrs g' n = Some a' ∧
      (∀ x, has_layer a' x ↔ has_layer a x ∨ ohas_layer (node_attrs g n) x) ∧
      (∀ key, key ≠ "layers" → key ≠ g_ns g +:+ ":token" →
         dget key a' = match dget key a with Some v => Some v | None => oget (node_attrs g n) key end) ∧
      dget (g_ns g +:+ ":token") a' =
        match dget (g_ns g +:+ ":token") a with
        | Some v => Some v
        | None => match oget (node_attrs g n) (g_ns g +:+ ":token") with
                  | Some v => Some v
                  | None => dget (g_ns og +:+ ":token") a
                  end
        end;
  mg_edges : ∃ brought moved,
    edges g' ≡ₚ edges g ++ brought ++ moved ∧
    Forall2 same_edge (filter (λ e, e.1.1.1 ≠ g_root og) (edges og)) brought ∧
    Forall2 (moved_edge (g_ns g) (g_root g)) (out_edges og (g_root og)) moved;
  mg_tokens : g_tokens g' = match g_tokens g with [] => g_tokens og | l => l end;
  mg_sentences : g_sentences g' = match g_sentences g with [] => g_sentences og | l => l end;
  mg_name : g_name g' = if String.eqb (g_name g) "" then g_name og else g_name g;
  mg_ns : g_ns g' = g_ns g;
  mg_root : g_root g' = g_root g;
}.

(** The result [g'] of merging [og] into [g], the nodes of [og] being renamed
    by [f].  Stated over the original graphs. *)
Definition via (f : nid → nid) (e e' : nid * nid * nid * attrs) : Prop :=
  e'.1.1 = (f e.1.1.1, f e.1.1.2) ∧ attr_eqv e.2 e'.2.
Definition via_root (f : nid → nid) (ns : string) (root : nid) (e e' : nid * nid * nid * attrs) : Prop :=
  e'.1.1 = (root, f e.1.1.2) ∧
  (∀ x, has_layer e'.2 x ↔ x = ns) ∧
  (∀ key, key ≠ "layers" → dget key e'.2 = dget key e.2).
Record merge_result (f : nid → nid) (g og g' : graph) : Prop := {
  (* the nodes: all own nodes and the renamed nodes of the other graph except its root *)
  mr_nodes : ∀ n, n ∈ nodes g' ↔
    n ∈ nodes g ∨ ∃ m, m ∈ nodes og ∧ m ≠ g_root og ∧ n = f m;
  (* own nodes that the other graph does not have are untouched *)
  mr_own : ∀ n, n ∈ nodes g → (∀ m, m ∈ nodes og → n ≠ f m) → node_attrs g' n = node_attrs g n;
  (* nodes of the other graph: union of the layers, attributes of the other graph win *)
  mr_other : ∀ m a, m ≠ g_root og → node_attrs og m = Some a →
    ∃ a', node_attrs g' (f m) = Some a' ∧
      (∀ x, has_layer a' x ↔ has_layer a x ∨ ohas_layer (node_attrs g (f m)) x) ∧
      (∀ key, key ≠ "layers" → key ≠ g_ns g +:+ ":token" →
         dget key a' = match dget key a with Some v => Some v | None => oget (node_attrs g (f m)) key end) ∧
      dget (g_ns g +:+ ":token") a' =
        match dget (g_ns g +:+ ":token") a with
        | Some v => Some v
        | None => match oget (node_attrs g (f m)) (g_ns g +:+ ":token") with
                  | Some v => Some v
                  | None => dget (g_ns og +:+ ":token") a
                  end
        end;
  (* the edges: exactly the own edges (same keys and attributes), one edge per
     edge of the other graph that does not leave its root, one edge per edge
     that leaves its root *)
  mr_edges : ∃ brought moved,
    edges g' ≡ₚ edges g ++ brought ++ moved ∧
    (∃ l, l ≡ₚ filter (λ e, e.1.1.1 ≠ g_root og) (edges og) ∧ Forall2 (via f) l brought) ∧
    (∃ l, l ≡ₚ filter (λ e, e.1.1.1 = g_root og) (edges og) ∧
          Forall2 (via_root f (g_ns g) (g_root g)) l moved);
  mr_ns : g_ns g' = g_ns g;
  mr_root : g_root g' = g_root g;
  mr_name : g_name g' = if String.eqb (g_name g) "" then g_name og else g_name g;
  (* token and sentence lists are taken over only if there are none *)
  mr_tokens : g_tokens g' = match g_tokens g with [] => g_tokens og | l => l end;
  mr_sentences : g_sentences g' = match g_sentences g with [] => g_sentences og | l => l end;
}.

(** ** Reachable document graphs *)
(** The graphs that exist after some history of API calls, [P] restricting the
    arguments of single calls.  A call that raises leaves its partial effect
    ([.1] of the outcome) and the user goes on. *)
Inductive reachable (P : op → Prop) : graph → Prop :=
| R_init name ns root : reachable P (init_graph name ns root)
| R_step g o : reachable P g → P o → reachable P (step g o).1
| R_relabel g m r : reachable P g → relabel_inplace g m r → reachable P r.1
| R_rename og g r : reachable P og → reachable P g → rename_tokens og g r → reachable P r.1
| R_merge g og r : reachable P g → reachable P og → merge_graphs g og r → reachable P r.1.

(** ** Consistency of the node and adjacency dictionaries
    (the proof-level invariant; PropGraph.v states C03 directly) *)
Record Consistent (g : graph) : Prop := {
  c_nodup : NoDup (nodes g);
  c_succ_dom : dkeys (g_succ g) = nodes g;
  c_pred_dom : dkeys (g_pred g) = nodes g;
  c_adj : ∀ u nbrs, dget u (g_succ g) = Some nbrs →
    NoDup (dkeys nbrs) ∧
    ∀ v kd, dget v nbrs = Some kd → kd ≠ [] ∧ NoDup (dkeys kd);
  c_prednodup : ∀ v ps, dget v (g_pred g) = Some ps → NoDup ps;
  c_sp : ∀ u v, v ∈ successors g u ↔ u ∈ predecessors g v;
}.

