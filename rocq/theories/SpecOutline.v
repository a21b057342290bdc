(** * SpecOutline: documents as outlines of words and named elements (C43, C44) *)
From Verif Require Import PyBase DocGraph Relabel StrNum SpecGraph SpecImport SpecQuery.

(** a word with further attributes, or an element with its node id, its layers and
    what it contains, in document order *)
Inductive item := IWord (w : string) (extra : attrs) | INode (id : string) (layers : list string) (items : list item).
(** every element and word of an outline, in document order, with the ids of the
    elements around it, innermost first *)
Inductive part := PWord (w : string) (extra : attrs) | PNode (id : string) (layers : list string).
Fixpoint walk (path : list nid) (it : item) : list (list nid * part) :=
  match it with
  | IWord w extra => [(path, PWord w extra)]
  | INode i layers items => (path, PNode i layers) :: concat (map (walk (NStr i :: path)) items)
  end.
Definition walk_all (path : list nid) (items : list item) : list (list nid * part) := concat (map (walk path) items).
(** the words are numbered; every part with its node id *)
Fixpoint number (prefix : string) (k : Z) (l : list (list nid * part)) : list (list nid * nid * part) :=
  match l with
  | [] => []
  | (path, PWord w extra) :: l => (path, NStr (prefix +:+ str_Z k), PWord w extra) :: number prefix (k + 1) l
  | (path, PNode i layers) :: l => (path, NStr i, PNode i layers) :: number prefix k l
  end.
Definition is_word_part (p : part) : bool := match p with PWord _ _ => true | PNode _ _ => false end.
(** the words of an outline *)
Definition part_words (l : list (list nid * part)) : list string :=
  omap (λ x, match x.2 with PWord w _ => Some w | PNode _ _ => None end) l.

(** ... of the items *)
Definition words_of (items : list item) : list chars := chs <$> part_words (walk_all [] items).

(** how an importer names tokens and which layers the edges to elements and to words have *)
Record style := Style { s_prefix : string; s_node_edge : list string; s_word_edge : list string }.
Definition part_layers (ns : string) (p : part) : list string :=
  match p with PWord _ _ => [ns; ns +:+ ":token"] | PNode _ layers => layers end.
(** the edge from the innermost element to a part *)
Definition part_edge (st : style) (root : nid) (x : list nid * nid * part) : edge_info :=
  (default root (head x.1.1), x.1.2,
   match x.2 with PWord _ _ => s_word_edge st | PNode _ _ => s_node_edge st end,
   [("edge_type", VStr match x.2 with PWord _ _ => "spans" | PNode _ _ => "dominates" end)]).
Definition outline_parts (st : style) (root : nid) (items : list item) : list (list nid * nid * part) :=
  number (s_prefix st) 1 (walk_all [root] items).

(** [g] is the document with these parts; [base] are the nodes that were there before *)
Record imported (st : style) (base : list node_info) (parts : list (list nid * nid * part)) (g : graph) : Prop := {
  (* the tokens in document order *)
  im_tokens : g_tokens g = (λ x, x.1.2) <$> filter (λ x, is_word_part x.2 = true) parts;
  (* a node for each id *)
  im_nodes : ∀ n, n ∈ nodes g ↔ n ∈ (λ x, x.1.1) <$> base ∨ ∃ path p, (path, n, p) ∈ parts;
  (* with the layers of all parts that have this id *)
  im_layers : ∀ n a, node_attrs g n = Some a → ∀ y, has_layer a y ↔
    (∃ l b, (n, l, b) ∈ base ∧ y ∈ l) ∨ ∃ path p, (path, n, p) ∈ parts ∧ y ∈ part_layers (g_ns g) p;
  (* a token has its word and the further attributes *)
  im_words : ∀ path n w extra, (path, n, PWord w extra) ∈ parts → ∃ a, node_attrs g n = Some a ∧
    ∀ key, key ≠ "layers" → dget key a = dget key (dset (g_ns g +:+ ":token") (VStr w) extra);
  (* any other node has no attributes *)
  im_others : ∀ n a, node_attrs g n = Some a → (∀ path w extra, (path, n, PWord w extra) ∉ parts) →
    ∀ key, key ≠ "layers" → dget key a = None;
  (* one edge for each part *)
  im_edges : has_edges g (part_edge st (g_root g) <$> parts);
}.

(** ** Which tokens an element spans *)
(** different elements have different ids, none is named like a token or the base nodes *)
Definition ids_ok (base : list nid) (parts : list (list nid * nid * part)) : Prop := NoDup ((λ x, x.1.2) <$> parts) ∧ ∀ path n p, (path, n, p) ∈ parts → n ∉ base.
(** weaker: elements with the same id are in elements with the same id *)
Definition ids_coherent (base : list nid) (parts : list (list nid * nid * part)) : Prop :=
  (∀ path n p path' p', (path, n, p) ∈ parts → (path', n, p') ∈ parts → head path = head path' ∧ is_word_part p = is_word_part p') ∧
  ∀ path n p, (path, n, p) ∈ parts → n ∉ base.
(** the tokens inside of the elements with id [n] *)
Definition tokens_in (n : nid) (parts : list (list nid * nid * part)) : list nid :=
  (λ x, x.1.2) <$> filter (λ x, is_word_part x.2 = true ∧ n ∈ x.1.1) parts.
