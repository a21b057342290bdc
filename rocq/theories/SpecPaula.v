(** * SpecPaula: what the files of a PAULA document say about a graph (C83-C86) *)
From Verif Require Import PyBase DocGraph Relabel StrNum Query Text SpecGraph SpecQuery SpecExbWrite Paula.

(** ** Names *)
(** the name of a node in the files: its id, with _ for each colon *)
Definition xid : nid → nid := ensure_xpointer_compatibility.
Definition xname (n : nid) : string := nid_str (xid n).
(** all ids have a colon, and they stay apart if _ is written for it *)
Definition colon_id (n : nid) : Prop := ∃ s, n = NStr s ∧ ":"%char ∈ chs s.
Definition apart_ids (g : graph) : Prop := (∀ n, n ∈ nodes g → colon_id n) ∧ ∀ m n, m ∈ nodes g → n ∈ nodes g → xid m = xid n → m = n.
(** the name of an edge *)
Definition edge_name (u v : nid) : string := "rel_" +:+ xname u +:+ "_" +:+ xname v.
(** tokens are in the file of tokens, other nodes in another file or in the same file *)
Definition href_is (g : graph) (tok other : string) (n : nid) (h : string) : Prop :=
  (is_token g n ∧ h = tok +:+ "#" +:+ xname n) ∨ (¬ is_token g n ∧ h = other +:+ "#" +:+ xname n).

(** ** Edges of a layer *)
Definition link (g : graph) (layer ty : string) (u v : nid) (a : attrs) : Prop :=
  ∃ k, edge_attrs g u v k = Some a ∧ has_layer a layer ∧ dget "edge_type" a = Some (VStr ty).
(** the part-whole relation: dominates edges, and spans edges to tokens *)
Definition part_of (g : graph) (layer : string) (u v : nid) (a : attrs) : Prop :=
  link g layer "dominates" u v a ∨ (link g layer "spans" u v a ∧ is_token g v).
(** each source once, with each of its targets once *)
Definition by_source (Q : nid → nid → attrs → Prop) (ps : list (nid * list nid)) : Prop :=
  NoDup ps.*1 ∧ (∀ u vs, (u, vs) ∈ ps → vs ≠ [] ∧ NoDup vs) ∧ ∀ u v, (∃ a, Q u v a) ↔ ∃ vs, (u, vs) ∈ ps ∧ v ∈ vs.
(** each pair of nodes once *)
Definition by_pair (Q : nid → nid → attrs → Prop) (ps : list (nid * nid)) : Prop := NoDup ps ∧ ∀ u v, (∃ a, Q u v a) ↔ (u, v) ∈ ps.

(** ** Features: the attributes with a name that is kept *)
Definition feats_are (keep : string → Prop) (a : attrs) (fs : list (string * string)) : Prop :=
  NoDup fs.*1 ∧ ∀ k s, (k, s) ∈ fs ↔ keep k ∧ dget k a = Some (VStr s).
Definition of_node (k : string) : Prop := k ∉ ["layers"; "label"; "metadata"; "tokens"; "tiger:id"; "tiger:art_id"; "tiger:orig_id"].
Definition of_token (layer k : string) : Prop := of_node k ∧ k ∉ ["tiger:token"; "tiger:word"] ∧ ∃ t, k = layer +:+ t.
Definition of_edge (k : string) : Prop := k ∉ ["layers"; "label"; "tiger:idref"].

(** ** Files *)
(** the i-th word starts at the place that the i-th mark names, counted from 1, and is as long *)
Definition marks_words (g : graph) (ss : list string) (ms : list (option string * string)) : Prop :=
  Forall2 (λ t m, m.1 = Some (xname t)) (g_tokens g) ms ∧
  ∀ i s, ss !! i = Some s → ∃ m before after, ms !! i = Some m ∧ joined (take (S i) ss) = before ++ chs s ∧ joined ss = before ++ chs s ++ after ∧
    m.2 = "#xpointer(string-range(//body,''," +:+ str_Z (Z.of_nat (S (length before))) +:+ "," +:+ str_Z (Z.of_nat (length (chs s))) +:+ "))".
(** one mark for each node that spans nodes: its targets in natural order, or the first and the last of them *)
Definition marks_spans (salt : bool) (g : graph) (layer : string) (ms : list (option string * string)) : Prop :=
  ∃ ps, by_source (link g layer "spans") ps ∧ Forall (λ p : nid * list nid, sorted nat_cmp (xid <$> p.2)) ps ∧
    Forall2 (λ (p : nid * list nid) m, m.1 = None ∧
      if salt then chs m.2 = joined ((λ v, "#" +:+ xname v) <$> p.2)
      else ∃ a b, head p.2 = Some a ∧ last p.2 = Some b ∧ m.2 = "#xpointer(id(" +:+ xname a +:+ ")/range-to(id(" +:+ xname b +:+ ")))") ps ms.
Definition says_tokens (g : graph) (layer : string) (l : list (string * list (string * string))) : Prop :=
  Forall2 (λ t x, x.1 = "#" +:+ xname t ∧ ∃ a, node_attrs g t = Some a ∧ feats_are (of_token layer) a x.2) (g_tokens g) l.
Definition says_structs (g : graph) (tok layer : string) (l : list (string * list (string * option string * string))) : Prop :=
  ∃ ps, by_source (part_of g layer) ps ∧
    Forall2 (λ (p : nid * list nid) x, x.1 = xname p.1 ∧
      Forall2 (λ v r, r.1.1 = edge_name p.1 v ∧ href_is g tok "" v r.2 ∧ ∃ a ty, part_of g layer p.1 v a ∧ dget "edge_type" a = Some (VStr ty) ∧ r.1.2 = Some ty) p.2 x.2) ps l.
Definition says_nodes (g : graph) (layer : string) (l : list (string * list (string * string))) : Prop :=
  ∃ ns, NoDup ns ∧ (∀ n, n ∈ ns ↔ ohas_layer (node_attrs g n) layer ∧ ¬ is_token g n) ∧
    Forall2 (λ n x, x.1 = "#" +:+ xname n ∧ ∃ a, node_attrs g n = Some a ∧ feats_are of_node a x.2) ns l.
Definition says_edges (g : graph) (layer ty : string) (l : list (string * list (string * string))) : Prop :=
  ∃ ps, by_pair (link g layer ty) ps ∧
    Forall2 (λ (p : nid * nid) x, x.1 = "#" +:+ edge_name p.1 p.2 ∧ ∃ a, link g layer ty p.1 p.2 a ∧ feats_are of_edge a x.2) ps l.
Definition says_pointers (g : graph) (tok base layer : string) (l : list (string * string * string)) : Prop :=
  ∃ ps, by_pair (link g layer "points_to") ps ∧
    Forall2 (λ (p : nid * nid) x, x.1.1 = edge_name p.1 p.2 ∧ href_is g tok base p.1 x.1.2 ∧ href_is g tok base p.2 x.2) ps l.
(** ** The document; [n] is corpus.document *)
Definition file_of (n layer kind : string) : string := layer +:+ "." +:+ n +:+ "_" +:+ layer +:+ kind.
Definition layer_said (salt : bool) (g : graph) (n layer : string) (files : dict string pbody) : Prop :=
  let tok := n +:+ ".tok.xml" in
  (∃ l, dget (layer +:+ "." +:+ n +:+ ".tok_multiFeat") files = Some (PFeats tok l) ∧ says_tokens g layer l) ∧
  (∃ l, dget (file_of n layer "_seg") files = Some (PMarks layer tok l) ∧ marks_spans salt g layer l) ∧
  (∃ l, dget (file_of n layer "") files = Some (PStructs layer l) ∧ says_structs g tok layer l) ∧
  (∃ l, dget (file_of n layer "_struct") files = Some (PFeats (file_of n layer "" +:+ ".xml") l) ∧ says_nodes g layer l) ∧
  (∃ l, dget (file_of n layer "_rel") files = Some (PFeats (file_of n layer "" +:+ ".xml") l) ∧ says_edges g layer "dominates" l) ∧
  (∃ l, dget (file_of n layer "_pointing") files = Some (PRels l) ∧ says_pointers g tok (file_of n layer "" +:+ ".xml") layer l) ∧
  (∃ l, dget (file_of n layer "_pointing_multiFeat") files = Some (PFeats (file_of n layer "_pointing" +:+ ".xml") l) ∧ says_edges g layer "points_to" l).
(** the layers: the part before the first colon *)
Definition top_layer (g : graph) (l : string) : Prop := ":"%char ∉ chs l ∧ ∃ x, used_layer g x ∧ (x = l ∨ ∃ t, x = l +:+ ":" +:+ t).
Definition names_of (n : string) (layers : list string) : list string :=
  [n +:+ ".text"; n +:+ ".tok"] ++
  (layers ≫= λ l, (l +:+ "." +:+ n +:+ ".tok_multiFeat") :: (file_of n l <$> ["_seg"; ""; "_struct"; "_rel"; "_pointing"; "_pointing_multiFeat"])).
Definition document_name (corpus : string) (g : graph) (n : string) : Prop :=
  ∃ name, n = corpus +:+ "." +:+ name ∧ "."%char ∉ chs name ∧ (g_name g = name ∨ ∃ t, g_name g = name +:+ "." +:+ t).
(** ** What can be exported *)
Definition values_text (g : graph) : Prop :=
  (∀ n a k v, node_attrs g n = Some a → dget k a = Some v → of_node k → ∃ s, v = VStr s) ∧
  ∀ u v k a key x, edge_attrs g u v k = Some a → dget key a = Some x → of_edge key → ∃ s, x = VStr s.
(** the file that lists the files [names], numbered *)
Definition lists_files (names : list string) (b : pbody) : Prop :=
  ∃ rels, b = PStructs "annoSet" [("anno_all_annotations", rels)] ∧ rels.*2 ≡ₚ (λ f, f +:+ ".xml") <$> names ∧
    ∀ i r, rels !! i = Some r → r.1 = ("rel_" +:+ str_Z (Z.of_nat i), None).
(** no dots in the names of the corpus and the layers, and layers that can be queried *)
Definition plain_names (corpus : string) (g : graph) : Prop :=
  "."%char ∉ chs corpus ∧ ∀ l, top_layer g l → plain_str l ∧ "."%char ∉ chs l.
(** a graph with these words that can be exported under the name [n] *)
Definition exportable_as (corpus : string) (g : graph) (n : string) (ss : list string) : Prop :=
  reachable (λ o, no_bare_layers o ∧ no_empty_tuple o) g ∧ apart_ids g ∧ typed g ∧ values_text g ∧ text_tokens g ss ∧ document_name corpus g n ∧ plain_names corpus g.
