(** * SpecImport: vocabulary of the importers (C39, C41, C43, C44)

    What an importer builds is described by a list of nodes (id, layers, other
    attributes) and a list of edges (source, target, layers, other attributes). *)
From Verif Require Import PyBase DocGraph SpecGraph.

Definition node_info : Type := nid * list string * attrs.
Definition edge_info : Type := nid * nid * list string * attrs.
(** [a] has exactly the layers [l] and, apart from them, the attributes [b] *)
Definition attrs_are (a : attrs) (l : list string) (b : attrs) : Prop :=
  (∀ x, has_layer a x ↔ x ∈ l) ∧ ∀ key, key ≠ "layers" → dget key a = dget key b.
Definition node_is (g : graph) (x : node_info) : Prop :=
  ∃ a, node_attrs g x.1.1 = Some a ∧ attrs_are a x.1.2 x.2.
Definition edge_is (e : nid * nid * nid * attrs) (x : edge_info) : Prop :=
  e.1.1.1 = x.1.1.1 ∧ e.1.1.2 = x.1.1.2 ∧ attrs_are e.2 x.1.2 x.2.
(** the nodes of [g] are exactly [l], in this order *)
Definition has_nodes (g : graph) (l : list node_info) : Prop :=
  nodes g = (λ x, x.1.1) <$> l ∧ Forall (node_is g) l.
(** the edges of [g] are exactly [l] (with any keys) *)
Definition has_edges (g : graph) (l : list edge_info) : Prop :=
  ∃ es, edges g ≡ₚ es ∧ Forall2 edge_is es l.
