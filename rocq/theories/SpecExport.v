(** * SpecExport: graphs for GEXF and GraphML (C102) *)
From Verif Require Import PyBase DocGraph.

Section spec.
  Context (py_str : pyval → string) (list_text : nat → option string) (merged : option (list nid)).
  (** nodes whose metadata is removed *)
  Definition former_root (g : graph) (n : nid) : Prop := n = g_root g ∨ n = NStr "discoursegraph:root_node" ∨ ∃ ns, merged = Some ns ∧ n ∈ ns.
  (** the value [v] of the attribute [key] as it is exported *)
  Definition export_value (key : string) (v v' : pyval) : Prop :=
    if decide (key = "layers") then v' = VStr (py_str v) else (∃ i s, v = VObj i ∧ list_text i = Some s ∧ v' = VStr s) ∨ ((∀ i s, v = VObj i → list_text i ≠ Some s) ∧ v' = v).
  (** the attributes [a'] are [a], exported; without metadata if [drop] *)
  Definition exported (drop : Prop) (a a' : attrs) : Prop :=
    (∀ key v, dget key a = Some v → ¬ (drop ∧ key = "metadata") → ∃ v', dget key a' = Some v' ∧ export_value key v v') ∧
    (∀ key, dget key a = None → dget key a' = None) ∧ (drop → dget "metadata" a' = None).
  Record prepared (g g' : graph) : Prop := {
    pr_rest : g_name g' = g_name g ∧ g_ns g' = g_ns g ∧ g_root g' = g_root g ∧ g_tokens g' = g_tokens g;
    pr_nodes : nodes g' = nodes g;
    pr_node : ∀ n a, node_attrs g n = Some a → ∃ a', node_attrs g' n = Some a' ∧ exported (former_root g n) a a';
    pr_edge : ∀ u v k a, edge_attrs g u v k = Some a → ∃ a', edge_attrs g' u v k = Some a' ∧ exported False a a';
    pr_no_edge : ∀ u v k, edge_attrs g u v k = None → edge_attrs g' u v k = None;
  }.
End spec.
