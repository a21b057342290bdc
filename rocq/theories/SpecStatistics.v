(** * SpecStatistics: what the statistics of a graph say (C96) *)
From stdpp Require Import sorting.
From Verif Require Import PyBase DocGraph Relabel StrNum SpecGraph.

(** [L] lists every key that occurs in some of the [items], with the number of items that have
    it, the most frequent first *)
Record counts_of {X K} `{EqDecision K} (items : list X) (keys : X → list K) (L : list (K * nat)) : Prop := {
  co_once : NoDup L.*1;
  co_number : ∀ k c, (k, c) ∈ L ↔ 0 < c ∧ c = length (filter (λ x, k ∈ keys x) items);
  co_sorted : StronglySorted (λ p q : K * nat, q.2 ≤ p.2) L;
}.
Definition layers_of (a : attrs) : list string := match dget "layers" a with Some (VSet l) => l | _ => [] end.
(** the attributes of the nodes, and of the edges *)
Definition node_items (g : graph) : list attrs := (λ n, default [] (node_attrs g n)) <$> nodes g.
Definition edge_items (g : graph) : list attrs := (λ e : nid * nid * nid * attrs, e.2) <$> edges g.
Definition source_of (e : nid * nid * nid * attrs) : nid := e.1.1.1.
Definition target_of (e : nid * nid * nid * attrs) : nid := e.1.1.2.
(** a line with a key and its number *)
Definition line_of (p : string * nat) : string := String "009"%char (p.1 +:+ " - " +:+ str_Z (Z.of_nat p.2)).
Definition id_line (p : nid * nat) : string := line_of (match p.1 with NInt z => str_Z z | NStr s => s end, p.2).
