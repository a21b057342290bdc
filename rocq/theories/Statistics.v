(** * Statistics: node and edge counts

    Model of statistics.py:17-70 (print_sorted_counter, print_most_common, node_statistics,
    edge_statistics).  Printing a line adds it to the list of lines.  The iteration order of a
    Counter (a plain dict) and of sets is that of an unknown function [ord]; keys are printed
    as bytes.  networkx.info, called first by info(), is not modelled. *)
From Verif Require Import PyBase DocGraph Relabel StrNum Query.

(** counter[key] += 1 for all keys, one after the other *)
Definition count_all {K} `{EqDecision K} (keys : list K) : dict K nat := foldl (λ d k, dset k (S (default 0 (dget k d))) d) [] keys.
Definition more_first {K} (p q : K * nat) : comparison := Nat.compare q.2 p.2.
(** how a node id is formatted *)
Definition id_format (n : nid) : string := match n with NInt z => str_Z z | NStr s => s end.
Definition tab_char : string := String "009"%char "".
Definition counter_line {K} (fmt : K → string) (p : K * nat) : string := tab_char +:+ fmt p.1 +:+ " - " +:+ str_Z (Z.of_nat p.2).
(** statistics.py:17-20 *)
Definition print_sorted_counter {K} (fmt : K → string) (items : list (K * nat)) : list string := counter_line fmt <$> isort more_first items.
(** statistics.py:23-26; Counter.most_common is heapq.nlargest, the first of the sorted items *)
Definition print_most_common {K} (fmt : K → string) (number : nat) (items : list (K * nat)) : list string :=
  counter_line fmt <$> take number (isort more_first items).
(** node_attrs['layers'], iterated *)
Definition iter_layers (a : attrs) : res (list string) :=
  match dget "layers" a with Some (VSet l) => Ok (remove_dups l) | Some _ => Err TypeError | None => Err KeyError end.
Definition iter_keys (a : attrs) : list string := remove_dups (dkeys a).
(** statistics.py:29-43 *)
Definition node_statistics (ord_layers ord_attribs : list (string * nat) → list (string * nat)) (g : graph) : res (list string) :=
  let! layers := rconcat (λ p : nid * attrs, iter_layers p.2) (g_node g) in
  let attribs := p ← g_node g; iter_keys p.2 in
  Ok (["Node statistics"; "==============="] ++
      [""; "number of nodes with layers"] ++ print_sorted_counter (λ s, s) (ord_layers (count_all layers)) ++
      [""; "number of nodes with attributes"] ++ print_sorted_counter (λ s, s) (ord_attribs (count_all attribs))).
(** statistics.py:46-70 *)
Definition edge_statistics (ord_layers ord_attribs : list (string * nat) → list (string * nat)) (ord_sources ord_targets : list (nid * nat) → list (nid * nat)) (g : graph) : res (list string) :=
  let! layers := rconcat (λ e : nid * nid * nid * attrs, iter_layers e.2) (edges g) in
  let attribs := e ← edges g; iter_keys e.2 in
  Ok (["Edge statistics"; "==============="] ++
      [""; "number of edges with layers"] ++ print_sorted_counter (λ s, s) (ord_layers (count_all layers)) ++
      [""; "number of edges with attributes"] ++ print_sorted_counter (λ s, s) (ord_attribs (count_all attribs)) ++
      [""; "most common source edges"] ++ print_most_common id_format 5 (ord_sources (count_all ((λ e : nid * nid * nid * attrs, e.1.1.1) <$> edges g))) ++
      [""; "most common target edges"] ++ print_most_common id_format 5 (ord_targets (count_all ((λ e : nid * nid * nid * attrs, e.1.1.2) <$> edges g)))).
