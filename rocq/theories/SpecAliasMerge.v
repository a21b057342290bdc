(** * SpecAliasMerge: what merging does to the graph that is merged in

    Specification for C60. *)
From Verif Require Import PyBase DocGraph Alias.

(** [og] with the layers of the edges that leave its root replaced by [ns]. *)
Definition relaid_root (ns : string) (og : graph) : graph :=
  set_succ ((λ p : nid * dict nid (dict nid attrs),
     (p.1, if decide (p.1 = g_root og) then dmap (dmap (dset "layers" (VSet [ns]))) p.2 else p.2)) <$> g_succ og) og.
(** the token attributes are not sets (they are the words) *)
Definition plain_tokens (g : graph) : Prop :=
  ∀ n a l, node_attrs g n = Some a → dget (g_ns g +:+ ":token") a ≠ Some (VSet l).
