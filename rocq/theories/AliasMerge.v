(** * AliasMerge: merge_graphs on the heap

    discoursegraph.py:703-743, what merge_graphs does after the renaming of
    the tokens (see [merge_renamed] in Relabel.v), with the attribute
    dictionaries and layer sets as objects.  [nodes(data=True)],
    [edges(data=True)] and [out_edges(n, data=True)] hand out the dictionaries
    that the graph holds.  As in Relabel.v, [merged_rootnodes] is not modelled
    and the metadata is a value; so are the token and sentence lists. *)
From Verif Require Import PyBase DocGraph Relabel Alias.

(** [og.nodes(data=True)] *)
Definition nodes_data (g : hgraph) : list hnspec := (λ p, HTup p.1 p.2) <$> h_node g.
(** [og.edges(data=True)] and [og.out_edges(n, data=True)], with the keys *)
Definition h_edges (g : hgraph) : list (nid * nid * nid * nat) :=
  p ← h_succ g; q ← p.2; r ← q.2; [(p.1, q.1, r.1, r.2)].
Definition h_out_edges (g : hgraph) (n : nid) : list (nid * nid * nid * nat) :=
  q ← default [] (dget n (h_succ g)); r ← q.2; [(n, q.1, r.1, r.2)].

(** discoursegraph.py:705-709, for one node: the dictionary of this graph's
    node is changed in place. *)
Definition h_merge_token_attr (og : hgraph) (h : heap) (g : hgraph) (p : nid * nat) : houtcome :=
  match dget p.1 (h_node og) with
  | None => (h, g, Some KeyError)
  | Some lo =>
    if dmem (h_ns og +:+ ":token") (dict_at h lo) then
      match dget p.1 (h_node g) with
      | None => (h, g, Some KeyError)
      | Some l =>
        if dmem (h_ns g +:+ ":token") (dict_at h l) then (h, g, None)
        else match dget (h_ns og +:+ ":token") (dict_at h lo) with
             | None => (h, g, Some KeyError)
             | Some t => (put_dict h l (dset (h_ns g +:+ ":token") t (dict_at h l)), g, None)
             end
      end
    else (h, g, None)
  end.

(** discoursegraph.py:740-742, for one edge: the dictionary of the other
    graph's edge is the [attr_dict] of add_edge. *)
Definition h_merge_root_edge (h : heap) (g : hgraph) (x : nid * nid * nid * nat) : houtcome :=
  let '(h, kw) := new_dict h [] in h_add_edge h g (h_root g) x.1.1.2 HNone None (Some x.2) kw.

(** discoursegraph.py:725-743, merge_rootnodes. *)
Definition h_merge_rootnodes (h : heap) (g og : hgraph) : houtcome :=
  match dget (h_root og) (h_node og) with
  | None => (h, g, Some KeyError)
  | Some _ =>
    match dget (h_root g) (h_node g) with
    | None => (h, g, Some KeyError)
    | Some _ =>
      let g1 := mkH (h_name g) (h_ns g) (h_root g) (h_node g) (h_succ g) (h_pred g) (h_tokens g)
                  (h_sentences g) (dupdate (h_meta g) (h_meta og)) in
      match in_edges (graph_of h og) (h_root og) with
      | _ :: _ => (h, g1, Some AssertionError)
      | [] =>
        match h_for_each h_merge_root_edge (h_out_edges og (h_root og)) h g1 with
        | (h, g2, Some e) => (h, g2, Some e)
        | (h, g2, None) => h_remove_node h g2 (h_root og)
        end
      end
    end
  end.

(** discoursegraph.py:703-723 *)
Definition h_merge_lists (g og : hgraph) : hgraph :=
  let g4 := if String.eqb (h_name og) "" then g
            else if String.eqb (h_name g) ""
                 then mkH (h_name og) (h_ns g) (h_root g) (h_node g) (h_succ g) (h_pred g) (h_tokens g)
                        (h_sentences g) (h_meta g)
                 else g in
  let g5 := match h_tokens og, h_tokens g4 with _ :: _, [] => hset_tokens (h_tokens og) g4 | _, _ => g4 end in
  match h_sentences og, h_sentences g5 with _ :: _, [] => hset_sentences (h_sentences og) g5 | _, _ => g5 end.
Definition h_merge_renamed (h : heap) (g og : hgraph) : houtcome :=
  let '(h, kw) := new_dict h [] in
  match h_add_nodes_from h g (nodes_data og) kw with
  | (h, g1, Some e) => (h, g1, Some e)
  | (h, g1, None) =>
    match h_for_each (h_merge_token_attr og) (h_node og) h g1 with
    | (h, g2, Some e) => (h, g2, Some e)
    | (h, g2, None) =>
      let '(h, kw) := new_dict h [] in
      match h_add_edges_from h g2 ((λ x, HESpec x.1.1.1 x.1.1.2 None x.2) <$> h_edges og) None kw with
      | (h, g3, Some e) => (h, g3, Some e)
      | (h, g3, None) => h_merge_rootnodes h (h_merge_lists g3 og) og
      end
    end
  end.
