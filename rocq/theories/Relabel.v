(** * Relabel: relabelling nodes and merging document graphs

    Model of /repo/src/discoursegraphs/relabel.py (in-place relabelling) and
    of discoursegraph.py:686-838 (merge_graphs, merge_rootnodes,
    rename_tokens, create_token_mapping).

    Two places of the code depend on the iteration order of an unordered
    Python container: the loop over [old_labels] / the topological order in
    _relabel_inplace, and [old2new.values()] in rename_tokens.  The model takes
    that order as an argument; the theorems quantify over all admissible
    orders. *)
From Verif Require Import PyBase DocGraph.

(** Python truth value of a label, used by the [and/or] idiom in
    relabel.py:113,117. *)
Definition nid_truthy (n : nid) : bool :=
  match n with NInt z => negb (z =? 0)%Z | NStr s => negb (String.eqb s "") end.
(** relabel.py:113: [old == target and new or target] *)
Definition and_or (old new x : nid) : nid :=
  if decide (old = x) then (if nid_truthy new then new else x) else x.

(** [G.edges(old, data=True, keys=True)], networkx 1.x out_edges_iter *)
Definition out_edges (g : graph) (n : nid) : list (nid * nid * nid * attrs) :=
  q ← default [] (dget n (g_succ g)); r ← q.2; [(n, q.1, r.1, r.2)].
(** [G.in_edges(old, data=True, keys=True)]: pred[n][u] is the same key dict
    as succ[u][n]. *)
Definition in_edges (g : graph) (n : nid) : list (nid * nid * nid * attrs) :=
  u ← predecessors g n; r ← keydict_of g u n; [(u, n, r.1, r.2)].

(** relabel.py:100-127, one iteration of the loop: [old] is replaced by [new]. *)
Definition relabel1 (g : graph) (old new : nid) : outcome :=
  match node_attrs g old with
  | None => (g, Some KeyError)
  | Some a =>
    match dget "layers" a with
    | None => (g, Some KeyError)
    | Some layers =>
      match add_node g new layers (Some a) [] with
      | (g1, Some e) => (g1, Some e)
      | (g1, None) =>
        let new_edges :=
          ((λ e : nid * nid * nid * attrs,
              ESpec new (and_or old new e.1.1.2) (Some e.1.2) e.2) <$> out_edges g1 old) ++
          ((λ e : nid * nid * nid * attrs,
              ESpec (and_or old new e.1.1.1) new (Some e.1.2) e.2) <$> in_edges g1 old) in
        match remove_node g1 old with
        | (g2, Some e) => (g2, Some e)
        | (g2, None) => add_edges_from g2 new_edges None []
        end
      end
    end
  end.

(** relabel.py:100-128: the loop, in the order [order]; labels without a
    mapping are skipped (:103-104). *)
Definition relabel_loop (g : graph) (mapping : dict nid nid) (order : list nid) : outcome :=
  for_each (λ g old, match dget old mapping with
                     | None => (g, None)
                     | Some new => relabel1 g old new
                     end) order g.

(** relabel.py:82: the set of old and the set of new labels overlap *)
Definition overlap (mapping : dict nid nid) : Prop :=
  ∃ x, x ∈ mapping.*1 ∧ x ∈ mapping.*2.
(** [nx.topological_sort(D)] with D the mapping without self loops
    (relabel.py:85-88): all labels, each before the label it is mapped to. *)
Definition topo_order (mapping : dict nid nid) (l : list nid) : Prop :=
  NoDup l ∧ (∀ x, x ∈ l ↔ x ∈ mapping.*1 ∨ x ∈ mapping.*2) ∧
  ∀ a b, (a, b) ∈ mapping → a ≠ b → ∃ i j, l !! i = Some a ∧ l !! j = Some b ∧ i < j.

(** relabel.py:79-128, _relabel_inplace (and relabel_nodes(copy=False),
    relabel.py:24-76, whose mapping argument is a dict here). *)
Inductive relabel_inplace (g : graph) (mapping : dict nid nid) : outcome → Prop :=
| RI_disjoint order :
    ¬ overlap mapping → order ≡ₚ mapping.*1 →
    relabel_inplace g mapping (relabel_loop g mapping order)
| RI_topo l :
    overlap mapping → topo_order mapping l →
    relabel_inplace g mapping (relabel_loop g mapping (reverse l))
| RI_cyclic :
    overlap mapping → (∀ l, ¬ topo_order mapping l) →
    relabel_inplace g mapping (g, Some NetworkXUnfeasible).

(** discoursegraph.py:643-660, get_token *)
Definition get_token (g : graph) (n : nid) : res pyval :=
  match node_attrs g n with
  | None => Err KeyError
  | Some a => of_option KeyError (dget (g_ns g +:+ ":token") a)
  end.
(** discoursegraph.py:1016-1030, istoken (default namespace); KeyError for an
    unknown node. *)
Definition istoken (g : graph) (n : nid) : res bool :=
  match node_attrs g n with
  | None => Err KeyError
  | Some a => Ok (dmem (g_ns g +:+ ":token") a)
  end.

(** discoursegraph.py:821-838, the loop of create_token_mapping over the two
    token generators. *)
Fixpoint token_mapping (og ng : graph) (old_ids new_ids : list nid) (acc : dict nid nid)
    {struct new_ids} : res (dict nid nid) :=
  match new_ids with
  | [] => Ok acc
  | n :: new_ids' =>
    let! nt := get_token ng n in
    match old_ids with
    | [] => Err StopIteration
    | o :: old_ids' =>
      let! ot := get_token og o in
      if decide (nt = ot) then token_mapping og ng old_ids' new_ids' (dset o n acc)
      else Err ValueError
    end
  end.
(** discoursegraph.py:790-838, create_token_mapping *)
Definition create_token_mapping (og ng : graph) : res (dict nid nid) :=
  token_mapping og ng (g_tokens og) (g_tokens ng) [].

(** discoursegraph.py:763-787, rename_tokens(og, ng), in place on [og].
    [vals] is the list [old2new.values()], in the arbitrary order of a plain
    dict.  The [renamed_nodes] bookkeeping of the new graph is not modelled. *)
Inductive rename_tokens (og ng : graph) : outcome → Prop :=
| RT_err e : create_token_mapping og ng = Err e → rename_tokens og ng (og, Some e)
| RT_relabel_err m og' e :
    create_token_mapping og ng = Ok m → relabel_inplace og m (og', Some e) →
    rename_tokens og ng (og', Some e)
| RT_ok m og' vals :
    create_token_mapping og ng = Ok m → relabel_inplace og m (og', None) →
    vals ≡ₚ m.*2 →
    rename_tokens og ng
      ((match vals with [] => og' | _ => set_tokens vals og' end), None).

(** discoursegraph.py:705-709: copy the token attribute of token nodes into
    the namespace of this graph. *)
Definition merge_token_attr (og : graph) (g : graph) (p : nid * attrs) : outcome :=
  match istoken og p.1 with
  | Err e => (g, Some e)
  | Ok false => (g, None)
  | Ok true =>
    match node_attrs g p.1 with
    | None => (g, Some KeyError)
    | Some a =>
      if dmem (g_ns g +:+ ":token") a then (g, None)
      else match get_token og p.1 with
           | Err e => (g, Some e)
           | Ok t => (set_node (dset p.1 (dset (g_ns g +:+ ":token") t a) (g_node g)) g, None)
           end
    end
  end.

(** discoursegraph.py:725-743, merge_rootnodes.  The code also overwrites the
    layers in the attribute dicts of [og]'s root edges, because add_edge
    updates the dict it is given; [og] is not part of the result here. *)
Definition merge_rootnodes (g og : graph) : outcome :=
  match node_attrs og (g_root og) with
  | None => (g, Some KeyError)
  | Some _ =>
    match node_attrs g (g_root g) with
    | None => (g, Some KeyError)
    | Some _ =>
      let g1 := set_meta (dupdate (g_meta g) (g_meta og)) g in
      match in_edges og (g_root og) with
      | _ :: _ => (g1, Some AssertionError)
      | [] =>
        match for_each (λ g e, add_edge g (g_root g) e.1.1.2 VNone None (Some e.2) [])
                (out_edges og (g_root og)) g1 with
        | (g2, Some e) => (g2, Some e)
        | (g2, None) => remove_node g2 (g_root og)
        end
      end
    end
  end.

(** discoursegraph.py:703-723: merge_graphs after the renaming of the tokens
    of the other graph [og].  [merged_rootnodes] is not modelled. *)
Definition merge_renamed (g og : graph) : outcome :=
  match add_nodes_from g ((λ p : nid * attrs, NTup p.1 p.2) <$> g_node og) [] with
  | (g1, Some e) => (g1, Some e)
  | (g1, None) =>
    match for_each (merge_token_attr og) (g_node og) g1 with
    | (g2, Some e) => (g2, Some e)
    | (g2, None) =>
      match add_edges_from g2 ((λ e : nid * nid * nid * attrs,
                ESpec e.1.1.1 e.1.1.2 None e.2) <$> edges og) None [] with
      | (g3, Some e) => (g3, Some e)
      | (g3, None) =>
        let g4 := if String.eqb (g_name og) "" then g3
                  else if String.eqb (g_name g3) "" then set_name (g_name og) g3 else g3 in
        let g5 := match g_tokens og, g_tokens g4 with
                  | _ :: _, [] => set_tokens (g_tokens og) g4 | _, _ => g4 end in
        let g6 := match g_sentences og, g_sentences g5 with
                  | _ :: _, [] => set_sentences (g_sentences og) g5 | _, _ => g5 end in
        merge_rootnodes g6 og
      end
    end
  end.

(** discoursegraph.py:686-723, merge_graphs: outcome for the receiving graph. *)
Inductive merge_graphs (g og : graph) : outcome → Prop :=
| MG_err og' e : rename_tokens og g (og', Some e) → merge_graphs g og (g, Some e)
| MG_ok og' : rename_tokens og g (og', None) → merge_graphs g og (merge_renamed g og').
