(** * Convert: relabelling nodes with integers

    Model of relabel.py:130-207.  deepcopy is the identity on the immutable values of
    the model. *)
From Verif Require Import PyBase DocGraph Relabel StrNum Query.

(** Python 2 comparison of labels: ints before strings *)
Definition label_cmp (a b : nid) : comparison :=
  match a, b with
  | NInt x, NInt y => Z.compare x y
  | NInt _, NStr _ => Lt
  | NStr _, NInt _ => Gt
  | NStr s, NStr t => lexcmp ascii_cmp (chs s) (chs t)
  end.
(** ... of (degree, label) pairs *)
Definition pair_cmp (x y : nat * nid) : comparison :=
  match Nat.compare x.1 y.1 with Eq => label_cmp x.2 y.2 | c => c end.
(** networkx 1.x MultiDiGraph.degree_iter: in-degree and out-degree *)
Definition node_degree (g : graph) (n : nid) : nat := length (in_edges g n) + length (out_edges g n).
(** relabel.py:181-198: the nodes in the order of their new labels *)
Definition label_order (g : graph) (ordering : string) : res (list nid) :=
  if decide (ordering = "default") then Ok (nodes g)
  else if decide (ordering = "sorted") then Ok (isort label_cmp (nodes g))
  else if decide (ordering = "increasing degree") then Ok (snd <$> isort pair_cmp ((λ n, (node_degree g n, n)) <$> nodes g))
  else if decide (ordering = "decreasing degree") then Ok (snd <$> reverse (isort pair_cmp ((λ n, (node_degree g n, n)) <$> nodes g)))
  else Err NetworkXError.
(** relabel.py:180: [dict(zip(nlist, range(first_label, N)))]; labels are distinct *)
Definition int_mapping (first : Z) (l : list nid) : dict nid nid :=
  zip l (NInt <$> seqZ first (Z.of_nat (length l))).
(** a label as an attribute value *)
Definition nid_val (n : nid) : pyval := match n with NInt z => VInt z | NStr s => VStr s end.
(** nx.set_node_attributes(H, name, {new: old}), relabel.py:204-206 *)
Definition set_old_labels (key : string) (m : dict nid nid) (g : graph) : outcome :=
  for_each (λ g p, match dget p.2 (g_node g) with
                   | None => (g, Some KeyError)
                   | Some a => (set_node (dset p.2 (dset key (nid_val p.1) a) (g_node g)) g, None)
                   end) m g.
(** relabel.py:152-207, convert_node_labels_to_integers *)
Inductive convert_labels (g : graph) (first : Z) (ordering : string) (lab : option string) : res graph → Prop :=
| CL_ordering e : label_order g ordering = Err e → convert_labels g first ordering lab (Err e)
| CL_relabel l h e : label_order g ordering = Ok l → relabel_inplace g (int_mapping first l) (h, Some e) →
    convert_labels g first ordering lab (Err e)
| CL_done l h : label_order g ordering = Ok l → relabel_inplace g (int_mapping first l) (h, None) →
    convert_labels g first ordering lab
      (let h := set_name ("(" +:+ g_name g +:+ ")_with_int_labels") h in
       match lab with
       | None => Ok h
       | Some key => match set_old_labels key (int_mapping first l) h with (h, None) => Ok h | (_, Some e) => Err e end
       end).
