(** * Merging: merging several documents

    Model of the loops that merge annotation layers: corpora.py:101-107 (get_document of the PCC)
    and merging.py:60-91 (merging_cli; choosing and reading the files is not modelled).  The first
    exception ends the loop. *)
From Verif Require Import PyBase DocGraph Relabel.

Inductive merge_all : graph → list graph → outcome → Prop :=
| MA_nil g : merge_all g [] (g, None)
| MA_err g og ogs g' e : merge_graphs g og (g', Some e) → merge_all g (og :: ogs) (g', Some e)
| MA_step g og ogs g' r : merge_graphs g og (g', None) → merge_all g' ogs r → merge_all g (og :: ogs) r.
(** corpora.py:101-107 *)
Inductive merge_layers : list graph → graph * option exc → Prop :=
| ML_layers g ogs r : merge_all g ogs r → merge_layers (g :: ogs) r.
