(** * PropExport: graphs for GEXF and GraphML (C102) *)
From Verif Require Import PyBase DocGraph Relabel SpecGraph DocGraphFacts Effects AllHist Witness Export SpecExport ExportFacts ExportThm.

Lemma reach_layered_all g : reachable no_bare_layers g → Consistent g ∧ layered_all g.
Proof.
  intros [C [L1 L2]]%reach_GInv. split; [exact C|]. split.
  - intros n a Ha. unfold has_layers. destruct (L1 n a Ha) as [l ->]. done.
  - intros u v k a Ha. unfold has_layers. destruct (L2 u v k a Ha) as [l ->]. done.
Qed.

(** ** C102 The graph that is written to GEXF and GraphML *)
Theorem C102_prepared : ∀ py_str list_text merged g, (∀ s, py_str (VStr s) = s) → reachable no_bare_layers g → g_root g ∈ nodes g →
  (∃ g', gexf_copy py_str list_text merged g = Ok g' ∧ prepared py_str list_text merged g g') ∧
  ∃ g', graphml_copy py_str list_text merged g = Ok g' ∧ prepared py_str list_text merged g g'.
Proof.
  intros py_str list_text merged g Hs [C L]%reach_layered_all Hr. split; [by apply gexf_ok|by apply graphml_ok].
Qed.
Print Assumptions C102_prepared.
Theorem C102_rejected : ∀ py_str list_text merged g, (∀ s, py_str (VStr s) = s) → reachable no_bare_layers g → g_root g ∉ nodes g →
  gexf_copy py_str list_text merged g = Err KeyError ∧ graphml_copy py_str list_text merged g = Err KeyError.
Proof. intros py_str list_text merged g Hs [C L]%reach_layered_all Hr. by apply copies_no. Qed.
Print Assumptions C102_rejected.

Definition some_str (v : pyval) : string := match v with VStr s => s | _ => "set()" end.
Definition some_list (i : nat) : option string := match i with 3 => Some "[1]" | _ => None end.
(** so not every document graph can be written: the API lets its root go *)
Definition rootless : graph := (step wit_a (ORemoveNode (NStr "A:root_node"))).1.
Theorem C102_root_refuted : ∃ g, reachable plain g ∧ gexf_copy some_str some_list None g = Err KeyError ∧ graphml_copy some_str some_list None g = Err KeyError.
Proof.
  exists rootless. split; [unfold rootless; apply R_step; [apply wit_plain|done]|]. split; vm_compute; reflexivity.
Qed.
Print Assumptions C102_root_refuted.
Definition exp_g : graph := run wit_a [OAddNode (NStr "A:root_node") (VSet ["A"]) None [("metadata", VObj 3)]; OAddNode (NStr "q") (VSet ["A"]) None [("metadata", VObj 3)]].
Example C102_hyp : reachable no_bare_layers exp_g ∧ g_root exp_g ∈ nodes exp_g ∧
  match gexf_copy some_str some_list (Some [NStr "gone"]) exp_g with
  | Ok g => (node_attrs exp_g (NStr "A:root_node") ≫= dget "metadata", node_attrs g (NStr "A:root_node") ≫= dget "metadata", node_attrs g (NStr "q") ≫= dget "metadata", node_attrs g (NStr "q") ≫= dget "layers") = (Some (VObj 3), None, Some (VStr "[1]"), Some (VStr "set()"))
  | Err _ => False
  end.
Proof.
  split; [|split; [vdec|vm_compute; reflexivity]]. unfold exp_g. apply reachable_run; [apply wit_no_bare|]. repeat apply List.Forall_cons; try done.
Qed.
