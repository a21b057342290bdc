(** * PropConvert: property C51, convert_node_labels_to_integers *)
From Verif Require Import PyBase DocGraph Relabel StrNum SpecGraph DocGraphFacts Effects AllHist RelabelFacts Convert SpecConvert ConvertFacts Witness.

(** The result is the same graph with the nodes named first, first+1, ..., in the requested
    order; documents without number labels in the way, and no loop where number 0 is given. *)
Theorem C51_integers : ∀ g first ordering,
  reachable (λ o, no_bare_layers o ∧ no_empty_tuple o) g → ordering ∈ orderings → numbers_free g first →
  ((first ≤ 0 < first + Z.of_nat (length (nodes g)))%Z → ∀ n k, edge_attrs g n n k = None) →
  (∃ r, convert_labels g first ordering None r) ∧
  ∀ r, convert_labels g first ordering None r → ∃ f g', r = Ok g' ∧ numbering g first ordering f ∧ renumbered f g g' ∧
    ∀ n, n ∈ nodes g' ↔ ∃ z, n = NInt z ∧ (first ≤ z < first + Z.of_nat (length (nodes g)))%Z.
Proof.
  intros g first ordering H%reach_NInv HO HF HL. split; [apply convert_runs; [apply H|done]|]. intros r Hr.
  destruct (renumber_any g first ordering r H HO Hr) as (f & HN & Hres). destruct Hres as [(g' & -> & HR)|[_ Hbad]]; [..|done].
  - intros n Hn Hid. apply (HF (f n)); [apply HN; by exists n|]. by rewrite <-Hid.
  - intros n k Hn H0. apply HL. rewrite <-H0. apply HN. by exists n.
  - exists f, g'. split_and!; try done. intros n. rewrite (iso_nodes _ _ _ n (proj1 HR)). destruct HN as (_ & HN & _). split.
    + intros (m & Hm & ->). exists (f m). split; [done|]. apply HN. by exists m.
    + intros (z & -> & Hz). apply HN in Hz as (m & Hm & <-). by exists m.
Qed.
Print Assumptions C51_integers.
Example C51_integers_hyp : ∃ g', reachable (λ o, no_bare_layers o ∧ no_empty_tuple o) (wit "a" "A") ∧ numbers_free (wit "a" "A") 5 ∧
  convert_labels (wit "a" "A") 5 "decreasing degree" None (Ok g') ∧ nodes g' ≡ₚ NInt <$> [5; 6; 7; 8; 9]%Z ∧
  label_order (wit "a" "A") "decreasing degree" = Ok (NStr <$> ["ap"; "a2"; "a3"; "a1"; "A:root_node"]).
Proof.
  assert (HO : label_order (wit "a" "A") "decreasing degree" = Ok (NStr <$> ["ap"; "a2"; "a3"; "a1"; "A:root_node"])) by (vm_compute; reflexivity).
  eexists. split; [exact (wit_plain "a" "A")|]. split; [|split; [apply (run_free _ _ _ _ HO); [vdec|vm_compute; reflexivity]|split; [|done]]].
  - intros z _ Hz. assert (HF : Forall (λ n, match n with NInt _ => false | NStr _ => true end = true) (nodes (wit "a" "A"))) by vdec.
    rewrite Forall_forall in HF. discriminate (HF _ Hz).
  - vdec.
Qed.

(** With numbers in the way: still a renumbering, or NetworkXUnfeasible, unless some node
    keeps its own number. *)
Theorem C51_number_labels : ∀ g first ordering r,
  reachable (λ o, no_bare_layers o ∧ no_empty_tuple o) g → ordering ∈ orderings → convert_labels g first ordering None r →
  ∃ f, numbering g first ordering f ∧
    ((∀ n, n ∈ nodes g → n ≠ NInt (f n)) → (∀ n k, n ∈ nodes g → f n = 0%Z → edge_attrs g n n k = None) →
     (∃ g', r = Ok g' ∧ renumbered f g g') ∨ (r = Err NetworkXUnfeasible ∧ ¬ numbers_free g first)).
Proof. intros g first ordering r H%reach_NInv. by apply renumber_any. Qed.
Print Assumptions C51_number_labels.

(** Any other name of an order is refused. *)
Theorem C51_unknown_ordering : ∀ g first ordering lab r, ordering ∉ orderings →
  convert_labels g first ordering lab r ↔ r = Err NetworkXError.
Proof.
  intros g first ordering lab r HO.
  assert (E : label_order g ordering = Err NetworkXError).
  { destruct (label_order g ordering) as [l|e] eqn:E; [destruct HO; apply (order_known g); by exists l|].
    revert E. unfold label_order. repeat (destruct (decide _); [done|]). done. }
  split; [intros H; inversion H; congruence|intros ->; by apply CL_ordering].
Qed.
Print Assumptions C51_unknown_ordering.
Example C51_unknown_ordering_hyp : "size" ∉ orderings.
Proof. vdec. Qed.

(** With label_attribute, every node additionally carries its old name. *)
Theorem C51_label_attribute : ∀ g first ordering key r,
  reachable (λ o, no_bare_layers o ∧ no_empty_tuple o) g → ordering ∈ orderings → numbers_free g first →
  ((first ≤ 0 < first + Z.of_nat (length (nodes g)))%Z → ∀ n k, edge_attrs g n n k = None) →
  convert_labels g first ordering (Some key) r →
  ∃ f h h', numbering g first ordering f ∧ convert_labels g first ordering None (Ok h) ∧ renumbered f g h ∧ r = Ok h' ∧
    nodes h' = nodes h ∧ edges h' = edges h ∧ same_doc h h' ∧
    (∀ n a, n ∈ nodes g → node_attrs h (NInt (f n)) = Some a → node_attrs h' (NInt (f n)) = Some (dset key (nid_val n) a)).
Proof. intros g first ordering key r H%reach_NInv. by apply renumber_label. Qed.
Print Assumptions C51_label_attribute.
Example C51_label_attribute_hyp : ∃ r, convert_labels (wit "a" "A") 5 "sorted" (Some "old") r.
Proof.
  apply convert_runs; [apply (reach_NInv _ (wit_plain "a" "A"))|]. intros z _ Hz.
  assert (HF : Forall (λ n, match n with NInt _ => false | NStr _ => true end = true) (nodes (wit "a" "A"))) by vdec.
  rewrite Forall_forall in HF. discriminate (HF _ Hz).
Qed.

(** The lists of the document are not translated: no token id, sentence id or root of the
    result names one of its nodes. *)
Theorem C51_lists_dangle : ∀ g first ordering g' t,
  reachable (λ o, no_bare_layers o ∧ no_empty_tuple o) g → ordering ∈ orderings → numbers_free g first →
  ((first ≤ 0 < first + Z.of_nat (length (nodes g)))%Z → ∀ n k, edge_attrs g n n k = None) →
  convert_labels g first ordering None (Ok g') → t ∈ nodes g →
  t ∈ g_root g' :: g_tokens g' ++ g_sentences g' → t ∉ nodes g'.
Proof.
  intros g first ordering g' t H HO HF HL Hr Ht _. destruct (C51_integers g first ordering H HO HF HL) as [_ Hall].
  destruct (Hall _ Hr) as (f & g'' & [= <-] & _ & _ & HN). rewrite HN. intros (z & -> & Hz). by apply (HF z).
Qed.
Print Assumptions C51_lists_dangle.
Theorem C51_tokens_refuted : ∃ g g', reachable (λ o, no_bare_layers o ∧ no_empty_tuple o) g ∧ convert_labels g 0 "default" None (Ok g') ∧
  g_root g ∈ nodes g ∧ Forall (λ t, t ∈ nodes g) (g_tokens g) ∧ length (g_tokens g) = 3 ∧ g_root g' ∉ nodes g' ∧ Forall (λ t, t ∉ nodes g') (g_tokens g').
Proof.
  exists (wit "a" "A"). assert (HO : label_order (wit "a" "A") "default" = Ok (nodes (wit "a" "A"))) by done.
  eexists. split; [exact (wit_plain "a" "A")|]. split; [apply (run_free _ _ _ _ HO); [vdec|vm_compute; reflexivity]|]. split_and!; [vdec|vdec|done|vdec|vdec].
Qed.
Print Assumptions C51_tokens_refuted.

(** A node that keeps its own number loses its attributes. *)
Theorem C51_own_number_refuted : ∃ g g', reachable (λ o, no_bare_layers o ∧ no_empty_tuple o) g ∧ convert_labels g 0 "default" None (Ok g') ∧
  (∀ n k, edge_attrs g n n k = None) ∧
  option_map (dget "cat") (node_attrs g (NInt 1)) = Some (Some (VStr "NP")) ∧ option_map (dget "cat") (node_attrs g' (NInt 1)) = Some None.
Proof.
  set (g := run (init_graph "doc" "ns" None) [OAddNode (NInt 1) (VSet ["ns"]) None [("cat", VStr "NP")]; OAddEdge (NStr "ns:root_node") (NInt 1) (VSet ["ns"]) None None []]).
  exists g. assert (HO : label_order g "default" = Ok [NStr "ns:root_node"; NInt 1]) by (vm_compute; reflexivity).
  eexists. split; [|split; [apply (run_topo _ _ _ _ [NStr "ns:root_node"; NInt 0; NInt 1] HO)|split_and!]].
  - apply reachable_run; [constructor|]. repeat (apply List.Forall_cons; [done|]). apply List.Forall_nil.
  - exists (NInt 1). split; vdec.
  - split; [vdec|]. split.
    + intros x. change ((int_mapping 0 [NStr "ns:root_node"; NInt 1]).*1) with [NStr "ns:root_node"; NInt 1].
      change ((int_mapping 0 [NStr "ns:root_node"; NInt 1]).*2) with [NInt 0; NInt 1]. rewrite !elem_of_cons, !elem_of_nil. tauto.
    + intros a b Hab Hne. change (int_mapping 0 [NStr "ns:root_node"; NInt 1]) with [(NStr "ns:root_node", NInt 0); (NInt 1, NInt 1)] in Hab.
      apply elem_of_cons in Hab as [[= -> ->]|Hab]; [by exists 0, 1; split_and!; try lia|]. by apply elem_of_list_singleton in Hab as [= -> ->].
  - vm_compute. reflexivity.
  - intros n k. destruct (edge_attrs g n n k) as [a|] eqn:E; [|done]. exfalso. apply elem_edges in E.
    + assert (HF : Forall (λ e : nid * nid * nid * attrs, e.1.1.1 ≠ e.1.1.2) (edges g)) by vdec. rewrite Forall_forall in HF. by apply (HF _ E).
    + apply (reach_NInv g). apply reachable_run; [constructor|]. repeat (apply List.Forall_cons; [done|]). apply List.Forall_nil.
  - vm_compute. reflexivity.
  - vm_compute. reflexivity.
Qed.
Print Assumptions C51_own_number_refuted.
(** A loop at the node that gets number 0 brings the old name back. *)
Theorem C51_loop_refuted : ∃ g g', reachable (λ o, no_bare_layers o ∧ no_empty_tuple o) g ∧ convert_labels g 0 "default" None (Ok g') ∧
  numbers_free g 0 ∧ length (nodes g) = 1 ∧ length (nodes g') = 2 ∧ g_root g ∈ nodes g'.
Proof.
  set (g := run (init_graph "doc" "ns" None) [OAddEdge (NStr "ns:root_node") (NStr "ns:root_node") (VSet ["ns"]) None None []]).
  exists g. assert (HO : label_order g "default" = Ok [NStr "ns:root_node"]) by (vm_compute; reflexivity).
  eexists. split; [|split; [apply (run_free _ _ _ _ HO); [vdec|vm_compute; reflexivity]|]].
  - apply reachable_run; [constructor|]. repeat (apply List.Forall_cons; [done|]). apply List.Forall_nil.
  - split; [|split_and!; [vm_compute; reflexivity|vm_compute; reflexivity|vdec]]. intros z _ Hz. change (nodes g) with [NStr "ns:root_node"] in Hz. by apply elem_of_list_singleton in Hz.
Qed.
Print Assumptions C51_loop_refuted.
(** Numbers that change places are refused, although the function works on a copy. *)
Theorem C51_swapped_refuted : ∃ g, reachable (λ o, no_bare_layers o ∧ no_empty_tuple o) g ∧ nodes g = [NStr "ns:root_node"; NInt 2; NInt 1] ∧
  ∀ r, convert_labels g 0 "default" None r ↔ r = Err NetworkXUnfeasible.
Proof.
  set (g := run (init_graph "doc" "ns" None) [OAddNode (NInt 2) (VSet ["ns"]) None []; OAddNode (NInt 1) (VSet ["ns"]) None []]).
  exists g. assert (HO : label_order g "default" = Ok [NStr "ns:root_node"; NInt 2; NInt 1]) by (vm_compute; reflexivity).
  assert (HV : overlap (int_mapping 0 [NStr "ns:root_node"; NInt 2; NInt 1])) by (exists (NInt 1); split; vdec).
  assert (HT : ∀ l, ¬ topo_order (int_mapping 0 [NStr "ns:root_node"; NInt 2; NInt 1]) l).
  { intros l (HD & _ & Hb). destruct (Hb (NInt 2) (NInt 1)) as (i & j & Hi & Hj & Hij); [vdec|done|].
    destruct (Hb (NInt 1) (NInt 2)) as (i' & j' & Hi' & Hj' & Hij'); [vdec|done|].
    rewrite (NoDup_lookup l _ _ _ HD Hi Hj') in Hij. rewrite (NoDup_lookup l _ _ _ HD Hi' Hj) in Hij'. lia. }
  split; [|split; [vm_compute; reflexivity|]].
  - apply reachable_run; [constructor|]. repeat (apply List.Forall_cons; [done|]). apply List.Forall_nil.
  - intros r. split.
    + intros Hr. inversion Hr as [e He|l h e Hl Hi|l h Hl Hi]; subst; [congruence|..]; rewrite HO in Hl; injection Hl as <-.
      * inversion Hi as [? Hno|? ? Ht|]; subst; [by destruct Hno|by destruct (HT _ Ht)|done].
      * inversion Hi as [? Hno|? ? Ht|]; subst; [by destruct Hno|by destruct (HT _ Ht)].
    + intros ->. apply (CL_relabel g 0 "default" None _ g _ HO). by apply RI_cyclic.
Qed.
Print Assumptions C51_swapped_refuted.
