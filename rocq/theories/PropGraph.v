(** * PropGraph: properties C01-C15 (document graph, renaming, merging)

    Statements only; the proofs are in GraphThms, MergeAll and below them.
    [reachable P g]: [g] results from any history of API calls whose arguments
    satisfy [P] (SpecGraph.v), including calls that raised half-way. *)
From Verif Require Import PyBase DocGraph Relabel SpecGraph DocGraphFacts History Effects
  RelabelFacts MergeFacts AllHist MergeAll GraphThms Witness.

(** ** C01 Every node and edge carries a layers set *)
Theorem C01_layers_everywhere : ∀ g, reachable no_bare_layers g →
  (∀ n a, node_attrs g n = Some a → ∃ l, dget "layers" a = Some (VSet l)) ∧
  (∀ u v k a, edge_attrs g u v k = Some a → ∃ l, dget "layers" a = Some (VSet l)).
Proof. intros g H. exact (proj2 (reach_GInv g H)). Qed.
Print Assumptions C01_layers_everywhere.

Theorem C01_layers_nonempty : ∀ g, reachable (λ o, no_bare_layers o ∧ no_empty_tuple o) g →
  (∀ n a, node_attrs g n = Some a → ∃ x l, dget "layers" a = Some (VSet (x :: l))) ∧
  (∀ u v k a, edge_attrs g u v k = Some a → ∃ x l, dget "layers" a = Some (VSet (x :: l))).
Proof. intros g H. exact (proj2 (reach_NInv g H)). Qed.
Print Assumptions C01_layers_nonempty.
Example C01_hyp : reachable no_bare_layers (wit "a" "A") ∧ length (edges (wit "a" "A")) = 5 ∧
  reachable (λ o, no_bare_layers o ∧ no_empty_tuple o) (wit "a" "A").
Proof. split; [apply wit_no_bare|]. split; [vm_compute; reflexivity|apply wit_plain]. Qed.

(** Without the restriction the claim is false of the code: a [layers] keyword
    given with bare node ids is stored unchecked (discoursegraph.py:317-333). *)
Theorem C01_bare_ids_refuted : ∃ g n a, reachable (λ _, True) g ∧
  node_attrs g n = Some a ∧ ¬ ∃ l, dget "layers" a = Some (VSet l).
Proof.
  exists (step (wit "a" "A") (OAddNodesFrom [NBare (NStr "a1")] [("layers", VStr "oops")])).1,
    (NStr "a1"). eexists. split; [|split; [vm_compute; reflexivity|]].
  - apply R_step; [|done]. apply reachable_run; [constructor|]. by apply Forall_forall.
  - intros [l Hl]. vm_compute in Hl. discriminate.
Qed.
Print Assumptions C01_bare_ids_refuted.

(** An explicitly empty set in an (id, dict) tuple is accepted and leaves an
    element without any layer. *)
Theorem C01_empty_tuple_refuted : ∃ g n a, reachable no_bare_layers g ∧
  node_attrs g n = Some a ∧ dget "layers" a = Some (VSet []).
Proof.
  exists (step (wit "a" "A") (OAddNodesFrom [NTup (NStr "new") [("layers", VSet [])]] [])).1,
    (NStr "new"). eexists. split; [|split; vm_compute; reflexivity].
  apply R_step; [apply wit_no_bare|]. done.
Qed.
Print Assumptions C01_empty_tuple_refuted.

(** ** C02 Layers are append-only *)
Theorem C02_layers_append_only : ∀ g os, reachable no_bare_layers g →
  Forall (λ o, (∀ n, o ≠ ORemoveNode n) ∧ no_bare_layers o) os →
  (∀ n a, node_attrs g n = Some a → ∃ a', node_attrs (run g os) n = Some a' ∧
      ∀ x, has_layer a x → has_layer a' x) ∧
  (∀ u v k a, edge_attrs g u v k = Some a → ∃ a', edge_attrs (run g os) u v k = Some a' ∧
      ∀ x, has_layer a x → has_layer a' x).
Proof. intros g os H Hos. exact (layers_le_run g os Hos (reach_GInv g H)). Qed.
Print Assumptions C02_layers_append_only.
Example C02_hyp : reachable no_bare_layers (wit "a" "A") ∧
  Forall (λ o, (∀ n, o ≠ ORemoveNode n) ∧ no_bare_layers o)
    [OAddNode (NStr "ap") (VSet ["new"]) None []; OAddPrecedence].
Proof. split; [apply wit_no_bare|]. repeat constructor; done. Qed.

Theorem C02_bare_ids_refuted : ∃ g o n a a' x, reachable no_bare_layers g ∧
  (∀ m, o ≠ ORemoveNode m) ∧ node_attrs g n = Some a ∧ has_layer a x ∧
  node_attrs (step g o).1 n = Some a' ∧ ¬ has_layer a' x.
Proof.
  exists (wit "a" "A"), (OAddNodesFrom [NBare (NStr "ap")] [("layers", VSet ["new"])]), (NStr "ap").
  eexists _, _, "z". split; [apply wit_no_bare|]. split; [done|].
  split; [vm_compute; reflexivity|]. split.
  { eexists; split; [vm_compute; reflexivity|]. right; left. }
  split; [vm_compute; reflexivity|]. intros (l & Hl & Hz). vm_compute in Hl.
  injection Hl as <-. apply elem_of_list_singleton in Hz. discriminate.
Qed.
Print Assumptions C02_bare_ids_refuted.

(** ** C03 Adjacency consistency: no restriction on the history at all *)
Theorem C03_adjacency_consistent : ∀ g, reachable (λ _, True) g →
  NoDup (nodes g) ∧
  (∀ u v, v ∈ successors g u ↔ u ∈ predecessors g v) ∧
  (∀ u v, v ∈ successors g u ↔ ∃ k a, edge_attrs g u v k = Some a) ∧
  (∀ u v k a, edge_attrs g u v k = Some a → u ∈ nodes g ∧ v ∈ nodes g) ∧
  NoDup (edges g) ∧
  (∀ u v k a, (u, v, k, a) ∈ edges g ↔ edge_attrs g u v k = Some a).
Proof. intros g. apply adjacency. Qed.
Print Assumptions C03_adjacency_consistent.
Example C03_hyp : reachable (λ _, True) (step (wit "a" "A") (ORemoveNode (NStr "a2"))).1.
Proof. apply R_step; [|done]. apply reachable_run; [constructor|]. by apply Forall_forall. Qed.

(** Removing a node removes exactly it and its edges. *)
Theorem C03_remove_node : ∀ P g n, reachable P g → n ∈ nodes g →
  ∃ g', remove_node g n = (g', None) ∧
    (∀ m, node_attrs g' m = if decide (m = n) then None else node_attrs g m) ∧
    (∀ u v k, edge_attrs g' u v k =
       if decide (u = n ∨ v = n) then None else edge_attrs g u v k) ∧ same_doc g g'.
Proof.
  intros P g n H%reach_consistent Hn. pose proof (remove_node_eff g n H) as He.
  rewrite decide_True in He by done. destruct He as (g' & He & _ & Hna & Hk & _ & Hd).
  exists g'. split; [done|]. split; [done|]. split; [|exact Hd].
  intros u v k. unfold edge_attrs. rewrite Hk. by case_decide.
Qed.
Print Assumptions C03_remove_node.

(** ** C04 add_edge without key adds exactly one new edge *)
Theorem C04_add_edge_adds_one : ∀ g u v layers attr_dict attr l,
  reachable no_bare_layers g → asked_layers (g_ns g) layers l →
  ∃ g' k a, add_edge g u v layers None attr_dict attr = (g', None) ∧
    edge_attrs g u v k = None ∧
    edges g' ≡ₚ (u, v, k, a) :: edges g ∧
    (∀ u' v' k' a', edge_attrs g u' v' k' = Some a' → edge_attrs g' u' v' k' = Some a') ∧
    edge_attrs g' u v k = Some a ∧
    (∀ x, has_layer a x ↔ x ∈ l) ∧
    (∀ key, key ≠ "layers" → dget key a = dget key (given_attrs attr_dict attr)).
Proof.
  intros g u v layers ad attr l H%reach_GInv Hl.
  destruct (add_edge_new g u v layers ad attr l H Hl) as (g' & k & a & ? & ? & ? & ? & ? & ? & ? & _).
  by exists g', k, a.
Qed.
Print Assumptions C04_add_edge_adds_one.
(** with a key: the edge with that key is created or merged, no other changes *)
Theorem C04_add_edge_with_key : ∀ g u v layers k attr_dict attr l,
  reachable no_bare_layers g → asked_layers (g_ns g) layers l →
  ∃ g' a, add_edge g u v layers (Some k) attr_dict attr = (g', None) ∧
    edge_attrs g' u v k = Some a ∧
    (∀ x, has_layer a x ↔ x ∈ l ∨ ohas_layer (edge_attrs g u v k) x) ∧
    (∀ key, key ≠ "layers" → dget key a =
       match dget key (given_attrs attr_dict attr) with
       | Some w => Some w | None => oget (edge_attrs g u v k) key end) ∧
    (∀ u' v' k', (u', v', k') ≠ (u, v, k) → edge_attrs g' u' v' k' = edge_attrs g u' v' k').
Proof.
  intros g u v layers k ad attr l H%reach_GInv Hl.
  destruct (add_edge_keyed g u v layers k ad attr l H Hl) as (g' & a & ? & ? & ? & ? & ? & _).
  by exists g', a.
Qed.
Print Assumptions C04_add_edge_with_key.
(** layers of the wrong type are refused and nothing changes *)
Theorem C04_bad_layers_refused : ∀ g u v layers key attr_dict attr,
  bad_layers layers → add_edge g u v layers key attr_dict attr = (g, Some AssertionError).
Proof. exact add_edge_bad. Qed.
Print Assumptions C04_bad_layers_refused.
Example C04_hyp : reachable no_bare_layers (wit "a" "A") ∧
  asked_layers "A" (VSet ["m"; "n"]) ["m"; "n"] ∧ asked_layers "A" VNone ["A"] ∧ bad_layers (VStr "m").
Proof.
  split; [apply wit_no_bare|]. split; [by left|]. split; [by right|]. by split.
Qed.

(** ** C05 add_node merges attributes and touches nothing else *)
Theorem C05_add_node_merges : ∀ g n layers attr_dict attr l,
  reachable no_bare_layers g → asked_layers (g_ns g) layers l →
  ∃ g' a, add_node g n layers attr_dict attr = (g', None) ∧
    node_attrs g' n = Some a ∧
    (∀ x, has_layer a x ↔ x ∈ l ∨ ohas_layer (node_attrs g n) x) ∧
    (∀ key, key ≠ "layers" → dget key a =
       match dget key (given_attrs attr_dict attr) with
       | Some w => Some w | None => oget (node_attrs g n) key end) ∧
    (∀ m, m ≠ n → node_attrs g' m = node_attrs g m) ∧
    (∀ u v k, edge_attrs g' u v k = edge_attrs g u v k) ∧
    same_doc g g'.
Proof. intros g n layers ad attr l H%reach_GInv. exact (add_node_full g n layers ad attr l H). Qed.
Print Assumptions C05_add_node_merges.
Theorem C05_bad_layers_refused : ∀ g n layers attr_dict attr,
  bad_layers layers → add_node g n layers attr_dict attr = (g, Some AssertionError).
Proof. exact add_node_bad. Qed.
Print Assumptions C05_bad_layers_refused.
Example C05_hyp : reachable no_bare_layers (wit "a" "A") ∧ asked_layers "A" (VSet ["m"]) ["m"] ∧
  is_Some (node_attrs (wit "a" "A") (NStr "ap")) ∧ node_attrs (wit "a" "A") (NStr "q") = None.
Proof. split; [apply wit_no_bare|]. split; [by left|]. split; [by eexists|done]. Qed.

(** ** C06 add_nodes_from *)
(** What the code does: for a new node the tuple wins, for an existing node the
    general attributes win.  Layers are the union of old and tuple layers. *)
Theorem C06_add_nodes_from_tuples : ∀ g l attr,
  reachable no_bare_layers g → NoDup l.*1 →
  (∀ n d, (n, d) ∈ l → ∃ s, default (VSet [g_ns g]) (dget "layers" d) = VSet s) →
  ∃ g', add_nodes_from g ((λ p : nid * attrs, NTup p.1 p.2) <$> l) attr = (g', None) ∧
    (∀ n d s, (n, d) ∈ l → default (VSet [g_ns g]) (dget "layers" d) = VSet s →
      ∃ a, node_attrs g' n = Some a ∧
        (∀ x, has_layer a x ↔ x ∈ s ∨ ohas_layer (node_attrs g n) x) ∧
        (∀ key, key ≠ "layers" → dget key a =
           if decide (n ∈ nodes g) then
             match dget key attr with
             | Some w => Some w
             | None => match dget key d with Some w => Some w | None => oget (node_attrs g n) key end
             end
           else match dget key d with Some w => Some w | None => dget key attr end)) ∧
    (∀ n, n ∉ l.*1 → node_attrs g' n = node_attrs g n) ∧
    (∀ u v k, edge_attrs g' u v k = edge_attrs g u v k).
Proof.
  intros g l attr H%reach_GInv Hnd Hl.
  destruct (add_tuples l g attr H Hnd Hl) as (g' & He & _ & Hn & Hu & Hed & _).
  exists g'. split; [done|]. split; [|done]. intros n d s Hin Hs.
  destruct (Hn n d s Hin Hs) as (a & Ha & Hm). exists a. split; [done|]. split.
  - intros x. by rewrite (attr_merge_has_layer _ _ _ _ x Hm).
  - intros key Hk. rewrite (proj2 Hm key Hk). case_decide as Hi; rewrite dget_dupdate.
    + by destruct (dget key attr).
    + apply node_nmem in Hi. rewrite Hi. simpl. destruct (dget key d); [done|]. by destruct (dget key attr).
Qed.
Print Assumptions C06_add_nodes_from_tuples.
Example C06_hyp : reachable no_bare_layers (wit "a" "A") ∧
  NoDup [(NStr "a1", [("pos", VStr "N")]); (NStr "q", [("layers", VSet ["m"])])].*1.
Proof. split; [apply wit_no_bare|]. vdec. Qed.
(** The documentation promises that the tuple wins. *)
Theorem C06_tuple_precedence_refuted : ∃ g n d attr key w a,
  reachable no_bare_layers g ∧ dget key d = Some w ∧
  node_attrs (add_nodes_from g [NTup n d] attr).1 n = Some a ∧ dget key a ≠ Some w.
Proof.
  exists (wit "a" "A"), (NStr "a1"), [("pos", VStr "N")], [("pos", VStr "V")], "pos", (VStr "N").
  eexists. split; [apply wit_no_bare|]. split; [done|]. split; [vm_compute; reflexivity|]. done.
Qed.
Print Assumptions C06_tuple_precedence_refuted.

(** ** C07 add_edges_from *)
Theorem C07_add_edges_from_precedence : ∀ g u v key d attr_dict attr l l',
  reachable no_bare_layers g →
  default (VSet [g_ns g]) (dget "layers" d) = VSet l → l ≠ [] →
  (l' = [] ∧ dget "layers" (given_attrs attr_dict attr) = None ∨
   dget "layers" (given_attrs attr_dict attr) = Some (VSet l')) →
  ∃ g' k a, add_edges_from g [ESpec u v key d] attr_dict attr = (g', None) ∧
    match key with Some k' => k = k' | None => edge_attrs g u v k = None end ∧
    edge_attrs g' u v k = Some a ∧
    (∀ x, has_layer a x ↔ x ∈ l ∨ x ∈ l' ∨ ohas_layer (edge_attrs g u v k) x) ∧
    (∀ x, x ≠ "layers" → dget x a =
       match dget x d with
       | Some w => Some w
       | None => match dget x (given_attrs attr_dict attr) with
                 | Some w => Some w
                 | None => oget (edge_attrs g u v k) x
                 end
       end) ∧
    (∀ u' v' k', (u', v', k') ≠ (u, v, k) → edge_attrs g' u' v' k' = edge_attrs g u' v' k').
Proof.
  intros g u v key d ad attr l l' H%reach_GInv H1 H2 H3.
  destruct (add_edges_from_one g u v key d ad attr l l' H H1 H2 H3)
    as (g' & k & a & ? & ? & ? & ? & ? & ? & _). by exists g', k, a.
Qed.
Print Assumptions C07_add_edges_from_precedence.
(** a list of (u, v, dict) tuples adds exactly one new edge per tuple *)
Theorem C07_one_edge_per_tuple : ∀ g l,
  reachable no_bare_layers g →
  (∀ u v d, (u, v, d) ∈ l → ∃ x s, dget "layers" d = Some (VSet (x :: s))) →
  ∃ g' new, add_edges_from g ((λ e : nid * nid * attrs, ESpec e.1.1 e.1.2 None e.2) <$> l) None [] = (g', None) ∧
    edges g' ≡ₚ edges g ++ new ∧
    Forall2 (λ e e', e'.1.1 = e.1 ∧ attr_eqv e.2 e'.2) l new ∧
    (∀ n a, node_attrs g n = Some a → node_attrs g' n = Some a) ∧
    (∀ n, n ∈ nodes g' ↔ n ∈ nodes g ∨ n ∈ (fst ∘ fst <$> l) ∨ n ∈ (snd ∘ fst <$> l)).
Proof.
  intros g l H%reach_GInv Hl. destruct (add_edges_fresh l g H Hl) as (g' & new & ? & ? & ? & ? & ? & _).
  by exists g', new.
Qed.
Print Assumptions C07_one_edge_per_tuple.
Example C07_hyp : reachable no_bare_layers (wit "a" "A") ∧
  default (VSet ["A"]) (dget "layers" [("w", VInt 1)]) = VSet ["A"] ∧
  (∀ u v d, (u, v, d) ∈ [(NInt 1, NInt 2, [("layers", VSet ["m"])])] →
     ∃ x s, dget "layers" d = Some (VSet (x :: s))).
Proof.
  split; [apply wit_no_bare|]. split; [done|]. intros u v d [= -> -> ->]%elem_of_list_singleton. by eexists _, _.
Qed.

(** ** C08 add_edge creates missing endpoints in the graph namespace *)
Theorem C08_missing_endpoints : ∀ g u v layers attr_dict attr l,
  reachable no_bare_layers g → asked_layers (g_ns g) layers l →
  ∃ g', add_edge g u v layers None attr_dict attr = (g', None) ∧
    (∀ n a, node_attrs g n = Some a → node_attrs g' n = Some a) ∧
    (∀ n, n ∉ nodes g → n = u ∨ n = v → node_attrs g' n = Some [("layers", VSet [g_ns g])]) ∧
    (∀ n, n ∉ nodes g → n ≠ u → n ≠ v → n ∉ nodes g').
Proof.
  intros g u v layers ad attr l H%reach_GInv Hl.
  destruct (add_edge_new g u v layers ad attr l H Hl)
    as (g' & k & a & He & _ & _ & _ & _ & _ & _ & [Hn1 Hn2] & _).
  exists g'. split; [done|]. split; [done|]. split.
  - intros n Hn Huv. rewrite (Hn2 n Hn). by rewrite decide_True.
  - intros n Hn Hu Hv. apply node_nmem. rewrite (Hn2 n Hn). rewrite decide_False; naive_solver.
Qed.
Print Assumptions C08_missing_endpoints.
Example C08_hyp : reachable no_bare_layers (wit "a" "A") ∧ asked_layers "A" (VSet ["m"]) ["m"] ∧
  NStr "q" ∉ nodes (wit "a" "A").
Proof. split; [apply wit_no_bare|]. split; [by left|]. vdec. Qed.

(** ** C09 In-place relabelling is an isomorphism *)
Theorem C09_relabel_isomorphism : ∀ g m r,
  reachable (λ o, no_bare_layers o ∧ no_empty_tuple o) g → mapping_ok m g →
  relabel_inplace g m r →
  (∃ g', r = (g', None) ∧ same_doc g g' ∧ iso (mapped m) g g') ∨
  (r = (g, Some NetworkXUnfeasible) ∧ (∃ x, x ∈ m.*1 ∧ x ∈ m.*2) ∧ ∀ l, ¬ topo_order m l).
Proof.
  intros g m r H%reach_NInv Hm Hr.
  destruct (relabel_inplace_iso g m r H Hm Hr) as [(g' & ? & _ & ? & ?)|?]; [|by right].
  left. by exists g'.
Qed.
Print Assumptions C09_relabel_isomorphism.
(** disjoint new labels: always succeeds *)
Theorem C09_relabel_fresh_labels : ∀ g m r,
  reachable (λ o, no_bare_layers o ∧ no_empty_tuple o) g →
  NoDup m.*1 → NoDup m.*2 → (∀ o, o ∈ m.*1 → o ∈ nodes g) →
  (∀ n, n ∈ m.*2 → n ∉ nodes g ∧ nid_truthy n = true) →
  relabel_inplace g m r →
  ∃ g', r = (g', None) ∧ same_doc g g' ∧ iso (mapped m) g g'.
Proof.
  intros g m r H Hk Hv Ho Hn Hr.
  assert (Hdis : ∀ x, x ∈ m.*1 → x ∈ m.*2 → False).
  { intros x H1 H2. by apply (proj1 (Hn x H2)), Ho. }
  destruct (C09_relabel_isomorphism g m r H) as [?|(_ & (x & Hx1 & Hx2) & _)]; [|done|done|].
  - split; try done.
    + intros n Hn1 Hn2. by destruct (proj1 (Hn n Hn1)).
    + intros o n Hon ->. apply (Hdis n); apply elem_of_list_fmap; by exists (n, n).
    + intros o n Hon Hf. assert (Hn2 : n ∈ m.*2) by (apply elem_of_list_fmap; by exists (o, n)).
      destruct (Hn n Hn2). congruence.
  - by destruct (Hdis x).
Qed.
Print Assumptions C09_relabel_fresh_labels.
Example C09_hyp : ∃ m r, mapping_ok m (wit "a" "A") ∧ relabel_inplace (wit "a" "A") m r ∧ r.2 = None ∧
  (NStr "a1", NStr "x1") ∈ m ∧ (NStr "ap", NStr "a1") ∈ m.
Proof.
  exists [(NStr "a1", NStr "x1"); (NStr "ap", NStr "a1")].
  exists (relabel_loop (wit "a" "A") [(NStr "a1", NStr "x1"); (NStr "ap", NStr "a1")]
     (reverse [NStr "ap"; NStr "a1"; NStr "x1"])).
  split; [|split; [|split; [vm_compute; reflexivity|]]].
  - split.
    + vdec.
    + vdec.
    + intros o Ho. revert o Ho. apply Forall_forall; vdec.
    + intros n Hn Hg. simpl in Hn.
      repeat (apply elem_of_cons in Hn as [->|Hn]); [exfalso; revert Hg; vdec|vdec|].
      by apply elem_of_nil in Hn.
    + intros o n Hon. repeat (apply elem_of_cons in Hon as [[= -> ->]|Hon]; [done|]). by apply elem_of_nil in Hon.
    + intros o n Hon. repeat (apply elem_of_cons in Hon as [[= -> ->]|Hon]; [done|]). by apply elem_of_nil in Hon.
  - apply RI_topo.
    + exists (NStr "a1"). split; vdec.
    + split_and!.
      * vdec.
      * intros x. rewrite !elem_of_cons. simpl. rewrite !elem_of_cons, !elem_of_nil. tauto.
      * intros a b Hab _. repeat (apply elem_of_cons in Hab as [[= -> ->]|Hab]).
        -- exists 1, 2. split_and!; [done|done|lia].
        -- exists 0, 1. split_and!; [done|done|lia].
        -- by apply elem_of_nil in Hab.
  - split; vdec.
Qed.

(** ** C10 Relabelling corner cases *)
(** mapping a node to itself: the code removes the node and recreates it from
    its edges, so every attribute is lost (or the whole node, if isolated). *)
Theorem C10_identity_mapping_loses_attributes : ∀ g n r,
  reachable no_bare_layers g → n ∈ nodes g → relabel_inplace g [(n, n)] r →
  node_attrs r.1 n = None ∨ node_attrs r.1 n = Some [("layers", VSet [g_ns g])].
Proof. intros g n r H%reach_GInv. exact (relabel_identity g n r H). Qed.
Print Assumptions C10_identity_mapping_loses_attributes.
Theorem C10_identity_refuted : ∃ g n r a, reachable no_bare_layers g ∧
  relabel_inplace g [(n, n)] r ∧ node_attrs g n = Some a ∧
  dget "A:token" a = Some (VStr "Time") ∧ ∀ a', node_attrs r.1 n = Some a' → dget "A:token" a' = None.
Proof.
  exists (wit "a" "A"), (NStr "a1"), (relabel_loop (wit "a" "A") [(NStr "a1", NStr "a1")] (reverse [NStr "a1"])).
  eexists. split; [apply wit_no_bare|]. split; [|split; [vm_compute; reflexivity|split; [done|]]].
  - apply RI_topo.
    + exists (NStr "a1"). split; left.
    + split_and!.
      * vdec.
      * intros x. simpl. rewrite !elem_of_list_singleton. tauto.
      * intros a b [= -> ->]%elem_of_list_singleton. done.
  - intros a'. vm_compute. intros [= <-]. done.
Qed.
Print Assumptions C10_identity_refuted.
(** a falsy new label on a node with a self loop: the old node comes back *)
Theorem C10_falsy_label_refuted : ∃ g m r, reachable no_bare_layers g ∧
  m = [(NStr "a1", NInt 0)] ∧ relabel_inplace g m r ∧ r.2 = None ∧
  NInt 0 ∉ nodes g ∧ NStr "a1" ∈ nodes r.1.
Proof.
  set (g := (step (wit "a" "A") (OAddEdge (NStr "a1") (NStr "a1") VNone None None [])).1).
  exists g, [(NStr "a1", NInt 0)], (relabel_loop g [(NStr "a1", NInt 0)] [NStr "a1"]).
  split.
  { unfold g. apply R_step; [apply wit_no_bare|exact I]. }
  split; [done|]. split; [|split; [|split]].
  - apply RI_disjoint; [|done]. intros (x & Hx1 & Hx2). simpl in Hx1, Hx2.
    rewrite elem_of_list_singleton in Hx1, Hx2. congruence.
  - vm_compute. reflexivity.
  - vdec.
  - vdec.
Qed.
Print Assumptions C10_falsy_label_refuted.

(** ** C11 create_token_mapping *)
Theorem C11_mapping_is_positional : ∀ og ng m,
  NoDup (g_tokens og) → create_token_mapping og ng = Ok m →
  length (g_tokens ng) ≤ length (g_tokens og) ∧
  m = zip (g_tokens og) (g_tokens ng) ∧
  ∀ i o n, g_tokens og !! i = Some o → g_tokens ng !! i = Some n →
    ∃ t, get_token og o = Ok t ∧ get_token ng n = Ok t.
Proof.
  intros og ng m Hnd Hm. apply token_mapping_Ok in Hm as (Hl & -> & Ht).
  split; [done|]. split; [|done]. rewrite foldl_dset_zip; [done|done|done|].
  intros; apply not_elem_of_nil.
Qed.
Print Assumptions C11_mapping_is_positional.
(** the only failures: the old document is shorter, a token string differs, or
    a listed token is no token node *)
Theorem C11_mapping_errors : ∀ og ng e,
  create_token_mapping og ng = Err e →
  (e = StopIteration ∧ length (g_tokens og) < length (g_tokens ng)) ∨
  (e = ValueError ∧ ∃ i o n t t', g_tokens og !! i = Some o ∧ g_tokens ng !! i = Some n ∧
      get_token og o = Ok t ∧ get_token ng n = Ok t' ∧ t ≠ t') ∨
  (e = KeyError ∧ ((∃ o, o ∈ g_tokens og ∧ get_token og o = Err KeyError) ∨
                   (∃ n, n ∈ g_tokens ng ∧ get_token ng n = Err KeyError))).
Proof. intros og ng e. apply token_mapping_err. Qed.
Print Assumptions C11_mapping_errors.
Example C11_hyp : NoDup (g_tokens wit_b) ∧
  create_token_mapping wit_b wit_a = Ok (zip (g_tokens wit_b) (g_tokens wit_a)) ∧
  create_token_mapping (set_tokens [NStr "b1"] wit_b) wit_a = Err StopIteration ∧
  create_token_mapping (set_tokens [NStr "b1"; NStr "b3"] wit_b) wit_a = Err ValueError.
Proof. split; [vdec|]. by vm_compute. Qed.
(** "exactly the same tokenization" is not checked: a longer old document is
    mapped without complaint *)
Theorem C11_longer_document_refuted : ∃ og ng m, reachable (λ _, True) og ∧ reachable (λ _, True) ng ∧
  length (g_tokens ng) < length (g_tokens og) ∧ create_token_mapping og ng = Ok m.
Proof.
  exists wit_b, (step wit_a (OSetTokens [NStr "a1"; NStr "a2"])).1. eexists.
  split. { apply reachable_run; [constructor|]. by apply Forall_forall. }
  split. { apply R_step; [|done]. apply reachable_run; [constructor|]. by apply Forall_forall. }
  split; [vm_compute; lia|]. vm_compute. reflexivity.
Qed.
Print Assumptions C11_longer_document_refuted.

(** ** C12, C13 merge_graphs
    Every outcome of self.merge_graphs(other): either the token mapping fails
    and self is untouched, or the result is [merge_result] (SpecGraph.v). *)
Theorem C13_merge_result : ∀ g og r,
  reachable (λ o, no_bare_layers o ∧ no_empty_tuple o) g →
  reachable (λ o, no_bare_layers o ∧ no_empty_tuple o) og →
  NoDup (g_tokens g) → NoDup (g_tokens og) →
  (∀ t, t ∈ g_tokens g → t ∉ nodes og ∧ nid_truthy t = true) →
  g_root g ∈ nodes g → g_root og ∈ nodes og → g_root og ∉ nodes g → g_root og ∉ g_tokens og →
  (∀ u k, edge_attrs og u (g_root og) k = None) →
  merge_graphs g og r →
  (∃ e, r = (g, Some e) ∧ create_token_mapping og g = Err e) ∨
  (∃ g', r = (g', None) ∧ merge_result (mapped (zip (g_tokens og) (g_tokens g))) g og g').
Proof.
  intros g og r H%reach_NInv Ho%reach_NInv H1 H2 H3 H4 H5 H6 H7 H8 Hm.
  destruct (merge_graphs_ok g og r H Ho H1 H2 H3 H4 H5 H6 H7 H8 Hm) as [?|(g' & ? & _ & ?)]; [by left|].
  right. by exists g'.
Qed.
Print Assumptions C13_merge_result.
Theorem C12_merge_preserves_receiver : ∀ g og r,
  reachable (λ o, no_bare_layers o ∧ no_empty_tuple o) g →
  reachable (λ o, no_bare_layers o ∧ no_empty_tuple o) og →
  NoDup (g_tokens g) → NoDup (g_tokens og) →
  (∀ t, t ∈ g_tokens g → t ∉ nodes og ∧ nid_truthy t = true) →
  g_root g ∈ nodes g → g_root og ∈ nodes og → g_root og ∉ nodes g → g_root og ∉ g_tokens og →
  (∀ u k, edge_attrs og u (g_root og) k = None) →
  merge_graphs g og r →
  (∀ n a, node_attrs g n = Some a → ∃ a', node_attrs r.1 n = Some a' ∧
     ∀ x, has_layer a x → has_layer a' x) ∧
  (∃ new, edges r.1 ≡ₚ edges g ++ new) ∧
  g_root r.1 = g_root g ∧ g_ns r.1 = g_ns g ∧
  (g_tokens g ≠ [] → g_tokens r.1 = g_tokens g).
Proof.
  intros g og r H Ho H1 H2 H3 H4 H5 H6 H7 H8 Hm.
  destruct (C13_merge_result g og r H Ho H1 H2 H3 H4 H5 H6 H7 H8 Hm) as [(e & -> & _)|(g' & -> & M)]; simpl.
  { split_and!; [eauto|exists []; by rewrite app_nil_r|done|done|done]. }
  destruct M as [M1 M2 M3 M4 M5 M6 M7 M8 M9]. split_and!; [| |done|done|].
  - intros n a Ha. assert (Hn : n ∈ nodes g) by (apply node_mem; by eexists).
    set (f := mapped _) in *.
    destruct (decide (Exists (λ m, n = f m) (nodes og))) as [Hex|Hex].
    + apply Exists_exists in Hex as (m & Hmo & ->).
      destruct (decide (m = g_root og)) as [->|Hne].
      { exfalso. apply H6. unfold f, mapped in Hn. destruct (dget (g_root og) _) as [x|] eqn:Ex; [|done].
        destruct H7. apply (zip_fst_sub _ (g_tokens g)). apply dget_is_Some. by eexists. }
      apply node_mem in Hmo as [b Hb]. destruct (M3 m b Hne Hb) as (a' & Ha' & Hl & _).
      exists a'. split; [done|]. intros x Hx. apply Hl. right. by exists a.
    + exists a. split; [|done]. rewrite M2; [done|done|]. intros m Hmo ->. apply Hex, Exists_exists. eauto.
  - destruct M4 as (br & mv & He & _). by exists (br ++ mv).
  - intros Ht. rewrite M8. by destruct (g_tokens g).
Qed.
Print Assumptions C12_merge_preserves_receiver.
Example C13_hyp : ∃ r, merge_graphs wit_a wit_b r ∧ r.2 = None ∧
  reachable (λ o, no_bare_layers o ∧ no_empty_tuple o) wit_a ∧
  reachable (λ o, no_bare_layers o ∧ no_empty_tuple o) wit_b ∧
  NoDup (g_tokens wit_a) ∧ NoDup (g_tokens wit_b) ∧
  (∀ t, t ∈ g_tokens wit_a → t ∉ nodes wit_b ∧ nid_truthy t = true) ∧
  g_root wit_a ∈ nodes wit_a ∧ g_root wit_b ∈ nodes wit_b ∧ g_root wit_b ∉ nodes wit_a ∧
  g_root wit_b ∉ g_tokens wit_b ∧ (∀ u k, edge_attrs wit_b u (g_root wit_b) k = None).
Proof.
  exists (merge_exec wit_a wit_b). split; [|split; [vm_compute; reflexivity|]].
  - apply merge_exec_run. vm_compute. reflexivity.
  - split; [apply wit_plain|]. split; [apply wit_plain|].
    split; [vdec|]. split; [vdec|].
    split; [|split; [vdec|split; [vdec|
      split; [vdec|split; [vdec|]]]]].
    + apply Forall_forall. vdec.
    + intros u k. destruct (edge_attrs wit_b u (g_root wit_b) k) as [a|] eqn:Ee; [|done].
      assert (Hu : u ∈ predecessors wit_b (g_root wit_b)).
      { assert (C : Consistent wit_b) by exact (reach_consistent _ _ (wit_plain "b" "B")).
        apply (proj1 (c_sp wit_b C u (g_root wit_b))). exact (edge_succ wit_b u (g_root wit_b) k a Ee). }
      assert (Hp : predecessors wit_b (g_root wit_b) = []) by (vm_compute; reflexivity).
      rewrite Hp in Hu. exfalso. exact (not_elem_of_nil u Hu).
Qed.
(** any failing outcome of the token mapping leaves self untouched *)
Theorem C12_mapping_failure_is_atomic : ∀ g og e r,
  create_token_mapping og g = Err e → merge_graphs g og r → r = (g, Some e).
Proof.
  intros g og e r He Hm. destruct Hm as [og' e' Hr|og' Hr]; inversion Hr; subst; congruence.
Qed.
Print Assumptions C12_mapping_failure_is_atomic.

(** ** C14 merge_graphs corner cases *)
(** layers of the edges that leave the other root are lost *)
Theorem C14_root_edge_layers_refuted : ∃ g og r u k a x,
  reachable no_bare_layers g ∧ reachable no_bare_layers og ∧
  merge_graphs g og r ∧ r.2 = None ∧
  edge_attrs og (g_root og) u k = Some a ∧ has_layer a x ∧
  ∀ v w k' a', edge_attrs r.1 v w k' = Some a' → ¬ has_layer a' x ∨ (v, w, k', a') ∈ edges g.
Proof.
  exists wit_a, wit_b, (merge_exec wit_a wit_b), (NStr "bp"), (NInt 0). eexists _, "dom".
  split; [apply wit_no_bare|]. split; [apply wit_no_bare|].
  split; [apply merge_exec_run; vm_compute; reflexivity|]. split; [vm_compute; reflexivity|].
  split; [vm_compute; reflexivity|]. split.
  { eexists. split; [vm_compute; reflexivity|]. right; left. }
  assert (C : Consistent (merge_exec wit_a wit_b).1).
  { apply (reach_consistent (λ _, True)). apply (R_merge _ wit_a wit_b).
    - apply reachable_run; [constructor|]. by apply Forall_forall.
    - apply reachable_run; [constructor|]. by apply Forall_forall.
    - apply merge_exec_run; vm_compute; reflexivity. }
  set (f := λ e : nid * nid * nid * attrs, bool_decide (e ∈ edges wit_a) ||
     match dget "layers" e.2 with Some (VSet l) => negb (bool_decide ("dom" ∈ l)) | _ => true end).
  assert (HF : forallb f (edges (merge_exec wit_a wit_b).1) = true) by (vm_compute; reflexivity).
  intros v w k a He. apply (proj2 (elem_edges _ v w k a C)), elem_of_list_In in He.
  pose proof (proj1 (forallb_forall f _) HF _ He) as Hf. unfold f in Hf.
  apply orb_true_iff in Hf as [Hf|Hf].
  - right. exact (bool_decide_eq_true_1 _ Hf).
  - left. intros (l & Hl & Hin). cbn [snd] in Hf. rewrite Hl in Hf.
    apply negb_true_iff, bool_decide_eq_false in Hf. exact (Hf Hin).
Qed.
Print Assumptions C14_root_edge_layers_refuted.

(** equal root ids: the root of self is removed, together with its edges *)
Theorem C14_same_root_refuted : ∃ g og r,
  reachable no_bare_layers g ∧ reachable no_bare_layers og ∧
  g_root g = g_root og ∧ g_root g ∈ nodes g ∧
  merge_graphs g og r ∧ r.2 = None ∧ g_root r.1 ∉ nodes r.1.
Proof.
  exists (wit_r "a" "A"), (wit_r "b" "B"), (merge_exec (wit_r "a" "A") (wit_r "b" "B")).
  assert (HR : ∀ p ns, reachable no_bare_layers (wit_r p ns)).
  { intros p ns. apply reachable_run; [constructor|]. eapply Forall_impl; [apply wit_ops_plain|].
    intros o Ho. exact (proj1 Ho). }
  split; [apply HR|]. split; [apply HR|]. split; [vm_compute; reflexivity|]. split; [vdec|].
  split; [apply merge_exec_run; vm_compute; reflexivity|]. split; [vm_compute; reflexivity|]. vdec.
Qed.
Print Assumptions C14_same_root_refuted.

(** the assertion that the other root has no ingoing edges fires after the
    nodes and edges were merged: the exception leaves a changed graph *)
Theorem C14_not_atomic_refuted : ∃ g og r n,
  reachable no_bare_layers g ∧ reachable no_bare_layers og ∧
  merge_graphs g og r ∧ r.2 = Some AssertionError ∧ n ∉ nodes g ∧ n ∈ nodes r.1.
Proof.
  exists wit_a, wit_c, (merge_exec wit_a wit_c), (NStr "bp").
  split; [apply wit_no_bare|]. split; [apply R_step; [apply wit_no_bare|exact I]|].
  split; [apply merge_exec_run; vm_compute; reflexivity|]. split; [vm_compute; reflexivity|].
  split; vdec.
Qed.
Print Assumptions C14_not_atomic_refuted.

(** equal token ids in both graphs (an identity renaming): the annotation of
    the tokens of the other graph is lost *)
Theorem C14_same_token_ids_refuted : ∃ g og r n a key w,
  reachable no_bare_layers g ∧ reachable no_bare_layers og ∧
  merge_graphs g og r ∧ r.2 = None ∧ node_attrs og n = Some a ∧ dget key a = Some w ∧
  ∀ a', node_attrs r.1 n = Some a' → dget key a' = None.
Proof.
  set (b := (wit "a" "B")). set (ts := [NStr "a1"; NStr "a2"; NStr "a3"]).
  set (m := zip ts ts).
  exists wit_a, b, (merge_renamed wit_a (set_tokens ts (relabel_loop b m (reverse ts)).1)), (NStr "a2").
  eexists _, "B:token", (VStr "flies").
  split; [apply wit_no_bare|]. split; [apply wit_no_bare|].
  split; [|split; [vm_compute; reflexivity|split; [vm_compute; reflexivity|split; [vm_compute; reflexivity|]]]].
  - apply MG_ok. change (set_tokens ts (relabel_loop b m (reverse ts)).1) with
      (match ts with [] => (relabel_loop b m (reverse ts)).1 | _ => set_tokens ts (relabel_loop b m (reverse ts)).1 end).
    apply (RT_ok b wit_a m).
    + vm_compute. reflexivity.
    + assert (E : ((relabel_loop b m (reverse ts)).1, None) = relabel_loop b m (reverse ts))
        by (vm_compute; reflexivity).
      rewrite E. apply RI_topo; [exists (NStr "a1"); split; vdec|].
      split; [vdec|]. split.
      * intros x. unfold m, ts. simpl. rewrite !elem_of_cons, !elem_of_nil. tauto.
      * intros x y Hxy Hne. exfalso. apply Hne.
        assert (HF : Forall (λ p, p.1 = p.2) m) by vdec. rewrite Forall_forall in HF.
        exact (HF (x, y) Hxy).
    + vdec.
  - intros a'. intros Ha. vm_compute in Ha. injection Ha as <-. vm_compute. reflexivity.
Qed.
Print Assumptions C14_same_token_ids_refuted.

(** ** C15 add_precedence_relations *)
Theorem C15_precedence_chain : ∀ g, reachable no_bare_layers g → 2 ≤ length (g_tokens g) →
  ∃ g' new, add_precedence_relations g = (g', None) ∧
    edges g' ≡ₚ new ++ edges g ∧
    (λ e, e.1.1) <$> new = zip (g_root g :: g_tokens g) (g_tokens g) ∧
    Forall (λ e, prec_attrs (g_ns g) e.2) new ∧
    (∀ n a, node_attrs g n = Some a → node_attrs g' n = Some a) ∧
    (∀ n, n ∉ nodes g → n ∉ g_root g :: g_tokens g → n ∉ nodes g') ∧
    same_doc g g'.
Proof.
  intros g H%reach_GInv Hl. destruct (g_tokens g) as [|t0 [|t1 ts]] eqn:E; [simpl in Hl; lia|simpl in Hl; lia|].
  rewrite <-E. exact (precedence g t0 t1 ts H E).
Qed.
Print Assumptions C15_precedence_chain.
Theorem C15_too_few_tokens : ∀ g, length (g_tokens g) < 2 →
  add_precedence_relations g = (g, Some AssertionError).
Proof. exact precedence_short. Qed.
Print Assumptions C15_too_few_tokens.
Example C15_hyp : reachable no_bare_layers wit_a ∧ length (g_tokens wit_a) = 3.
Proof. split; [apply wit_no_bare|vm_compute; reflexivity]. Qed.
