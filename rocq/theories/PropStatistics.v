(** * PropStatistics: basic statistics (C96) *)
From stdpp Require Import sorting.
From Verif Require Import PyBase DocGraph Relabel StrNum Query SpecGraph AllHist Witness Statistics SpecStatistics StatisticsFacts.

(** ** C96 Node and edge statistics *)
Theorem C96_nodes : ∀ o1 o2 g, (∀ l, o1 l ≡ₚ l) → (∀ l, o2 l ≡ₚ l) → reachable no_bare_layers g → ∃ L A,
  node_statistics o1 o2 g = Ok (["Node statistics"; "==============="; ""; "number of nodes with layers"] ++ (line_of <$> L) ++ [""; "number of nodes with attributes"] ++ (line_of <$> A)) ∧
  counts_of (node_items g) layers_of L ∧ counts_of (node_items g) dkeys A.
Proof. intros o1 o2 g H1 H2 H. apply node_thm; [exact H1|exact H2|]. by apply reach_GInv. Qed.
Print Assumptions C96_nodes.
Theorem C96_edges : ∀ o1 o2 o3 o4 g, (∀ l, o1 l ≡ₚ l) → (∀ l, o2 l ≡ₚ l) → (∀ l, o3 l ≡ₚ l) → (∀ l, o4 l ≡ₚ l) → reachable no_bare_layers g → ∃ L A S T,
  edge_statistics o1 o2 o3 o4 g = Ok (["Edge statistics"; "==============="; ""; "number of edges with layers"] ++ (line_of <$> L) ++ [""; "number of edges with attributes"] ++ (line_of <$> A) ++
    [""; "most common source edges"] ++ (id_line <$> take 5 S) ++ [""; "most common target edges"] ++ (id_line <$> take 5 T)) ∧
  counts_of (edge_items g) layers_of L ∧ counts_of (edge_items g) dkeys A ∧ counts_of (edges g) (λ e, [source_of e]) S ∧ counts_of (edges g) (λ e, [target_of e]) T.
Proof. intros o1 o2 o3 o4 g H1 H2 H3 H4 H. apply edge_thm; [exact H1|exact H2|exact H3|exact H4|]. by apply reach_GInv. Qed.
Print Assumptions C96_edges.
(** the counts are determined up to the order of keys with the same count, and those of sources
    and targets add up to the number of edges *)
Theorem C96_determined : ∀ (X K : Type) (E : EqDecision K) (items : list X) (keys : X → list K) L L', counts_of items keys L → counts_of items keys L' → L ≡ₚ L' ∧ L.*2 = L'.*2.
Proof.
  intros X K E items keys L L' H H'. pose proof (counts_unique _ _ _ _ H H') as HP. split; [exact HP|]. assert (HA : AntiSymm (=) ge) by (intros x y ? ?; lia). apply (StronglySorted_unique ge).
  - pose proof (co_sorted _ _ _ H) as HS. clear -HS. induction HS as [|p L HS IH HF]; [constructor|]. rewrite fmap_cons. constructor; [exact IH|]. apply Forall_fmap. eapply Forall_impl; [exact HF|]. intros q Hq. cbn in *. lia.
  - pose proof (co_sorted _ _ _ H') as HS. clear -HS. induction HS as [|p L HS IH HF]; [constructor|]. rewrite fmap_cons. constructor; [exact IH|]. apply Forall_fmap. eapply Forall_impl; [exact HF|]. intros q Hq. cbn in *. lia.
  - by apply fmap_Permutation.
Qed.
Print Assumptions C96_determined.
Theorem C96_sums : ∀ g S T, counts_of (edges g) (λ e, [source_of e]) S → counts_of (edges g) (λ e, [target_of e]) T → sum_list S.*2 = length (edges g) ∧ sum_list T.*2 = length (edges g).
Proof. intros g S T HS HT. split; by eapply counts_sum. Qed.
Print Assumptions C96_sums.
Example C96_hyp : reachable no_bare_layers wit_a ∧ length (nodes wit_a) = 5 ∧ length (edges wit_a) = 5 ∧
  node_statistics (λ l, l) (@rev _) wit_a = Ok ["Node statistics"; "==============="; ""; "number of nodes with layers"; line_of ("A", 5); line_of ("A:token", 2); line_of ("z", 1);
    ""; "number of nodes with attributes"; line_of ("layers", 5); line_of ("A:token", 3); line_of ("label", 1); line_of ("pos", 1)].
Proof. split; [apply wit_no_bare|]. split; [vm_compute; reflexivity|]. split; vm_compute; reflexivity. Qed.
