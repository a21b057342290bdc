(** * C61, C62, C63: reading TigerXML *)
From stdpp Require Import relations.
From Verif Require Import PyBase DocGraph Relabel StrNum Query Conano Tiger SpecGraph SpecImport SpecQuery NatSort SpanFacts ImportFacts SpecTiger TigerFacts TigerSent TigerReject TigerDoc TigerSpan TigerTree TigerDocSpan WitTiger History AllHist TigerQuery.

(** ** C61: the graph of a sentence *)
Theorem C61_sentence : ∀ i ns x, good_sentence x →
  ∃ g, tiger_sentence i ns x = ((g, nat_sorted (token_ids x)), None) ∧ Consistent g ∧
    has_nodes g (described ns (mentions i ns x)) ∧ has_edges g (sentence_edges i ns x) ∧
    g_name g = att "id" x ∧ g_ns g = ns ∧ g_root g = final_root ns x ∧ g_tokens g = nat_sorted (token_ids x) ∧ g_sentences g = [].
Proof. intros i ns x (W & K & T). destruct (sentence_ok i ns x W K T) as (g & E & HB & HR). exists g. split; [exact E|]. split; [apply HB|]. split; [apply HB|]. split; [apply HB|exact HR]. Qed.
Print Assumptions C61_sentence.
Example C61_sentence_hyp : good_sentence tx_hund ∧ token_ids tx_hund = [NStr "s1_1"; NStr "s1_2"; NStr "s1_3"; NStr "s1_4"] ∧
  unattached 0 "tiger" tx_hund = [NStr "s1_4"] ∧ length (sentence_edges 0 "tiger" tx_hund) = 7.
Proof. split; [apply check_good; vm_compute; reflexivity|]. repeat split; vm_compute; reflexivity. Qed.
(** a sentence is read only if nothing is missing *)
Theorem C61_rejected : ∀ i ns x, well_formed x → no_token_att x → (tiger_sentence i ns x).2 = None ↔ complete x.
Proof. intros i ns x W T. split; [by apply sentence_needs|]. intros K. destruct (sentence_ok i ns x W K T) as (g & E & _). by rewrite E. Qed.
Print Assumptions C61_rejected.
Example C61_rejected_hyp : let x := tx_s "s1" "s1_500" [tx_t "s1_1" "der" []] [tx_nt "s1_500" "S" [tx "edge" [("idref", "s1_1")] []]] in
  well_formed x ∧ no_token_att x ∧ ¬ complete x.
Proof.
  intros x. assert (W : well_formed x) by (apply check_well_formed; vm_compute; reflexivity). assert (T : no_token_att x) by (apply check_no_token_att; vm_compute; reflexivity).
  split; [exact W|]. split; [exact T|]. intros K. apply (C61_rejected 0 "tiger" x W T) in K. revert K. vm_compute. done.
Qed.
(** the label of a secondary edge of a phrase is not its own, but the label of the
    edge before; without an edge before, the reader fails *)
Theorem C61_secondary_label_refuted : ∃ x g e, good_sentence x ∧ secedges_in (tx_nt "s1_500" "S" [tx_e "s1_501" "SB"; tx_e "s1_3" "HD"; tx_sec "s1_501" "OA"]) = [tx_sec "s1_501" "OA"] ∧
  tx_nt "s1_500" "S" [tx_e "s1_501" "SB"; tx_e "s1_3" "HD"; tx_sec "s1_501" "OA"] ∈ phrases_in x ∧
  tiger_sentence 0 "tiger" x = ((g, nat_sorted (token_ids x)), None) ∧ e ∈ edges g ∧ dget "edge_type" e.2 = Some (VStr "points_to") ∧
  e.1.1.1 = NStr "s1_500" ∧ dget "label" e.2 = Some (VStr "HD") ∧ dget "tiger:label" e.2 = Some (VStr "OA").
Proof.
  exists tx_hund. set (r := tiger_sentence 0 "tiger" tx_hund). exists r.1.1, (default (NStr "", NStr "", NStr "", []) (head (filter (λ e : edge, e.1.1.1 = NStr "s1_500" ∧ dget "edge_type" e.2 = Some (VStr "points_to")) (edges r.1.1)))).
  split; [apply check_good; vm_compute; reflexivity|]. split; [vm_compute; reflexivity|]. split; [right; left|].
  split; [vm_compute; reflexivity|]. split; [|repeat split; vm_compute; reflexivity]. apply (bool_decide_unpack _). vm_compute. exact I.
Qed.
Print Assumptions C61_secondary_label_refuted.
Theorem C61_secondary_unbound_refuted : ∃ x, well_formed x ∧ no_token_att x ∧
  (∀ n, n ∈ phrases_in x → has_att n "id" ∧ has_att n "cat" ∧ ∀ e, e ∈ secedges_in n → has_att e "idref" ∧ has_att e "label") ∧
  (tiger_sentence 0 "tiger" x).2 = Some NameError.
Proof.
  exists (tx_s "s" "s_500" [tx_t "s_1" "a" []] [tx_nt "s_500" "S" [tx_sec "s_1" "OA"]]).
  split; [apply check_well_formed; vm_compute; reflexivity|]. split; [apply check_no_token_att; vm_compute; reflexivity|]. split; [|vm_compute; reflexivity].
  intros n Hn. apply elem_of_list_singleton in Hn. subst n. split; [by eexists|]. split; [by eexists|]. intros e He. apply elem_of_list_singleton in He. subst e. split; by eexists.
Qed.
Print Assumptions C61_secondary_unbound_refuted.
(** a phrase that is the target of an edge before its declaration does not get the
    layer of phrases *)
Theorem C61_forward_refuted : ∃ x g a, good_sentence x ∧ tx_nt "s2_501" "PP" [tx_e "s2_1" "AC"; tx_e "s2_2" "NK"] ∈ phrases_in x ∧
  tiger_sentence 0 "tiger" x = ((g, nat_sorted (token_ids x)), None) ∧ node_attrs g (NStr "s2_501") = Some a ∧
  ¬ has_layer a "tiger:syntax" ∧ has_layer a "tiger:secedge".
Proof.
  exists tx_garten. set (r := tiger_sentence 0 "tiger" tx_garten). exists r.1.1, (default [] (node_attrs r.1.1 (NStr "s2_501"))).
  split; [apply check_good; vm_compute; reflexivity|]. split; [right; left|]. split; [vm_compute; reflexivity|]. split; [vm_compute; reflexivity|].
  split; [intros (l & Hl & Hin)|eexists]; [|split; [vm_compute; reflexivity|apply (bool_decide_unpack _); vm_compute; exact I]].
  assert (E : dget "layers" (default [] (node_attrs r.1.1 (NStr "s2_501"))) = Some (VSet ["tiger"; "tiger:secedge"])) by (vm_compute; reflexivity). rewrite E in Hl. injection Hl as <-.
  revert Hin. rewrite !elem_of_cons. intros [H|[H|H]]; [discriminate H|discriminate H|by apply elem_of_nil in H].
Qed.
Print Assumptions C61_forward_refuted.
(** an unattached root is attached to itself *)
Theorem C61_self_loop_refuted : ∃ x g k a, good_sentence x ∧ tiger_sentence 0 "tiger" x = ((g, nat_sorted (token_ids x)), None) ∧
  edge_attrs g (g_root g) (g_root g) k = Some a.
Proof.
  exists (tx_s "s" "s_500" [tx_t "s_1" "a" []] []). set (r := tiger_sentence 0 "tiger" (tx_s "s" "s_500" [tx_t "s_1" "a" []] [])).
  exists r.1.1, (NInt 0), (default [] (edge_attrs r.1.1 (g_root r.1.1) (g_root r.1.1) (NInt 0))).
  split; [apply check_good; vm_compute; reflexivity|]. split; vm_compute; reflexivity.
Qed.
Print Assumptions C61_self_loop_refuted.

(** ** C62: spans *)
(** a node spans the tokens below it *)
Theorem C62_span : ∀ i ns x, good_sentence x → (∀ n, ¬ tc (child x) n n) → ∃ g, tiger_sentence i ns x = ((g, nat_sorted (token_ids x)), None) ∧
  ∀ n, n ∈ nodes g → ∃ l, (∀ k, length (nodes g) < k → get_span k g n = Ok l) ∧ sorted nat_cmp l ∧
    ∀ t, t ∈ l ↔ t ∈ token_ids x ∧ rtc (under i ns x) n t.
Proof.
  intros i ns x (W & K & T) HA. destruct (sentence_ok i ns x W K T) as (g & E & HB & _ & Hns & _). exists g. split; [exact E|]. intros n Hn. exact (sentence_span g i ns x n HB Hns T HA Hn).
Qed.
Print Assumptions C62_span.
(** the root of a tree spans the sentence *)
Theorem C62_tree : ∀ i ns x, good_sentence x → tree_shaped x → NoDup (token_ids x) → distinct_keys (token_ids x) → sentence_root x ∉ token_ids x →
  ∃ g, tiger_sentence i ns x = ((g, nat_sorted (token_ids x)), None) ∧ ∀ k, length (nodes g) < k → get_span k g (g_root g) = Ok (g_tokens g).
Proof.
  intros i ns x (W & K & T) HT HD HK Hr. destruct (sentence_ok i ns x W K T) as (g & E & HB & _ & Hns & Hroot & Htok & _). exists g. split; [exact E|].
  rewrite Hroot, Htok. assert (Hfr : final_root ns x = sentence_root x) by (unfold final_root; by rewrite decide_False). rewrite Hfr. exact (tree_span g i ns x HB Hns T HT HD HK Hr).
Qed.
Print Assumptions C62_tree.
Example C62_tree_hyp : good_sentence tx_hund ∧ tree_shaped tx_hund ∧ NoDup (token_ids tx_hund) ∧ distinct_keys (token_ids tx_hund) ∧ sentence_root tx_hund ∉ token_ids tx_hund.
Proof.
  split; [apply check_good; vm_compute; reflexivity|]. split; [apply (check_tree tx_rank); vm_compute; reflexivity|]. split; [apply (bool_decide_unpack _); vm_compute; exact I|].
  split; [apply check_distinct_keys; vm_compute; reflexivity|]. apply (bool_decide_unpack _); vm_compute; exact I.
Qed.
(** no node is left without an edge, unless it is the only one (or the virtual root above it) *)
Theorem C62_connected : ∀ i ns x, good_sentence x → 1 < length (distinct (who <$> base_mentions i ns x)) →
  ∃ g, tiger_sentence i ns x = ((g, nat_sorted (token_ids x)), None) ∧
    ∀ n, n ∈ nodes g → n ≠ NStr (ns +:+ ":VROOT") → ∃ u v k a, edge_attrs g u v k = Some a ∧ (u = n ∨ v = n).
Proof.
  intros i ns x (W & K & T) H1. destruct (sentence_ok i ns x W K T) as (g & E & HB & _). exists g. split; [exact E|]. intros n Hn Hv.
  destruct (b_nodes _ _ _ HB) as [HN _]. rewrite HN in Hn. change (n ∈ ids (described ns (mentions i ns x))) in Hn. rewrite ids_described, elem_distinct in Hn.
  destruct (sentence_connected i ns x n H1 Hn Hv) as (e & He & Hin). exact (built_incident g _ _ n e HB He Hin).
Qed.
Print Assumptions C62_connected.
Example C62_connected_hyp : good_sentence tx_hund ∧ 1 < length (distinct (who <$> base_mentions 0 "tiger" tx_hund)).
Proof. split; [apply check_good; vm_compute; reflexivity|]. apply Nat.ltb_lt. vm_compute. reflexivity. Qed.
(** ... then the virtual root has no edge, and the root of the sentence does not span it *)
Theorem C62_single_refuted : ∃ x g, good_sentence x ∧ tiger_sentence 0 "tiger" x = ((g, nat_sorted (token_ids x)), None) ∧ edges g = [] ∧
  length (g_tokens g) = 1 ∧ get_span 9 g (g_root g) = Ok [].
Proof. exists (tx_headline "s1" "Endlich"). eexists. split; [apply check_good; vm_compute; reflexivity|]. split; [vm_compute; reflexivity|]. repeat split; vm_compute; reflexivity. Qed.
Print Assumptions C62_single_refuted.
(** a token that has a secondary edge but no parent is not below the root *)
Theorem C62_secondary_only_refuted : ∃ x g, good_sentence x ∧ sentence_root x ∉ token_ids x ∧ tiger_sentence 0 "tiger" x = ((g, nat_sorted (token_ids x)), None) ∧
  g_tokens g = [NStr "s_1"; NStr "s_2"] ∧ get_span 9 g (g_root g) = Ok [NStr "s_1"].
Proof.
  exists (tx_s "s" "s_500" [tx_t "s_1" "a" []; tx_t "s_2" "b" [tx_sec "s_1" "RE"]] [tx_nt "s_500" "S" [tx_e "s_1" "HD"]]). eexists.
  split; [apply check_good; vm_compute; reflexivity|]. split; [apply (bool_decide_unpack _); vm_compute; exact I|]. split; [vm_compute; reflexivity|]. split; vm_compute; reflexivity.
Qed.
Print Assumptions C62_secondary_only_refuted.

(** ** C63: documents *)
Theorem C63_document : ∀ name ns x, has_att x "id" → Forall good_sentence (sentences_in x) →
  ∃ g, read_tiger name ns x = ((g, (λ s, nat_sorted (token_ids s)) <$> sentences_in x), None) ∧ Consistent g ∧
    has_nodes g (combined (document_nodes ns x)) ∧ has_edges g (document_edges ns x) ∧ g_name g = name ∧ g_ns g = ns ∧ g_root g = doc_root ns ∧
    g_tokens g = concat ((λ s, nat_sorted (token_ids s)) <$> sentences_in x) ∧
    g_sentences g = nat_sorted (final_root "tiger" <$> sentences_in x).
Proof. intros name ns x Hid HG. destruct (document_ok name ns x Hid HG) as (g & E & HB & HR). exists g. split; [exact E|]. split; [apply HB|]. split; [apply HB|]. split; [apply HB|exact HR]. Qed.
Print Assumptions C63_document.
Example C63_document_hyp : has_att tx_doc "id" ∧ Forall good_sentence (sentences_in tx_doc) ∧ length (sentences_in tx_doc) = 2.
Proof. split; [by eexists|]. split; [|vm_compute; reflexivity]. apply check_goods. vm_compute. reflexivity. Qed.
(** if no identifier is used twice, every sentence keeps its nodes *)
Theorem C63_disjoint : ∀ name ns x, has_att x "id" → Forall good_sentence (sentences_in x) → NoDup ((λ y : node_info, y.1.1) <$> document_nodes ns x) →
  ∃ g, read_tiger name ns x = ((g, (λ s, nat_sorted (token_ids s)) <$> sentences_in x), None) ∧ has_nodes g (document_nodes ns x).
Proof. intros name ns x Hid HG HD. destruct (document_ok name ns x Hid HG) as (g & E & HB & _). exists g. split; [exact E|]. apply (b_nodes _ _ _ (built_same _ _ _ _ HB (combined_nodup _ HD))). Qed.
Print Assumptions C63_disjoint.
Example C63_disjoint_hyp : NoDup ((λ y : node_info, y.1.1) <$> document_nodes "tiger" tx_doc).
Proof. apply (bool_decide_unpack _); vm_compute; exact I. Qed.
(** in the namespace "tiger" nodes span the same tokens as in their sentence, and the
    root of the document spans all tokens *)
Theorem C63_span : ∀ name x, has_att x "id" → Forall good_sentence (sentences_in x) → NoDup ((λ y : node_info, y.1.1) <$> document_nodes "tiger" x) →
  (∀ s, s ∈ sentences_in x → ∀ n, ¬ tc (child s) n n) →
  ∃ g, read_tiger name "tiger" x = ((g, (λ s, nat_sorted (token_ids s)) <$> sentences_in x), None) ∧
    ∀ i s n, sentences_in x !! i = Some s → n ∈ who <$> mentions i "tiger" s →
      ∃ l, (∀ k, length (nodes g) < k → get_span k g n = Ok l) ∧ sorted nat_cmp l ∧ ∀ t, t ∈ l ↔ t ∈ token_ids s ∧ rtc (under i "tiger" s) n t.
Proof.
  intros name x Hid HG HD HA. destruct (document_ok name "tiger" x Hid HG) as (g & E & HB & _ & Hns & _). exists g. split; [exact E|].
  exact (doc_span_sentence "tiger" x HG HD g eq_refl HB Hns HA).
Qed.
Print Assumptions C63_span.
Theorem C63_span_root : ∀ name x, has_att x "id" → Forall good_sentence (sentences_in x) → NoDup ((λ y : node_info, y.1.1) <$> document_nodes "tiger" x) →
  Forall (λ s, tree_shaped s ∧ sentence_root s ∉ token_ids s) (sentences_in x) →
  ∃ g, read_tiger name "tiger" x = ((g, (λ s, nat_sorted (token_ids s)) <$> sentences_in x), None) ∧
    ∃ l, (∀ k, length (nodes g) < k → get_span k g (g_root g) = Ok l) ∧ sorted nat_cmp l ∧ ∀ t, t ∈ l ↔ t ∈ g_tokens g.
Proof.
  intros name x Hid HG HD HF. destruct (document_ok name "tiger" x Hid HG) as (g & E & HB & _ & Hns & Hroot & Htok & _). exists g. split; [exact E|].
  destruct (doc_span_root "tiger" x HG HD g eq_refl HB Hns HF) as (l & Hl & HS & HE). exists l. rewrite Hroot. split; [exact Hl|]. split; [exact HS|]. intros t. rewrite HE, Htok, elem_concat. split.
  - intros (s & Hs & Ht). exists (nat_sorted (token_ids s)). split; [by rewrite nat_sorted_perm|]. by apply (elem_of_list_fmap_1 (λ s, nat_sorted (token_ids s))).
  - intros (l' & Ht & Hl'). apply elem_of_list_fmap in Hl' as (s & -> & Hs). exists s. split; [exact Hs|]. by rewrite nat_sorted_perm in Ht.
Qed.
Print Assumptions C63_span_root.
Example C63_span_hyp : Forall (λ s, tree_shaped s ∧ sentence_root s ∉ token_ids s) (sentences_in tx_doc).
Proof.
  change (sentences_in tx_doc) with [tx_hund; tx_garten]. repeat apply List.Forall_cons; try apply List.Forall_nil;
  (split; [apply (check_tree tx_rank); vm_compute; reflexivity|apply (bool_decide_unpack _); vm_compute; exact I]).
Qed.
(** a document is read only if it has a name and nothing is missing in its sentences *)
Theorem C63_rejected : ∀ name ns x, Forall (λ s, well_formed s ∧ no_token_att s) (sentences_in x) →
  (read_tiger name ns x).2 = None ↔ has_att x "id" ∧ Forall complete (sentences_in x).
Proof.
  intros name ns x HF. split.
  - apply document_needs. eapply Forall_impl; [exact HF|]. by intros s [? _].
  - intros [Hid HK]. destruct (document_ok name ns x Hid) as (g & E & _); [|by rewrite E]. rewrite Forall_forall in HF, HK |- *. intros s Hs. destruct (HF s Hs) as [W T]. split; [exact W|]. split; [exact (HK s Hs)|exact T].
Qed.
Print Assumptions C63_rejected.
Example C63_rejected_hyp : let x := tx_corpus [tx_hund; tx_s "s2" "s2_1" [tx "t" [("id", "s2_1")] []] []] in
  Forall (λ s, well_formed s ∧ no_token_att s) (sentences_in x) ∧ (read_tiger "c" "tiger" x).2 = Some KeyError.
Proof.
  intros x. split; [|vm_compute; reflexivity]. change (sentences_in x) with [tx_hund; tx_s "s2" "s2_1" [tx "t" [("id", "s2_1")] []] []].
  repeat apply List.Forall_cons; try apply List.Forall_nil; (split; [apply check_well_formed; vm_compute; reflexivity|apply check_no_token_att; vm_compute; reflexivity]).
Qed.
(** the reader puts the sentences in natural order, but not their tokens *)
Theorem C63_order_refuted : ∃ x g, Forall good_sentence (sentences_in x) ∧ (read_tiger "c" "tiger" x).1.1 = g ∧ (read_tiger "c" "tiger" x).2 = None ∧
  g_sentences g = [NStr "s2_500"; NStr "s10_500"] ∧ g_tokens g = [NStr "s10_1"; NStr "s2_1"].
Proof.
  exists (tx_corpus [tx_s "s10" "s10_500" [tx_t "s10_1" "b" []] [tx_nt "s10_500" "S" [tx_e "s10_1" "HD"]]; tx_s "s2" "s2_500" [tx_t "s2_1" "a" []] [tx_nt "s2_500" "S" [tx_e "s2_1" "HD"]]]).
  eexists. split; [apply check_goods; vm_compute; reflexivity|]. split; [vm_compute; reflexivity|]. repeat split; vm_compute; reflexivity.
Qed.
Print Assumptions C63_order_refuted.
(** all headlines share one virtual root, which is listed once for each of them and has no tokens *)
Theorem C63_virtual_root_refuted : ∃ x, Forall good_sentence (sentences_in x) ∧ (read_tiger "c" "tiger" x).2 = None ∧
  g_sentences (read_tiger "c" "tiger" x).1.1 = [NStr "tiger:VROOT"; NStr "tiger:VROOT"] ∧
  tiger_tokens_of (read_tiger "c" "tiger" x).1 (NStr "tiger:VROOT") = Err KeyError.
Proof.
  exists (tx_corpus [tx_headline "s1" "Endlich"; tx_headline "s2" "Schade"]). split; [apply check_goods; vm_compute; reflexivity|]. repeat split; vm_compute; reflexivity.
Qed.
Print Assumptions C63_virtual_root_refuted.
(** with another namespace the document has no token nodes *)
Theorem C63_namespace_refuted : ∃ x g, Forall good_sentence (sentences_in x) ∧ (read_tiger "c" "syntax" x).1.1 = g ∧ (read_tiger "c" "syntax" x).2 = None ∧
  length (g_tokens g) = 6 ∧ (∀ t, t ∈ g_tokens g → istoken g t = Ok false) ∧ get_span 20 g (g_root g) = Ok [].
Proof.
  exists tx_doc. exists (read_tiger "c" "syntax" tx_doc).1.1. split; [apply check_goods; vm_compute; reflexivity|]. split; [reflexivity|]. split; [vm_compute; reflexivity|]. split; [vm_compute; reflexivity|].
  split; [|vm_compute; reflexivity].
  assert (E : forallb (λ t, match istoken (read_tiger "c" "syntax" tx_doc).1.1 t with Ok false => true | _ => false end) (g_tokens (read_tiger "c" "syntax" tx_doc).1.1) = true) by (vm_compute; reflexivity).
  intros t Ht. pose proof (fb _ _ E t Ht) as K. cbn beta in K. destruct (istoken _ t) as [[]|]; done.
Qed.
Print Assumptions C63_namespace_refuted.

(** ** C64: queries on syntax graphs *)
Theorem C64_terminals : ∀ P g, reachable P g → ∃ ts ns, terminals_and_nonterminals g = (ts, ns) ∧ sorted nat_cmp ts ∧ sorted nat_cmp ns ∧ ts ++ ns ≡ₚ nodes g ∧
  ∀ n, n ∈ ts ↔ n ∈ nodes g ∧ ∀ v k, edge_attrs g n v k = None.
Proof. intros P g R%reach_consistent. exact (terminals_ok g R). Qed.
Print Assumptions C64_terminals.
Theorem C64_unconnected : ∀ P g, reachable P g → sublist (unconnected_nodes g) (nodes g) ∧
  ∀ n, n ∈ unconnected_nodes g ↔ n ∈ nodes g ∧ 1 < length (nodes g) ∧ ∀ u v k a, edge_attrs g u v k = Some a → u ≠ n ∧ v ≠ n.
Proof. intros P g R%reach_consistent. exact (unconnected_ok g R). Qed.
Print Assumptions C64_unconnected.
Theorem C64_subordinate : ∀ P g, reachable P g → ∃ l, subordinate_clauses g = Ok l ∧ ∀ n, n ∈ l ↔
  ¬ is_token g n ∧ ∃ u k a b, edge_attrs g u n k = Some a ∧ (∃ lab, lab ∈ ["MO"; "RC"; "SB"] ∧ dget "tiger:label" a = Some (VStr lab)) ∧
    node_attrs g u = Some b ∧ dget "tiger:cat" b = Some (VStr "S").
Proof. intros P g R%reach_consistent. exact (subordinate_ok g R). Qed.
Print Assumptions C64_subordinate.
(** a clause with an unattached node beside it *)
Definition tq_ops : list op :=
  [OAddNode (NStr "s") (VSet ["tiger"]) (Some [("tiger:cat", VStr "S")]) []; OAddNode (NStr "c") (VSet ["tiger"]) (Some [("tiger:cat", VStr "S")]) [];
   OAddNode (NStr "t") (VSet ["tiger"]) (Some [("tiger:token", VStr "so")]) [];
   OAddEdge (NStr "s") (NStr "c") (VSet ["tiger"]) None (Some [("tiger:label", VStr "MO")]) [("edge_type", VStr "dominates")];
   OAddEdge (NStr "s") (NStr "t") (VSet ["tiger"]) None (Some [("tiger:label", VStr "SB")]) [("edge_type", VStr "spans")];
   OAddEdge (NStr "s") (NStr "c") (VSet ["tiger"]) None (Some [("tiger:label", VStr "SB")]) [("edge_type", VStr "points_to")]].
Definition tq_graph : graph := foldl (λ g o, (step g o).1) (init_graph "q" "tiger" None) tq_ops.
Example C64_hyp : reachable no_bare_layers tq_graph ∧
  terminals_and_nonterminals tq_graph = ([NStr "c"; NStr "t"; NStr "tiger:root_node"], [NStr "s"]) ∧ unconnected_nodes tq_graph = [NStr "tiger:root_node"].
Proof. split; [unfold tq_graph, tq_ops; cbn [foldl]; repeat (apply R_step; [|done]); apply R_init|]. split; vm_compute; reflexivity. Qed.
(** a clause is listed once for each edge to it *)
Theorem C64_subordinate_twice_refuted : ∃ g, reachable no_bare_layers g ∧ subordinate_clauses g = Ok [NStr "c"; NStr "c"].
Proof. exists tq_graph. split; [apply C64_hyp|vm_compute; reflexivity]. Qed.
Print Assumptions C64_subordinate_twice_refuted.
