(** * PropTree: properties C29, C46, C47 (trees out of document graphs)

    Statements only.  Vocabulary: SpecGraph.v, SpecQuery.v, SpecTree.v.  The
    first two numbers given to sorted_bfs_edges, tree2bracket, ... bound their
    loops; OutOfFuel as a result for all bounds is a call that does not end. *)
From Verif Require Import PyBase DocGraph Relabel SpecGraph DocGraphFacts AllHist StrNum Query SpecQuery Text Tree SpecTree
  BfsFacts TreeFacts TravFacts RenderFacts OrderFacts Witness WitQuery WitTree.

(** ** C46 sorted breadth-first traversal visits each node once *)
Theorem C46_traversal : ∀ P g f1 f2 sent root es, reachable P g → sorted_bfs_edges f1 f2 g sent root = Ok es →
  bfs_tree (dom g) root es ∧ left_to_right g (tokens_for g sent root) es.
Proof. intros P g f1 f2 sent root es R. apply bfs_edges_ok. by eapply reach_consistent. Qed.
Print Assumptions C46_traversal.
Example C46_hyp : reachable plain wit_tree ∧ sorted_bfs_edges 10 20 wit_tree [] (NStr "s") =
  Ok [(NStr "s", NStr "np"); (NStr "s", NStr "vp"); (NStr "np", NStr "t1"); (NStr "vp", NStr "t2"); (NStr "vp", NStr "t3")].
Proof. split; [exact wit_tree_reach|exact wit_tree_edges]. Qed.

(** without dominance cycles it ends, with a result or an exception *)
Theorem C46_ends : ∀ P g sent root, reachable P g → acyclic (dom g) →
  ∃ n r, r ≠ Err OutOfFuel ∧ ∀ f1 f2, n ≤ f1 → n ≤ f2 → sorted_bfs_edges f1 f2 g sent root = r.
Proof. intros P g sent root R. apply bfs_edges_ends. by eapply reach_consistent. Qed.
Print Assumptions C46_ends.
Example C46_ends_hyp : reachable plain wit_tree ∧ acyclic (dom wit_tree).
Proof. split; [exact wit_tree_reach|exact wit_tree_acyclic]. Qed.

(** in a forest in which each node below the root covers a token it succeeds *)
Theorem C46_succeeds : ∀ P g sent root, reachable P g → typed g → one_parent g → acyclic (dom g) → root ∈ nodes g →
  Forall (λ t, t ∈ nodes g) (tokens_for g sent root) →
  (∀ n, tc (dom g) root n → ∃ t, t ∈ tokens_for g sent root ∧ rtc (dom g) n t) →
  ∃ n es, ∀ f1 f2, n ≤ f1 → n ≤ f2 → sorted_bfs_edges f1 f2 g sent root = Ok es.
Proof. intros P g sent root R. apply bfs_edges_total. by eapply reach_consistent. Qed.
Print Assumptions C46_succeeds.
Example C46_succeeds_hyp : typed wit_tree ∧ one_parent wit_tree ∧ acyclic (dom wit_tree) ∧ NStr "s" ∈ nodes wit_tree ∧
  Forall (λ t, t ∈ nodes wit_tree) (tokens_for wit_tree [] (NStr "s")) ∧
  (∀ n, tc (dom wit_tree) (NStr "s") n → ∃ t, t ∈ tokens_for wit_tree [] (NStr "s") ∧ rtc (dom wit_tree) n t).
Proof.
  split; [exact wit_tree_typed|]. split; [exact wit_tree_one|]. split; [exact wit_tree_acyclic|].
  split; [vdec|]. split; [vdec|]. intros n Hn%tc_rtc%wit_tree_below.
  assert (G : Forall (λ n, Exists (λ t, t ∈ wit_below n) (tokens_for wit_tree [] (NStr "s"))) (wit_below (NStr "s"))) by vdec.
  rewrite Forall_forall in G. apply G, Exists_exists in Hn as (t & Ht & Hn). exists t. split; [done|]. by apply wit_tree_below.
Qed.

(** a token all of whose ancestors are dominated: the traversal never ends,
    wherever it starts *)
Theorem C46_cycle : ∀ P g sent root t, reachable P g → typed g → one_parent g → root ∈ nodes g →
  Forall (λ t, t ∈ nodes g) (tokens_for g sent root) → t ∈ tokens_for g sent root →
  (∀ m, rtc (dom g) m t → ∃ u, dom g u m) → ∀ f1 f2, sorted_bfs_edges f1 f2 g sent root = Err OutOfFuel.
Proof. intros P g sent root t R. apply bfs_edges_hang. by eapply reach_consistent. Qed.
Print Assumptions C46_cycle.
(** so it does not end on all cyclic graphs *)
Theorem C46_cyclic_refuted : ∃ g root, reachable plain g ∧ root ∈ nodes g ∧
  ∀ f1 f2, sorted_bfs_edges f1 f2 g [] root = Err OutOfFuel.
Proof.
  exists wit_cycle, (NStr "x"). split; [exact wit_cycle_reach|]. split; [vdec|].
  pose proof (reach_consistent _ _ wit_cycle_reach) as C.
  apply (C46_cycle plain wit_cycle [] (NStr "x") (NStr "t1")); [exact wit_cycle_reach| | |vdec|vdec|vdec|].
  - eapply check_typed; [exact wit_cycle_reach|]. vm_compute. reflexivity.
  - apply check_one_parent; [done|]. vdec.
  - intros m Hm. assert (Hd : ∀ u v, dom wit_cycle u v → u = NStr "x" ∨ u = NStr "y").
    { intros u v (k & a & H). assert (Hin : (u, v, k) ∈ dom_edges wit_cycle) by (apply elem_dom_edges; [done|]; by exists a).
      assert (G : Forall (λ e : nid * nid * nid, e.1.1 = NStr "x" ∨ e.1.1 = NStr "y") (dom_edges wit_cycle)) by vdec.
      rewrite Forall_forall in G. by apply G in Hin. }
    assert (Hp : ∀ u v k, (u, v, k) ∈ dom_edges wit_cycle → dom wit_cycle u v).
    { intros u v k (a & H)%elem_dom_edges; [|done]. by exists k, a. }
    apply rtc_inv in Hm as [->|(w & Hw & _)]; [exists (NStr "x"); apply (Hp _ _ (NInt 0)); vdec|].
    apply Hd in Hw as [->| ->]; [exists (NStr "y")|exists (NStr "x")]; apply (Hp _ _ (NInt 0)); vdec.
Qed.
Print Assumptions C46_cyclic_refuted.

(** ** C47 Bracket strings denote the tree *)
(** the nodes entered by the traversal form an ordered tree; if their labels,
    tokens and tags are plain words, the string reads back as that tree *)
Theorem C47_brackets : ∀ P g f1 f2 sent root es, reachable P g → sorted_bfs_edges f1 f2 g sent root = Ok es →
  ∃ t, tree_of es root t ∧ preorder t ≡ₚ root :: es.*2 ∧
    ((∀ x, x ∈ preorder t → ∃ ws, node_words g x = Some ws ∧ Forall plain_word ws) →
     ∃ s, (∀ f, length es < f → tree2bracket f1 f2 f g sent (Some root) = Ok s) ∧
          parse_sexp s = Some [sexp_of (λ n, default [] (node_words g n)) t]).
Proof. intros P g f1 f2 sent root es R. apply bracket_tree. by eapply reach_consistent. Qed.
Print Assumptions C47_brackets.
Example C47_hyp : tree2bracket 10 20 10 wit_tree [] (Some (NStr "s")) = Ok (chs "(S (NP (N Time)) (VP (V flies) (ADV fast)))").
Proof. vm_compute. reflexivity. Qed.
Example C47_words : node_words wit_tree (NStr "t1") = Some [chs "N"; chs "Time"] ∧ Forall plain_word [chs "N"; chs "Time"].
Proof. split; [vm_compute; reflexivity|]. vdec. Qed.

(** in a forest without gaps the tokens of the tree come in text order *)
Theorem C47_text_order : ∀ P g f1 f2 sent root es t, reachable P g → sorted_bfs_edges f1 f2 g sent root = Ok es →
  one_parent g → acyclic (dom g) → (∀ n, rtc (dom g) root n → no_gaps g (tokens_for g sent root) root n) →
  (∀ t x, t ∈ tokens_for g sent root → ¬ dom g t x) →
  tree_of es root t → text_order (tokens_for g sent root) (preorder t).
Proof.
  intros P g f1 f2 sent root es t R H H1 Hac Hgap Hleaf Ht.
  destruct (C46_traversal _ _ _ _ _ _ _ R H) as [HT HL].
  eapply tree_text_order; eauto using rtc_refl.
Qed.
Print Assumptions C47_text_order.
Example C47_text_order_hyp :
  (∀ n, rtc (dom wit_tree) (NStr "s") n → no_gaps wit_tree (tokens_for wit_tree [] (NStr "s")) (NStr "s") n) ∧
  (∀ t x, t ∈ tokens_for wit_tree [] (NStr "s") → ¬ dom wit_tree t x).
Proof.
  split; [exact wit_tree_gaps|]. intros t x Ht Hd%wit_tree_dom.
  assert (G : Forall (λ p : nid * nid, p.1 ∉ tokens_for wit_tree [] (NStr "s"))
    [(NStr "s", NStr "vp"); (NStr "s", NStr "np"); (NStr "vp", NStr "t3"); (NStr "vp", NStr "t2"); (NStr "np", NStr "t1")]) by vdec.
  rewrite Forall_forall in G. by apply G in Hd.
Qed.

(** brackets in the text are not escaped: the string of a sentence with a
    bracket is not balanced *)
Theorem C47_bracket_token_refuted : ∃ g root s, reachable plain g ∧
  tree2bracket 10 20 10 g [] (Some root) = Ok s ∧ parse_sexp s = None.
Proof.
  exists wit_bracket, (NStr "s"), (chs "(S (())"). split; [exact wit_bracket_reach|]. split; vm_compute; reflexivity.
Qed.
Print Assumptions C47_bracket_token_refuted.

(** ** C29 FREQT export is balanced and faithful *)
(** whatever the labels and tokens, as long as they are strings, the string
    reads back as the tree of the escaped labels *)
Theorem C29_freqt : ∀ P g f1 f2 sent include_pos root es, reachable P g → sorted_bfs_edges f1 f2 g sent root = Ok es →
  ∃ t, tree_of es root t ∧ preorder t ≡ₚ root :: es.*2 ∧
    ∀ u, freqt_tree g include_pos t u →
     ∃ s, (∀ f, length es < f → sentence2freqt f1 f2 f g sent include_pos root = Ok s) ∧ parse_freqt s = Some [u].
Proof. intros P g f1 f2 sent include_pos root es R. apply freqt_sentence. by eapply reach_consistent. Qed.
Print Assumptions C29_freqt.
Example C29_hyp : sentence2freqt 10 20 10 wit_tree [] true (NStr "s") = Ok (chs "(S(NP(N(Time)))(VP(V(flies))(ADV(fast))))") ∧
  sentence2freqt 10 20 10 wit_bracket [] false (NStr "s") = Ok (chs "(S(-LRB-))").
Proof. split; vm_compute; reflexivity. Qed.
Example C29_tree_hyp : freqt_tree wit_bracket false (Rose (NStr "s") [Rose (NStr "t1") []])
  (Rose (chs "S") [Rose (chs "-LRB-") []]).
Proof.
  apply (FreqtTree _ _ _ _ [Rose (chs "-LRB-") []]); [|vm_compute; reflexivity].
  apply FreqtCons; [|apply FreqtNil]. apply (FreqtTree _ _ _ _ []); [apply FreqtNil|vm_compute; reflexivity].
Qed.

(** the labels come in preorder, for each node its own one or two *)
Theorem C29_labels : ∀ g include_pos t u, freqt_tree g include_pos t u →
  preorder u = concat (map (λ n, match freqt_node g include_pos n [] with Some v => preorder v | None => [] end) (preorder t)).
Proof. exact freqt_tree_labels. Qed.
Print Assumptions C29_labels.

(** no bracket survives the escape; other characters are kept *)
Theorem C29_escape : ∀ s, freqt_escape (VStr s) = Ok (escaped (chs s)) ∧
  "("%char ∉ escaped (chs s) ∧ ")"%char ∉ escaped (chs s) ∧
  ("("%char ∉ chs s → ")"%char ∉ chs s → escaped (chs s) = chs s).
Proof.
  intros s. split; [apply escape_ok|]. split; [apply escaped_free|]. split; [apply escaped_free|].
  unfold escaped. induction (chs s) as [|c l IH]; [done|]. intros [H1 H1']%not_elem_of_cons [H2 H2']%not_elem_of_cons.
  cbn [map concat]. rewrite !decide_False by congruence. simpl. f_equal. by apply IH.
Qed.
Print Assumptions C29_escape.
(** a bracket and the text -LRB- become the same *)
Theorem C29_escape_ambiguous_refuted : freqt_escape (VStr "(") = freqt_escape (VStr "-LRB-").
Proof. vm_compute. reflexivity. Qed.
Print Assumptions C29_escape_ambiguous_refuted.

(** a node without label shows its id, which fails for integers *)
Theorem C29_int_id : ∀ g include_pos z a child, dget (NInt z) (g_node g) = Some a →
  dget (g_ns g +:+ ":token") a = None → dget "label" a = None →
  node2freqt g include_pos (NInt z) child = Err TypeError.
Proof.
  intros g ip z a child Ha Ht Hl. unfold node2freqt, istoken, node_attrs, dmem. by rewrite Ha, Ht, Hl.
Qed.
Print Assumptions C29_int_id.
Example C29_int_id_hyp : node2freqt (run (init_graph "doc" "A" None) [OAddNode (NInt 1) (VSet ["A"]) None []]) true (NInt 1) [] = Err TypeError.
Proof. vm_compute. reflexivity. Qed.

(** the export of a document: one line for each sentence *)
Theorem C29_document : ∀ f1 f2 f g sent include_pos ss,
  Forall2 (λ r s, sentence2freqt f1 f2 f g sent include_pos r = Ok s) (g_sentences g) ss → g_sentences g ≠ [] →
  Forall (λ s, "010"%char ∉ s) ss →
  ∃ s, docgraph2freqt f1 f2 f g sent include_pos None = Ok s ∧ lines s = ss.
Proof. exact docgraph2freqt_lines. Qed.
Print Assumptions C29_document.
Example C29_document_hyp : ∃ ss, let g := set_sentences [NStr "s"; NStr "np"] wit_tree in
  Forall2 (λ r s, sentence2freqt 10 20 10 g [] true r = Ok s) (g_sentences g) ss ∧ Forall (λ s, "010"%char ∉ s) ss.
Proof.
  exists [chs "(S(NP(N(Time)))(VP(V(flies))(ADV(fast))))"; chs "(NP(N(Time)))"]. split.
  - apply Forall2_cons. split; [vm_compute; reflexivity|]. apply Forall2_cons. split; [vm_compute; reflexivity|]. constructor.
  - vdec.
Qed.
