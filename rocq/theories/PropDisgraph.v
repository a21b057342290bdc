(** * PropDisgraph: .dis files as document graphs (C93-C95)

    Vocabulary in SpecDisgraph.v.  [dis_file s = Ok t] says that the text [s] is the bracketed
    tree [t], and [doc_form d t] that this tree is the document [d]. *)
From stdpp Require Import relations.
From Verif Require Import PyBase DocGraph Relabel StrNum Query Text SpecText Rst SpecRst Nltk Dis SpecDis DisEscape Disgraph.
From Verif Require Import SpecGraph DocGraphFacts History SpecImport SpecQuery SpanFacts OffsetFacts Witness WitDis.
From Verif Require Import SpecDisgraph DisgraphFacts DisgraphDoc DisgraphMore DisgraphSpan DisgraphRst.

(** ** C93 The graph of a file *)
Theorem C93_graph : ∀ name ns tokenize precedence s t d, dis_file s = Ok t → doc_form d t → readable ns tokenize precedence d →
  ∃ g, read_disgraph name ns tokenize precedence s = Ok g ∧ says_exactly ns tokenize precedence d g ∧ Consistent g.
Proof.
  intros name ns tokenize precedence s t d Ht Hd HR. destruct (doc_outcome ns name tokenize s t d precedence Ht Hd) as [(_ & g & E & S & _ & _ & _ & _ & _ & I)|[H _]]; [|done]. exists g. split; [exact E|]. split; [exact S|apply I].
Qed.
Print Assumptions C93_graph.
Theorem C93_lists : ∀ name ns tokenize precedence s t d g, dis_file s = Ok t → doc_form d t → read_disgraph name ns tokenize precedence s = Ok g →
  g_ns g = ns ∧ g_name g = name ∧ g_root g = root_name ns d ∧ g_tokens g = doc_tokens ns tokenize d ∧ g_sentences g = [].
Proof.
  intros name ns tokenize precedence s t d g Ht Hd Hg. destruct (doc_outcome ns name tokenize s t d precedence Ht Hd) as [(_ & g' & E & _ & H1 & H2 & H3 & H4 & H5 & _)|(_ & e & E)]; [|congruence]. rewrite Hg in E. injection E as <-. done.
Qed.
Print Assumptions C93_lists.
Theorem C93_accepted : ∀ name ns tokenize precedence s t d, dis_file s = Ok t → doc_form d t →
  (∃ g, read_disgraph name ns tokenize precedence s = Ok g) ↔ readable ns tokenize precedence d.
Proof.
  intros name ns tokenize precedence s t d Ht Hd. destruct (doc_outcome ns name tokenize s t d precedence Ht Hd) as [(H & g & E & _)|(H & e & E)].
  - split; [done|]. intros _. by exists g.
  - split; [intros [g Hg]; congruence|done].
Qed.
Print Assumptions C93_accepted.
Definition ex_dis : disdoc := DisDoc "1" "5"
  [Span false "span" "1" "3" [Unit false "Joint" "1" "We met"; Unit false "Joint" "2" "then it rained"; Unit true "Cause" "3" "a lot"];
   Span true "Result" "4" "5" [Unit false "Joint" "4" "so (yes)"; Unit false "Joint" "5" "we left"]].
Definition ex_dis_text : chars := chs "(Root (span 1 5) (Nucleus (span 1 3) (rel2par span) (Nucleus (leaf 1) (rel2par Joint) (text _!We met_!)) (Nucleus (leaf 2) (rel2par Joint) (text _!then it rained_!)) (Satellite (leaf 3) (rel2par Cause) (text _!a lot_!))) (Satellite (span 4 5) (rel2par Result) (Nucleus (leaf 4) (rel2par Joint) (text _!so (yes)_!)) (Nucleus (leaf 5) (rel2par Joint) (text _!we left_!))))".
Definition ex_dis_tree : ntree := match dis_file ex_dis_text with Ok t => t | Err _ => NLeaf "" end.
Lemma ex_dis_reads : dis_file ex_dis_text = Ok ex_dis_tree.
Proof. vm_compute. reflexivity. Qed.
Ltac unit_tac ms := eexists; split; [exists ms; split; [reflexivity|]; split; [vm_compute; reflexivity|]; split; [apply occursb_ok; vm_compute; reflexivity|apply (bool_decide_unpack _); vm_compute; exact I]|reflexivity].
Lemma ex_dis_form : doc_form ex_dis ex_dis_tree.
Proof.
  let v := eval vm_compute in ex_dis_tree in change ex_dis_tree with v. eexists. split; [|reflexivity]. split; [|split; [|exact I]]; (eexists; split; [|reflexivity]).
  - split; [unit_tac ["_!We"; "met_!"]|]. split; [unit_tac ["_!then"; "it"; "rained_!"]|]. split; [unit_tac ["_!a"; "lot_!"]|exact I].
  - split; [unit_tac ["_!so"; "(yes)_!"]|]. split; [unit_tac ["_!we"; "left_!"]|exact I].
Qed.
Lemma ex_dis_readable ns : readable ns true true ex_dis.
Proof. split; [|intros _; vm_compute; lia]. repeat (apply List.Forall_cons; [unfold combination_ok; vm_compute; lia|]). exact (List.Forall_nil _). Qed.
Example C93_hyp : dis_file ex_dis_text = Ok ex_dis_tree ∧ doc_form ex_dis ex_dis_tree ∧ readable "rst" true true ex_dis ∧
  doc_words ex_dis = ["then"; "it"; "rained"; "a"; "lot"; "we"; "left"] ∧ length (doc_links "rst" true ex_dis) = 12.
Proof. split; [apply ex_dis_reads|]. split; [apply ex_dis_form|]. split; [apply ex_dis_readable|]. split; vm_compute; reflexivity. Qed.

(** ** C94 What can be found in the graph *)
Theorem C94_nodes : ∀ name ns tokenize precedence s t d g, dis_file s = Ok t → doc_form d t → read_disgraph name ns tokenize precedence s = Ok g →
  ∀ n, n ∈ nodes g ↔ n = root_name ns d ∨ (∃ u, u ∈ read_of d ∧ n = name_of ns u) ∨ n ∈ doc_tokens ns tokenize d.
Proof.
  intros name ns tokenize precedence s t d g Ht Hd Hg n. destruct (doc_outcome ns name tokenize s t d precedence Ht Hd) as [(_ & g' & E & S & _)|(_ & e & E)]; [|congruence]. rewrite Hg in E. injection E as <-.
  rewrite (se_nodes _ _ _ _ _ S). apply known_names.
Qed.
Print Assumptions C94_nodes.
(** the text: the words of the units that are read *)
Theorem C94_text : ∀ name ns precedence s t d g k, dis_file s = Ok t → doc_form d t → read_disgraph name ns true precedence s = Ok g → NoDup (unit_ids (read_of d)) →
  text_tokens g (doc_words d) ∧ get_text k g None = Ok (str (joined (doc_words d))).
Proof.
  intros name ns precedence s t d g k Ht Hd Hg HN. destruct (doc_outcome ns name true s t d precedence Ht Hd) as [(_ & g' & E & S & H1 & _ & _ & H4 & _)|(_ & e & E)]; [|congruence]. rewrite Hg in E. injection E as <-.
  assert (HT : text_tokens g (doc_words d)) by (eapply words_text; [reflexivity|exact S|exact H1|exact H4|by apply tokens_distinct]). split; [exact HT|]. apply tokens2text_is. exact HT.
Qed.
Print Assumptions C94_text.
(** the first part of every span below the root is lost *)
Theorem C94_lost : ∀ name ns tokenize precedence s t d g, dis_file s = Ok t → doc_form d t → read_disgraph name ns tokenize precedence s = Ok g →
  NoDup (root_name ns d :: (name_of ns <$> all_of d)) →
  ∀ sat rel a b p ps v, Span sat rel a b (p :: ps) ∈ all_of d → v ∈ all_inside p → name_of ns v ∉ doc_tokens ns tokenize d → name_of ns v ∉ nodes g.
Proof.
  intros name ns tokenize precedence s t d g Ht Hd Hg [HR HD]%NoDup_cons sat rel a b p ps v Hs Hv Hk. destruct (doc_lost d sat rel a b p ps v) as [Ha Hl]; [by eapply NoDup_fmap_1|exact Hs|exact Hv|].
  rewrite (C94_nodes name ns tokenize precedence s t d g Ht Hd Hg). intros [H|[(u & Hu & H)|H]]; [| |done].
  - apply HR. rewrite <-H. by apply elem_of_list_fmap_1.
  - assert (Hu' : u ∈ all_of d) by (by apply read_of_all). apply elem_of_list_lookup in Ha as [i Hi], Hu' as [j Hj].
    assert (i = j) as ->; [|congruence]. eapply (proj1 (NoDup_alt _) HD); rewrite list_lookup_fmap; [by rewrite Hi|]. by rewrite Hj, H.
Qed.
Print Assumptions C94_lost.
(** if every span below the root has two parts, one unit for each part of the root is left *)
Theorem C94_binary : ∀ d, (∀ s r a b us, Span s r a b us ∈ all_of d → length us = 2) → length (filter is_unit (read_of d)) = length (dd_parts d).
Proof.
  intros d H. apply binary_units. intros u Hu. destruct u as [s r i x|s r a b us]; [by left|right]. apply H in Hu. cbn [parts_read]. destruct us as [|x [|y [|z us]]]; done.
Qed.
Print Assumptions C94_binary.
Example C94_hyp : NoDup (unit_ids (read_of ex_dis)) ∧ NoDup (root_name "rst" ex_dis :: (name_of "rst" <$> all_of ex_dis)) ∧
  name_of "rst" (Unit false "Joint" "1" "We met") ∉ doc_tokens "rst" true ex_dis.
Proof. split; [|split]; (apply (bool_decide_unpack _); vm_compute; exact I). Qed.
(** below a node from which a word can be reached, no words can be found *)
Theorem C94_no_span : ∀ name ns precedence s t d g, dis_file s = Ok t → doc_form d t → read_disgraph name ns true precedence s = Ok g →
  ∀ u n k, u ∈ read_of d → words_of u ≠ [] → below g n (name_of ns u) → (∃ e, get_span k g n = Err e) ∧ (nid_truthy n = true → ∃ e, get_text k g (Some n) = Err e).
Proof.
  intros name ns precedence s t d g Ht Hd Hg u n k Hu Hw Hb. destruct (doc_outcome ns name true s t d precedence Ht Hd) as [(_ & g' & E & S & _ & _ & _ & _ & _ & I)|(_ & e & E)]; [|congruence]. rewrite Hg in E. injection E as <-.
  pose proof (λ l, no_span ns true precedence d g S (proj1 I) u n k l eq_refl Hu Hw Hb) as HX. destruct (get_span k g n) as [l|e] eqn:E; [by destruct (HX l)|]. split; [by exists e|]. intros Hn. unfold get_text. rewrite Hn, E. by exists e.
Qed.
Print Assumptions C94_no_span.
(** in particular the text below the root of the document cannot be found *)
Theorem C94_no_root_text : ∀ name ns precedence s t d g, dis_file s = Ok t → doc_form d t → read_disgraph name ns true precedence s = Ok g → doc_words d ≠ [] →
  ¬ typed g ∧ ∀ k, ∃ e, get_text k g (Some (g_root g)) = Err e.
Proof.
  intros name ns precedence s t d g Ht Hd Hg Hw. pose proof (C93_lists name ns true precedence s t d g Ht Hd Hg) as (_ & _ & HR & _).
  assert (HA : (∃ g, read_disgraph name ns true precedence s = Ok g)) by (by exists g). apply (C93_accepted name ns true precedence s t d Ht Hd) in HA as [HC _].
  destruct (doc_outcome ns name true s t d precedence Ht Hd) as [(_ & g' & E & S & _ & _ & _ & _ & _ & I)|(_ & e & E)]; [|congruence]. rewrite Hg in E. injection E as <-.
  assert (Hu : ∃ u, u ∈ read_of d ∧ words_of u ≠ []).
  { unfold doc_words in Hw. destruct (read_of d ≫= words_of) as [|w l] eqn:Eb; [done|]. assert (Hin : w ∈ read_of d ≫= words_of) by (rewrite Eb; left). apply elem_of_list_bind in Hin as (u & Hin & Hu). exists u. split; [done|]. intros H0. rewrite H0 in Hin. by apply elem_of_nil in Hin. }
  destruct Hu as (u & Hu & Hw'). split; [by eapply (not_typed ns true precedence d g S (proj1 I) u)|]. intros k.
  destruct (C94_no_span name ns precedence s t d g Ht Hd Hg u (g_root g) k Hu Hw') as [_ H]; [|apply H; rewrite HR; unfold root_name, span_name; by destruct ns]. rewrite HR. by eapply (root_below ns true precedence d g S (proj1 I)).
Qed.
Print Assumptions C94_no_root_text.

(** ** C95 The graph of a rhetorical structure tree *)
Definition tree_written (r : rst) : Prop := multi_ok r ∧ Forall (λ p, dis_name p.1) (relations r) ∧ Forall dis_text (edus r) ∧ match r with Edu _ => False | _ => True end.
Theorem C95_document : ∀ r, tree_written r → ∃ s t, write_dis (rst_tree r) = Ok s ∧ dis_file s = Ok t ∧ doc_form (rst_doc r) t.
Proof.
  intros r (H1 & H2 & H3 & H4). destruct (rst_written r H1 H2 H3 H4) as (s & E1 & E2). exists s, (DisTree.root_of r). split; [exact E1|]. split; [exact E2|]. by apply rst_form.
Qed.
Print Assumptions C95_document.
(** a written tree can be read unless a satellite has, as the part of it that is read, a
    satellite *)
Theorem C95_accepted : ∀ name ns tokenize precedence r s, tree_written r → write_dis (rst_tree r) = Ok s →
  (∃ g, read_disgraph name ns tokenize precedence s = Ok g) ↔ fine_of r ∧ (precedence = true → tokenize = true ∧ 1 < length (kept_of r ≫= text_words)).
Proof.
  intros name ns tokenize precedence r s HW Hs. pose proof HW as (_ & _ & _ & H4). destruct (C95_document r HW) as (s' & t & E & Ht & Hd). rewrite Hs in E. injection E as <-.
  rewrite (C93_accepted name ns tokenize precedence s t _ Ht Hd). unfold readable. rewrite (doc_fine r H4), length_tokens, (kept_words r H4). destruct tokenize; split; intros [HF HP]; (split; [exact HF|]); intros Hpr; specialize (HP Hpr).
  - split; [done|exact HP].
  - apply HP.
  - lia.
  - destruct HP as [? _]. done.
Qed.
Print Assumptions C95_accepted.
(** and its text is that of the units that are left *)
Theorem C95_text : ∀ name ns precedence r s g k, tree_written r → write_dis (rst_tree r) = Ok s → read_disgraph name ns true precedence s = Ok g →
  get_text k g None = Ok (str (joined (kept_of r ≫= text_words))).
Proof.
  intros name ns precedence r s g k HW Hs Hg. pose proof HW as (_ & _ & _ & H4). destruct (C95_document r HW) as (s' & t & E & Ht & Hd). rewrite Hs in E. injection E as <-.
  destruct (C94_text name ns precedence s t _ g k Ht Hd Hg (rst_ids r H4)) as [_ H]. by rewrite (kept_words r H4) in H.
Qed.
Print Assumptions C95_text.
(** these are some of the units, in their order, and all of them only if the root has nothing
    but units below it *)
Theorem C95_kept : ∀ r, sublist (kept_of r) (edus r) ∧ (multi_ok r → kept_of r = edus r ↔ flat_tree r).
Proof. intros r. split; [apply kept_of_sublist|apply flat_kept]. Qed.
Print Assumptions C95_kept.
Definition ex_rst : rst := Mono "Cause" false (Multi "Joint" [Edu "It rains (a lot) here"; Mono "Elaboration" true (Edu "we stay") (Edu "at home"); Edu "we wait"]) (Edu "A storm came").
Example C95_hyp : tree_written ex_rst ∧ fine_of ex_rst ∧ kept_of ex_rst = ["A storm came"; "at home"; "we wait"] ∧ ¬ flat_tree ex_rst ∧
  ¬ fine_of (Mono "Cause" true (Edu "a") (Mono "Cause" true (Edu "b") (Edu "c"))).
Proof.
  split; [|split; [cbn; tauto|split; [reflexivity|split; [cbn; tauto|intros [_ [? _]]; discriminate]]]].
  split; [simpl; auto with lia|]. split; [repeat (apply List.Forall_cons; [cbn [fst]; dis_name_tac|]); constructor|]. split; [|exact I].
  apply List.Forall_cons; [dis_text_by ["A"; "storm"; "came"]|].
  apply List.Forall_cons; [dis_text_by ["It"; "rains"; "(a"; "lot)"; "here"]|].
  apply List.Forall_cons; [dis_text_by ["we"; "stay"]|].
  apply List.Forall_cons; [dis_text_by ["at"; "home"]|].
  apply List.Forall_cons; [dis_text_by ["we"; "wait"]|constructor].
Qed.
(** not every tree that is written can be read as a graph, and not all of its text is found *)
Theorem C95_all_trees_refuted : ¬ ∀ r s, tree_written r → write_dis (rst_tree r) = Ok s → ∃ g, read_disgraph "n" "rst" true false s = Ok g.
Proof.
  intros H. set (r := Mono "Cause" true (Edu "a") (Mono "Cause" true (Edu "b") (Edu "c"))). assert (HW : tree_written r).
  { split; [simpl; auto with lia|]. split; [repeat (apply List.Forall_cons; [cbn [fst]; dis_name_tac|]); constructor|]. split; [|exact I].
    apply List.Forall_cons; [dis_text_by ["a"]|]. apply List.Forall_cons; [dis_text_by ["b"]|]. apply List.Forall_cons; [dis_text_by ["c"]|constructor]. }
  destruct (C95_document r HW) as (s & t & Hs & _). apply (H r s HW) in Hs as HG. apply (C95_accepted _ _ _ _ r s HW Hs) in HG as [[_ [HF _]] _]. discriminate.
Qed.
Print Assumptions C95_all_trees_refuted.
Theorem C95_whole_text_refuted : ¬ ∀ r s g, tree_written r → write_dis (rst_tree r) = Ok s → read_disgraph "n" "rst" true false s = Ok g →
  get_text 1 g None = Ok (str (joined (edus r ≫= text_words))).
Proof.
  intros H. destruct C95_hyp as (HW & HF & _). destruct (C95_document ex_rst HW) as (s & t & Hs & _). assert (HG : ∃ g, read_disgraph "n" "rst" true false s = Ok g) by (apply (C95_accepted _ _ _ _ ex_rst s HW Hs); split; [exact HF|discriminate]).
  destruct HG as [g Hg]. pose proof (H ex_rst s g HW Hs Hg) as H1. rewrite (C95_text "n" "rst" false ex_rst s g 1 HW Hs Hg) in H1. revert H1. vm_compute. discriminate.
Qed.
Print Assumptions C95_whole_text_refuted.
