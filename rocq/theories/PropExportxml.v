(** * PropExportxml: reading ExportXML documents (C87-C92) *)
From stdpp Require Import relations.
From Verif Require Import PyBase DocGraph Relabel StrNum Query Conano Exportxml SpecGraph SpecImport SpecQuery SpanFacts DocGraphFacts History SpecExportxml ExportxmlDoc ExportxmlSpan ExportxmlMore Witness WitExportxml.

(** ** C87 The graph of a document *)
Theorem C87_graph : ∀ name ns precedence o x, readable ns o precedence x → ∃ st, Exportxml.read_text name ns precedence o x = Ok st ∧
  says_exactly ns o precedence (root_of ns x) (read_of x) (xs_graph st) ∧ Consistent (xs_graph st).
Proof. intros name ns precedence o x H. destruct (doc_ok name ns precedence o x H) as (st & i & _ & E & S & _ & _ & _ & _ & _ & _ & _ & I). exists st. split; [exact E|]. split; [exact S|apply I]. Qed.
Print Assumptions C87_graph.
(** words and sentences in the order of the document, the root, and the name *)
Theorem C87_lists : ∀ name ns precedence o x st, Exportxml.read_text name ns precedence o x = Ok st → ∃ i, own_id x = Some i ∧
  g_ns (xs_graph st) = ns ∧ g_root (xs_graph st) = root_of ns x ∧ g_name (xs_graph st) = (match name with Some s => if decide (s = "") then i else s | None => i end) ∧
  g_tokens (xs_graph st) = tokens_of (read_of x) ∧ g_sentences (xs_graph st) = sentences_of (read_of x).
Proof. intros name ns precedence o x st H. pose proof (doc_only name ns precedence o x st H) as R. destruct (doc_ok name ns precedence o x R) as (st' & i & Hi & E & _ & H1 & H2 & H3 & H4 & H5 & _). rewrite H in E. injection E as <-. by exists i. Qed.
Print Assumptions C87_lists.
(** the attributes "tokens" and "connective" *)
Theorem C87_values : ∀ name ns precedence o x st, Exportxml.read_text name ns precedence o x = Ok st →
  (∀ n, dget n (xs_tokens st) = last_given n (token_lists (read_of x))) ∧ (∀ n, dget n (xs_connective st) = last_given n (connectives (read_of x))).
Proof. intros name ns precedence o x st H. pose proof (doc_only name ns precedence o x st H) as R. destruct (doc_ok name ns precedence o x R) as (st' & i & _ & E & _ & _ & _ & _ & _ & _ & H1 & H2 & _). rewrite H in E. by injection E as <-. Qed.
Print Assumptions C87_values.
Example C87_hyp : readable "exportxml" all_options false ex_doc ∧ length (links "exportxml" all_options (root_of "exportxml" ex_doc) (read_of ex_doc)) = 33 ∧
  tokens_of (read_of ex_doc) = [NStr "s1_1"; NStr "s1_2"; NStr "s2_1"; NStr "s2_2"; NStr "s2_3"].
Proof. split; [apply ex_readable|]. split; vm_compute; reflexivity. Qed.

(** ** C88 Which documents are read *)
Theorem C88_accepted : ∀ name ns precedence o x, (∃ st, Exportxml.read_text name ns precedence o x = Ok st) ↔ readable ns o precedence x.
Proof.
  intros name ns precedence o x. split; [intros [st H]; exact (doc_only name ns precedence o x st H)|]. intros H. destruct (C87_graph name ns precedence o x H) as (st & E & _). by exists st.
Qed.
Print Assumptions C88_accepted.
Example C88_hyp : readable "exportxml" all_options true ex_doc ∧ ¬ readable "exportxml" all_options false (exi "text" "t" [] [exi "sentence" "s1" [] [ex_w "s1_1" "a" []; exi "fragment" "f" [] []]]).
Proof.
  split; [apply ex_readable|]. intros H. apply (C88_accepted None) in H as [st H]. revert H. vm_compute. discriminate.
Qed.
(** the order of tokens cannot be added to a text of one word *)
Theorem C88_one_word_refuted : let x := exi "text" "t" [] [exi "sentence" "s1" [] [ex_w "s1_1" "Ja" []]] in
  readable "exportxml" all_options false x ∧ Exportxml.read_text None "exportxml" true all_options x = Err AssertionError.
Proof. split; [apply check_readable; vm_compute; exact I|]. vm_compute. reflexivity. Qed.

(** ** C89 How often an element is read *)
Theorem C89_words : ∀ name ns precedence o x st, flat_words x → Exportxml.read_text name ns precedence o x = Ok st → g_tokens (xs_graph st) = words_inside ([], x).
Proof. intros name ns precedence o x st HF H. destruct (C87_lists name ns precedence o x st H) as (i & _ & _ & _ & _ & H4 & _). by rewrite H4, flat_tokens. Qed.
Print Assumptions C89_words.
(** the edges of every element once, and those of the children of words once more *)
Theorem C89_edges : ∀ name ns precedence o x st, flat_words x → Exportxml.read_text name ns precedence o x = Ok st →
  has_edges (xs_graph st) (links ns o (root_of ns x) (inside ([], x)) ++ links ns o (root_of ns x) (word_children x) ++ if precedence then order_links ns (root_of ns x) (words_inside ([], x)) else []).
Proof.
  intros name ns precedence o x st HF H. pose proof (doc_only name ns precedence o x st H) as R. destruct (C87_graph name ns precedence o x R) as (st' & E & S & _). rewrite H in E. injection E as <-.
  eapply has_edges_perm; [|apply (se_edges _ _ _ _ _ _ S)]. rewrite app_assoc, flat_tokens by done. apply Permutation_app_tail. rewrite <-links_app. apply links_perm. by apply flat_read.
Qed.
Print Assumptions C89_edges.
Example C89_hyp : flat_words ex_doc ∧ length (word_children ex_doc) = 4 ∧ Exportxml.read_text None "exportxml" false all_options ex_doc = Ok (ex_state false all_options ex_doc).
Proof. split; [apply ex_flat|]. split; [vm_compute; reflexivity|]. apply ex_reads. vm_compute. exact I. Qed.
(** one anaphoric relation, two edges *)
Theorem C89_twice_refuted : ∃ k1 k2 a1 a2, let g := xs_graph (ex_state false all_options ex_doc) in
  length (tagged "relation" (inside ([], ex_doc))) = 1 ∧ k1 ≠ k2 ∧ edge_attrs g (NStr "s2_1") (NStr "s1_1") k1 = Some a1 ∧ edge_attrs g (NStr "s2_1") (NStr "s1_1") k2 = Some a2.
Proof.
  set (g := xs_graph (ex_state false all_options ex_doc)). exists (NInt 0), (NInt 1), (default [] (edge_attrs g (NStr "s2_1") (NStr "s1_1") (NInt 0))), (default [] (edge_attrs g (NStr "s2_1") (NStr "s1_1") (NInt 1))).
  cbv zeta. split; [vm_compute; reflexivity|]. split; [discriminate|]. split; vm_compute; reflexivity.
Qed.
Print Assumptions C89_twice_refuted.

(** ** C90 Spans *)
Notation spans_exactly g n P := (∃ l, (∀ k, length (nodes g) < k → get_span k g n = Ok l) ∧ sorted nat_cmp l ∧ ∀ t, t ∈ l ↔ P t).
Theorem C90_span : ∀ name ns o x st n, Exportxml.read_text name ns false o x = Ok st → no_token_atts x → acyclic (proper_over ns o x) → n ∈ nodes (xs_graph st) →
  spans_exactly (xs_graph st) n (λ t, t ∈ g_tokens (xs_graph st) ∧ rtc (over ns o x) n t).
Proof.
  intros name ns o x st n H HT HA Hn. pose proof (doc_only name ns false o x st H) as R. destruct (doc_ok name ns false o x R) as (st' & i & _ & E & S & Hns & _ & _ & HTK & _ & _ & _ & HI). rewrite H in E. injection E as <-.
  rewrite HTK. by apply x_span.
Qed.
Print Assumptions C90_span.
Lemma own_known name ns o x st p : Exportxml.read_text name ns false o x = Ok st → p ∈ inside ([], x) → own_node p → node_at p ∈ nodes (xs_graph st).
Proof.
  intros H Hp Op. pose proof (doc_only name ns false o x st H) as R. destruct (C87_graph name ns false o x R) as (st' & E & S & _). rewrite H in E. injection E as <-. apply (se_nodes _ _ _ _ _ _ S).
  right. apply elem_of_app. left. unfold facts. assert (HF : ∃ l a, (node_at p, l, a) ∈ about_nodes ns o p).
  { unfold own_node in Op. unfold about_nodes. cbv zeta. repeat (apply elem_of_cons in Op as [Op|Op]; [rewrite Op; repeat (rewrite decide_False by done); rewrite decide_True by done; eexists _, _; left|]). by apply elem_of_nil in Op. }
  destruct HF as (l & a & HF). apply elem_of_list_fmap. eexists (node_at p, l, a). split; [done|]. apply elem_of_list_bind. exists p. split; [done|by apply read_inside].
Qed.
(** discourse units and topics span the words inside them *)
Theorem C90_units : ∀ name ns o x st p, Exportxml.read_text name ns false o x = Ok st → no_token_atts x → acyclic (proper_over ns o x) → tidy ns x →
  p ∈ inside ([], x) → x_tag p.2 = "edu" ∨ x_tag p.2 = "topic" → spans_exactly (xs_graph st) (node_at p) (λ t, t ∈ words_inside p).
Proof.
  intros name ns o x st p H HT HA HY Hp Tp. assert (Tp' : x_tag p.2 ∈ ["edu"; "topic"]) by (destruct Tp as [-> | ->]; vdec). assert (Op : own_node p) by (unfold own_node; destruct Tp as [-> | ->]; vdec).
  destruct (C90_span name ns o x st (node_at p) H HT HA (own_known _ _ _ _ _ _ H Hp Op)) as (l & H1 & H2 & H3). exists l. split; [done|]. split; [done|]. intros t.
  destruct (C87_lists name ns false o x st H) as (_ & _ & _ & _ & _ & HTK & _). rewrite H3, HTK. by apply reach_words.
Qed.
Print Assumptions C90_units.
(** a range of units spans the words of the units inside it *)
Theorem C90_ranges : ∀ name ns o x st p, Exportxml.read_text name ns false o x = Ok st → no_token_atts x → acyclic (proper_over ns o x) → tidy ns x →
  p ∈ inside ([], x) → x_tag p.2 = "edu-range" → spans_exactly (xs_graph st) (node_at p) (λ t, ∃ q, q ∈ inside p ∧ x_tag q.2 = "edu" ∧ t ∈ words_inside q).
Proof.
  intros name ns o x st p H HT HA HY Hp Tp. assert (Op : own_node p) by (unfold own_node; rewrite Tp; vdec).
  destruct (C90_span name ns o x st (node_at p) H HT HA (own_known _ _ _ _ _ _ H Hp Op)) as (l & H1 & H2 & H3). exists l. split; [done|]. split; [done|]. intros t.
  destruct (C87_lists name ns false o x st H) as (_ & _ & _ & _ & _ & HTK & _). rewrite H3, HTK. by apply reach_range.
Qed.
Print Assumptions C90_ranges.
(** phrases and sentences span the words that they dominate *)
Theorem C90_phrases : ∀ name ns o x st p, Exportxml.read_text name ns false o x = Ok st → no_token_atts x → acyclic (proper_over ns o x) → tidy ns x →
  p ∈ inside ([], x) → phrase p → spans_exactly (xs_graph st) (node_at p) (λ t, t ∈ g_tokens (xs_graph st) ∧ rtc (dominated x) (node_at p) t).
Proof.
  intros name ns o x st p H HT HA HY Hp Pp. assert (Op : own_node p) by (unfold own_node; destruct Pp as [-> | ->]; vdec).
  destruct (C90_span name ns o x st (node_at p) H HT HA (own_known _ _ _ _ _ _ H Hp Op)) as (l & H1 & H2 & H3). exists l. split; [done|]. split; [done|]. intros t. rewrite H3. by rewrite (reach_phrase ns o x HY p t Hp Pp).
Qed.
Print Assumptions C90_phrases.
(** a sentence that has all and only the phrases and words inside it spans the words inside it *)
Theorem C90_sentences : ∀ name ns o x st p, Exportxml.read_text name ns false o x = Ok st → no_token_atts x → acyclic (proper_over ns o x) → tidy ns x → acyclic (dominated x) →
  p ∈ inside ([], x) → x_tag p.2 = "sentence" → closed_sentence x p → spans_exactly (xs_graph st) (node_at p) (λ t, t ∈ words_inside p).
Proof.
  intros name ns o x st p H HT HA HY HD Hp Tp HC. assert (Op : own_node p) by (unfold own_node; rewrite Tp; vdec).
  destruct (C90_span name ns o x st (node_at p) H HT HA (own_known _ _ _ _ _ _ H Hp Op)) as (l & H1 & H2 & H3). exists l. split; [done|]. split; [done|]. intros t.
  destruct (C87_lists name ns false o x st H) as (_ & _ & _ & _ & _ & HTK & _). rewrite H3, HTK. by apply reach_sentence.
Qed.
Print Assumptions C90_sentences.
Example C90_hyp : Exportxml.read_text None "exportxml" false all_options ex_doc = Ok (ex_state false all_options ex_doc) ∧ no_token_atts ex_doc ∧ acyclic (proper_over "exportxml" all_options ex_doc) ∧ tidy "exportxml" ex_doc ∧ acyclic (dominated ex_doc) ∧
  (let p := at_id ex_doc "s2" in p ∈ inside ([], ex_doc) ∧ x_tag p.2 = "sentence" ∧ closed_sentence ex_doc p ∧ words_inside p = [NStr "s2_1"; NStr "s2_2"; NStr "s2_3"]) ∧
  (let p := at_id ex_doc "edu_1_0" in p ∈ inside ([], ex_doc) ∧ x_tag p.2 = "edu" ∧ words_inside p = [NStr "s1_1"; NStr "s1_2"]) ∧
  (let p := at_id ex_doc "range_1" in p ∈ inside ([], ex_doc) ∧ x_tag p.2 = "edu-range").
Proof.
  split; [apply ex_reads; vm_compute; exact I|]. split; [apply ex_no_token|]. split; [apply ex_over|]. split; [apply ex_tidy|]. split; [apply ex_dominated|]. cbv zeta.
  split; [split; [apply at_id_in; vm_compute; exact I|]; split; [vm_compute; reflexivity|]; split; [apply ex_closed|vm_compute; reflexivity]|].
  split; [split; [apply at_id_in; vm_compute; exact I|]; split; vm_compute; reflexivity|]. split; [apply at_id_in; vm_compute; exact I|vm_compute; reflexivity].
Qed.
(** with an order of tokens, a unit spans the rest of the text *)
Theorem C90_precedence_refuted : let g := xs_graph (ex_state true all_options ex_doc) in Exportxml.read_text None "exportxml" true all_options ex_doc = Ok (ex_state true all_options ex_doc) ∧
  words_inside (at_id ex_doc "edu_1_0") = [NStr "s1_1"; NStr "s1_2"] ∧ ∃ l, get_span 60 g (NStr "edu_1_0") = Ok l ∧ NStr "s2_3" ∈ l.
Proof.
  cbv zeta. split; [apply ex_reads; vm_compute; exact I|]. split; [vm_compute; reflexivity|].
  set (r := get_span 60 _ _). exists (match r with Ok l => l | Err _ => [] end). split; [vm_compute; reflexivity|]. vdec.
Qed.
Print Assumptions C90_precedence_refuted.

(** ** C91 Ignored elements *)
Theorem C91_ignored : ∀ name ns precedence o x st, Exportxml.read_text name ns precedence o x = Ok st →
  says_exactly ns all_options precedence (root_of ns x) (filter (kept o) (read_of x)) (xs_graph st) ∧ g_tokens (xs_graph st) = tokens_of (read_of x).
Proof.
  intros name ns precedence o x st H. pose proof (doc_only name ns precedence o x st H) as R. destruct (C87_graph name ns precedence o x R) as (st' & E & S & _). rewrite H in E. injection E as <-.
  split; [by apply kept_says|]. by destruct (C87_lists name ns precedence o x st H) as (_ & _ & _ & _ & _ & HTK & _).
Qed.
Print Assumptions C91_ignored.
Example C91_hyp : let o := XOpts false true true in Exportxml.read_text None "exportxml" false o ex_doc = Ok (ex_state false o ex_doc) ∧ length (read_of ex_doc) = 23 ∧ length (filter (kept o) (read_of ex_doc)) = 19.
Proof. cbv zeta. split; [apply ex_reads; vm_compute; exact I|]. split; vm_compute; reflexivity. Qed.

(** ** C92 The corpus *)
(** next() gives one document after the other, then stops *)
Theorem C92_next : ∀ name texts k, nexts k (open_corpus name texts) = (document_of <$> take k texts) ++ replicate (k - length texts) (Err StopIteration).
Proof. intros name texts k. apply nexts_rest. Qed.
Print Assumptions C92_next.
(** after any calls and a reset, the list of documents is that of the file *)
Theorem C92_list : ∀ name texts ks gs, all_read texts gs → (list_corpus (reset_corpus (foldl after_call (open_corpus name texts) ks))).2 = Ok gs.
Proof. intros name texts ks gs H. rewrite (list_all _ gs); [done|]. cbn [reset_corpus xc_rest]. by rewrite calls_file. Qed.
Print Assumptions C92_list.
(** without a reset, the list continues, and a second list is empty *)
Theorem C92_again : ∀ c c' gs, list_corpus c = (c', Ok gs) → all_read (xc_rest c) gs ∧ (list_corpus c').2 = Ok [] ∧ (next_document c').2 = Err StopIteration.
Proof.
  intros c c' gs H. pose proof (list_only c c' gs H) as HA. split; [done|]. rewrite (list_all c gs HA) in H. injection H as <-. done.
Qed.
Print Assumptions C92_again.
(** the length is the number of texts in the file, and does not change what follows *)
Theorem C92_length : ∀ name texts ks, name ≠ "tuebadz-8.0-mit-NE+Anaphern+Diskurs.exml.xml" →
  (corpus_len (foldl after_call (open_corpus name texts) ks)).2 = Z.of_nat (length texts) ∧ ∀ c, xc_rest (corpus_len c).1 = xc_rest c.
Proof. intros name texts ks H. split; [by apply len_ok|apply len_rest]. Qed.
Print Assumptions C92_length.
Theorem C92_length_refuted : ∃ name texts, (corpus_len (open_corpus name texts)).2 ≠ Z.of_nat (length texts).
Proof. exists "tuebadz-8.0-mit-NE+Anaphern+Diskurs.exml.xml", [ex_doc]. vm_compute. discriminate. Qed.
Print Assumptions C92_length_refuted.
Example C92_hyp : ∃ gs, all_read [ex_doc; ex_doc] gs ∧ length gs = 2.
Proof.
  set (r := document_of ex_doc). exists [match r with Ok g => g | Err _ => ex_state false all_options ex_doc end; match r with Ok g => g | Err _ => ex_state false all_options ex_doc end]. split; [|reflexivity].
  assert (E : r = Ok (match r with Ok g => g | Err _ => ex_state false all_options ex_doc end)) by (vm_compute; reflexivity). apply List.Forall2_cons; [exact E|]. apply List.Forall2_cons; [exact E|apply List.Forall2_nil].
Qed.
