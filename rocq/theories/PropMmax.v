(** * PropMmax: properties C65-C68 (MMAX2 projects; see SpecMmax.v and WitMmax.v) *)
From stdpp Require Import relations.
From Verif Require Import PyBase DocGraph Relabel StrNum Query Text Rst Nltk Parsers Anaphora Conano Decour Ptb Convert Tiger Mmax.
From Verif Require Import SpecGraph DocGraphFacts AllHist History Witness GraphThms SpecImport ImportFacts SpecQuery SpanFacts QueryThms WitQuery SpecTiger WitTiger SpecMmax MmaxFacts MmaxDoc MmaxSpan MmaxQuery WitMmax.

(** ** C65: import *)
(** [order]: the order in which Python lists the levels; [r]: the sentences with their tokens, in text order *)
Theorem C65_project : ∀ base name ns precedence connected order p, let f := graph_name base name in
  order ≡ₚ filter (λ l, l ≠ "sentence") (dkeys (mx_levels p)) → project_complete base f precedence order p → project_plain base order p →
  ∃ g r, read_mmax base name ns precedence connected true order p = ((g, r.*2), None) ∧ Consistent g ∧
    r ≡ₚ sentence_list f p ∧ in_text_order r ∧
    has_nodes g (project_nodes base f ns order p r.*1) ∧ has_edges g (project_edges base ns precedence connected order p) ∧
    g_name g = f ∧ g_ns g = ns ∧ g_root g = doc_root ns ∧ g_tokens g = word_ids p ∧ g_sentences g = r.*1.
Proof.
  intros base name ns precedence connected order p f _ HC HP. destruct (project_ok ns base name precedence connected order p HC HP) as (g & r & E & H1 & H2 & HB & H3).
  exists g, r. split; [exact E|]. split; [apply HB|]. split; [exact H1|]. split; [exact H2|]. split; [apply HB|]. split; [apply HB|exact H3].
Qed.
Print Assumptions C65_project.
Example C65_hyp : mx_levels_read ≡ₚ filter (λ l, l ≠ "sentence") (dkeys (mx_levels mx_dog)) ∧
  project_complete "dog.mmax" (graph_name "dog.mmax" None) true mx_levels_read mx_dog ∧ project_plain "dog.mmax" mx_levels_read mx_dog.
Proof.
  split; [cbn; apply Permutation_swap|]. split; [apply check_project; vm_compute; reflexivity|apply check_plain; vm_compute; reflexivity].
Qed.
(** what the project needs for that *)
Theorem C65_accepted : ∀ base name ns precedence connected order p, project_plain base order p →
  (read_mmax base name ns precedence connected true order p).2 = None ↔ project_complete base (graph_name base name) precedence order p.
Proof. exact project_iff. Qed.
Print Assumptions C65_accepted.
(** an antecedent in another level ("primmark:markable_1"): every markable of the file gets that level as a layer *)
Theorem C65_antecedent_level_refuted : ∃ p g toks a, (read_mmax "dog.mmax" None "mmax" false false true mx_levels_read p) = ((g, toks), None) ∧
  project_complete "dog.mmax" "dog.mmax" false mx_levels_read p ∧ ("secmark", mx_m "markable_7" "word_1" "empty") ∈ markables "dog.mmax" mx_levels_read p ∧
  node_attrs g (NStr "markable_7") = Some a ∧ has_layer a "mmax:primmark".
Proof.
  set (p := mx_project [mx_m "markable_1" "word_1..word_2" "empty"] [mx_m "markable_7" "word_1" "empty"; mx_m "markable_8" "word_5" "primmark:markable_1"] mx_sents).
  exists p. set (r := read_mmax "dog.mmax" None "mmax" false false true mx_levels_read p). exists r.1.1, r.1.2, (default [] (node_attrs r.1.1 (NStr "markable_7"))).
  split; [vm_compute; reflexivity|]. split; [apply check_project; vm_compute; reflexivity|]. split; [left|]. split; [vm_compute; reflexivity|].
  exists ["mmax"; "mmax:markable"; "mmax:secmark"; "mmax:primmark"]. split; [vm_compute; reflexivity|]. right. right. right. left.
Qed.
Print Assumptions C65_antecedent_level_refuted.
(** ... and the label of the edge lacks a colon *)
Theorem C65_antecedent_label_refuted : ∃ p g toks a, (read_mmax "dog.mmax" None "mmax" false false true mx_levels_read p) = ((g, toks), None) ∧
  edge_attrs g (NStr "markable_8") (NStr "markable_1") (NInt 0) = Some a ∧ dget "label" a = Some (VStr "mmaxprimmark:antecedent").
Proof.
  set (p := mx_project [mx_m "markable_1" "word_1..word_2" "empty"] [mx_m "markable_8" "word_5" "primmark:markable_1"] mx_sents).
  exists p. set (r := read_mmax "dog.mmax" None "mmax" false false true mx_levels_read p). exists r.1.1, r.1.2, (default [] (edge_attrs r.1.1 (NStr "markable_8") (NStr "markable_1") (NInt 0))).
  split; [vm_compute; reflexivity|]. split; vm_compute; reflexivity.
Qed.
Print Assumptions C65_antecedent_label_refuted.
(** giving the graph a name makes the reader look for other files *)
Theorem C65_name_refuted : (read_mmax "dog.mmax" None "mmax" false false true mx_levels_read mx_dog).2 = None ∧
  (read_mmax "dog.mmax" (Some "corpus") "mmax" false false true mx_levels_read mx_dog).2 = Some IOError.
Proof. split; vm_compute; reflexivity. Qed.
Print Assumptions C65_name_refuted.
(** a project without sentence annotation cannot be read *)
Theorem C65_no_sentences_refuted : ∀ base name ns precedence connected order p, complete_words p → (precedence = true → 1 < length (mx_words p)) →
  complete_levels base order p → project_plain base order p → dget "sentence" (mx_levels p) = None →
  (read_mmax base name ns precedence connected true order p).2 ≠ None.
Proof.
  intros base name ns precedence connected order p _ _ _ HP Hs H. apply project_iff in H; [|exact HP]. destruct H as [_ _ _ [[ss Hf] _ _]]. unfold level_file in Hf. rewrite Hs in Hf. discriminate Hf.
Qed.
Print Assumptions C65_no_sentences_refuted.
Example C65_no_sentences_hyp : let p := MMAX mx_texts [("primmark", "_primmark_level.xml")] (λ f, dget f [("dog_primmark_level.xml", [mx_m "markable_1" "word_1..word_2" "empty"])]) in
  project_plain "dog.mmax" ["primmark"] p ∧ dget "sentence" (mx_levels p) = None ∧ (read_mmax "dog.mmax" None "mmax" false false true ["primmark"] p).2 = Some KeyError.
Proof. split; [apply check_plain; vm_compute; reflexivity|]. split; vm_compute; reflexivity. Qed.

(** ** C66: markables *)
(** a markable spans those words of its span that exist *)
Theorem C66_span : ∀ base name ns order p m, let f := graph_name base name in
  project_complete base f false order p → project_plain base order p → no_token_atts base order p → ids_apart base ns order p → m ∈ markables base order p →
  ∃ g toks l, read_mmax base name ns false false true order p = ((g, toks), None) ∧
    (∀ k, length (nodes g) < k → get_span k g (node_of "id" m.2) = Ok l) ∧ sorted nat_cmp l ∧
    ∀ t, t ∈ l ↔ t ∈ word_ids p ∧ ∃ m', m' ∈ markables base order p ∧ node_of "id" m'.2 = node_of "id" m.2 ∧ t ∈ span_words m'.2.
Proof.
  intros base name ns order p m f HC HP HT HA Hm. destruct (project_ok ns base name false false order p HC HP) as (g & r & E & _ & _ & HB & _ & Hns & _).
  assert (Hid : node_of "id" m.2 ∈ markable_ids base order p) by (apply elem_of_list_bind; exists m; split; [left|exact Hm]).
  assert (Hn : node_of "id" m.2 ∈ nodes g) by exact (markable_in_graph g base f ns order p r.*1 _ m HB Hm).
  destruct (project_span g base f ns order p r.*1 _ HB Hns HT HA Hn) as (l & H1 & H2 & H3). exists g, r.*2, l. split; [exact E|]. split; [exact H1|]. split; [exact H2|].
  intros t. rewrite (H3 t). unfold marks. split.
  - intros (Hw & [->|(_ & m' & Hm' & E' & Hs)]).
    + destruct (HA (node_of "id" m.2) (or_introl Hw)). right. exact Hid.
    + split; [exact Hw|]. exists m'. split; [exact Hm'|]. split; [symmetry; exact E'|exact Hs].
  - intros (Hw & m' & Hm' & E' & Hs). split; [exact Hw|]. right. split; [exact Hw|]. exists m'. split; [exact Hm'|]. split; [symmetry; exact E'|exact Hs].
Qed.
Print Assumptions C66_span.
Example C66_span_hyp : project_complete "dog.mmax" "dog.mmax" false mx_levels_read mx_dog ∧ project_plain "dog.mmax" mx_levels_read mx_dog ∧
  no_token_atts "dog.mmax" mx_levels_read mx_dog ∧ ids_apart "dog.mmax" "mmax" mx_levels_read mx_dog ∧
  ("primmark", mx_m "markable_2" "word_5,word_9" "markable_1;markable_3") ∈ markables "dog.mmax" mx_levels_read mx_dog.
Proof.
  split; [apply check_project; vm_compute; reflexivity|]. split; [apply check_plain; vm_compute; reflexivity|]. split; [apply check_no_token; vm_compute; reflexivity|].
  split; [apply check_apart; vm_compute; reflexivity|]. right. right. left.
Qed.
(** not if precedence relations are added: all the words that follow are spanned, too *)
Theorem C66_precedence_refuted : ∃ g toks l, read_mmax "dog.mmax" None "mmax" true false true mx_levels_read mx_dog = ((g, toks), None) ∧
  get_span 20 g (NStr "markable_1") = Ok l ∧ NStr "word_6" ∈ l.
Proof.
  set (r := read_mmax "dog.mmax" None "mmax" true false true mx_levels_read mx_dog). eexists r.1.1, r.1.2, _. split; [vm_compute; reflexivity|].
  split; [vm_compute; reflexivity|]. apply (bool_decide_unpack _); vm_compute; exact I.
Qed.
Print Assumptions C66_precedence_refuted.
(** if the graph is connected, its root has no span *)
Theorem C66_connected_refuted : ∃ g toks, read_mmax "dog.mmax" None "mmax" false true true mx_levels_read mx_dog = ((g, toks), None) ∧
  get_span 20 g (g_root g) = Err KeyError ∧ select_edges_by g None (Some points_to) = Err KeyError.
Proof.
  set (r := read_mmax "dog.mmax" None "mmax" false true true mx_levels_read mx_dog). exists r.1.1, r.1.2. split; [vm_compute; reflexivity|]. split; vm_compute; reflexivity.
Qed.
Print Assumptions C66_connected_refuted.
(** the chains of a level are the maximal chains of its antecedent relation *)
Theorem C66_chains : ∀ base name ns precedence order p level, let f := graph_name base name in
  project_complete base f precedence order p → project_plain base order p → level ≠ Some "markable" →
  (∀ l, level = Some l → plain_str (ns +:+ ":" +:+ l)) → (∀ n, ¬ tc (refers base order p level) n n) →
  ∃ g toks bound, read_mmax base name ns precedence false true order p = ((g, toks), None) ∧
    ∀ fuel res, bound < fuel → get_pointing_chains fuel g ((λ l, ns +:+ ":" +:+ l) <$> level) res →
      ∃ cs, res = Ok cs ∧ NoDup cs ∧ ∀ c, c ∈ cs ↔ maximal_chain (refers base order p level) c.
Proof.
  intros base name ns precedence order p level f HC HP Hm Hl Hac. destruct (project_ok ns base name precedence false order p HC HP) as (g & r & E & _ & _ & HB & _).
  destruct (project_chains g base f ns order p r.*1 precedence level HB Hm Hl Hac) as (bound & H). exists g, r.*2, bound. split; [exact E|exact H].
Qed.
Print Assumptions C66_chains.
Example C66_chains_hyp : project_complete "dog.mmax" "dog.mmax" true mx_levels_read mx_dog ∧ project_plain "dog.mmax" mx_levels_read mx_dog ∧
  plain_str "mmax:primmark" ∧ (∀ n, ¬ tc (refers "dog.mmax" mx_levels_read mx_dog (Some "primmark")) n n) ∧
  refers "dog.mmax" mx_levels_read mx_dog (Some "primmark") (NStr "markable_2") (NStr "markable_1").
Proof.
  split; [apply check_project; vm_compute; reflexivity|]. split; [apply check_plain; vm_compute; reflexivity|]. split; [apply plain_str_check; vm_compute; reflexivity|].
  split; [apply (check_refers (λ n, if decide (n = NStr "markable_2") then 1 else 0)); vm_compute; reflexivity|].
  exists ("primmark", mx_m "markable_2" "word_5,word_9" "markable_1;markable_3"). split; [right; right; left|]. split; [reflexivity|]. split; [reflexivity|]. left.
Qed.

(** ** C67: sentences *)
Theorem C67_sentences : ∀ base name ns precedence connected order p, let f := graph_name base name in
  project_complete base f precedence order p → project_plain base order p →
  ∃ g toks, read_mmax base name ns precedence connected true order p = ((g, toks), None) ∧
    zip (g_sentences g) toks ≡ₚ sentence_list f p ∧ length (g_sentences g) = length toks ∧ in_text_order (zip (g_sentences g) toks) ∧
    (NoDup (node_of "id" <$> sentences f p) → ∀ i s, g_sentences g !! i = Some s → ∃ a, node_attrs g s = Some a ∧ dget "tokens" a = Some (VObj i)).
Proof.
  intros base name ns precedence connected order p f HC HP. destruct (project_ok ns base name precedence connected order p HC HP) as (g & r & E & H1 & H2 & HB & _ & _ & _ & _ & Hs).
  exists g, r.*2. split; [exact E|]. rewrite Hs, zip_fst_snd. split; [exact H1|]. split; [by rewrite !fmap_length|]. split; [exact H2|].
  intros HD i s Hi. apply (project_tokens_attr g base f ns order p r.*1 _ i s HB); [|exact Hi].
  rewrite H1. unfold sentence_list. rewrite <-list_fmap_compose. exact HD.
Qed.
Print Assumptions C67_sentences.
Example C67_hyp : project_complete "dog.mmax" "dog.mmax" false mx_levels_read mx_dog ∧ project_plain "dog.mmax" mx_levels_read mx_dog ∧
  NoDup (node_of "id" <$> sentences "dog.mmax" mx_dog) ∧
  sentence_list "dog.mmax" mx_dog = [(NStr "markable_22", [NStr "word_5"; NStr "word_6"]); (NStr "markable_21", [NStr "word_1"; NStr "word_2"; NStr "word_3"; NStr "word_4"])].
Proof.
  split; [apply check_project; vm_compute; reflexivity|]. split; [apply check_plain; vm_compute; reflexivity|]. split; [apply (bool_decide_unpack _); vm_compute; exact I|vm_compute; reflexivity].
Qed.
(** a sentence all of whose words are missing, or no sentence at all, makes the project unreadable *)
Theorem C67_empty_sentence_refuted : ∃ p, project_plain "dog.mmax" mx_levels_read p ∧ Forall (λ x, has_att x "id" ∧ has_span x) (sentences "dog.mmax" p) ∧
  (read_mmax "dog.mmax" None "mmax" false false true mx_levels_read p).2 = Some IndexError.
Proof.
  exists (mx_project [] [] [mx_s "markable_21" "word_1..word_6"; mx_s "markable_22" "word_7..word_9"]). split; [apply check_plain; vm_compute; reflexivity|].
  split; [repeat apply List.Forall_cons; [..|apply List.Forall_nil]; (split; [eexists; reflexivity|apply has_spanb_ok; vm_compute; reflexivity])|]. vm_compute. reflexivity.
Qed.
Print Assumptions C67_empty_sentence_refuted.
Theorem C67_no_sentence_refuted : ∃ p, project_plain "dog.mmax" mx_levels_read p ∧ sentences "dog.mmax" p = [] ∧
  (read_mmax "dog.mmax" None "mmax" false false true mx_levels_read p).2 = Some ValueError.
Proof. exists (mx_project [] [] []). split; [apply check_plain; vm_compute; reflexivity|]. split; vm_compute; reflexivity. Qed.
Print Assumptions C67_no_sentence_refuted.

(** ** C68: text of spans, potential markables *)
Theorem C68_text : ∀ g renamed s l ws, spanstring2tokens g renamed s = Ok l → Forall2 (token_is g) l ws → spanstring2text g renamed s = Ok (str (joined ws)).
Proof. exact span_text. Qed.
Print Assumptions C68_text.
Example C68_text_hyp : let g := (read_mmax "dog.mmax" None "mmax" false false true mx_levels_read mx_dog).1.1 in
  spanstring2tokens g None (chs "word_2..word_3,word_9") = Ok [NStr "word_2"; NStr "word_3"] ∧ Forall2 (token_is g) [NStr "word_2"; NStr "word_3"] ["Hund"; "bellt"].
Proof.
  cbv zeta. split; [vm_compute; reflexivity|]. apply List.Forall2_cons; [|apply List.Forall2_cons; [|apply List.Forall2_nil]]; eexists; (split; [vm_compute; reflexivity|vm_compute; reflexivity]).
Qed.
(** the PPs, and the NPs that have no PP above them *)
Theorem C68_potential_markables : ∀ g, reachable no_bare_layers g → categorised g → ∃ l, potential_markables g = Ok l ∧
  ∀ n, n ∈ l ↔ phrase g n "PP" ∨ (has_cat g n "PP" ∧ ∃ m, phrase g m "NP" ∧ parent g n m) ∨ (phrase g n "NP" ∧ ∀ u, parent g u n → ¬ has_cat g u "PP").
Proof. intros g [C L]%reach_GInv HC. exact (potential_ok g C L HC). Qed.
Print Assumptions C68_potential_markables.

Example C68_potential_markables_hyp : reachable no_bare_layers ph_graph ∧ categorised ph_graph ∧ phrase ph_graph (NStr "pp") "PP" ∧ phrase ph_graph (NStr "np1") "NP".
Proof.
  split; [exact ph_reach|]. split; [apply check_categorised; vm_compute; reflexivity|].
  split; (eexists; split; [vm_compute; reflexivity|]; split; [|vm_compute; reflexivity]); eexists; (split; [vm_compute; reflexivity|]); right; left.
Qed.
(** a PP over an NP is listed twice *)
Theorem C68_twice_refuted : ∃ g l, reachable no_bare_layers g ∧ categorised g ∧ potential_markables g = Ok l ∧ ¬ NoDup l.
Proof.
  exists ph_graph. eexists. split; [exact ph_reach|]. split; [apply check_categorised; vm_compute; reflexivity|]. split; [vm_compute; reflexivity|].
  apply (bool_decide_unpack _). vm_compute. exact I.
Qed.
Print Assumptions C68_twice_refuted.
(** a Tiger document with a sentence of one token: its virtual root has no category *)
Theorem C68_virtual_root_refuted : ∃ x, Forall good_sentence (sentences_in x) ∧ (read_tiger "c" "tiger" x).2 = None ∧
  potential_markables (read_tiger "c" "tiger" x).1.1 = Err KeyError.
Proof.
  exists (tx_corpus [tx_hund; tx_headline "s2" "Endlich"]). split; [apply check_goods; vm_compute; reflexivity|]. split; vm_compute; reflexivity.
Qed.
Print Assumptions C68_virtual_root_refuted.
