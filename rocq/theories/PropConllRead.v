(** * PropConllRead: properties C54 to C57, reading CoNLL files

    [read_conll name ns o precedence text]: ConllDocumentGraph(path, conll_format=...,
    deprel_attr=..., feat_attr=..., head_attr=..., name=name, namespace=ns,
    precedence=precedence) for a file with the contents [text]; [o] has the other
    parameters.  The result is the graph with the token lists of its sentences, and the
    exception raised, if any. *)
From stdpp Require Import sorting.
From Verif Require Import PyBase DocGraph Relabel SpecGraph DocGraphFacts History Effects AllHist StrNum Query SpecQuery SpanFacts Text Rst Nltk SpecParse SpecImport ImportFacts SpecDecour Brat Conll SpecConll ConllFacts ConllRead SpecConllRead ConllReadText ConllReadFacts ConllReadSpan ConllReadWalk ConllReadBack Witness PropConll.

(** ** C54: the graph of a file *)
Theorem C54_import : ∀ name ns o doc wss text, options_ok o → readable (co_format o) doc → written doc text → words_of_doc o doc wss → Forall plain_words wss →
  ∃ g, read_conll name ns o false text = ((g, conll_tokens wss), None) ∧
    g_name g = name ∧ g_ns g = ns ∧ g_root g = conll_root ns ∧
    g_sentences g = (λ i, NStr (sent_id (S i))) <$> seq 0 (length wss) ∧ g_tokens g = concat (conll_tokens wss) ∧
    (∀ i ts, conll_tokens wss !! i = Some ts → sentence_tokens (g, conll_tokens wss) (NStr (sent_id (S i))) = Ok ts) ∧
    Consistent g ∧ nodes g ≡ₚ ids (conll_nodes ns wss) ∧ Forall (node_is g) (conll_nodes ns wss) ∧ has_edges g (conll_edges ns wss).
Proof.
  intros name ns o doc wss text HO HR HT HW HP. destruct (read_ok o name ns HO doc wss text HR HT HW HP) as (g & E & HG). exists g. split; [exact E|]. split; [apply HG|]. split; [apply HG|]. split; [apply HG|]. split; [apply HG|]. split; [apply HG|].
  split; [|split; [apply (doc_GInv name ns wss g HG)|split; [apply (doc_nodes name ns wss g HG)|split; [|apply (doc_edges name ns wss g HG)]]]].
  - intros i ts Hi. unfold conll_tokens in Hi. rewrite list_lookup_imap in Hi. destruct (wss !! i) as [ws|] eqn:Hw; [|done]. injection Hi as <-. by apply (doc_sentence name ns wss g HG).
  - apply Forall_forall. intros x Hx. by apply (doc_node name ns wss g HG).
Qed.
Print Assumptions C54_import.

(** Every readable file has words. *)
Theorem C54_words : ∀ o doc, options_ok o → readable (co_format o) doc → ∃ wss, words_of_doc o doc wss.
Proof. exact words_total. Qed.
Print Assumptions C54_words.

(** The tokens of the graph are those of the file. *)
Theorem C54_text : ∀ name ns o doc wss text g ts, options_ok o → readable (co_format o) doc → written doc text → words_of_doc o doc wss → Forall plain_words wss →
  Forall (Forall (λ w, "token" ∉ (w_feats w).*1)) wss → read_conll name ns o false text = ((g, ts), None) →
  Forall2 (Forall2 (token_is g)) ts ((λ ws : list word, w_form <$> ws) <$> wss) ∧ g_tokens g = concat ts.
Proof.
  intros name ns o doc wss text g ts HO HR HT HW HP HF E. destruct (read_ok o name ns HO doc wss text HR HT HW HP) as (g' & E' & HG). rewrite E in E'. injection E' as -> ->. split; [by apply (doc_text name ns wss g' HG)|apply HG].
Qed.
Print Assumptions C54_text.

(** Files are read, or rejected with TypeError or ValueError, as the format demands. *)
Theorem C54_accepted : ∀ name ns o text, options_ok o → (∃ doc, readable (co_format o) doc ∧ written doc text) → ∃ s, read_conll name ns o false text = (s, None).
Proof. intros name ns o text HO. exact (read_good o name ns HO text). Qed.
Print Assumptions C54_accepted.
Theorem C54_rejected : ∀ name ns o text precedence, options_ok o → (∀ doc, readable (co_format o) doc → ¬ written doc text) →
  ∃ s e, read_conll name ns o precedence text = (s, Some e) ∧ (e = TypeError ∨ e = ValueError).
Proof.
  intros name ns o text precedence HO HN. destruct (read_bad o name ns HO text precedence HN) as (s & e & E & He). exists s, e. split; [exact E|]. unfold conll_errors in He. rewrite !elem_of_cons, elem_of_nil in He. tauto.
Qed.
Print Assumptions C54_rejected.
Theorem C54_format : ∀ name ns o text precedence, co_format o ≠ "2009" → co_format o ≠ "2010" → ∃ s, read_conll name ns o precedence text = (s, Some AssertionError).
Proof.
  intros name ns o text precedence H1 H2. destruct (conll_start name ns) as (g0 & E0 & _). unfold read_conll. fold (conll_root ns). cbv zeta. rewrite E0. rewrite decide_False; [by eexists|]. rewrite !elem_of_cons, elem_of_nil. tauto.
Qed.
Print Assumptions C54_format.

(** the example *)
Definition ex_row (i w feat hd rel : string) : line := LRow (chs <$> [i; w; "l" +:+ w; "_"; "N"; "_"; "_"; feat; "_"; hd; "_"; rel; "_"; "_"]).
Definition ex_options : conll_options := ConllOptions "2009" "pdeprel" "pfeat" "phead".
Definition ex_doc (h : string) : list (list line) :=
  [[LComment (chs " a comment"); ex_row "1" "Die" "Fem|Sg" "2" "NK"; ex_row "2" "Katze" "Nom|3|x" "3" "SB"; ex_row "3" "miaut" "person=3|tense=*|number=sg" "0" "ROOT"];
   [ex_row "1" "Nein" "_" h "--"]].
Definition ex_word (i : string) (n : Z) (w : string) (fs : list (string * pyval)) (hd rel feat : string) : word :=
  Word i n w hd rel fs (zip (columns "2009") [i; w; "l" +:+ w; "_"; "N"; "_"; "_"; feat; "_"; hd; "_"; rel; "_"; "_"]).
Definition ex_die : word := ex_word "1" 1 "Die" [("gender", VStr "fem"); ("number", VStr "sg")] "2" "NK" "Fem|Sg".
Definition ex_katze : word := ex_word "2" 2 "Katze" [("case", VStr "nom"); ("person", VInt 3)] "3" "SB" "Nom|3|x".
Definition ex_miaut : word := ex_word "3" 3 "miaut" [("person", VInt 3); ("number", VStr "sg")] "0" "ROOT" "person=3|tense=*|number=sg".
Definition ex_nein (h : string) : word := ex_word "1" 1 "Nein" [] h "--" "_".
Definition ex_words (h : string) : list (list word) := [[ex_die; ex_katze; ex_miaut]; [ex_nein h]].
Ltac bd := apply (bool_decide_unpack _); vm_compute; exact I.
Ltac notin := let H := fresh in intros ? H; unfold known_values in H; repeat (apply elem_of_cons in H as [H|H]; [injection H as H _; discriminate H|]); by apply elem_of_nil in H.
Lemma ex_value c vs v : dget c (zip (columns "2009") (str <$> vs)) = Some v → value "2009" c vs v.
Proof. apply value_dget, NoDup_columns. Qed.
Lemma ex_options_ok : options_ok ex_options.
Proof. split; bd. Qed.
Lemma ex_line_ok i w feat hd rel : bool_decide (Forall (λ v, SpecConll.tab ∉ v ∧ newline ∉ v) (chs <$> [i; w; "l" +:+ w; "_"; "N"; "_"; "_"; feat; "_"; hd; "_"; rel; "_"; "_"])) = true →
  bool_decide (head (joined [SpecConll.tab] (chs <$> [i; w; "l" +:+ w; "_"; "N"; "_"; "_"; feat; "_"; hd; "_"; rel; "_"; "_"])) ≠ Some "#"%char) = true → (∃ z, is_integer (chs i) z) → line_ok "2009" (ex_row i w feat hd rel).
Proof.
  intros H1 H2 (z & Hz). split; [by apply bool_decide_eq_true in H1|]. split; [by apply bool_decide_eq_true in H2|]. split; [rewrite decide_False by done; apply (bool_decide_unpack _); vm_compute; exact I|].
  exists i, z. split; [exists 0; done|done].
Qed.
Lemma ex_readable h : h ∈ ["0"; "_"] → readable "2009" (ex_doc h).
Proof.
  intros Hh. split.
  - apply List.Forall_cons; [|apply List.Forall_cons; [|by apply List.Forall_nil]].
    + split; [done|]. apply List.Forall_cons; [change (newline ∉ chs " a comment"); bd|]. do 3 (apply List.Forall_cons; [apply ex_line_ok; [vm_compute; reflexivity|vm_compute; reflexivity|eexists; apply is_integer_int; vm_compute; reflexivity]|]). by apply List.Forall_nil.
    + split; [done|]. apply List.Forall_cons; [|by apply List.Forall_nil]. rewrite !elem_of_cons, elem_of_nil in Hh. destruct Hh as [-> | [-> | []]]; (apply ex_line_ok; [vm_compute; reflexivity|vm_compute; reflexivity|eexists; apply is_integer_int; vm_compute; reflexivity]).
  - rewrite !elem_of_cons, elem_of_nil in Hh. destruct Hh as [-> | [-> | []]]; (split; (eexists; split; vm_compute; reflexivity)).
Qed.
Lemma ex_words_of h : h ∈ ["0"; "_"] → words_of_doc ex_options (ex_doc h) (ex_words h).
Proof.
  intros Hh. assert (HV : ∀ (v : string) f, (v, f) ∈ known_values → value_feature (chs v) (Some f)) by (intros v f; apply VF_known).
  assert (HB : ∀ w i n x fs hd rel feat, w = ex_word i n x fs hd rel feat → is_integer (chs i) n → features (chs feat) fs → word_of ex_options (chs <$> [i; x; "l" +:+ x; "_"; "N"; "_"; "_"; feat; "_"; hd; "_"; rel; "_"; "_"]) w).
  { intros w i n x fs hd rel feat -> Hi Hf. split; [by exists 0|]. split; [done|]. split; [by exists 1|]. split; [by exists 9|]. split; [by exists 11|]. split; [exists feat; split; [by exists 7|done]|].
    cbn [w_values ex_word]. f_equal. rewrite <-list_fmap_compose. rewrite <-(list_fmap_id [i; x; "l" +:+ x; "_"; "N"; "_"; "_"; feat; "_"; hd; "_"; rel; "_"; "_"]) at 1. apply list_fmap_ext. intros k s _. unfold compose. by rewrite str_chs. }
  apply List.Forall2_cons; [|apply List.Forall2_cons; [|constructor]]; cbn [rows omap list_omap ex_row].
  - apply List.Forall2_cons; [|apply List.Forall2_cons; [|apply List.Forall2_cons; [|constructor]]]; (eapply HB; [reflexivity|apply is_integer_int; vm_compute; reflexivity|]).
    + exists [chs "Fem"; chs "Sg"], [Some ("gender", VStr "fem"); Some ("number", VStr "sg")]. split; [bd|]. split; [done|]. split; [reflexivity|]. split; [|reflexivity]. rewrite decide_False by bd. repeat (apply List.Forall2_cons; [apply HV; bd|]). constructor.
    + exists [chs "Nom"; chs "3"; chs "x"], [Some ("case", VStr "nom"); Some ("person", VInt 3); None]. split; [bd|]. split; [done|]. split; [reflexivity|]. split; [|reflexivity]. rewrite decide_False by bd. do 2 (apply List.Forall2_cons; [apply HV; bd|]). apply List.Forall2_cons; [apply VF_unknown; notin|constructor].
    + exists [chs "person=3"; chs "tense=*"; chs "number=sg"], [Some ("person", VInt 3); None; Some ("number", VStr "sg")]. split; [bd|]. split; [done|]. split; [reflexivity|]. split; [|reflexivity]. rewrite decide_True by bd.
      apply List.Forall2_cons; [apply (NF_person (chs "3")); [bd|apply is_integer_int; vm_compute; reflexivity]|]. apply List.Forall2_cons; [apply (NF_star (chs "tense")); [bd|done]|]. apply List.Forall2_cons; [exact (NF_pair (chs "number") (chs "sg") ltac:(bd) ltac:(bd) ltac:(done) ltac:(done))|constructor].
  - apply List.Forall2_cons; [|constructor]. eapply HB; [reflexivity|apply is_integer_int; vm_compute; reflexivity|]. exists [chs "_"], [None]. split; [bd|]. split; [done|]. split; [reflexivity|]. split; [|reflexivity]. rewrite decide_False by bd. apply List.Forall2_cons; [apply VF_unknown; notin|constructor].
Qed.
Lemma ex_plain h : h ∈ ["0"; "_"] → Forall plain_words (ex_words h).
Proof.
  intros Hh. apply List.Forall_cons; [|apply List.Forall_cons; [|by apply List.Forall_nil]].
  - split; [bd|]. repeat (apply List.Forall_cons; [unfold no_colon; bd|]). by apply List.Forall_nil.
  - split; [bd|]. apply List.Forall_cons; [|by apply List.Forall_nil]. rewrite !elem_of_cons, elem_of_nil in Hh. destruct Hh as [-> | [-> | []]]; (unfold no_colon; bd).
Qed.
Definition ex_text (h : string) : chars := joined [newline; newline] (sentence_text <$> ex_doc h) ++ [newline].
Lemma ex_written h : written (ex_doc h) (ex_text h).
Proof. exists [], [newline]. split; [by apply List.Forall_nil|]. split; [apply List.Forall_cons; [reflexivity|by apply List.Forall_nil]|done]. Qed.
Example C54_hyp : options_ok ex_options ∧ readable "2009" (ex_doc "_") ∧ written (ex_doc "_") (ex_text "_") ∧ words_of_doc ex_options (ex_doc "_") (ex_words "_") ∧ Forall plain_words (ex_words "_") ∧
  Forall (Forall (λ w, "token" ∉ (w_feats w).*1)) (ex_words "_") ∧ (∀ doc, readable "2009" doc → ¬ written doc (chs "no columns")).
Proof.
  split; [apply ex_options_ok|]. split; [apply ex_readable; bd|]. split; [apply ex_written|]. split; [apply ex_words_of; bd|]. split; [apply ex_plain; bd|]. split; [bd|].
  intros doc HR HT. destruct (read_good ex_options "d" "c" ex_options_ok (chs "no columns")) as (s & E); [by exists doc|]. vm_compute in E. discriminate E.
Qed.

(** A feature that is called "token" replaces the text of the word. *)
Theorem C54_text_refuted : ∃ doc text wss g ts, readable "2009" doc ∧ written doc text ∧ words_of_doc ex_options doc wss ∧ Forall plain_words wss ∧
  read_conll "d" "conll" ex_options false text = ((g, ts), None) ∧ (λ ws : list word, w_form <$> ws) <$> wss = [["Nein"]] ∧ ts = [[tok_id 1 "1"]] ∧ token_is g (tok_id 1 "1") "Ja".
Proof.
  assert (HR : readable "2009" [[ex_row "1" "Nein" "token=Ja" "0" "--"]]).
  { split; [|split; (eexists; split; vm_compute; reflexivity)]. apply List.Forall_cons; [|by apply List.Forall_nil]. split; [done|]. apply List.Forall_cons; [|by apply List.Forall_nil]. apply ex_line_ok; [vm_compute; reflexivity|vm_compute; reflexivity|eexists; apply is_integer_int; vm_compute; reflexivity]. }
  exists [[ex_row "1" "Nein" "token=Ja" "0" "--"]], (sentence_text [ex_row "1" "Nein" "token=Ja" "0" "--"]), [[ex_word "1" 1 "Nein" [("token", VStr "Ja")] "0" "--" "token=Ja"]].
  eexists _, _. split; [exact HR|]. split; [exists [], []; split; [by apply List.Forall_nil|]; split; [by apply List.Forall_nil|]; by rewrite app_nil_r|].
  split.
  { apply List.Forall2_cons; [|constructor]. apply List.Forall2_cons; [|constructor]. split; [by exists 0|]. split; [apply is_integer_int; vm_compute; reflexivity|]. split; [by exists 1|]. split; [by exists 9|]. split; [by exists 11|]. split; [|vm_compute; reflexivity].
    exists "token=Ja". split; [by exists 7|]. exists [chs "token=Ja"], [Some ("token", VStr "Ja")]. split; [bd|]. split; [done|]. split; [reflexivity|]. split; [|reflexivity]. rewrite decide_True by bd.
    apply List.Forall2_cons; [exact (NF_pair (chs "token") (chs "Ja") ltac:(bd) ltac:(bd) ltac:(done) ltac:(done))|constructor]. }
  split. { apply List.Forall_cons; [|by apply List.Forall_nil]. split; [bd|]. apply List.Forall_cons; [unfold no_colon; bd|by apply List.Forall_nil]. }
  split; [vm_compute; reflexivity|]. split; [reflexivity|]. split; [vm_compute; reflexivity|]. eexists. split; vm_compute; reflexivity.
Qed.
Print Assumptions C54_text_refuted.

(** Two rows with the same word number are one node, which is listed twice. *)
Theorem C54_same_number_refuted : ∃ doc text g t, readable "2009" doc ∧ written doc text ∧ length (rows (concat doc)) = 2 ∧
  read_conll "d" "conll" ex_options false text = ((g, [[t; t]]), None) ∧ token_is g t "Ja" ∧ g_tokens g = [t; t].
Proof.
  assert (HR : readable "2009" [[ex_row "1" "Nein" "_" "0" "--"; ex_row "1" "Ja" "_" "0" "--"]]).
  { split; [|split; (eexists; split; vm_compute; reflexivity)]. apply List.Forall_cons; [|by apply List.Forall_nil]. split; [done|]. do 2 (apply List.Forall_cons; [apply ex_line_ok; [vm_compute; reflexivity|vm_compute; reflexivity|eexists; apply is_integer_int; vm_compute; reflexivity]|]). by apply List.Forall_nil. }
  exists [[ex_row "1" "Nein" "_" "0" "--"; ex_row "1" "Ja" "_" "0" "--"]], (sentence_text [ex_row "1" "Nein" "_" "0" "--"; ex_row "1" "Ja" "_" "0" "--"]).
  eexists _, _. split; [exact HR|]. split; [exists [], []; split; [by apply List.Forall_nil|]; split; [by apply List.Forall_nil|]; by rewrite app_nil_r|]. split; [reflexivity|].
  split; [vm_compute; reflexivity|]. split; [eexists; split; vm_compute; reflexivity|vm_compute; reflexivity].
Qed.
Print Assumptions C54_same_number_refuted.

(** ** C55: spans *)
(** Without cycles, the nodes below a word (or sentence) are the words it governs. *)
Theorem C55_below : ∀ name ns o doc wss text g ts, options_ok o → readable (co_format o) doc → written doc text → words_of_doc o doc wss → Forall plain_words wss → Forall no_cycle wss →
  read_conll name ns o false text = ((g, ts), None) → ∀ i ws h t, wss !! i = Some ws → no_colon h →
  below g (head_node (S i) h) t ↔ t = head_node (S i) h ∨ ∃ w, governed ws h w ∧ t = tok_id (S i) (w_id w).
Proof.
  intros name ns o doc wss text g ts HO HR HT HW HP HC E. destruct (read_ok o name ns HO doc wss text HR HT HW HP) as (g' & E' & HG). rewrite E in E'. injection E' as -> ->.
  intros i ws h t Hi Hh. apply (doc_below name ns wss g' HG HP (words_no_colon o doc wss HW) HC i ws h t Hi Hh).
Qed.
Print Assumptions C55_below.
(** If the words are numbered from 1, the span of a word (or sentence) is the list of words
    it governs and itself, in the order of the file. *)
Theorem C55_span : ∀ name ns o doc wss text g ts, options_ok o → readable (co_format o) doc → written doc text → words_of_doc o doc wss → Forall plain_words wss → Forall no_cycle wss →
  read_conll name ns o false text = ((g, ts), None) → ∀ i ws h l, wss !! i = Some ws → numbered_words ws → no_colon h → head_node (S i) h ∈ nodes g →
  sublist l ws → (∀ w, w ∈ ws → w ∈ l ↔ governed ws h w ∨ w_id w = h) →
  ∀ k, length (nodes g) < k → get_span k g (head_node (S i) h) = Ok ((λ w, tok_id (S i) (w_id w)) <$> l).
Proof.
  intros name ns o doc wss text g ts HO HR HT HW HP HC E. destruct (read_ok o name ns HO doc wss text HR HT HW HP) as (g' & E' & HG). rewrite E in E'. injection E' as -> ->.
  intros i ws h l Hi HN Hh Hin Hs Hl. exact (head_span name ns wss g' HG HP (words_no_colon o doc wss HW) HC i ws h l Hi HN Hh Hin Hs Hl).
Qed.
Print Assumptions C55_span.
(** If the words are numbered from 1 and each sentence governs all of its words, the spans of
    a sentence and of the root are the tokens of the sentence and of the document. *)
Theorem C55_whole : ∀ name ns o doc wss text g ts, options_ok o → readable (co_format o) doc → written doc text → words_of_doc o doc wss → Forall plain_words wss →
  read_conll name ns o false text = ((g, ts), None) → Forall numbered_words wss → Forall (λ ws, Forall (governed ws "0") ws) wss →
  ∀ k, length (nodes g) < k → get_span k g (g_root g) = Ok (g_tokens g) ∧ ∀ i l, ts !! i = Some l → get_span k g (NStr (sent_id (S i))) = Ok l.
Proof.
  intros name ns o doc wss text g ts HO HR HT HW HP E HN HG0. destruct (read_ok o name ns HO doc wss text HR HT HW HP) as (g' & E' & HG). rewrite E in E'. injection E' as -> ->.
  assert (HC : Forall no_cycle wss). { eapply Forall_impl; [exact HG0|]. intros ws H w Hw. exists "0". split; [by left|]. rewrite Forall_forall in H. by apply H. }
  pose proof (words_no_colon o doc wss HW) as HI. intros k Hk. split.
  - rewrite (fi_root _ _ _ _ HG), (fi_toks _ _ _ _ HG). exact (root_span name ns wss g' HG HP HI HC HN HG0 k Hk).
  - intros i l Hl. unfold conll_tokens in Hl. rewrite list_lookup_imap in Hl. destruct (wss !! i) as [ws|] eqn:Hi; [|done]. injection Hl as <-. change (NStr (sent_id (S i))) with (head_node (S i) "0").
    rewrite Forall_forall in HN, HG0. pose proof (HN ws (elem_of_list_lookup_2 _ _ _ Hi)) as Hn. pose proof (HG0 ws (elem_of_list_lookup_2 _ _ _ Hi)) as Hg. rewrite Forall_forall in Hg.
    refine (head_span name ns wss g' HG HP HI HC i ws "0" ws Hi Hn zero_no_colon _ _ _ k Hk); [by apply (sent_in name ns wss g' HG i ws)|done|]. intros w Hw. split; [intros _; left; by apply Hg|done].
Qed.
Print Assumptions C55_whole.
Lemma ex_governed h : Forall (governed [ex_die; ex_katze; ex_miaut] "0") [ex_die; ex_katze; ex_miaut] ∧ (h = "0" → Forall (governed [ex_nein h] "0") [ex_nein h]).
Proof.
  assert (H3 : governed [ex_die; ex_katze; ex_miaut] "0" ex_miaut) by (apply G_here; [do 2 right; left|done]).
  assert (H2 : governed [ex_die; ex_katze; ex_miaut] "0" ex_katze) by (apply (G_up _ _ ex_katze ex_miaut); [right; left|do 2 right; left|done|done|exact H3]).
  assert (H1 : governed [ex_die; ex_katze; ex_miaut] "0" ex_die) by (apply (G_up _ _ ex_die ex_katze); [left|right; left|done|done|exact H2]).
  split; [apply List.Forall_cons; [done|]; apply List.Forall_cons; [done|]; apply List.Forall_cons; [done|by apply List.Forall_nil]|]. intros ->. apply List.Forall_cons; [|by apply List.Forall_nil]. apply G_here; [left|done].
Qed.
Lemma ex_no_cycle h : h ∈ ["0"; "_"] → Forall no_cycle (ex_words h).
Proof.
  intros Hh. destruct (ex_governed h) as [H1 _]. apply List.Forall_cons; [|apply List.Forall_cons; [|by apply List.Forall_nil]].
  - intros w Hw. exists "0". split; [by left|]. rewrite Forall_forall in H1. by apply H1.
  - intros w Hw%elem_of_list_singleton. subst w. exists h. split; [|apply G_here; [left|done]]. rewrite !elem_of_cons, elem_of_nil in Hh. destruct Hh as [-> | [-> | []]]; [by left|right; bd].
Qed.
Lemma ex_numbered h : Forall numbered_words (ex_words h).
Proof. apply List.Forall_cons; [|apply List.Forall_cons; [|by apply List.Forall_nil]]; (intros j w Hj; repeat (destruct j as [|j]; [injection Hj as <-; reflexivity|]; try (rewrite lookup_cons_ne_0 in Hj by done)); done). Qed.
Example C55_hyp : Forall no_cycle (ex_words "_") ∧ Forall numbered_words (ex_words "0") ∧ Forall (λ ws, Forall (governed ws "0") ws) (ex_words "0") ∧
  (∀ w, w ∈ [ex_die; ex_katze; ex_miaut] → w ∈ [ex_die; ex_katze] ↔ governed [ex_die; ex_katze; ex_miaut] "2" w ∨ w_id w = "2") ∧
  ∃ g ts, read_conll "d" "conll" ex_options false (ex_text "0") = ((g, ts), None) ∧ get_span 9 g (tok_id 1 "2") = Ok [tok_id 1 "1"; tok_id 1 "2"] ∧
    get_span 9 g (NStr (sent_id 1)) = Ok [tok_id 1 "1"; tok_id 1 "2"; tok_id 1 "3"].
Proof.
  split; [apply ex_no_cycle; bd|]. split; [apply ex_numbered|]. destruct (ex_governed "0") as [H1 H2]. split; [apply List.Forall_cons; [done|]; apply List.Forall_cons; [by apply H2|by apply List.Forall_nil]|]. split.
  - intros w Hw. rewrite !elem_of_cons, elem_of_nil in Hw. rewrite !elem_of_cons, elem_of_nil. destruct Hw as [-> | [-> | [-> | []]]].
    + split; [|tauto]. intros _. left. apply G_here; [left|done].
    + split; [|tauto]. intros _. by right.
    + split; [intros [H|[H|[]]]; [apply (f_equal w_id) in H; discriminate H|apply (f_equal w_id) in H; discriminate H]|]. intros [H|H]; [|discriminate H]. exfalso. inversion H as [w Hw E|w v Hw Hv E H0 HG]; subst; [discriminate E|by apply H0].
  - eexists _, _. split; [vm_compute; reflexivity|]. split; vm_compute; reflexivity.
Qed.

(** ** C56: traverse_dependencies_up *)
(** The values of a column of the heads of a word, from the nearest on. *)
Theorem C56_heads : ∀ name ns o doc wss text g ts, options_ok o → readable (co_format o) doc → written doc text → words_of_doc o doc wss → Forall plain_words wss →
  read_conll name ns o false text = ((g, ts), None) → ∀ i ws w l h c, wss !! i = Some ws → w ∈ ws → heads ws w l h → c ∈ columns (co_format o) →
  ∀ k, length l < k → traverse_up k g (tok_id (S i) (w_id w)) c = Ok (column_values c l).
Proof.
  intros name ns o doc wss text g ts HO HR HT HW HP E. destruct (read_ok o name ns HO doc wss text HR HT HW HP) as (g' & E' & HG). rewrite E in E'. injection E' as -> ->.
  intros i ws w l h c Hi Hw HH Hc. refine (columns_up name ns wss g' HG HP i ws w l h c Hi Hw HH (column_no_colon _ _ Hc) _).
  assert (HB : forallb (λ c, bool_decide (c ∉ ["sent_pos"; "word_pos"; "label"; "layers"; "tokens"])) (columns (co_format o)) = true) by (unfold columns; destruct (decide _); vm_compute; reflexivity).
  rewrite forallb_forall in HB. apply elem_of_list_In, HB in Hc. by apply bool_decide_eq_true in Hc.
Qed.
Print Assumptions C56_heads.
(** If a word is its own head, directly or not, the walk does not end. *)
Theorem C56_cycle : ∀ name ns o doc wss text g ts, options_ok o → readable (co_format o) doc → written doc text → words_of_doc o doc wss → Forall plain_words wss →
  read_conll name ns o false text = ((g, ts), None) → ∀ i ws w c, wss !! i = Some ws → governed ws (w_id w) w → w_id w ≠ "0" →
  ∀ k, traverse_up k g (tok_id (S i) (w_id w)) c = Err OutOfFuel.
Proof.
  intros name ns o doc wss text g ts HO HR HT HW HP E. destruct (read_ok o name ns HO doc wss text HR HT HW HP) as (g' & E' & HG). rewrite E in E'. injection E' as -> ->.
  intros i ws w c Hi Hw H0 k. exact (cycle_diverges name ns wss g' HG HP i ws c k Hi w Hw H0).
Qed.
Print Assumptions C56_cycle.
Example C56_hyp : heads [ex_die; ex_katze; ex_miaut] ex_die [ex_katze; ex_miaut] "0" ∧ column_values "lemma" [ex_katze; ex_miaut] = [VStr "lKatze"; VStr "lmiaut"] ∧
  ∃ w, governed [w] (w_id w) w ∧ w_id w ≠ "0" ∧ plain_words [w] ∧ words_of_doc ex_options [[ex_row "1" "Nein" "_" "1" "--"]] [[w]].
Proof.
  split; [|split; [vm_compute; reflexivity|]].
  - apply (H_up _ _ ex_katze); [right; left|done|done|]. apply (H_up _ _ ex_miaut); [do 2 right; left|done|done|]. apply (H_end _ ex_miaut). by left.
  - exists (ex_nein "1"). split; [apply G_here; [left|done]|]. split; [done|]. split; [split; [bd|apply List.Forall_cons; [unfold no_colon; bd|by apply List.Forall_nil]]|].
    apply List.Forall2_cons; [|constructor]. apply List.Forall2_cons; [|constructor]. split; [by exists 0|]. split; [apply is_integer_int; vm_compute; reflexivity|]. split; [by exists 1|]. split; [by exists 9|]. split; [by exists 11|]. split; [|vm_compute; reflexivity].
    exists "_". split; [by exists 7|]. exists [chs "_"], [None]. split; [bd|]. split; [done|]. split; [reflexivity|]. split; [|reflexivity]. rewrite decide_False by bd. apply List.Forall2_cons; [apply VF_unknown; notin|constructor].
Qed.

(** ** C57: what write_conll writes can be read *)
(** The words and the division into sentences come back; one sentence without words is
    added; the sentence nodes dominate nothing. *)
Theorem C57_back : ∀ name ns o words cols, options_ok o → co_format o = "2009" → co_feat o ∉ ["word_id"; "token"] → co_head o ∉ ["word_id"; "token"] →
  Forall (Forall one_field) words → Forall (Forall (λ c, SpecConll.tab ∉ c ∧ newline ∉ c)) cols → Forall2 (λ ws cs, length ws = length cs) words cols → Forall (λ ws, ws ≠ []) (tail words) →
  ∃ g ts, read_conll name ns o false (conll_file words cols) = ((g, ts), None) ∧ Forall2 (Forall2 (token_is g)) ts (words ++ [[]]) ∧ g_tokens g = concat ts ∧
    Forall2 (λ s l, sentence_tokens (g, ts) s = Ok l) (g_sentences g) ts ∧ ∀ s k, s ∈ g_sentences g → length (nodes g) < k → get_span k g s = Ok [].
Proof.
  intros name ns o words cols HO HF H1 H2 HW HCol HL HT.
  assert (HT' : Forall (λ p, back_lines p ≠ []) (tail (zip words cols))).
  { clear -HL HT. destruct HL as [|ws cs words cols _ HL]; [by apply List.Forall_nil|]. cbn [tail zip_with] in HT |- *. induction HL as [|ws' cs' words cols Hl HL IH]; [by apply List.Forall_nil|]. apply Forall_cons in HT as [Hne HT]. cbn [zip_with]. apply List.Forall_cons; [|by apply IH].
    destruct ws' as [|w ws']; [done|]. destruct cs' as [|c cs']; [done|]. done. }
  pose proof (back_readable words cols HW HCol HT') as HR. rewrite <-HF in HR. pose proof (back_words_of o HO HF H1 H2 words cols) as HWd. pose proof (back_plain o words cols) as HP.
  assert (Hwr : written (back_doc words cols) (conll_file words cols)) by (exists [], []; split; [by apply List.Forall_nil|]; split; [by apply List.Forall_nil|]; rewrite app_nil_r; by apply back_text).
  destruct (read_ok o name ns HO _ _ _ HR Hwr HWd HP) as (g & E & HG). exists g, (conll_tokens (back_wss o words cols)). split; [exact E|].
  assert (Hno : Forall (Forall (λ w, "token" ∉ (w_feats w).*1)) (back_wss o words cols)).
  { apply Forall_forall. intros ws Hws. apply Forall_forall. intros w Hw. destruct (back_word_cases o _ _ _ _ Hws Hw) as (i & x & c & ->). apply not_elem_of_nil. }
  split; [pose proof (doc_text name ns _ g HG Hno) as Ht; by rewrite back_forms in Ht|]. split; [apply HG|]. split.
  - rewrite (fi_sents _ _ _ _ HG). apply Forall2_same_length_lookup_2; [unfold conll_tokens; by rewrite fmap_length, seq_length, imap_length|]. intros i s l Hs Hl. rewrite list_lookup_fmap in Hs. apply fmap_Some in Hs as (j & Hj & ->). apply lookup_seq in Hj as [-> _].
    unfold conll_tokens in Hl. rewrite list_lookup_imap in Hl. destruct (back_wss o words cols !! i) as [ws|] eqn:Hw; [|done]. injection Hl as <-. by apply (doc_sentence name ns _ g HG).
  - intros s k Hs Hk. rewrite (fi_sents _ _ _ _ HG) in Hs. apply elem_of_list_fmap in Hs as (i & -> & Hi). apply elem_of_seq in Hi. destruct (lookup_lt_is_Some_2 (back_wss o words cols) i) as (ws & Hw); [lia|].
    pose proof (words_no_colon o _ _ HWd) as HI. pose proof (back_no_cycle o words cols) as HC. change (NStr (sent_id (S i))) with (head_node (S i) "0").
    assert (Hin : head_node (S i) "0" ∈ nodes g) by (by apply (sent_in name ns _ g HG i ws)). destruct (span_of name ns _ g HG HP HI HC _ Hin) as (l & Hl & _ & _ & Hel). rewrite (Hl k Hk). f_equal. destruct l as [|t l]; [done|]. exfalso.
    destruct (Hel t) as [Ht _]. destruct (Ht ltac:(left)) as [Htk Hb]. apply (doc_below name ns _ g HG HP HI HC i ws "0" t Hw zero_no_colon) in Hb as [->|(w & Hg & _)]; [by apply (sent_not_token name ns _ g HG i ws Hw) in Htk|].
    apply (back_governed o words cols ws "0" w (elem_of_list_lookup_2 _ _ _ Hw)) in Hg. discriminate Hg.
Qed.
Print Assumptions C57_back.
(** Export and import of a document. *)
Theorem C57_round : ∀ name ns o g0 clayer mlayer toks_of sents words order, options_ok o → co_format o = "2009" → co_feat o ∉ ["word_id"; "token"] → co_head o ∉ ["word_id"; "token"] →
  exportable g0 clayer mlayer toks_of sents words → (∀ l, order l ≡ₚ l) → Forall (Forall one_field) words → Forall (λ ws, ws ≠ []) (tail words) →
  ∃ bound, ∀ fuel r, bound < fuel → write_conll fuel g0 clayer mlayer toks_of order r →
  ∃ text g ts, r = Ok text ∧ read_conll name ns o false text = ((g, ts), None) ∧ Forall2 (Forall2 (token_is g)) ts (words ++ [[]]) ∧ g_tokens g = concat ts.
Proof.
  intros name ns o g0 clayer mlayer toks_of sents words order HO HF H1 H2 HX Hord HW HT. destruct (conll_main g0 clayer mlayer toks_of sents words order HX Hord) as (b & Hb). exists b. intros fuel r Hlt Hr.
  destruct (Hb fuel r Hlt Hr) as (chains & ms & span & cols & _ & _ & _ & -> & Hc).
  assert (HCol : Forall (Forall cell_free) cols).
  { clear -Hc. induction Hc as [|ts cs sents cols H Hc IH]; constructor; [|done]. clear -H. induction H as [|t c ts cs H _ IH]; constructor; [|done]. by eapply column_free. }
  assert (HL : Forall2 (λ ws cs, length ws = length cs) words cols).
  { pose proof (SpecConll.ex_words _ _ _ _ _ _ HX) as Hw. clear -Hc Hw. revert words Hw. induction Hc as [|ts cs sents cols H Hc IH]; intros words Hw; inversion Hw as [|? ws ? words' H1 H2]; subst; constructor; [|by apply IH].
    apply Forall2_length in H, H1. lia. }
  destruct (C57_back name ns o words cols HO HF H1 H2 HW HCol HL HT) as (g & ts & E & Ht & Hg & _). by exists (conll_file words cols), g, ts.
Qed.
Print Assumptions C57_round.
Example C57_hyp : options_ok ex_options ∧ exportable (cf_graph false) (Some "x:coref") None cf_toks cf_sents cf_words ∧ Forall (λ ws, ws ≠ []) (tail cf_words) ∧
  ∃ g ts, read_conll "d" "conll" ex_options false (conll_file cf_words [[chs "(0|(1)"; chs "0)"; chs "_"]; [chs "(0)"; chs "_"]]) = ((g, ts), None) ∧
    ts = [[tok_id 1 "1"; tok_id 1 "2"; tok_id 1 "3"]; [tok_id 2 "1"; tok_id 2 "2"]; []].
Proof. split; [apply ex_options_ok|]. split; [apply cf_exportable|]. split; [bd|]. eexists _, _. split; vm_compute; reflexivity. Qed.

(** An empty sentence after the first one makes the file unreadable. *)
Theorem C57_empty_refuted : ∃ words cols s, Forall2 (λ ws cs, length ws = length cs) words cols ∧ Forall (Forall one_field) words ∧
  read_conll "d" "conll" ex_options false (conll_file words cols) = (s, Some TypeError).
Proof.
  exists [["Hi"]; []], [[chs "_"]; []]. eexists. split; [apply List.Forall2_cons; [done|]; apply List.Forall2_cons; [done|constructor]|]. split; [|vm_compute; reflexivity].
  apply List.Forall_cons; [|apply List.Forall_cons; [by apply List.Forall_nil|by apply List.Forall_nil]]. apply List.Forall_cons; [|by apply List.Forall_nil]. unfold one_field. split; bd.
Qed.
Print Assumptions C57_empty_refuted.
