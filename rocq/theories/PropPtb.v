(** * C39: reading Penn Treebank parses *)
From Verif Require Import PyBase DocGraph SpecGraph GraphThms Relabel StrNum Query SpecQuery SpecImport Rst Conano ImportFacts Ptb SpecPtb PtbFacts PtbSpan Witness.

(** ** The document: one node per constituent and word, ids all different *)
Theorem C39_import : ∀ name ns ignore ts, Forall ptb_sentence_tree ts →
  ∃ g, read_ptb name ns false None ignore (Some ts) = (g, None) ∧ ptb_document name ns (negb ignore) ts g ∧
    NoDup (NInt 0 :: ((λ x, x.1.2) <$> (doc_places (negb ignore) (NInt 0) 1 ts).2)).
Proof.
  intros name ns ignore ts HF. destruct (read_ptb_ok name ns ignore ts HF) as (g & E & HS). exists g. split; [done|]. split.
  - destruct HS as [HB H1 H2 H3 H4 H5]. split; [done..|apply HB|apply HB].
  - apply NoDup_cons. split; [by apply (ps_root (negb ignore) ts)|by apply (ps_NoDup (negb ignore) ts)].
Qed.
Print Assumptions C39_import.
(** a document with two sentences, brackets, traces and a unary phrase *)
Definition pt_word (tag w : string) : ntree := NTree tag [NLeaf w].
Definition pt_doc : list ntree :=
  [NTree "S" [NTree "NP-SBJ" [pt_word "DT" "the"; pt_word "NN" "dog"]; NTree "VP" [pt_word "VBD" "was"; NTree "VP" [pt_word "VBN" "seen"; NTree "NP" [pt_word "-NONE-" "*-1"]]]; pt_word "." "."];
   NTree "FRAG" [pt_word "-LRB-" "-LRB-"; NTree "NP" [pt_word "NN" "end"]; pt_word "-NONE-" "*"; pt_word "-RRB-" "-RRB-"]].
Lemma pt_doc_ok : Forall ptb_sentence_tree pt_doc.
Proof.
  assert (HW : ∀ tag w, w ≠ "-NONE-" → ptb_tree (pt_word tag w)) by (intros; by apply PT_word).
  apply List.Forall_cons; [|apply List.Forall_cons; [|apply List.Forall_nil]]; (eexists _, _; split; [reflexivity|]);
    repeat first [apply List.Forall_nil | apply List.Forall_cons | apply HW; discriminate | apply PT_phrase].
Qed.
Example C39_import_hyp : Forall ptb_sentence_tree pt_doc ∧
  (doc_places false (NInt 0) 1 pt_doc).2 =
    [([NInt 0], NInt 1, PkPhrase "S" None);
     ([NInt 1; NInt 0], NInt 2, PkPhrase "NP-SBJ" (Some "NP-SBJ")); ([NInt 2; NInt 1; NInt 0], NInt 3, PkToken "the" "DT"); ([NInt 2; NInt 1; NInt 0], NInt 5, PkToken "dog" "NN");
     ([NInt 1; NInt 0], NInt 7, PkPhrase "VP" (Some "VP")); ([NInt 7; NInt 1; NInt 0], NInt 8, PkToken "was" "VBD");
     ([NInt 7; NInt 1; NInt 0], NInt 10, PkPhrase "VP" (Some "VP")); ([NInt 10; NInt 7; NInt 1; NInt 0], NInt 11, PkToken "seen" "VBN"); ([NInt 10; NInt 7; NInt 1; NInt 0], NInt 13, PkPhrase "NP" None);
     ([NInt 1; NInt 0], NInt 15, PkToken "." ".");
     ([NInt 0], NInt 17, PkPhrase "FRAG" None); ([NInt 17; NInt 0], NInt 18, PkToken "(" "-LRB-"); ([NInt 17; NInt 0], NInt 20, PkPhrase "NP" None); ([NInt 20; NInt 17; NInt 0], NInt 21, PkToken "end" "NN");
     ([NInt 17; NInt 0], NInt 24, PkToken ")" "-RRB-")].
Proof. split; [exact pt_doc_ok|vm_compute; reflexivity]. Qed.

(** ** The tokens are the words of the text, in order and without traces *)
Theorem C39_tokens : ∀ name ns ignore ts g, Forall ptb_sentence_tree ts → read_ptb name ns false None ignore (Some ts) = (g, None) →
  text_tokens g (concat (map (sentence_words (negb ignore)) ts)).
Proof.
  intros name ns ignore ts g HF E. destruct (read_ptb_ok name ns ignore ts HF) as (g' & E' & HS). rewrite E in E'. injection E' as <-.
  destruct (doc_shape (negb ignore) (NInt 0) ts HF 1) as [k' [_ _ _ <-]]. unfold text_tokens. rewrite (s_tokens _ _ _ _ _ _ _ _ HS). apply tokens_are. intros path n w tag. by eapply place_token.
Qed.
Print Assumptions C39_tokens.
Example C39_tokens_hyp : Forall ptb_sentence_tree pt_doc ∧ concat (map (sentence_words false) pt_doc) = ["the"; "dog"; "was"; "seen"; "."; "("; "end"; ")"] ∧
  concat (map (sentence_words true) pt_doc) = ["the"; "dog"; "was"; "seen"; "."; "("; "end"; "*"; ")"].
Proof. split; [exact pt_doc_ok|]. split; vm_compute; reflexivity. Qed.

(** ** Every sentence spans exactly its own words, and the sentences together span
    all tokens in order *)
Theorem C39_sentence_spans : ∀ name ns ignore ts g, Forall ptb_sentence_tree ts → read_ptb name ns false None ignore (Some ts) = (g, None) →
  ∃ spans, g_tokens g = concat spans ∧
    Forall2 (λ s l, ∀ k, length (nodes g) < k → get_span k g s = Ok l) (g_sentences g) spans ∧
    Forall2 (λ l t, Forall2 (token_is g) l (sentence_words (negb ignore) t)) spans ts.
Proof.
  intros name ns ignore ts g HF E. destruct (read_ptb_ok name ns ignore ts HF) as (g' & E' & HS). rewrite E in E'. injection E' as <-.
  exists ((λ x, place_tokens x.2) <$> split_places (negb ignore) (NInt 0) 1 ts). split; [|split].
  - rewrite (s_tokens _ _ _ _ _ _ _ _ HS), doc_split. cbn [snd]. generalize (split_places (negb ignore) (NInt 0) 1 ts). intros l. induction l as [|[k p] l IH]; [done|]. rewrite !fmap_cons. cbn [concat snd]. by rewrite place_tokens_app, IH.
  - rewrite (s_sentences _ _ _ _ _ _ _ _ HS), doc_split. cbn [fst]. apply Forall2_fmap_2, Forall_Forall2_diag, Forall_forall. intros x Hx k Hk.
    rewrite (ptb_spans name ns (negb ignore) ts g HF HS (NInt x.1)); [f_equal; by apply split_spans| |done].
    destruct (b_nodes _ _ _ (s_built _ _ _ _ _ _ _ _ HS)) as [HN _]. rewrite HN, fmap_cons. right. change (NInt x.1 ∈ ids (place_node ns <$> (doc_places (negb ignore) (NInt 0) 1 ts).2)). rewrite ids_places.
    clear -Hx HF. revert Hx. generalize 1%Z. induction HF as [|t ts Ht HF IH]; intros k; cbn [split_places doc_places]; [by intros ?%elem_of_nil|].
    destruct (sentence_places (negb ignore) (NInt 0) k t) as [p k1] eqn:EP. destruct (sentence_shape _ _ _ _ _ _ Ht EP) as [_ (l & p' & -> & _)]. specialize (IH k1). destruct (doc_places (negb ignore) (NInt 0) k1 ts) as [s q]. cbn [fst snd] in *.
    intros [->|H]%elem_of_cons; [left|]. unfold place_ids. rewrite fmap_app. apply elem_of_app. right. by apply IH.
  - assert (HT : ∀ x, x ∈ split_places (negb ignore) (NInt 0) 1 ts → Forall2 (token_is g) (place_tokens x.2) (place_words x.2)).
    { intros x Hx. apply tokens_are. intros path n w tag Hin. eapply (place_token name ns (negb ignore) ts g HS). rewrite doc_split. cbn [snd]. apply elem_of_list_In, in_concat. exists x.2. split; [|by apply elem_of_list_In]. apply elem_of_list_In. by apply elem_of_list_fmap_1. }
    pose proof (split_words (negb ignore) ts HF 1) as HW. apply Forall2_fmap_l. clear -HW HT. induction HW as [|x t l ts E HW IH]; [constructor|]. apply Forall2_cons. split; [unfold compose; rewrite <-E; apply HT; left|]. apply IH. intros y Hy. apply HT. by right.
Qed.
Print Assumptions C39_sentence_spans.
(** ... and so does every constituent *)
Theorem C39_spans : ∀ name ns ignore ts g n, Forall ptb_sentence_tree ts → read_ptb name ns false None ignore (Some ts) = (g, None) → n ∈ nodes g →
  ∀ k, length (nodes g) < k → get_span k g n = Ok (tokens_under n (doc_places (negb ignore) (NInt 0) 1 ts).2).
Proof.
  intros name ns ignore ts g n HF E. destruct (read_ptb_ok name ns ignore ts HF) as (g' & E' & HS). rewrite E in E'. injection E' as <-. by apply (ptb_spans name ns).
Qed.
Print Assumptions C39_spans.
Example C39_spans_hyp : NInt 7 ∈ nodes (read_ptb "d" "ptb" false None true (Some pt_doc)).1 ∧
  tokens_under (NInt 7) (doc_places false (NInt 0) 1 pt_doc).2 = [NInt 8; NInt 11].
Proof. split; [vdec|vm_compute; reflexivity]. Qed.

(** ** Options *)
(** [limit] *)
Theorem C39_limit : ∀ name ns precedence ignore ts n, (0 < n)%Z →
  read_ptb name ns precedence (Some n) ignore (Some ts) = read_ptb name ns precedence None ignore (Some (take (Z.to_nat n) ts)).
Proof.
  intros name ns precedence ignore ts n Hn. unfold read_ptb. destruct (decide (n = 0%Z)) as [?|_]; [lia|].
  assert (E : slice ts 0 n = take (Z.to_nat n) ts); [|by rewrite E].
  unfold slice, norm_idx. change (0 <? 0)%Z with false. rewrite (proj2 (Z.ltb_ge n 0)) by lia. cbv iota. rewrite (Z.min_l 0) by lia. cbn [Z.to_nat drop]. rewrite Nat.sub_0_r.
  destruct (decide (n ≤ Z.of_nat (length ts))%Z); [by rewrite Z.min_l by lia|]. rewrite Z.min_r by lia. rewrite Nat2Z.id, firstn_all, take_ge by lia. done.
Qed.
Print Assumptions C39_limit.
(** the chain of precedence edges *)
Theorem C39_precedence : ∀ name ns ignore ts, Forall ptb_sentence_tree ts → ∃ g, read_ptb name ns false None ignore (Some ts) = (g, None) ∧
  (length (g_tokens g) < 2 → read_ptb name ns true None ignore (Some ts) = (g, Some AssertionError)) ∧
  (2 ≤ length (g_tokens g) → ∃ g' new, read_ptb name ns true None ignore (Some ts) = (g', None) ∧
    edges g' ≡ₚ new ++ edges g ∧ (λ e, e.1.1) <$> new = zip (g_root g :: g_tokens g) (g_tokens g) ∧
    Forall (λ e, prec_attrs ns e.2) new ∧ (∀ n a, node_attrs g n = Some a → node_attrs g' n = Some a) ∧ same_doc g g').
Proof.
  intros name ns ignore ts HF. destruct (read_ptb_ok name ns ignore ts HF) as (g & E & HS). exists g. split; [done|].
  assert (HR : read_ptb name ns true None ignore (Some ts) = add_precedence_relations g).
  { revert E. unfold read_ptb. destruct (if decide _ then _ else _) as [g0 [e|]]; [done|]. destruct (add_node _ _ _ _ _) as [g1 [e|]]; [done|]. destruct (loop _ _ _) as [[g2 k] [e|]]; [done|]. by intros [= ->]. }
  rewrite HR. split; intros Hl.
  - by apply precedence_short.
  - destruct (g_tokens g) as [|t0 [|t1 tl]] eqn:Et; [cbn in Hl; lia|cbn in Hl; lia|]. rewrite <-Et.
    destruct (precedence g t0 t1 tl (b_inv _ _ _ (s_built _ _ _ _ _ _ _ _ HS)) Et) as (g' & new & E1 & E2 & E3 & E4 & E5 & _ & E7). exists g', new. rewrite (s_ns _ _ _ _ _ _ _ _ HS) in E4. done.
Qed.
Print Assumptions C39_precedence.
(** without a file there is no node at all, although there is a root *)
Theorem C39_no_file : ∀ name ns precedence limit ignore, ∃ g, read_ptb name ns precedence limit ignore None = (g, None) ∧ nodes g = [] ∧ edges g = [] ∧ g_root g ∉ nodes g.
Proof.
  intros. unfold read_ptb. rewrite decide_True by left. rewrite removed_root. eexists. split; [reflexivity|]. split; [done|]. split; [done|]. apply not_elem_of_nil.
Qed.
Print Assumptions C39_no_file.

(** ** Not true of the code *)
(** [ignore_traces=False] does not keep the traces below the top level: if no
    constituent of a sentence itself is a trace, it makes no difference at all *)
Theorem C39_ignore_traces_refuted : ∀ name ns precedence limit ts, Forall no_top_trace ts →
  read_ptb name ns precedence limit false (Some ts) = read_ptb name ns precedence limit true (Some ts).
Proof.
  assert (HK : ∀ r ks s, Forall (λ k, tree_label k ≠ "-NONE-") ks → loop (kid_step None false r) ks s = loop (kid_step None true r) ks s).
  { intros r ks s HF. revert s. induction HF as [|t ks Ht HF IH]; intros s; [done|]. cbn [loop]. assert (E : kid_step None false r t s = kid_step None true r t s).
    { unfold kid_step. rewrite (bool_decide_eq_false_2 (ptb_unescape _ = _)); [done|]. by rewrite unescape_word, label_eq, word_none. }
    rewrite E. destruct (kid_step None true r t s) as [s' [e|]]; [done|apply IH]. }
  assert (HS : ∀ t s, no_top_trace t → ptb_sentence false t s = ptb_sentence true t s).
  { intros [w|l ks] [g k] Ht; [done|]. unfold ptb_sentence. destruct (add_edge _ _ _ _ _ _ _) as [g' [e|]]; [done|]. rewrite !ptb_parse_tree. destruct (node_update _ _ _) as [g2 [e|]]; [done|]. by rewrite HK. }
  assert (HL : ∀ ts s, Forall no_top_trace ts → loop (ptb_sentence false) ts s = loop (ptb_sentence true) ts s).
  { intros ts s HF. revert s. induction HF as [|t ts Ht HF IH]; intros s; [done|]. cbn [loop]. rewrite HS by done. destruct (ptb_sentence true t s) as [s' [e|]]; [done|apply IH]. }
  intros name ns precedence limit ts HF. unfold read_ptb. destruct (if decide _ then _ else _) as [g0 [e|]]; [done|]. destruct (add_node _ _ _ _ _) as [g1 [e|]]; [done|].
  rewrite HL; [done|]. destruct limit as [n|]; [|done]. destruct (decide (n = 0%Z)); [done|]. unfold slice. apply Forall_take, Forall_drop, HF.
Qed.
Print Assumptions C39_ignore_traces_refuted.
Example C39_ignore_traces_refuted_hyp : Forall no_top_trace (take 1 pt_doc) ∧ terminals_below (pt_word "-NONE-" "*-1") = ["*-1"] ∧
  sentence_words true (NTree "S" [NTree "NP" [pt_word "-NONE-" "*-1"]]) = [].
Proof.
  split; [|split; vm_compute; reflexivity]. apply List.Forall_cons; [|apply List.Forall_nil]. repeat first [apply List.Forall_nil | apply List.Forall_cons; [discriminate|]].
Qed.
(** a sentence that is a single tagged word cannot be read *)
Theorem C39_word_sentence_refuted : ∀ name ns precedence ignore tag w ts, w ≠ "-NONE-" → ∃ g, read_ptb name ns precedence None ignore (Some (NTree tag [NLeaf w] :: ts)) = (g, Some KeyError).
Proof.
  intros name ns precedence ignore tag w ts Hw. unfold read_ptb. rewrite decide_True by (left). rewrite removed_root.
  match goal with |- context [add_node ?g (NInt 0) _ _ _] => set (g0 := g) end.
  destruct (built_node g0 [] [] (NInt 0) (VSet [ns]) None [("label", VStr (ns +:+ ":root_node"))] [ns]) as (g1 & E1 & B1 & D1).
  { eapply built_ext; [..|exact built_empty]; done. }
  { by left. }
  rewrite E1. cbn [loop]. unfold ptb_sentence. set (g1' := set_sentences (g_sentences g1 ++ [NInt 1]) g1).
  assert (B1' : built g1' (note (NInt 0) [ns] (given_attrs None [("label", VStr (ns +:+ ":root_node"))]) []) []) by (eapply built_ext; [..|exact B1]; done).
  destruct (built_edge g1' _ _ (g_root g1') (NInt 1) VNone None [("edge_type", VStr dominates)] [g_ns g1'] B1') as (g2 & E2 & B2 & D2); [by right|].
  rewrite E2, ptb_parse_tree. cbn [fst snd].
  destruct (built_update g2 _ _ (NInt 1) [("label", VStr tag)] B2) as (g3 & E3 & B3 & D3); [|done|].
  { rewrite ids_ensure. destruct (decide _); [done|]. apply elem_of_app. right. left. }
  rewrite E3. cbn [loop]. unfold kid_step. cbn [ptb_label fst snd]. rewrite (bool_decide_eq_false_2 (ptb_unescape w = _)) by (by rewrite unescape_word, word_none). rewrite andb_false_r. cbn [ptb_word]. by eexists.
Qed.
Print Assumptions C39_word_sentence_refuted.
(** a constituent with one constituent has no category; with several words in it,
    only the last one is kept and its node is listed once per word *)
Theorem C39_category_refuted : ∃ g a, read_ptb "d" "ptb" false None true (Some [NTree "S" [NTree "NP" [NTree "NN" [NLeaf "end"]]]]) = (g, None) ∧
  node_attrs g (NInt 2) = Some a ∧ dget "ptb:cat" a = None ∧ dget "label" a = Some (VStr "NP").
Proof. eexists _, _. split; [vm_compute; reflexivity|]. split; [vm_compute; reflexivity|]. split; vm_compute; reflexivity. Qed.
Print Assumptions C39_category_refuted.
Theorem C39_several_words_refuted : ∃ g, read_ptb "d" "ptb" false None true (Some [NTree "S" [NTree "DATE" [NLeaf "May"; NLeaf "12"]]]) = (g, None) ∧
  g_tokens g = [NInt 2; NInt 2] ∧ token_is g (NInt 2) "12" ∧ ¬ token_is g (NInt 2) "May".
Proof.
  eexists. split; [vm_compute; reflexivity|]. split; [vm_compute; reflexivity|]. split.
  - eexists. split; vm_compute; reflexivity.
  - intros (a & Ha & Hk). vm_compute in Ha. injection Ha as <-. vm_compute in Hk. discriminate Hk.
Qed.
Print Assumptions C39_several_words_refuted.
