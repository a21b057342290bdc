(** * C44: reading DeCour documents *)
From Verif Require Import PyBase DocGraph SpecGraph GraphThms Relabel StrNum Query SpecQuery SpecParse SpecImport SpecAnaphora AnaphoraFacts SpecOutline OutlineFacts OutlineSpan Conano SpecConano ConanoFacts Decour SpecDecour DecourFacts Witness.

(** ** The document *)
Theorem C44_import : ∀ name ns x items, decour_content ns x items →
  ∃ g, read_decour name ns false x = (g, None) ∧ g_name g = name ∧ g_ns g = ns ∧ g_root g = decour_root ns ∧
    imported (decour_style ns) (decour_base ns) (decour_parts ns items) g ∧
    text_tokens g (str <$> words_of items).
Proof.
  intros name ns x items HC. destruct (read_decour_ok name ns x items HC) as (g & E & HI). exists g. split; [done|].
  split; [apply (ig_name _ _ _ _ _ _ _ HI)|]. split; [apply (ig_ns _ _ _ _ _ _ _ HI)|]. split; [apply (ig_root _ _ _ _ _ _ _ HI)|]. split; [exact (importing_imported _ _ _ _ _ _ _ HI)|].
  pose proof (importing_text _ _ _ _ _ _ _ HI) as HT. unfold words_of. rewrite <-list_fmap_compose, (part_words_all _ [] [decour_root ns]).
  assert (Hid : ∀ l : list string, (str ∘ chs) <$> l = l) by (intros l; induction l as [|s l IH]; [done|]; rewrite fmap_cons, IH; cbn; by rewrite str_chs). by rewrite Hid.
Qed.
Print Assumptions C44_import.
(** a hearing with two turns, an act and a conclusion *)
Definition dc_elem (tag : string) (a : dict string string) (text : string) (kids : list xml) : xml := XElem tag a (Some (chs text)) kids None.
Definition dc_utter (nr words norm lemma pos : string) : xml := dc_elem "utterance" [("nrgen", nr)] words [dc_elem "token" [] norm []; dc_elem "lemma" [] lemma []; dc_elem "pos" [] pos []].
Definition dc_doc : xml :=
  dc_elem "hearing" [] "" [dc_elem "header" [] "court 7" []; dc_elem "intro" [] "the judge enters" [];
    dc_elem "turn" [("nrgen", "1")] "" [dc_elem "act" [] "( swears )" []; dc_utter "1" "Do you" "do you" "do you" "V P"];
    dc_elem "turn" [("nrgen", "2")] "" [dc_utter "2" "I do" "i do" "i do" "P V"; dc_utter "3" "Yes" "yes" "yes" "I"];
    dc_elem "conclu" [] "closed" []].
Definition dc_word (w a b c : string) : item := IWord w [("decour:norm", VStr a); ("decour:lemma", VStr b); ("decour:pos", VStr c)].
Definition dc_items : list item :=
  let L := ["decour"; "decour:unit"] in
  [INode "intro" L (word_items (Rst.split_blanks (chs "the judge enters")));
   INode "turn_1" L [INode "act_1" L (word_items (Rst.split_blanks (chs "( swears )"))); INode "utterance_1" L [dc_word "Do" "do" "do" "V"; dc_word "you" "you" "you" "P"]];
   INode "turn_2" L [INode "utterance_2" L [dc_word "I" "i" "i" "P"; dc_word "do" "do" "do" "V"]; INode "utterance_3" L [dc_word "Yes" "yes" "yes" "I"]];
   INode "conclu" L (word_items (Rst.split_blanks (chs "closed")))].
Ltac dc_spoken := eexists; split; [reflexivity|apply split_words_in].
Ltac dc_utterance := eapply UC; [reflexivity|reflexivity|dc_spoken|dc_spoken|dc_spoken|dc_spoken|repeat (first [apply TW_nil|apply TW_cons])].
Example C44_import_hyp : decour_content "decour" dc_doc dc_items.
Proof.
  assert (E : ∃ items, decour_content "decour" dc_doc items ∧ items = dc_items); [|by destruct E as (items & H & <-)].
  eexists. split.
  - eapply DC; [vm_compute; reflexivity|dc_spoken| |eapply CO_first; [vm_compute; reflexivity|dc_spoken]].
    assert (E : children "turn" dc_doc = [dc_elem "turn" [("nrgen", "1")] "" [dc_elem "act" [] "( swears )" []; dc_utter "1" "Do you" "do you" "do you" "V P"];
      dc_elem "turn" [("nrgen", "2")] "" [dc_utter "2" "I do" "i do" "i do" "P V"; dc_utter "3" "Yes" "yes" "yes" "I"]]) by (vm_compute; reflexivity). rewrite E.
    eapply TC_cons; [reflexivity|eapply TA_first; [vm_compute; reflexivity|dc_spoken]| |].
    + assert (E' : children "utterance" (dc_elem "turn" [("nrgen", "1")] "" [dc_elem "act" [] "( swears )" []; dc_utter "1" "Do you" "do you" "do you" "V P"]) = [dc_utter "1" "Do you" "do you" "do you" "V P"]) by (vm_compute; reflexivity).
      rewrite E'. apply Forall2_cons. split; [dc_utterance|apply Forall2_nil_2; reflexivity].
    + eapply TC_cons; [reflexivity|apply TA_none; vm_compute; reflexivity| |apply TC_nil].
      assert (E' : children "utterance" (dc_elem "turn" [("nrgen", "2")] "" [dc_utter "2" "I do" "i do" "i do" "P V"; dc_utter "3" "Yes" "yes" "yes" "I"]) = [dc_utter "2" "I do" "i do" "i do" "P V"; dc_utter "3" "Yes" "yes" "yes" "I"]) by (vm_compute; reflexivity).
      rewrite E'. apply Forall2_cons. split; [dc_utterance|]. apply Forall2_cons. split; [dc_utterance|apply Forall2_nil_2; reflexivity].
  - vm_compute. reflexivity.
Qed.
(** any other document is rejected: no intro, missing numbers or texts, utterances
    without three annotations or with too few values *)
Theorem C44_rejected : ∀ name ns precedence x, (∀ items, ¬ decour_content ns x items) →
  ∃ g e, read_decour name ns precedence x = (g, Some e) ∧ e ∈ [KeyError; AttributeError; ValueError; IndexError].
Proof. exact read_decour_err. Qed.
Print Assumptions C44_rejected.
Example C44_rejected_hyp : ∀ items, ¬ decour_content "decour" (dc_elem "hearing" [] "" [dc_elem "intro" [] "a" []; dc_elem "turn" [("nrgen", "1")] "" [dc_utter "1" "two words" "two" "two words" "N N"]]) items.
Proof.
  intros items HC. assert (H : (read_decour "d" "decour" false (dc_elem "hearing" [] "" [dc_elem "intro" [] "a" []; dc_elem "turn" [("nrgen", "1")] "" [dc_utter "1" "two words" "two" "two words" "N N"]])).2 = Some IndexError) by (vm_compute; reflexivity).
  destruct (C44_import "d" _ _ _ HC) as (g & E & _). rewrite E in H. discriminate H.
Qed.

(** ** Spans: every part of the document spans exactly its words, if turns have
    different numbers and so do utterances *)
Theorem C44_span : ∀ name ns x items g n, decour_content ns x items → read_decour name ns false x = (g, None) →
  NoDup (turn_numbers x) → NoDup (utterance_numbers x) → Forall (λ o, ∀ nr, o = Some nr → ":"%char ∉ chs nr) (turn_numbers x ++ utterance_numbers x) →
  n ∈ nodes g → (∀ path w extra, (path, n, PWord w extra) ∉ decour_parts ns items) →
  ∀ k, length (nodes g) < k → get_span k g n = Ok (tokens_in n (decour_parts ns items)).
Proof.
  intros name ns x items g n HC E HT HU Hcol Hn Hw k Hk. destruct (read_decour_ok name ns x items HC) as (g' & E' & HI). rewrite E in E'. injection E' as <-.
  apply (outline_span (decour_style ns) (decour_base ns) (walk_all [decour_root ns] items) g n); [apply (importing_inv _ _ _ _ _ _ _ HI)|exact (importing_imported _ _ _ _ _ _ _ HI)| | | |by apply (decour_ids_ok ns x)|done|done|done].
  - rewrite (ig_root _ _ _ _ _ _ _ HI). apply outline_nested.
  - rewrite (ig_root _ _ _ _ _ _ _ HI). unfold decour_base, ImportFacts.ids. rewrite fmap_app. apply elem_of_app. right. left.
  - vm_compute. intros c [= <-]. done.
Qed.
Print Assumptions C44_span.
Example C44_span_hyp : NoDup (turn_numbers dc_doc) ∧ NoDup (utterance_numbers dc_doc) ∧
  Forall (λ o, ∀ nr, o = Some nr → ":"%char ∉ chs nr) (turn_numbers dc_doc ++ utterance_numbers dc_doc) ∧
  NStr "turn_2" ∈ nodes (read_decour "d" "decour" false dc_doc).1 ∧
  (∀ path w extra, (path, NStr "turn_2", PWord w extra) ∉ decour_parts "decour" dc_items) ∧
  tokens_in (NStr "turn_2") (decour_parts "decour" dc_items) = [NStr "token_9"; NStr "token_10"; NStr "token_11"].
Proof.
  split; [vdec|]. split; [vdec|]. split.
  - assert (H : bool_decide (Forall (λ o, ":"%char ∉ chs (default "" o)) (turn_numbers dc_doc ++ utterance_numbers dc_doc)) = true) by (vm_compute; reflexivity).
    apply bool_decide_eq_true in H. eapply Forall_impl; [exact H|]. intros [s|] Hs nr E; [injection E as <-; exact Hs|discriminate E].
  - split; [vdec|]. split; [|vm_compute; reflexivity]. intros path w extra H. apply number_word_id in H as (i & _ & E). two_prefixes E.
Qed.
(** turns with the same number are one node *)
Theorem C44_same_number_refuted : ∃ x items g, decour_content "decour" x items ∧ read_decour "d" "decour" false x = (g, None) ∧
  length (filter (λ p : list nid * nid * part, p.1.2 = NStr "turn_1") (decour_parts "decour" items)) = 2 ∧
  length (filter (λ n, n = NStr "turn_1") (nodes g)) = 1.
Proof.
  set (x := dc_elem "hearing" [] "" [dc_elem "intro" [] "" []; dc_elem "turn" [("nrgen", "1")] "" []; dc_elem "turn" [("nrgen", "1")] "" []]).
  assert (E : ∃ items, decour_content "decour" x items ∧ items = [INode "intro" ["decour"; "decour:unit"] []; INode "turn_1" ["decour"; "decour:unit"] []; INode "turn_1" ["decour"; "decour:unit"] []]).
  { eexists. split.
    - eapply DC; [vm_compute; reflexivity|dc_spoken| |apply CO_none; vm_compute; reflexivity].
      assert (E : children "turn" x = [dc_elem "turn" [("nrgen", "1")] "" []; dc_elem "turn" [("nrgen", "1")] "" []]) by (vm_compute; reflexivity). rewrite E.
      do 2 (eapply TC_cons; [reflexivity|apply TA_none; vm_compute; reflexivity|apply Forall2_nil_2; vm_compute; reflexivity|]). apply TC_nil.
    - vm_compute. reflexivity. }
  destruct E as (items & HC & ->). eexists x, _, (read_decour "d" "decour" false x).1. split; [exact HC|]. split; [vm_compute; reflexivity|]. split; vm_compute; reflexivity.
Qed.
Print Assumptions C44_same_number_refuted.

(** ** Order: an act is put before all utterances of its turn, wherever it is in the
    turn, and only the first act of a turn is read *)
Definition dc_late : xml :=
  dc_elem "hearing" [] "" [dc_elem "intro" [] "" [];
    dc_elem "turn" [("nrgen", "1")] "" [dc_utter "1" "Yes" "yes" "yes" "I"; dc_elem "act" [] "nods" []; dc_elem "act" [] "leaves" []]].
Theorem C44_order_refuted : ∃ items g, decour_content "decour" dc_late items ∧ read_decour "d" "decour" false dc_late = (g, None) ∧
  text_tokens g ["nods"; "Yes"].
Proof.
  assert (E : ∃ items, decour_content "decour" dc_late items ∧ words_of items = [chs "nods"; chs "Yes"]).
  { eexists. split.
    - eapply DC; [vm_compute; reflexivity|dc_spoken| |apply CO_none; vm_compute; reflexivity].
      assert (E : children "turn" dc_late = [dc_elem "turn" [("nrgen", "1")] "" [dc_utter "1" "Yes" "yes" "yes" "I"; dc_elem "act" [] "nods" []; dc_elem "act" [] "leaves" []]]) by (vm_compute; reflexivity). rewrite E.
      eapply TC_cons; [reflexivity|eapply TA_first; [vm_compute; reflexivity|dc_spoken]| |apply TC_nil].
      assert (E' : children "utterance" (dc_elem "turn" [("nrgen", "1")] "" [dc_utter "1" "Yes" "yes" "yes" "I"; dc_elem "act" [] "nods" []; dc_elem "act" [] "leaves" []]) = [dc_utter "1" "Yes" "yes" "yes" "I"]) by (vm_compute; reflexivity).
      rewrite E'. apply Forall2_cons. split; [dc_utterance|apply Forall2_nil_2; reflexivity].
    - vm_compute. reflexivity. }
  destruct E as (items & HC & HW). destruct (C44_import "d" _ _ _ HC) as (g & E & _ & _ & _ & _ & HT). exists items, g. split; [done|]. split; [done|]. rewrite HW in HT. exact HT.
Qed.
Print Assumptions C44_order_refuted.

(** ** Precedence edges *)
Theorem C44_precedence : ∀ name ns x items, decour_content ns x items → ∃ g, read_decour name ns false x = (g, None) ∧
  (length (words_of items) < 2 → read_decour name ns true x = (g, Some AssertionError)) ∧
  (2 ≤ length (words_of items) → ∃ g' new, read_decour name ns true x = (g', None) ∧
    edges g' ≡ₚ new ++ edges g ∧ (λ e, e.1.1) <$> new = zip (g_root g :: g_tokens g) (g_tokens g) ∧
    Forall (λ e, prec_attrs ns e.2) new ∧ (∀ n a, node_attrs g n = Some a → node_attrs g' n = Some a) ∧ same_doc g g').
Proof.
  intros name ns x items HC. destruct (read_decour_ok name ns x items HC) as (g & E & HI). exists g. split; [done|].
  assert (HR : read_decour name ns true x = add_precedence_relations g).
  { revert E. unfold read_decour. destruct (add_node _ _ _ _ _) as [g0 [e|]]; [done|]. destruct (decour_parse _ _) as [[[g1 k] k'] [e|]]; [done|]. intros [= ->]. done. }
  rewrite HR. pose proof (importing_text _ _ _ _ _ _ _ HI) as HT.
  assert (HL : length (g_tokens g) = length (words_of items)) by (unfold words_of; rewrite fmap_length, (part_words_all _ [] [decour_root ns]); by eapply Forall2_length). split; intros Hl.
  - apply precedence_short. lia.
  - destruct (g_tokens g) as [|t0 [|t1 ts]] eqn:Et; [cbn in HL; lia|cbn in HL; lia|]. rewrite <-Et.
    destruct (precedence g t0 t1 ts (importing_inv _ _ _ _ _ _ _ HI) Et) as (g' & new & E1 & E2 & E3 & E4 & E5 & _ & E7). exists g', new. rewrite (ig_ns _ _ _ _ _ _ _ HI) in E4. done.
Qed.
Print Assumptions C44_precedence.
Example C44_precedence_hyp : decour_content "decour" dc_doc dc_items ∧ 2 ≤ length (words_of dc_items).
Proof. split; [exact C44_import_hyp|]. assert (E : length (words_of dc_items) = 12) by (vm_compute; reflexivity). rewrite E. lia. Qed.
