(** * C43: reading ConAno documents *)
From Verif Require Import PyBase DocGraph SpecGraph GraphThms Relabel StrNum Query SpecQuery SpecParse SpecImport SpecAnaphora AnaphoraFacts SpecOutline OutlineFacts OutlineSpan Conano SpecConano ConanoFacts Witness.

(** ** The document *)
Theorem C43_import : ∀ name ns x items, conano_content ns None x items →
  ∃ g, read_conano name ns false false x = (g, None) ∧ g_name g = name ∧ g_ns g = ns ∧ g_root g = conano_root ns ∧
    imported (conano_style ns) (conano_base ns) (conano_parts ns items) g ∧
    text_tokens g (str <$> words_of items).
Proof.
  intros name ns x items HC. destruct (read_conano_ok name ns x items HC) as (g & E & HI). exists g. split; [done|].
  split; [apply (ig_name _ _ _ _ _ _ _ HI)|]. split; [apply (ig_ns _ _ _ _ _ _ _ HI)|]. split; [apply (ig_root _ _ _ _ _ _ _ HI)|]. split; [exact (importing_imported _ _ _ _ _ _ _ HI)|].
  pose proof (importing_text _ _ _ _ _ _ _ HI) as HT. unfold words_of. rewrite <-list_fmap_compose, (part_words_all _ [] [conano_root ns]).
  assert (Hid : ∀ l : list string, (str ∘ chs) <$> l = l) by (intros l; induction l as [|s l IH]; [done|]; rewrite fmap_cons, IH; cbn; by rewrite str_chs). by rewrite Hid.
Qed.
Print Assumptions C43_import.
(** a document with nested units, a connective with a modifier and text on all levels *)
Definition cn_elem (tag : string) (a : dict string string) (text : string) (kids : list xml) (tail : string) : xml := XElem tag a (Some (chs text)) kids (Some (chs tail)).
Definition cn_doc : xml :=
  cn_elem "discourse" [] "Well , "
    [cn_elem "unit" [("id", "4"); ("type", "ext")] "he stayed" [] " ";
     cn_elem "unit" [("id", "4"); ("type", "int")] ""
       [cn_elem "connective" [("id", "4"); ("relation", "cause")] "" [cn_elem "modifier" [] "just" [] " Because "] "";
        cn_elem "unit" [("id", "5"); ("type", "ext")] "it rained" [] ""] " today ."] "".
Definition cn_words (s : string) : list item := word_items (Rst.split_blanks (chs s)).
Definition cn_items : list item :=
  [INode "discourse" ["conano"] (cn_words "Well ," ++
    [INode "4:ext" ["conano"; "conano:unit"; "conano:ext"] (cn_words "he stayed");
     INode "4:int" ["conano"; "conano:unit"; "conano:int"] (
       [INode "4:connective" ["conano"; "conano:connective"] ([INode "4:modifier" ["conano"; "conano:modifier"] (cn_words "just")] ++ cn_words "Because")] ++
       [INode "5:ext" ["conano"; "conano:unit"; "conano:ext"] (cn_words "it rained")])] ++ cn_words "today .")].
Ltac cn_name := first [apply EN_unit; reflexivity|apply EN_connective; reflexivity|apply EN_discourse|eapply EN_other; [intros H; vm_compute in H; repeat (apply elem_of_cons in H as [H|H]; [discriminate H|]); by apply elem_of_nil in H|reflexivity|reflexivity]].
Ltac cn_content := eapply CC; [cn_name|apply split_words_in|repeat (first [apply Forall2_nil_2|apply Forall2_cons; split; [|]])|apply split_words_in].
Example C43_import_hyp : conano_content "conano" None cn_doc cn_items.
Proof.
  assert (E : ∃ items, conano_content "conano" None cn_doc items ∧ items = cn_items); [|by destruct E as (items & H & <-)].
  eexists. split.
  - unfold cn_doc. eapply CC; [cn_name|apply split_words_in| |apply split_words_in].
    apply Forall2_cons. split; [eapply CC; [cn_name|apply split_words_in|apply Forall2_nil_2; reflexivity|apply split_words_in]|].
    apply Forall2_cons. split; [|apply Forall2_nil_2; reflexivity].
    eapply CC; [cn_name|apply split_words_in| |apply split_words_in].
    apply Forall2_cons. split; [eapply CC; [cn_name|apply split_words_in| |apply split_words_in]|].
    + apply Forall2_cons. split; [eapply CC; [cn_name|apply split_words_in|apply Forall2_nil_2; reflexivity|apply split_words_in]|apply Forall2_nil_2; reflexivity].
    + apply Forall2_cons. split; [eapply CC; [cn_name|apply split_words_in|apply Forall2_nil_2; reflexivity|apply split_words_in]|apply Forall2_nil_2; reflexivity].
  - vm_compute. reflexivity.
Qed.
(** every other document (an id or type is missing, the document element is unknown) *)
Theorem C43_missing_attribute : ∀ name ns check precedence x, (∀ items, ¬ conano_content ns None x items) →
  ∃ g e, read_conano name ns check precedence x = (g, Some e) ∧ (e = KeyError ∨ e = AttributeError).
Proof. exact read_conano_missing. Qed.
Print Assumptions C43_missing_attribute.
Example C43_missing_attribute_hyp : ∀ items, ¬ conano_content "conano" None (cn_elem "discourse" [] "a" [cn_elem "unit" [("id", "1")] "b" [] ""] "") items.
Proof.
  intros items H. inversion H; subst. match goal with K : Forall2 _ [_] _ |- _ => inversion K; subst end.
  match goal with K : conano_content _ (Some _) _ _ |- _ => inversion K; subst end.
  match goal with K : element_named _ (Some _) "unit" _ _ _ |- _ => apply conano_element_iff in K; vm_compute in K; discriminate K end.
Qed.

(** ** The check: it succeeds exactly if the tokens are the words of the plain text,
    that is, if no tag splits a word; otherwise IndexError is raised (not the message, not an assertion) *)
Theorem C43_check : ∀ name ns x items text, conano_content ns None x items → plain_text x text →
  ∃ g, read_conano name ns false false x = (g, None) ∧
    (words_in text (words_of items) → read_conano name ns true false x = (g, None)) ∧
    (¬ words_in text (words_of items) → read_conano name ns true false x = (g, Some IndexError)).
Proof.
  intros name ns x items text HC HT. apply xml_text_plain in HT as ->. destruct (read_conano_ok name ns x items HC) as (g & E & _). exists g. split; [done|]. by apply read_conano_check.
Qed.
Print Assumptions C43_check.
Example C43_check_hyp : ∃ text, plain_text cn_doc text ∧ words_in text (words_of cn_items).
Proof.
  exists (xml_text cn_doc). split; [by apply xml_text_plain|]. assert (E : words_of cn_items = Rst.split_blanks (xml_text cn_doc)) by (vm_compute; reflexivity). rewrite E. apply split_words_in.
Qed.
Example C43_check_fails : (read_conano "d" "conano" true false (cn_elem "discourse" [] "un" [cn_elem "connective" [("id", "1")] "less" [] ""] "")).2 = Some IndexError.
Proof. vm_compute. reflexivity. Qed.

(** ** Precedence edges: a chain from the root over all tokens is added *)
Theorem C43_precedence : ∀ name ns x items, conano_content ns None x items → ∃ g, read_conano name ns false false x = (g, None) ∧
  (length (words_of items) < 2 → read_conano name ns false true x = (g, Some AssertionError)) ∧
  (2 ≤ length (words_of items) → ∃ g' new, read_conano name ns false true x = (g', None) ∧
    edges g' ≡ₚ new ++ edges g ∧ (λ e, e.1.1) <$> new = zip (g_root g :: g_tokens g) (g_tokens g) ∧
    Forall (λ e, prec_attrs ns e.2) new ∧ (∀ n a, node_attrs g n = Some a → node_attrs g' n = Some a) ∧ same_doc g g').
Proof.
  intros name ns x items HC. destruct (read_conano_ok name ns x items HC) as (g & E & HI). exists g. split; [done|].
  assert (HR : read_conano name ns false true x = add_precedence_relations g).
  { revert E. unfold read_conano. destruct (conano_add _ _ _ _) as [[g1 k] [e|]]; [done|]. intros [= ->]. by destruct (add_precedence_relations g) as [g2 [e|]]. }
  rewrite HR. pose proof (importing_text _ _ _ _ _ _ _ HI) as HT.
  assert (HL : length (g_tokens g) = length (words_of items)) by (unfold words_of; rewrite fmap_length, (part_words_all _ [] [conano_root ns]); by eapply Forall2_length). split; intros Hl.
  - apply precedence_short. lia.
  - destruct (g_tokens g) as [|t0 [|t1 ts]] eqn:Et; [cbn in HL; lia|cbn in HL; lia|]. rewrite <-Et.
    destruct (precedence g t0 t1 ts (importing_inv _ _ _ _ _ _ _ HI) Et) as (g' & new & E1 & E2 & E3 & E4 & E5 & _ & E7). exists g', new. rewrite (ig_ns _ _ _ _ _ _ _ HI) in E4. done.
Qed.
Print Assumptions C43_precedence.

(** ** Spans *)
Theorem C43_span : ∀ name ns x items g n, conano_content ns None x items → read_conano name ns false false x = (g, None) →
  ids_ok [conano_root ns] (conano_parts ns items) → n ∈ nodes g → (∀ path w extra, (path, n, PWord w extra) ∉ conano_parts ns items) →
  ∀ k, length (nodes g) < k → get_span k g n = Ok (tokens_in n (conano_parts ns items)).
Proof. intros name ns x items g n HC E. destruct (read_conano_ok name ns x items HC) as (g' & E' & HI). rewrite E in E'. injection E' as <-. by eapply conano_span. Qed.
Print Assumptions C43_span.
Example C43_span_hyp : ids_ok [conano_root "conano"] (conano_parts "conano" cn_items) ∧ NStr "4:int" ∈ nodes (read_conano "d" "conano" false false cn_doc).1 ∧
  (∀ path w extra, (path, NStr "4:int", PWord w extra) ∉ conano_parts "conano" cn_items) ∧
  tokens_in (NStr "4:int") (conano_parts "conano" cn_items) = [NStr "token:5"; NStr "token:6"; NStr "token:7"; NStr "token:8"].
Proof.
  assert (H1 : bool_decide (NoDup ((λ x, x.1.2) <$> conano_parts "conano" cn_items)) = true) by (vm_compute; reflexivity).
  assert (H2 : bool_decide (Forall (λ x, x.1.2 ∉ [conano_root "conano"]) (conano_parts "conano" cn_items)) = true) by (vm_compute; reflexivity).
  apply bool_decide_eq_true in H1. apply bool_decide_eq_true in H2. rewrite Forall_forall in H2. split; [split; [exact H1|intros path n p H; by apply (H2 (path, n, p))]|].
  split; [vdec|]. split; [|vm_compute; reflexivity]. intros path w extra H. apply number_word_id in H as (i & _ & E). cbn in E. injection E as E. discriminate E.
Qed.
(** elements may share an id, as the parts of a discontinuous connective do, if they are in the same element *)
Theorem C43_span_members : ∀ name ns x items g n, conano_content ns None x items → read_conano name ns false false x = (g, None) →
  ids_coherent [conano_root ns] (conano_parts ns items) → n ∈ nodes g → (∀ path w extra, (path, n, PWord w extra) ∉ conano_parts ns items) →
  ∃ l, (∀ k, length (nodes g) < k → get_span k g n = Ok l) ∧ ∀ t, t ∈ l ↔ t ∈ tokens_in n (conano_parts ns items).
Proof.
  intros name ns x items g n HC E Hc Hn Hw. destruct (read_conano_ok name ns x items HC) as (g' & E' & HI). rewrite E in E'. injection E' as <-.
  destruct (conano_members _ _ _ _ HI n Hc Hn Hw) as (l & H1 & _ & H2). by exists l.
Qed.
Print Assumptions C43_span_members.
(** "neither ... nor": the span of the connective is right; the unit around it lists its words twice *)
Definition cn_disc : xml :=
  cn_elem "discourse" [] "" [cn_elem "unit" [("id", "1"); ("type", "int")] ""
    [cn_elem "connective" [("id", "1")] "neither" [] " this "; cn_elem "connective" [("id", "1")] "nor" [] " that"] ""] "".
Definition cn_disc_items : list item :=
  [INode "discourse" ["conano"] [INode "1:int" ["conano"; "conano:unit"; "conano:int"]
    ([INode "1:connective" ["conano"; "conano:connective"] (cn_words "neither")] ++ cn_words "this" ++ [INode "1:connective" ["conano"; "conano:connective"] (cn_words "nor")] ++ cn_words "that")]].
Lemma cn_disc_content : conano_content "conano" None cn_disc cn_disc_items.
Proof.
  assert (E : ∃ items, conano_content "conano" None cn_disc items ∧ items = cn_disc_items); [|by destruct E as (items & H & <-)].
  eexists. split.
  - eapply CC; [cn_name|apply split_words_in| |apply split_words_in]. apply Forall2_cons. split; [|apply Forall2_nil_2; reflexivity].
    eapply CC; [cn_name|apply split_words_in| |apply split_words_in].
    apply Forall2_cons. split; [eapply CC; [cn_name|apply split_words_in|apply Forall2_nil_2; reflexivity|apply split_words_in]|].
    apply Forall2_cons. split; [eapply CC; [cn_name|apply split_words_in|apply Forall2_nil_2; reflexivity|apply split_words_in]|apply Forall2_nil_2; reflexivity].
  - vm_compute. reflexivity.
Qed.
Example C43_span_members_hyp : conano_content "conano" None cn_disc cn_disc_items ∧ ids_coherent [conano_root "conano"] (conano_parts "conano" cn_disc_items) ∧
  NStr "1:connective" ∈ nodes (read_conano "d" "conano" false false cn_disc).1.
Proof.
  split; [apply cn_disc_content|]. split; [|vdec].
  assert (H1 : bool_decide (Forall (λ x, Forall (λ y, x.1.2 = y.1.2 → head x.1.1 = head y.1.1 ∧ is_word_part x.2 = is_word_part y.2) (conano_parts "conano" cn_disc_items)) (conano_parts "conano" cn_disc_items)) = true) by (vm_compute; reflexivity).
  assert (H2 : bool_decide (Forall (λ x, x.1.2 ∉ [conano_root "conano"]) (conano_parts "conano" cn_disc_items)) = true) by (vm_compute; reflexivity).
  apply bool_decide_eq_true in H1. apply bool_decide_eq_true in H2. rewrite Forall_forall in H2. rewrite Forall_forall in H1. split.
  - intros path n p path' p' Hp Hp'. specialize (H1 _ Hp). rewrite Forall_forall in H1. by apply (H1 _ Hp').
  - intros path n p H. by apply (H2 (path, n, p)).
Qed.
Theorem C43_repeated_refuted : ∃ x items g, conano_content "conano" None x items ∧ read_conano "d" "conano" false false x = (g, None) ∧ ids_coherent [conano_root "conano"] (conano_parts "conano" items) ∧
  get_span 20 g (NStr "1:int") = Ok [NStr "token:1"; NStr "token:1"; NStr "token:2"; NStr "token:3"; NStr "token:3"; NStr "token:4"].
Proof.
  exists cn_disc, cn_disc_items, (read_conano "d" "conano" false false cn_disc).1. destruct C43_span_members_hyp as (H1 & H2 & _).
  split; [done|]. split; [vm_compute; reflexivity|]. split; [done|]. vm_compute. reflexivity.
Qed.
Print Assumptions C43_repeated_refuted.
(** parts of a connective in two units: each unit also spans the words of the other part *)
Theorem C43_shared_refuted : ∃ x g items, conano_content "conano" None x items ∧ read_conano "d" "conano" true false x = (g, None) ∧
  tokens_in (NStr "1:ext") (conano_parts "conano" items) = [NStr "token:1"; NStr "token:2"] ∧
  get_span 20 g (NStr "1:ext") = Ok [NStr "token:1"; NStr "token:2"; NStr "token:3"].
Proof.
  set (x := cn_elem "discourse" [] "" [cn_elem "unit" [("id", "1"); ("type", "ext")] "" [cn_elem "connective" [("id", "1")] "either" [] " this "] "";
    cn_elem "unit" [("id", "1"); ("type", "int")] "" [cn_elem "connective" [("id", "1")] "or" [] " that"] ""] "").
  exists x, (read_conano "d" "conano" true false x).1. eexists. split.
  - eapply CC; [cn_name|apply split_words_in| |apply split_words_in]. apply Forall2_cons. split; [|apply Forall2_cons; split; [|apply Forall2_nil_2; reflexivity]];
    (eapply CC; [cn_name|apply split_words_in| |apply split_words_in]; apply Forall2_cons; split; [eapply CC; [cn_name|apply split_words_in|apply Forall2_nil_2; reflexivity|apply split_words_in]|apply Forall2_nil_2; reflexivity]).
  - split; [vm_compute; reflexivity|]. split; vm_compute; reflexivity.
Qed.
Print Assumptions C43_shared_refuted.
(** with precedence edges every element spans all the tokens to the end of the document *)
Theorem C43_precedence_span_refuted : ∃ g, read_conano "d" "conano" true true cn_doc = (g, None) ∧
  tokens_in (NStr "4:ext") (conano_parts "conano" cn_items) = [NStr "token:3"; NStr "token:4"] ∧
  ∃ l, get_span 20 g (NStr "4:ext") = Ok l ∧ NStr "token:10" ∈ l.
Proof.
  exists (read_conano "d" "conano" true true cn_doc).1. split; [vm_compute; reflexivity|]. split; [vm_compute; reflexivity|]. eexists. split; [vm_compute; reflexivity|].
  apply elem_of_list_In. vm_compute. tauto.
Qed.
Print Assumptions C43_precedence_span_refuted.

(** ** get_conano_units, get_connective *)
Theorem C43_units : ∀ name ns x items g, conano_content ns None x items → read_conano name ns false false x = (g, None) →
  ids_ok [conano_root ns] (conano_parts ns items) → ∀ k, length (nodes g) < k →
  ∃ l, conano_units k g ns = Ok ((λ n, (n, tokens_in n (conano_parts ns items))) <$> l) ∧ NoDup l ∧
    (∀ i j a b, i < j → l !! i = Some a → l !! j = Some b → nat_cmp a b ≠ Gt) ∧
    ∀ n, n ∈ l ↔ ∃ path i layers, (path, n, PNode i layers) ∈ conano_parts ns items ∧ ns +:+ ":unit" ∈ layers.
Proof.
  intros name ns x items g HC E Hok k Hk. destruct (read_conano_ok name ns x items HC) as (g' & E' & HI). rewrite E in E'. injection E' as <-.
  destruct (conano_units_ok _ _ _ _ HI Hok k Hk) as (l & H1 & H2 & H3 & H4). exists l. done.
Qed.
Print Assumptions C43_units.
Example C43_units_hyp : conano_units 20 (read_conano "d" "conano" false false cn_doc).1 "conano" =
  Ok [(NStr "4:ext", [NStr "token:3"; NStr "token:4"]); (NStr "4:int", [NStr "token:5"; NStr "token:6"; NStr "token:7"; NStr "token:8"]); (NStr "5:ext", [NStr "token:7"; NStr "token:8"])].
Proof. vm_compute. reflexivity. Qed.
Theorem C43_connective : ∀ name ns x items g i ty ss, conano_content ns None x items → read_conano name ns false false x = (g, None) →
  ids_ok [conano_root ns] (conano_parts ns items) → ":"%char ∉ chs i → ":"%char ∉ chs ty → NStr (i +:+ ":connective") ∈ nodes g →
  (∀ path w extra, (path, NStr (i +:+ ":connective"), PWord w extra) ∉ conano_parts ns items) →
  Forall2 (token_is g) (tokens_in (NStr (i +:+ ":connective")) (conano_parts ns items)) ss → ∀ k, length (nodes g) < k →
  conano_connective k g (chs i ++ ":"%char :: chs ty) = Ok (SpecQuery.joined ((λ s, str (to_lower <$> chs s)) <$> ss)).
Proof.
  intros name ns x items g i ty ss HC E Hok Hi Hty Hn Hw HF k Hk. destruct (read_conano_ok name ns x items HC) as (g' & E' & HI). rewrite E in E'. injection E' as <-.
  eapply conano_connective_ok; [by apply ids_ok_coherent|done|done|done|done|done| |exact HF]. by eapply conano_span.
Qed.
Print Assumptions C43_connective.
Example C43_connective_hyp : conano_connective 20 (read_conano "d" "conano" false false cn_doc).1 (chs "4:int") = Ok (chs "just because").
Proof. vm_compute. reflexivity. Qed.
