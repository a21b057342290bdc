(** * PropBrackets: property C40 (bracketed text)

    Statements only.  Vocabulary: SpecBrackets.v.  [get_pointing_chains fuel g
    layer (Ok chains)]: the pointing chains are [chains], in an order that Python
    sets leave open (C22 says what they are); [bracketed_output g renamed layer
    chains]: the call of gen_bracketed_output then returns this.  [renamed] is the
    attribute renamed_nodes, if the graph has one. *)
From Verif Require Import PyBase DocGraph Relabel SpecGraph DocGraphFacts History Effects AllHist StrNum Query SpecQuery Text Brackets SpecBrackets BracketFacts Witness WitQuery WitBrackets.

(** the document of the examples *)
Definition br_words : list string := ["The"; "mayor"; "of"; "Bonn"; "said"; "he"; "likes"; "it"].
Definition br_ms : list (string * string) := [("m1", "word_1..word_4"); ("m2", "word_4"); ("m6", "word_6"); ("m8", "word_8")].
Definition br1 : graph := br_doc br_words br_ms [("m6", "m1"); ("m8", "m2")].
Definition br1_chains : list (list nid) := [[NStr "m6"; NStr "m1"]; [NStr "m8"; NStr "m2"]].
Lemma br1_gpc : get_pointing_chains 5 br1 (Some "mmax") (Ok br1_chains).
Proof. eapply (check_chains _ _ _ _ [(NStr "m6", [NStr "m1"]); (NStr "m8", [NStr "m2"])]); vm_compute; reflexivity. Qed.
Definition br1_mentions : list (nid * nid * nid) :=
  [(NStr "m6", NStr "word_6", NStr "word_6"); (NStr "m1", NStr "word_1", NStr "word_4"); (NStr "m8", NStr "word_8", NStr "word_8"); (NStr "m2", NStr "word_4", NStr "word_4")].
Lemma br1_ms : mentions br1 None "mmax" (concat br1_chains) br1_mentions.
Proof. apply check_mentions. vm_compute. reflexivity. Qed.
Lemma br1_text : text_tokens br1 br_words.
Proof. apply check_text. vm_compute. reflexivity. Qed.
Lemma br1_order : Forall (in_order (g_tokens br1)) br1_mentions.
Proof.
  apply List.Forall_cons; [exists 5, 5; split_and!; [lia|vm_compute; reflexivity..]|].
  apply List.Forall_cons; [exists 0, 3; split_and!; [lia|vm_compute; reflexivity..]|].
  apply List.Forall_cons; [exists 7, 7; split_and!; [lia|vm_compute; reflexivity..]|].
  apply List.Forall_cons; [exists 3, 3; split_and!; [lia|vm_compute; reflexivity..]|]. constructor.
Qed.

(** ** C40 Every token once and in order, with a "[" for each mention that starts
    there and a "]_{chain}" for each one that ends there *)
Theorem C40_text : ∀ fuel g renamed layer ns ss chains ms out,
  get_pointing_chains fuel g layer (Ok chains) → namespace_of g layer ns → mentions g renamed ns (concat chains) ms →
  text_tokens g ss → bracketed_output g renamed layer chains = Ok out →
  ∃ labels, Forall2 (λ t ls, length ls = end_at ms t) (g_tokens g) labels ∧ Forall (Forall (λ c, ∃ m, in_chain chains m c)) labels ∧
    out = concat (zip_with (λ p ls, piece (begin_at ms p.1) p.2 ls) (zip (g_tokens g) ss) labels).
Proof. intros until 1. intros <-%namespace_of_ok. intros. eapply output_pieces; [by eapply chains_nonempty|done..]. Qed.
Print Assumptions C40_text.
Example C40_text_hyp : get_pointing_chains 5 br1 (Some "mmax") (Ok br1_chains) ∧ namespace_of br1 (Some "mmax") "mmax" ∧ mentions br1 None "mmax" (concat br1_chains) br1_mentions ∧
  text_tokens br1 br_words ∧ bracketed_output br1 None (Some "mmax") br1_chains =
    Ok (chs "[The mayor of [Bonn]_{m8}]_{m6} said [he]_{m6} likes [it]_{m8} ").
Proof. split; [apply br1_gpc|]. split; [by apply namespace_of_ok|]. split; [apply br1_ms|]. split; [apply br1_text|vm_compute; reflexivity]. Qed.

(** every markable with a span is then a mention *)
Theorem C40_mentions : ∀ fuel g renamed layer chains out,
  get_pointing_chains fuel g layer (Ok chains) → bracketed_output g renamed layer chains = Ok out →
  ∃ ns ms, namespace_of g layer ns ∧ mentions g renamed ns (concat chains) ms.
Proof. intros fuel g renamed layer chains out HC HO. exists (layer_namespace g layer). destruct (output_mentions _ _ _ _ _ (chains_nonempty _ _ _ _ HC) HO) as [ms H]. exists ms. split; [by apply namespace_of_ok|done]. Qed.
Print Assumptions C40_mentions.
Example C40_mentions_hyp : get_pointing_chains 5 br1 (Some "mmax") (Ok br1_chains) ∧ ∃ out, bracketed_output br1 None (Some "mmax") br1_chains = Ok out.
Proof. split; [apply br1_gpc|]. eexists. vm_compute. reflexivity. Qed.

(** ** the brackets are balanced, whatever the spans *)
Theorem C40_balanced : ∀ fuel g renamed layer ns ss chains ms,
  get_pointing_chains fuel g layer (Ok chains) → namespace_of g layer ns → mentions g renamed ns (concat chains) ms →
  text_tokens g ss → NoDup (g_tokens g) → Forall (in_order (g_tokens g)) ms →
  ∃ out, bracketed_output g renamed layer chains = Ok out ∧
    (Forall no_bracket ss → Forall (λ m, no_bracket (nid_str m)) (concat chains) → balanced out).
Proof. intros until 1. intros <-%namespace_of_ok. intros. eapply output_balanced; [by eapply chains_nonempty|done..]. Qed.
Print Assumptions C40_balanced.
Example C40_balanced_hyp : get_pointing_chains 5 br1 (Some "mmax") (Ok br1_chains) ∧ namespace_of br1 (Some "mmax") "mmax" ∧ mentions br1 None "mmax" (concat br1_chains) br1_mentions ∧
  text_tokens br1 br_words ∧ NoDup (g_tokens br1) ∧ Forall (in_order (g_tokens br1)) br1_mentions ∧
  Forall no_bracket br_words ∧ Forall (λ m, no_bracket (nid_str m)) (concat br1_chains).
Proof.
  split; [apply br1_gpc|]. split; [by apply namespace_of_ok|]. split; [apply br1_ms|]. split; [apply br1_text|]. split; [vdec|]. split; [apply br1_order|].
  split.
  - do 8 (apply List.Forall_cons; [split; vdec|]). constructor.
  - do 4 (apply List.Forall_cons; [split; vdec|]). constructor.
Qed.

(** ** nested spans: each closing bracket carries the label of its own span *)
Theorem C40_nested : ∀ fuel g renamed layer ns ss chains ms xs,
  get_pointing_chains fuel g layer (Ok chains) → namespace_of g layer ns → mentions g renamed ns (concat chains) ms →
  text_tokens g ss → NoDup (g_tokens g) →
  Forall bwf xs → concat (btokens <$> xs) = g_tokens g → concat (bspans <$> xs) ≡ₚ ms →
  ∃ label, (∀ m, m ∈ concat chains → in_chain chains m (label m)) ∧
    bracketed_output g renamed layer chains = Ok (bdocument (λ t, chs (default "" (dget t (zip (g_tokens g) ss)))) label xs).
Proof. intros until 1. intros <-%namespace_of_ok. intros. eapply output_nested; [by eapply chains_nonempty|done..]. Qed.
Print Assumptions C40_nested.
Definition w (i : string) : btree := BTok (NStr ("word_" +:+ i)).
Definition br1_tree : list btree :=
  [BSpan (NStr "m1") [w "1"; w "2"; w "3"; BSpan (NStr "m2") [w "4"]]; w "5"; BSpan (NStr "m6") [w "6"]; w "7"; BSpan (NStr "m8") [w "8"]].
Example C40_nested_hyp : get_pointing_chains 5 br1 (Some "mmax") (Ok br1_chains) ∧ namespace_of br1 (Some "mmax") "mmax" ∧ mentions br1 None "mmax" (concat br1_chains) br1_mentions ∧
  text_tokens br1 br_words ∧ NoDup (g_tokens br1) ∧
  Forall bwf br1_tree ∧ concat (btokens <$> br1_tree) = g_tokens br1 ∧ concat (bspans <$> br1_tree) ≡ₚ br1_mentions.
Proof.
  split; [apply br1_gpc|]. split; [by apply namespace_of_ok|]. split; [apply br1_ms|]. split; [apply br1_text|]. split; [vdec|]. split; [|split; [vm_compute; reflexivity|]].
  - assert (HB : ∀ i, bwf (w i)) by constructor.
    assert (HS : ∀ m i, bwf (BSpan m [w i])) by (intros; constructor; [by repeat constructor|done]).
    apply List.Forall_cons; [constructor; [|done]|do 4 (apply List.Forall_cons; [done|])]; [|constructor].
    do 4 (apply List.Forall_cons; [done|]). constructor.
  - vdec.
Qed.

(** ** Defects *)
(** two spans that start at the same token: without the condition on ids the
    labels are swapped; here m1 = [The mayor], m2 = [The mayor of Bonn] *)
Theorem C40_order_refuted : ∃ g chains ms ss xs,
  reachable no_bare_layers g ∧ get_pointing_chains 5 g (Some "mmax") (Ok chains) ∧ mentions g None "mmax" (concat chains) ms ∧
  text_tokens g ss ∧ NoDup (g_tokens g) ∧ Forall (in_order (g_tokens g)) ms ∧
  concat (btokens <$> xs) = g_tokens g ∧ concat (bspans <$> xs) ≡ₚ ms ∧
  ¬ ∃ label, (∀ m, m ∈ concat chains → in_chain chains m (label m)) ∧
    bracketed_output g None (Some "mmax") chains = Ok (bdocument (λ t, chs (default "" (dget t (zip (g_tokens g) ss)))) label xs).
Proof.
  exists (br_doc br_words [("m1", "word_1..word_2"); ("m2", "word_1..word_4"); ("m6", "word_6"); ("m8", "word_8")] [("m6", "m1"); ("m8", "m2")]), br1_chains,
    [(NStr "m6", NStr "word_6", NStr "word_6"); (NStr "m1", NStr "word_1", NStr "word_2"); (NStr "m8", NStr "word_8", NStr "word_8"); (NStr "m2", NStr "word_1", NStr "word_4")], br_words,
    [BSpan (NStr "m2") [BSpan (NStr "m1") [w "1"; w "2"]; w "3"; w "4"]; w "5"; BSpan (NStr "m6") [w "6"]; w "7"; BSpan (NStr "m8") [w "8"]].
  split; [apply br_doc_reachable|].
  split; [eapply (check_chains _ _ _ _ [(NStr "m6", [NStr "m1"]); (NStr "m8", [NStr "m2"])]); vm_compute; reflexivity|].
  split; [apply check_mentions; vm_compute; reflexivity|].
  split; [apply check_text; vm_compute; reflexivity|]. split; [vdec|]. split.
  { apply List.Forall_cons; [exists 5, 5; split_and!; [lia|vm_compute; reflexivity..]|].
    apply List.Forall_cons; [exists 0, 1; split_and!; [lia|vm_compute; reflexivity..]|].
    apply List.Forall_cons; [exists 7, 7; split_and!; [lia|vm_compute; reflexivity..]|].
    apply List.Forall_cons; [exists 0, 3; split_and!; [lia|vm_compute; reflexivity..]|]. constructor. }
  split; [vm_compute; reflexivity|]. split; [vdec|].
  intros (label & HL & E).
  assert (HC : ∀ m c, in_chain br1_chains m c → (m = NStr "m1" → c = NStr "m6") ∧ (m = NStr "m2" → c = NStr "m8") ∧ (m = NStr "m6" → c = NStr "m6") ∧ (m = NStr "m8" → c = NStr "m8")).
  { clear. intros m c (ch & Hch & Hh & Hm). unfold br1_chains in Hch. apply elem_of_cons in Hch as [->|Hch%elem_of_list_singleton]; [|subst ch]; injection Hh as <-;
      apply elem_of_cons in Hm as [->|Hm%elem_of_list_singleton]; subst; done. }
  assert (L1 : label (NStr "m1") = NStr "m6") by (destruct (HC _ _ (HL (NStr "m1") ltac:(vdec))) as (H & _); by apply H).
  assert (L2 : label (NStr "m2") = NStr "m8") by (destruct (HC _ _ (HL (NStr "m2") ltac:(vdec))) as (_ & H & _); by apply H).
  assert (L6 : label (NStr "m6") = NStr "m6") by (destruct (HC _ _ (HL (NStr "m6") ltac:(vdec))) as (_ & _ & H & _); by apply H).
  assert (L8 : label (NStr "m8") = NStr "m8") by (destruct (HC _ _ (HL (NStr "m8") ltac:(vdec))) as (_ & _ & _ & H); by apply H).
  clear HL HC. unfold bdocument in E. rewrite !fmap_cons in E. cbn [brender w] in E. rewrite L1, L2, L6, L8 in E. vm_compute in E. discriminate E.
Qed.
Print Assumptions C40_order_refuted.

(** crossing spans (the text is balanced, but the labels are those of the other span):
    m1 = word_1..word_3, m2 = word_2..word_4 *)
Theorem C40_crossing_refuted : ∃ g chains ms,
  reachable no_bare_layers g ∧ get_pointing_chains 5 g (Some "mmax") (Ok chains) ∧ mentions g None "mmax" (concat chains) ms ∧
  Forall (in_order (g_tokens g)) ms ∧ (NStr "m1", NStr "word_1", NStr "word_3") ∈ ms ∧
  (∀ c, in_chain chains (NStr "m1") c → c = NStr "m6") ∧
  bracketed_output g None (Some "mmax") chains = Ok (chs "[The [mayor of]_{m8} Bonn]_{m6} said [he]_{m6} likes [it]_{m8} ").
Proof.
  exists (br_doc br_words [("m1", "word_1..word_3"); ("m2", "word_2..word_4"); ("m6", "word_6"); ("m8", "word_8")] [("m6", "m1"); ("m8", "m2")]), br1_chains,
    [(NStr "m6", NStr "word_6", NStr "word_6"); (NStr "m1", NStr "word_1", NStr "word_3"); (NStr "m8", NStr "word_8", NStr "word_8"); (NStr "m2", NStr "word_2", NStr "word_4")].
  split; [apply br_doc_reachable|].
  split; [eapply (check_chains _ _ _ _ [(NStr "m6", [NStr "m1"]); (NStr "m8", [NStr "m2"])]); vm_compute; reflexivity|].
  split; [apply check_mentions; vm_compute; reflexivity|]. split.
  { apply List.Forall_cons; [exists 5, 5; split_and!; [lia|vm_compute; reflexivity..]|].
    apply List.Forall_cons; [exists 0, 2; split_and!; [lia|vm_compute; reflexivity..]|].
    apply List.Forall_cons; [exists 7, 7; split_and!; [lia|vm_compute; reflexivity..]|].
    apply List.Forall_cons; [exists 1, 3; split_and!; [lia|vm_compute; reflexivity..]|]. constructor. }
  split; [vdec|]. split; [|vm_compute; reflexivity].
  intros c (ch & Hch & Hh & Hm). unfold br1_chains in Hch. apply elem_of_cons in Hch as [->|Hch%elem_of_list_singleton]; [by injection Hh as <-|subst ch].
  apply elem_of_cons in Hm as [Hm|Hm%elem_of_list_singleton]; discriminate Hm.
Qed.
Print Assumptions C40_crossing_refuted.

(** a markable that two others point to is in two chains and is bracketed twice *)
Theorem C40_once_refuted : ∃ g chains,
  reachable no_bare_layers g ∧ get_pointing_chains 5 g (Some "mmax") (Ok chains) ∧
  bracketed_output g None (Some "mmax") chains = Ok (chs "[[The mayor of Bonn]_{m8}]_{m8} said [he]_{m6} likes [it]_{m8} ").
Proof.
  exists (br_doc br_words [("m1", "word_1..word_4"); ("m6", "word_6"); ("m8", "word_8")] [("m6", "m1"); ("m8", "m1")]), [[NStr "m6"; NStr "m1"]; [NStr "m8"; NStr "m1"]].
  split; [apply br_doc_reachable|].
  split; [eapply (check_chains _ _ _ _ [(NStr "m6", [NStr "m1"]); (NStr "m8", [NStr "m1"])]); vm_compute; reflexivity|]. vm_compute. reflexivity.
Qed.
Print Assumptions C40_once_refuted.

(** a span whose tokens are not in the document (or were renamed) raises IndexError,
    and so does a span that ends before it starts *)
Theorem C40_error_refuted : ∃ g g' chains,
  reachable no_bare_layers g ∧ reachable no_bare_layers g' ∧ 
  get_pointing_chains 5 g (Some "mmax") (Ok chains) ∧ get_pointing_chains 5 g' (Some "mmax") (Ok chains) ∧
  bracketed_output g None (Some "mmax") chains = Err IndexError ∧ bracketed_output g' None (Some "mmax") chains = Err IndexError.
Proof.
  exists (br_doc br_words [("m1", "word_1..word_4"); ("m6", "word_9")] [("m6", "m1")]), (br_doc br_words [("m1", "word_1..word_4"); ("m6", "word_7,word_6")] [("m6", "m1")]), [[NStr "m6"; NStr "m1"]].
  split; [apply br_doc_reachable|]. split; [apply br_doc_reachable|].
  split; [eapply (check_chains _ _ _ _ [(NStr "m6", [NStr "m1"])]); vm_compute; reflexivity|].
  split; [eapply (check_chains _ _ _ _ [(NStr "m6", [NStr "m1"])]); vm_compute; reflexivity|].
  split; vm_compute; reflexivity.
Qed.
Print Assumptions C40_error_refuted.
