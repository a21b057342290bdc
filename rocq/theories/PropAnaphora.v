(** * PropAnaphora: property C41 (anaphoricity annotation)

    Statements only.  Vocabulary: SpecAnaphora.v and, for the graph that is built,
    SpecImport.v.  [read_anaphoricity name ns connected text = (g, None)]: the
    constructor succeeds and builds [g]. *)
From Verif Require Import PyBase DocGraph Relabel SpecGraph AllHist StrNum Query SpecQuery Text SpecRst SpecParse SpecImport ImportFacts Anaphora SpecAnaphora AnaphoraFacts.

Definition an_text : chars := chs "Ja , das/a? habe" ++ ["010"%char] ++ chs "Das/n gewusst ,  es/p? war".
Definition an_words : list chars := chs <$> ["Ja"; ","; "das/a?"; "habe"; "Das/n"; "gewusst"; ","; "es/p?"; "war"].
Lemma an_words_in : words_in an_text an_words.
Proof. change an_words with (Rst.split_blanks an_text). apply split_words_in. Qed.

(** ** C41 Reading: a node per word, in order, with token and annotation *)
Theorem C41_read : ∀ name ns connected text ws, words_in text ws →
  ∃ g infos, read_anaphoricity name ns connected text = (g, None) ∧
    g_name g = name ∧ g_ns g = ns ∧ g_root g = NStr (ns +:+ ":root_node") ∧
    g_tokens g = (λ i, NInt (Z.of_nat i)) <$> seq 0 (length ws) ∧
    Forall2 (λ p info, word_node ns p.1 p.2 info) (imap pair ws) infos ∧
    has_nodes g (root_nodes ns ++ infos) ∧ has_edges g (root_edges ns connected (length ws)).
Proof.
  intros name ns connected text ws H. destruct (read_built name ns connected text ws H) as (g & infos & E & HI & HB & HT & Hns & Hr & Hn).
  exists g, infos. split_and!; try done; apply HB.
Qed.
Print Assumptions C41_read.
(** every text has words, and every word is either annotated in one way or not *)
Theorem C41_words : ∀ text, ∃ ws, words_in text ws ∧ ∀ ws', words_in text ws' → ws' = ws.
Proof. intros text. exists (Rst.split_blanks text). split; [apply split_words_in|]. intros ws' H%words_in_split. done. Qed.
Print Assumptions C41_words.
Example C41_read_hyp : words_in an_text an_words ∧ annotated (chs "das/a?") "das" "a"%char True ∧ annotated (chs "Das/n") "Das" "n"%char False ∧ unannotated (chs "gewusst").
Proof.
  split; [apply an_words_in|]. split; [|split].
  - destruct (annotated_plain "das" "a"%char ["?"%char]) as (p & q & H1 & H2 & H3); [repeat constructor..|]. exists p, q. split; [done|]. split; [done|]. split; [intros _; by apply H3|done].
  - destruct (annotated_plain "Das" "n"%char []) as (p & q & H1 & H2 & H3); [repeat constructor..|]. exists p, q. split; [done|]. split; [done|]. rewrite <-H3. done.
  - apply anno_search_None. vm_compute. reflexivity.
Qed.

(** ** Writing what was read: the words in order; the annotations of the chosen
    anaphor are kept (but see below), the others are dropped *)
Theorem C41_write : ∀ name ns connected text ws os a g, a ∈ ["das"; "es"] → words_in text ws → Forall2 (written a) ws os →
  read_anaphoricity name ns connected text = (g, None) → gen_anaphoricity_str g a = Ok (spaced os).
Proof. exact read_write. Qed.
Print Assumptions C41_write.
Theorem C41_write_total : ∀ a w, ∃ o, written a w o.
Proof. exact written_total. Qed.
Print Assumptions C41_write_total.
Example C41_write_hyp : words_in an_text an_words ∧ ∃ g, read_anaphoricity "d" "anaphoricity" false an_text = (g, None) ∧
  gen_anaphoricity_str g "das" = Ok (chs "Ja , das/a? habe Das/n? gewusst , es war ").
Proof. split; [apply an_words_in|]. eexists. split; vm_compute; reflexivity. Qed.
(** ... and the same for any document graph *)
Theorem C41_write_any : ∀ g a ss os, reachable no_bare_layers g → a ∈ ["das"; "es"] → text_tokens g ss →
  (∀ n b, node_attrs g n = Some b → has_layer b (g_ns g +:+ ":annotated") → ∃ s, token_is g n s) →
  Forall2 (λ p o, token_written g a p.1 p.2 o) (zip (g_tokens g) ss) os →
  gen_anaphoricity_str g a = Ok (spaced os).
Proof. intros g a ss os H%reach_GInv. by apply gen_ok. Qed.
Print Assumptions C41_write_any.
Definition an_graph : graph := run (init_graph "d" "a" None)
  [OAddNode (NInt 0) (VSet ["a"; "a:token"; "a:annotated"]) None [("a:token", VStr "DAS"); ("a:annotation", VStr "nominal")];
   OAddNode (NInt 1) (VSet ["a"; "a:token"]) None [("a:token", VStr "ist")]; OSetTokens [NInt 0; NInt 1]].
Example C41_write_any_hyp : reachable no_bare_layers an_graph ∧ text_tokens an_graph ["DAS"; "ist"] ∧
  (∀ n b, node_attrs an_graph n = Some b → has_layer b (g_ns an_graph +:+ ":annotated") → ∃ s, token_is an_graph n s) ∧
  Forall2 (λ p o, token_written an_graph "das" p.1 p.2 o) (zip (g_tokens an_graph) ["DAS"; "ist"]) [chs "DAS/n?"; chs "ist"].
Proof.
  split; [|split; [|split]].
  - unfold an_graph, run. cbn [foldl]. apply R_step; [|done]. apply R_step; [|done]. apply R_step; [|done]. constructor.
  - constructor; [|constructor; [|constructor]]; eexists; (split; [vm_compute; reflexivity|vm_compute; reflexivity]).
  - intros n b Hb HL. assert (Hn : n ∈ dkeys (g_node an_graph)) by (apply dget_is_Some; by exists b). vm_compute in Hn. 
    apply elem_of_cons in Hn as [->|Hn]; [|apply elem_of_cons in Hn as [->|Hn]; [|apply elem_of_list_singleton in Hn as ->]].
    + vm_compute in Hb. injection Hb as <-. destruct HL as (l & [= <-] & Hl). apply elem_of_list_singleton in Hl. discriminate Hl.
    + exists "DAS". eexists. split; [exact Hb|]. vm_compute in Hb. injection Hb as <-. vm_compute. reflexivity.
    + exists "ist". eexists. split; [exact Hb|]. vm_compute in Hb. injection Hb as <-. vm_compute. reflexivity.
  - constructor; [|constructor; [|constructor]].
    + eapply (TW_anno an_graph "das" (NInt 0) "DAS" _ "n"%char "nominal"); [vm_compute; reflexivity| | |vm_compute; reflexivity|repeat constructor].
      * eexists. split; [reflexivity|]. right. right. left.
      * vm_compute. reflexivity.
    + eapply (TW_plain an_graph "das" (NInt 1) "ist"); [vm_compute; reflexivity|]. intros [_ H]. vm_compute in H. discriminate H.
Qed.
Theorem C41_other_anaphora : ∀ g a, a ∉ ["das"; "es"] → gen_anaphoricity_str g a = Err AssertionError.
Proof. intros g a H. unfold gen_anaphoricity_str. by rewrite decide_False. Qed.
Print Assumptions C41_other_anaphora.

(** ** Round trip, for texts whose annotations are all uncertain ones of the chosen anaphor *)
Theorem C41_round_trip : ∀ name ns connected text ws a g, a ∈ ["das"; "es"] → words_in text ws →
  Forall (λ w, unannotated w ∨ ∃ tok x, tok ∈ anaphors ∧ cased a tok ∧ x ∈ anno_kinds.*1 ∧ w = chs tok ++ "/"%char :: x :: ["?"%char]) ws →
  read_anaphoricity name ns connected text = (g, None) →
  gen_anaphoricity_str g a = Ok (spaced ws) ∧ read_anaphoricity name ns connected (spaced ws) = (g, None).
Proof.
  intros name ns connected text ws a g Ha HW HF E. split.
  - eapply read_write; [done|done| |done]. apply Forall_Forall2_diag. eapply Forall_impl; [exact HF|].
    intros w [Hu|(tok & x & Ht & Hc & Hx & ->)]; [by apply WR_plain|]. eapply WR_anno; [by apply annotated_plain|done].
  - rewrite <-E. unfold read_anaphoricity. rewrite !line_words_split. pose proof HW as HW'. apply words_in_split in HW. rewrite HW.
    by rewrite (words_in_split _ _ (spaced_words ws (words_are _ _ HW'))).
Qed.
Print Assumptions C41_round_trip.
Example C41_round_trip_hyp : words_in (chs "es/p? kommt") [chs "es/p?"; chs "kommt"] ∧
  Forall (λ w, unannotated w ∨ ∃ tok x, tok ∈ anaphors ∧ cased "es" tok ∧ x ∈ anno_kinds.*1 ∧ w = chs tok ++ "/"%char :: x :: ["?"%char]) [chs "es/p?"; chs "kommt"].
Proof.
  split; [exact (split_words_in (chs "es/p? kommt"))|]. apply List.Forall_cons; [|apply List.Forall_cons; [|constructor]].
  - right. exists "es", "p"%char. split; [repeat constructor|]. split; [vm_compute; reflexivity|]. split; [repeat constructor|done].
  - left. apply anno_search_None. vm_compute. reflexivity.
Qed.

(** ** Defect: whatever the text, a certain annotation of the chosen anaphor is written as
    an uncertain one *)
Theorem C41_certain_refuted : ∀ name ns connected text ws a g i w tok x, a ∈ ["das"; "es"] → words_in text ws →
  ws !! i = Some w → annotated w tok x False → cased a tok →
  read_anaphoricity name ns connected text = (g, None) →
  (∃ b, node_attrs g (NInt (Z.of_nat i)) = Some b ∧ dget (ns +:+ ":certainty") b = Some (VStr "1.0")) ∧
  ∃ out g' b', gen_anaphoricity_str g a = Ok out ∧ read_anaphoricity name ns connected out = (g', None) ∧
    node_attrs g' (NInt (Z.of_nat i)) = Some b' ∧ dget (ns +:+ ":certainty") b' = Some (VStr "0.5").
Proof.
  intros name ns connected text ws a g i w tok x Ha HW Hi Han Hc E.
  assert (HC : ∀ text ws g i w tok x (u : bool), words_in text ws → ws !! i = Some w → annotated w tok x (u = true) → read_anaphoricity name ns connected text = (g, None) →
    ∃ b, node_attrs g (NInt (Z.of_nat i)) = Some b ∧ dget (ns +:+ ":certainty") b = Some (VStr (if u then "0.5" else "1.0"))).
  { clear. intros text ws g i w tok x u HW Hi Han E. destruct (read_built name ns connected text ws HW) as (g' & infos & E' & HI & HB & _). rewrite E in E'. injection E' as <-.
    assert (Hp : imap pair ws !! i = Some (i, w)) by (rewrite list_lookup_imap, Hi; done).
    destruct (Forall2_lookup_l _ _ _ _ _ HI Hp) as (info & Hinfo & Hnode). cbn [fst snd] in Hnode. apply elem_of_list_lookup_2 in Hinfo.
    inversion Hnode as [Hu|tok' x' ty u' Han' Hx]; subst info; [by apply annotated_not in Han|].
    destruct (built_node_attrs _ _ _ _ _ _ HB (proj2 (elem_of_app _ _ _) (or_intror Hinfo))) as (b & Hb & _ & Hk). exists b. split; [done|].
    rewrite Hk by apply key_layers. cbn [dget]. rewrite decide_False by (apply key_ne; done). rewrite decide_True by done.
    destruct (annotated_unique _ _ _ _ _ _ _ Han Han') as (_ & _ & Hu). destruct u, u'; try done; exfalso; by destruct Hu as [Hu1 Hu2]; first [discriminate (Hu1 eq_refl)|discriminate (Hu2 eq_refl)]. }
  split.
  { apply (HC text ws g i w tok x false); [done|done| |done]. destruct Han as (p & q & H1 & H2 & H3). exists p, q. split; [done|]. split; [done|]. rewrite <-H3. done. }
  assert (HO : ∃ os, Forall2 (written a) ws os).
  { clear. induction ws as [|w ws [os IH]]; [by exists []|]. destruct (written_total a w) as [o Ho]. exists (o :: os). by constructor. }
  destruct HO as [os HO]. pose proof (read_write _ _ _ _ _ _ _ _ Ha HW HO E) as EG.
  assert (HWo : Forall is_word os).
  { apply words_are in HW. clear -HW HO. induction HO as [|w o ws os Ho _ IH]; [apply List.Forall_nil|]. apply Forall_cons in HW as [Hw HW]. apply List.Forall_cons; [by eapply written_word|by apply IH]. }
  pose proof (spaced_words os HWo) as HWs. destruct (read_built name ns connected _ _ HWs) as (g' & infos & E' & _).
  destruct (Forall2_lookup_l _ _ _ _ _ HO Hi) as (o & Ho & Hwo).
  assert (Ho' : annotated o tok x (true = true)).
  { inversion Hwo as [Hu|tok' x' u' Han' Hc'|tok' x' u' Han' Hc']; subst; [by apply annotated_not in Han| |].
    - destruct (annotated_unique _ _ _ _ _ _ _ Han Han') as (<- & <- & _). destruct Han as (p & q & (Ht & Hx & _) & _).
      destruct (annotated_plain tok x ["?"%char] Ht Hx) as (p' & q' & H1 & H2 & H3). exists p', q'. split; [done|]. split; [done|]. split; [intros _; by apply H3|done].
    - destruct (annotated_unique _ _ _ _ _ _ _ Han Han') as (<- & _ & _). done. }
  destruct (HC _ _ _ _ _ _ _ true HWs Ho Ho' E') as (b' & Hb' & Hk'). exists (spaced os), g', b'. done.
Qed.
Print Assumptions C41_certain_refuted.
Example C41_certain_refuted_hyp : words_in an_text an_words ∧ an_words !! 4 = Some (chs "Das/n") ∧ annotated (chs "Das/n") "Das" "n"%char False ∧ cased "das" "Das".
Proof.
  split; [apply an_words_in|]. split; [done|]. split; [|vm_compute; reflexivity].
  destruct (annotated_plain "Das" "n"%char []) as (p & q & H1 & H2 & H3); [repeat constructor..|]. exists p, q. split; [done|]. split; [done|]. rewrite <-H3. done.
Qed.

(** ** Defect: the regular expression is searched anywhere in the word, the text around the match is lost *)
Theorem C41_search_refuted : ∃ text ws g, words_in text ws ∧ ws = [chs "bases/a4-Papier"] ∧
  read_anaphoricity "d" "anaphoricity" false text = (g, None) ∧ token_is g (NInt 0) "es".
Proof.
  exists (chs "bases/a4-Papier"). eexists _, _. split; [apply split_words_in|]. split; [vm_compute; reflexivity|]. split; [vm_compute; reflexivity|].
  eexists. split; vm_compute; reflexivity.
Qed.
Print Assumptions C41_search_refuted.
