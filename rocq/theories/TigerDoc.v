(** * TigerDoc: a document of sentences *)
From Verif Require Import PyBase DocGraph Relabel StrNum Query Text Rst Nltk Parsers Anaphora Conano Decour Ptb Convert Tiger.
From Verif Require Import SpecGraph DocGraphFacts History Effects RelabelFacts MergeFacts AllHist MergeAll GraphThms SpecImport ImportFacts PtbFacts SpecQuery SpanFacts SpecTiger TigerFacts TigerWalk TigerSent TigerReject BuiltFrom.

Lemma combined_ids L : ids (combined L) = distinct (ids L).
Proof. unfold combined, ids. rewrite <-list_fmap_compose. apply list_fmap_id. Qed.
Lemma combined_snoc L x : Forall2 same_info (note x.1.1 x.1.2 x.2 (combined L)) (combined (L ++ [x])).
Proof.
  unfold combined at 2. rewrite fmap_app. change ((λ y : node_info, y.1.1) <$> [x]) with [x.1.1]. rewrite distinct_snoc. change ((λ y : node_info, y.1.1) <$> L) with (ids L).
  assert (HD : x.1.1 ∈ distinct (ids L) ↔ x.1.1 ∈ ids L) by apply elem_distinct.
  assert (Hother : ∀ n, n ≠ x.1.1 → filter (λ y : node_info, y.1.1 = n) (L ++ [x]) = filter (λ y : node_info, y.1.1 = n) L).
  { intros n Hn. rewrite filter_app, filter_cons_False by congruence. apply app_nil_r. }
  assert (Hsame : filter (λ y : node_info, y.1.1 = x.1.1) (L ++ [x]) = filter (λ y : node_info, y.1.1 = x.1.1) L ++ [x]) by (by rewrite filter_app, filter_cons_True).
  unfold note. rewrite combined_ids. destruct (decide (x.1.1 ∈ distinct (ids L))) as [H|H].
  - unfold combined. change ((λ y : node_info, y.1.1) <$> L) with (ids L). rewrite <-list_fmap_compose. apply Forall2_fmap, Forall_Forall2_diag, Forall_forall. intros n Hn. cbn. destruct (decide (n = x.1.1)) as [->|Hne].
    + rewrite Hsame, bind_app, foldl_app. split; [done|]. cbn. split; [|done]. intros z. by rewrite app_nil_r.
    + by rewrite Hother.
  - rewrite fmap_app. apply Forall2_app.
    + unfold combined. change ((λ y : node_info, y.1.1) <$> L) with (ids L). apply Forall2_fmap, Forall_Forall2_diag, Forall_forall. intros n Hn. rewrite Hother; [done|]. by intros ->.
    + apply List.Forall2_cons; [|constructor]. rewrite Hsame. assert (EN : filter (λ y : node_info, y.1.1 = x.1.1) L = []).
      { apply elem_of_nil_inv. intros y [Hy Hin]%elem_of_list_filter. apply H, HD. rewrite <-Hy. unfold ids. by apply (elem_of_list_fmap_1 (λ y : node_info, y.1.1)). }
      rewrite EN. split; [done|]. cbn. split; [intros z; by rewrite app_nil_r|]. intros k. rewrite dget_dupdate. cbn. by destruct (dget k x.2).
Qed.
Lemma same_infos_trans N1 N2 N3 : Forall2 same_info N1 N2 → Forall2 same_info N2 N3 → Forall2 same_info N1 N3.
Proof.
  intros H. revert N3. induction H as [|x y N1 N2 Hxy _ IH]; intros N3 H1.
  - apply Forall2_nil_inv_l in H1 as ->. constructor.
  - apply Forall2_cons_inv_l in H1 as (z & N3' & Hyz & H1 & ->). apply List.Forall2_cons; [by eapply same_info_trans|by apply IH].
Qed.
Lemma same_infos_refl N : Forall2 same_info N N.
Proof. apply Forall_Forall2_diag, Forall_forall. done. Qed.
Lemma note_same n l a N N' : Forall2 same_info N N' → Forall2 same_info (note n l a N) (note n l a N').
Proof.
  intros H. assert (E : ids N = ids N'). { induction H as [|x y N N' (E & _) _ IH]; [done|]. unfold ids in *. rewrite !fmap_cons. by f_equal. }
  unfold note. rewrite E. destruct (decide _).
  - apply Forall2_fmap. eapply Forall2_impl; [exact H|]. intros x y (E' & HL & HK). rewrite E'. destruct (decide _); [|by split].
    split; [done|]. cbn. split; [intros z; by rewrite !elem_of_app, HL|]. intros k. by rewrite !dget_dupdate, HK.
  - apply Forall2_app; [done|]. apply List.Forall2_cons; [done|constructor].
Qed.
Lemma note_all_combined L' : ∀ L N, Forall2 same_info N (combined L) → Forall2 same_info (note_all L' N) (combined (L ++ L')).
Proof.
  induction L' as [|x L' IH]; intros L N H; [by rewrite app_nil_r|].
  change (note_all (x :: L') N) with (note_all L' (note x.1.1 x.1.2 x.2 N)). change (x :: L') with ([x] ++ L'). rewrite app_assoc. apply IH.
  eapply same_infos_trans; [apply note_same, H|apply combined_snoc].
Qed.
Lemma combined_nodup L : NoDup (ids L) → Forall2 same_info (combined L) L.
Proof.
  induction L as [|x L IH] using rev_ind; intros HD; [constructor|]. rewrite ids_app in HD. apply NoDup_app in HD as (HD & Hx & _).
  assert (HN : x.1.1 ∉ ids L) by (intros H; apply (Hx _ H); left).
  pose proof (combined_snoc L x) as HS. rewrite note_new in HS by (by rewrite combined_ids, elem_distinct).
  assert (HS' : Forall2 same_info (combined (L ++ [x])) (combined L ++ [(x.1.1, x.1.2, x.2)])).
  { apply Forall2_flip. eapply Forall2_impl; [exact HS|]. intros a b (E & HL & HK). split; [done|]. split; [intros z; by rewrite HL|intros k; by rewrite HK]. }
  eapply same_infos_trans; [exact HS'|]. apply Forall2_app; [by apply IH|]. destruct x as [[n l] a]. apply same_infos_refl.
Qed.
(** ** The parts of a sentence *)
Lemma described_layered ns M : Forall (λ x : node_info, x.1.2 ≠ []) (described ns M).
Proof.
  unfold described. apply Forall_fmap, Forall_forall. intros n Hn. cbn. apply elem_distinct, about_some in Hn as (m & l & E). unfold layers_given. rewrite E. cbn [head]. by destruct m.1.2.
Qed.
Lemma phrases_edges_layered ns toks ps : ∀ last, Forall (λ x : edge_info, x.1.2 ≠ []) (phrases_edges ns toks last ps).
Proof.
  induction ps as [|p ps IH]; intros last; [constructor|]. cbn [phrases_edges]. apply Forall_app. split; [|apply IH].
  unfold phrase_edges. apply Forall_app. split; apply Forall_fmap, Forall_forall; done.
Qed.
Lemma sentence_edges_layered i ns x : Forall (λ x : edge_info, x.1.2 ≠ []) (sentence_edges i ns x).
Proof.
  unfold sentence_edges, annotated_edges. apply Forall_app. split; [apply Forall_app; split|].
  - apply Forall_forall. intros e (t & He & _)%elem_of_list_bind. unfold token_edges in He. by apply elem_of_list_fmap in He as (s & -> & _).
  - apply phrases_edges_layered.
  - apply Forall_fmap, Forall_forall. done.
Qed.
Lemma built_ends g N E : built g N E → Forall (λ x : edge_info, x.1.1.1 ∈ ids N ∧ x.1.1.2 ∈ ids N) E.
Proof.
  intros HB. destruct (b_edges _ _ _ HB) as (es & HP & HE). assert (HN : nodes g = ids N) by apply (b_nodes _ _ _ HB).
  assert (HA : Forall (λ e : nid * nid * nid * attrs, e.1.1.1 ∈ ids N ∧ e.1.1.2 ∈ ids N) es).
  { rewrite <-HP. apply Forall_forall. intros [[[u v] k] a] Hin. apply elem_edges in Hin; [|apply HB]. cbn. rewrite <-HN. split; [by eapply edge_node_l; [apply HB|]|by eapply edge_node_r; [apply HB|]]. }
  clear HP HB HN. induction HE as [|e x es E (H1 & H2 & _) _ IH]; [constructor|]. apply Forall_cons in HA as [[A1 A2] HA]. apply List.Forall_cons; [by rewrite <-H1, <-H2|by apply IH].
Qed.
Lemma final_root_in i ns x : final_root ns x ∈ who <$> mentions i ns x.
Proof.
  unfold final_root, mentions. destruct (decide _); rewrite fmap_app; apply elem_of_app; [right; left|left; left].
Qed.
Definition sent_nodes (i : nat) (s : xml) : list node_info := described "tiger" (mentions i "tiger" s).
Definition sent_edges (ns : string) (i : nat) (s : xml) : list edge_info :=
  sentence_edges i "tiger" s ++ [(doc_root ns, final_root "tiger" s, [ns; ns +:+ ":sentence"], [("edge_type", VStr "dominates")])].
Lemma sentences_ok ns name ss : Forall good_sentence ss → ∀ g ls N E,
  built g N E → g_ns g = ns → g_root g = doc_root ns → doc_root ns ∈ ids N → g_name g = name →
  ∃ g' N', loop tiger_add_sentence ss (g, ls) = ((g', ls ++ ((λ s, nat_sorted (token_ids s)) <$> ss)), None) ∧
    built g' N' (E ++ concat (imap (λ i s, sent_edges ns (length ls + i) s) ss)) ∧
    (∀ L, Forall2 same_info N (combined L) → Forall2 same_info N' (combined (L ++ concat (imap (λ i s, sent_nodes (length ls + i) s) ss)))) ∧
    g_name g' = name ∧ g_ns g' = ns ∧ g_root g' = doc_root ns ∧
    g_tokens g' = g_tokens g ++ concat ((λ s, nat_sorted (token_ids s)) <$> ss) ∧
    g_sentences g' = g_sentences g ++ (final_root "tiger" <$> ss).
Proof.
  induction 1 as [|s ss (HW & HC & HT) _ IH]; intros g ls N E HB Hns Hr Hin Hname.
  - exists g, N. cbn. rewrite !app_nil_r. split; [done|]. split; [done|]. split; [intros L HL; by rewrite app_nil_r|]. done.
  - cbn [loop]. unfold tiger_add_sentence at 1.
    destruct (sentence_ok (length ls) "tiger" s HW HC HT) as (sg & Es & BS & S1 & S2 & S3 & S4 & S5). rewrite Es.
    destruct (built_copy (set_tokens (g_tokens g ++ g_tokens sg) g) N E sg _ _ (built_tokens _ _ _ _ HB) BS (described_layered _ _) (sentence_edges_layered _ _ _) (built_ends _ _ _ BS)) as (g1 & g2 & E1 & E2 & B2 & D2).
    rewrite E1, E2. 
    assert (Hmono : ∀ N' N n, n ∈ ids N' ∨ n ∈ ids N → n ∈ ids (note_all N' N)).
    { clear. induction N' as [|x N' IH]; intros N n Hn; [destruct Hn as [Hn|Hn]; [by apply elem_of_nil in Hn|done]|]. change (note_all (x :: N') N) with (note_all N' (note x.1.1 x.1.2 x.2 N)). apply IH.
      rewrite ids_note. change (ids (x :: N')) with (x.1.1 :: ids N') in Hn. rewrite elem_of_cons in Hn. destruct (decide _); [|rewrite elem_of_app, elem_of_list_singleton]; naive_solver. }
    set (N2 := note_all (described "tiger" (mentions (length ls) "tiger" s)) N) in *.
    assert (Hin2 : doc_root ns ∈ ids N2) by (apply Hmono; by right).
    assert (Hin2' : final_root "tiger" s ∈ ids N2) by (apply Hmono; left; apply in_described, final_root_in).
    destruct D2 as (D1 & D2 & D3 & D4 & D5 & D6). cbn in D1, D2, D3, D4, D5. rewrite D2, D3, S3, Hns, Hr.
    destruct (built_edge_in g2 N2 _ (doc_root ns) (final_root "tiger" s) (VSet [ns; ns +:+ ":sentence"]) None [("edge_type", VStr dominates)] [ns; ns +:+ ":sentence"] B2 Hin2 Hin2') as (g3 & E3 & B3 & F); [by left|].
    rewrite E3. destruct F as (F1 & F2 & F3 & F4 & F5 & F6). 
    set (g4 := set_sentences _ _). 
    assert (B4 : built g4 N2 ((E ++ sentence_edges (length ls) "tiger" s) ++ [(doc_root ns, final_root "tiger" s, [ns; ns +:+ ":sentence"], [("edge_type", VStr "dominates")])])) by (eapply built_ext; [..|exact B3]; done).
    destruct (IH g4 (ls ++ [nat_sorted (token_ids s)]) N2 _ B4) as (g5 & N5 & E5 & B5 & HL5 & P1 & P2 & P3 & P4 & P5).
    { cbn. by rewrite F2, D2. } { cbn. by rewrite F3, D3. } { done. } { cbn. by rewrite F1, D1. }
    exists g5, N5. rewrite E5. split; [by rewrite <-app_assoc|]. 
    assert (EL : ∀ {A} (f : nat → xml → A), imap (λ i x, f (length (ls ++ [nat_sorted (token_ids s)]) + i) x) ss = imap (λ i x, f (length ls + S i) x) ss).
    { intros A f. apply imap_ext. intros i x _. rewrite app_length. cbn. f_equal. lia. }
    split; [|split; [|split; [done|split; [done|split; [done|split]]]]].
    + cbn [imap concat]. rewrite (Nat.add_0_r (length ls)). change (sent_edges ns (length ls) s) with (sentence_edges (length ls) "tiger" s ++ [(doc_root ns, final_root "tiger" s, [ns; ns +:+ ":sentence"], [("edge_type", VStr "dominates")])]).
      rewrite (EL _ (sent_edges ns)) in B5. rewrite <-!app_assoc in B5. rewrite <-!app_assoc. exact B5.
    + intros L HL. cbn [imap concat]. rewrite (Nat.add_0_r (length ls)). rewrite app_assoc. specialize (HL5 (L ++ sent_nodes (length ls) s)). rewrite (EL _ sent_nodes) in HL5.
      apply HL5. by apply note_all_combined.
    + rewrite P4. cbn. by rewrite F4, D4, S4, <-app_assoc.
    + rewrite P5. cbn. by rewrite F5, D5, <-app_assoc.
Qed.
Lemma document_ok name ns x : has_att x "id" → Forall good_sentence (sentences_in x) →
  ∃ g, read_tiger name ns x = ((g, (λ s, nat_sorted (token_ids s)) <$> sentences_in x), None) ∧
    built g (combined (document_nodes ns x)) (document_edges ns x) ∧
    g_name g = name ∧ g_ns g = ns ∧ g_root g = doc_root ns ∧
    g_tokens g = concat ((λ s, nat_sorted (token_ids s)) <$> sentences_in x) ∧
    g_sentences g = nat_sorted (final_root "tiger" <$> sentences_in x).
Proof.
  intros Hid HF. unfold read_tiger. rewrite (x_get_ok _ _ Hid), x_path_elements. change (elements ["body"; "s"] x) with (sentences_in x).
  set (g0 := set_sentences [] _).
  assert (B0 : built g0 [(doc_root ns, [ns], [])] []) by (eapply built_ext; [..|exact (built_init "" ns)]; done).
  destruct (sentences_ok ns name (sentences_in x) HF g0 [] _ _ B0) as (g & N & E & B & HL & P1 & P2 & P3 & P4 & P5).
  { done. } { done. } { left. } { done. }
  rewrite E. eexists. split; [done|]. split; [|cbn; split; [done|split; [done|split; [done|split; [done|by rewrite P5]]]]].
  eapply built_same; [eapply built_ext; [..|exact B]; done|]. apply (HL [(doc_root ns, [ns], [])]). apply (combined_snoc [] (doc_root ns, [ns], [])).
Qed.
