(** * MmaxDoc: a whole MMAX2 project *)
From Verif Require Import PyBase DocGraph Relabel StrNum Query Text Rst Nltk Parsers Anaphora Conano Decour Ptb Convert Tiger Mmax.
From Verif Require Import SpecGraph DocGraphFacts History Effects RelabelFacts MergeFacts AllHist MergeAll GraphThms SpecImport ImportFacts PtbFacts TextFacts LabelFacts SpecTiger TigerFacts TigerWalk TigerSent TigerReject BuiltFrom TigerDoc TigerTree SpecMmax MmaxFacts.

(** ** Precedence *)
Lemma for_prec ns l : ∀ g M E, built g (nodes_of M) E → g_ns g = ns → Forall (λ e : nid * nid, e.1 ∈ mwho <$> M ∧ e.2 ∈ mwho <$> M) l →
  ∃ g', for_each add_prec_edge l g = (g', None) ∧
    built g' (nodes_of M) (E ++ ((λ e : nid * nid, (e.1, e.2, [ns; ns +:+ ":precedence"], [("edge_type", VStr "precedes")])) <$> l)) ∧ same_doc g g'.
Proof.
  induction l as [|[u v] l IH]; intros g M E HB Hns HF.
  - exists g. rewrite fmap_nil, app_nil_r. split; [done|]. split; [done|apply same_doc_refl].
  - apply Forall_cons in HF as [[Hu Hv] HF]. cbn [for_each]. unfold add_prec_edge at 1. cbn [fst snd] in *. rewrite Hns.
    destruct (built_edge_as g M E u v [ns; ns +:+ ":precedence"] None [("edge_type", VStr precedes)] [("edge_type", VStr precedes)] HB Hu Hv ltac:(done)) as (g1 & E1 & B1 & D1).
    { intros k. unfold given_attrs. rewrite dget_dupdate. cbn [default dget]. by destruct (decide _). }
    rewrite E1. destruct (IH g1 M _ B1) as (g2 & E2 & B2 & D2); [by rewrite (sd_ns _ _ D1)|done|].
    exists g2. split; [exact E2|]. rewrite <-app_assoc in B2. split; [exact B2|]. by eapply same_doc_trans.
Qed.
Lemma precedence_ok ns ws g M E : built g (nodes_of M) E → g_ns g = ns → g_root g = doc_root ns → g_tokens g = ws → 1 < length ws →
  doc_root ns ∈ mwho <$> M → (∀ w, w ∈ ws → w ∈ mwho <$> M) →
  ∃ g', add_precedence_relations g = (g', None) ∧
    built g' (nodes_of M) (E ++ ((λ e : nid * nid, (e.1, e.2, [ns; ns +:+ ":precedence"], [("edge_type", VStr "precedes")])) <$> zip (doc_root ns :: ws) ws)) ∧ same_doc g g'.
Proof.
  intros HB Hns Hr Ht Hlen Hin HW. unfold add_precedence_relations. rewrite Ht, Hr. destruct ws as [|t0 [|t1 ws]]; [cbn in Hlen; lia|cbn in Hlen; lia|].
  apply (for_prec ns ((doc_root ns, t0) :: zip (t0 :: t1 :: ws) (t1 :: ws))); [done|done|]. apply Forall_forall. intros [u v] He. cbn [fst snd].
  apply elem_of_cons in He as [[= -> ->]|He]; [split; [done|apply HW; left]|].
  split; apply HW; [by eapply elem_of_zip_l|right; by eapply elem_of_zip_r].
Qed.

(** ** Sentences *)
Lemma combined_again L x : x.2 = [] → (∃ y, y ∈ L ∧ y.1.1 = x.1.1 ∧ ∀ z, z ∈ x.1.2 → z ∈ y.1.2) → Forall2 same_info (combined (L ++ [x])) (combined L).
Proof.
  intros Hx (y & Hy & Ey & Hl). unfold combined. rewrite fmap_app. change ((λ y : node_info, y.1.1) <$> [x]) with [x.1.1]. rewrite distinct_snoc.
  assert (Hin : x.1.1 ∈ distinct ((λ y : node_info, y.1.1) <$> L)).
  { apply elem_distinct. rewrite <-Ey. by apply (elem_of_list_fmap_1 (λ y : node_info, y.1.1)). }
  rewrite decide_True by done. apply Forall2_fmap, Forall_Forall2_diag, Forall_forall. intros n Hn. rewrite filter_app. destruct (decide (x.1.1 = n)) as [<-|Hne].
  - rewrite filter_cons_True by done. rewrite filter_nil, bind_app, foldl_app. split; [done|]. cbn [fst snd]. split.
    + intros z. rewrite elem_of_app. split; [|by left]. intros [?|Hz]; [done|]. apply elem_of_list_bind. exists y. split; [|by apply elem_of_list_filter].
      apply Hl. apply elem_of_list_bind in Hz as (x' & Hz & ->%elem_of_list_singleton). done.
    + intros k. cbn [foldl]. rewrite dget_dupdate, Hx. done.
  - rewrite filter_cons_False by done. rewrite filter_nil, app_nil_r. done.
Qed.
Section Doc.
  Context (ns : string).
  Lemma sentence_nodes_ok x ts : ts ≠ [] → ∀ (g : graph) M E, built g (nodes_of M) E → g_ns g = ns →
    ∃ g', loop (λ (_ : nid) g, add_node g (node_of "id" x) (VSet [g_ns g; g_ns g +:+ ":sentence"]) None []) ts g = (g', None) ∧
      built g' (nodes_of (M ++ [Always (sentence_info ns x)])) E ∧ same_doc g g'.
  Proof.
    intros Hts. destruct ts as [|t ts]; [done|]. clear Hts. intros g M E HB Hns. cbn [loop].
    destruct (built_always g M E (node_of "id" x) (VSet [g_ns g; g_ns g +:+ ":sentence"]) None [] [g_ns g; g_ns g +:+ ":sentence"] HB) as (g1 & E1 & D1 & B1); [by left|].
    rewrite E1. specialize (B1 [] (λ k, eq_refl)). rewrite Hns in B1. assert (Hns1 : g_ns g1 = ns) by (by rewrite (sd_ns _ _ D1)).
    change (Always (node_of "id" x, [ns; ns +:+ ":sentence"], [])) with (Always (sentence_info ns x)) in B1. clear E1.
    enough (∃ g', loop (λ (_ : nid) g, add_node g (node_of "id" x) (VSet [g_ns g; g_ns g +:+ ":sentence"]) None []) ts g1 = (g', None) ∧
      built g' (nodes_of (M ++ [Always (sentence_info ns x)])) E ∧ same_doc g1 g') as (g' & E' & B' & D').
    { exists g'. split; [done|]. split; [done|]. by eapply same_doc_trans. }
    clear HB Hns D1 g. revert g1 B1 Hns1. induction ts as [|t' ts IH]; intros g B Hns.
    - exists g. split; [done|]. split; [done|apply same_doc_refl].
    - cbn [loop]. destruct (built_always g _ E (node_of "id" x) (VSet [g_ns g; g_ns g +:+ ":sentence"]) None [] [g_ns g; g_ns g +:+ ":sentence"] B) as (g1 & E1 & D1 & B1); [by left|].
      rewrite E1. specialize (B1 [] (λ k, eq_refl)). rewrite Hns in B1.
      change (Always (node_of "id" x, [ns; ns +:+ ":sentence"], [])) with (Always (sentence_info ns x)) in B1.
      destruct (IH g1) as (g2 & E2 & B2 & D2).
      + eapply built_same; [exact B1|]. unfold nodes_of. rewrite !effective_always. apply combined_again; [done|]. exists (sentence_info ns x).
        split; [apply elem_of_app; right; left|]. done.
      + by rewrite (sd_ns _ _ D1).
      + exists g2. split; [done|]. split; [done|]. by eapply same_doc_trans.
  Qed.
  Definition full (p : mmax) (x : xml) : Prop := sentence_words p x ≠ [].
  Global Instance full_dec p x : Decision (full p x).
  Proof. unfold full. apply _. Qed.
  Lemma sentences_ok p ss : Forall (λ x, has_att x "id" ∧ has_span x) ss → ∀ g roots toks M E,
    built g (nodes_of M) E → g_ns g = ns → g_tokens g = word_ids p → (∀ w, w ∈ word_ids p → w ∈ mwho <$> M) →
    ∃ g', loop mmax_sentence ss (g, roots, toks) = ((g', roots ++ (node_of "id" <$> ss), toks ++ (sentence_words p <$> ss)), None) ∧
      built g' (nodes_of (M ++ (Always <$> (sentence_info ns <$> filter (full p) ss)))) E ∧ same_doc g g'.
  Proof.
    induction 1 as [|x ss [Hid Hsp] _ IH]; intros g roots toks M E HB Hns Ht HW.
    - exists g. rewrite filter_nil, !fmap_nil, !app_nil_r. split; [done|]. split; [done|apply same_doc_refl].
    - cbn [loop]. unfold mmax_sentence at 1. rewrite (x_get_ok _ _ Hid), (span_ok _ _ Hsp).
      assert (EW : filter (λ t, t ∈ g_tokens g) (filter (λ n, n ∈ nodes g) (span_words x)) = sentence_words p x).
      { unfold sentence_words. rewrite Ht, list_filter_filter. apply filter_same. intros w. split; [tauto|]. intros Hw. split; [done|].
        rewrite (proj1 (b_nodes _ _ _ HB)). by apply elem_nodes_of, HW. }
      rewrite EW.
      assert (G : ∃ g1, loop (λ (_ : nid) g, add_node g (node_of "id" x) (VSet [g_ns g; g_ns g +:+ ":sentence"]) None []) (sentence_words p x) g = (g1, None) ∧
        built g1 (nodes_of (M ++ (Always <$> (sentence_info ns <$> filter (full p) [x])))) E ∧ same_doc g g1).
      { destruct (decide (full p x)) as [Hf|Hf].
        - rewrite filter_cons_True by done. by apply sentence_nodes_ok.
        - rewrite filter_cons_False by done. rewrite filter_nil, !fmap_nil, app_nil_r. exists g. apply dec_stable in Hf. rewrite Hf.
          split; [done|]. split; [done|apply same_doc_refl]. }
      destruct G as (g1 & E1 & B1 & D1). change (NStr (att "id" x)) with (node_of "id" x). rewrite E1. cbn [fst snd].
      destruct (IH g1 (roots ++ [node_of "id" x]) (toks ++ [sentence_words p x]) _ _ B1) as (g2 & E2 & B2 & D2).
      { by rewrite (sd_ns _ _ D1). } { by rewrite (proj1 (proj2 (proj2 (proj2 D1)))). } { intros w Hw. rewrite fmap_app. apply elem_of_app. left. by apply HW. }
      exists g2. rewrite E2, <-!app_assoc. split; [done|]. split; [|by eapply same_doc_trans].
      rewrite <-app_assoc, <-fmap_app, <-fmap_app, <-filter_app in B2. exact B2.
  Qed.
  Lemma set_tokens_ok (l : list (nat * nid)) : ∀ g M E, built g (nodes_of M) E → Forall (λ p, p.2 ∈ mwho <$> M) l →
    ∃ g', loop (λ (p : nat * nid) g, node_update g p.2 [("tokens", VObj p.1)]) l g = (g', None) ∧
      built g' (nodes_of (M ++ (Always <$> ((λ p : nat * nid, (p.2, [], [("tokens", VObj p.1)])) <$> l)))) E ∧ same_doc g g'.
  Proof.
    induction l as [|[i n] l IH]; intros g M E HB HF.
    - exists g. rewrite !fmap_nil, app_nil_r. split; [done|]. split; [done|apply same_doc_refl].
    - apply Forall_cons in HF as [Hn HF]. cbn [loop]. cbn [fst snd] in *.
      destruct (built_put_attrs g M E n [("tokens", VObj i)] HB Hn ltac:(done)) as (g1 & E1 & D1 & B1). rewrite E1.
      destruct (IH g1 _ _ B1) as (g2 & E2 & B2 & D2).
      { eapply Forall_impl; [exact HF|]. intros p Hp. cbn in Hp |- *. rewrite fmap_app. apply elem_of_app. by left. }
      exists g2. split; [exact E2|]. rewrite <-app_assoc in B2. split; [exact B2|]. by eapply same_doc_trans.
  Qed.
  (** ** The whole project *)
  Lemma mwho_always (l : list node_info) : mwho <$> (Always <$> l) = ids l.
  Proof. unfold ids. by rewrite <-list_fmap_compose. Qed.
  Lemma word_layer_ok precedence connected name p : complete_words p → (precedence = true → 1 < length (mx_words p)) →
    ∃ g, (if precedence then
           match loop (mmax_word false) (mx_words p) (set_name name (init_graph "" ns None)) with
           | (g, Some e) => (g, Some e)
           | (g, None) => add_precedence_relations g
           end
         else loop (mmax_word connected) (mx_words p) (set_name name (init_graph "" ns None))) = (g, None) ∧
      built g (nodes_of (Always (doc_root ns, [ns], []) :: (Always <$> (word_info ns <$> mx_words p)))) (word_edges ns precedence connected p) ∧
      g_ns g = ns ∧ g_root g = doc_root ns ∧ g_name g = name ∧ g_tokens g = word_ids p.
  Proof.
    intros HW HP. set (g0 := set_name name _). 
    assert (B0 : built g0 (nodes_of [Always (doc_root ns, [ns], [])]) []).
    { eapply built_same; [eapply built_ext; [..|exact (built_init "" ns)]; done|]. apply (combined_snoc [] (doc_root ns, [ns], [])). }
    destruct precedence.
    - destruct (words_ok ns false (mx_words p) HW g0 _ _ B0) as (g1 & E1 & B1 & R1 & R2 & R3 & R4); [done|done|left|]. rewrite E1.
      destruct (precedence_ok ns (word_ids p) g1 _ _ B1) as (g2 & E2 & B2 & D2); [done|done|done| | | |].
      { unfold word_ids. rewrite fmap_length. by apply HP. } { left. } 
      { intros w Hw. rewrite fmap_app, mwho_always. apply elem_of_app. right. unfold ids. rewrite <-list_fmap_compose. exact Hw. }
      exists g2. split; [exact E2|]. split; [exact B2|]. destruct D2 as (Q1 & Q2 & Q3 & Q4 & _). rewrite Q1, Q2, Q3, Q4. done.
    - destruct (words_ok ns connected (mx_words p) HW g0 _ _ B0) as (g1 & E1 & B1 & R1 & R2 & R3 & R4); [done|done|left|].
      exists g1. split; [exact E1|]. split; [exact B1|]. done.
  Qed.
  Lemma zip_fmaps {A B C} (h : A → B) (k : A → C) l : zip (h <$> l) (k <$> l) = (λ x, (h x, k x)) <$> l.
  Proof. induction l as [|x l IH]; [done|]. cbn. f_equal. exact IH. Qed.
  Lemma project_ok base name precedence connected order p : let f := graph_name base name in
    project_complete base f precedence order p → project_plain base order p →
    ∃ g r, read_mmax base name ns precedence connected true order p = ((g, r.*2), None) ∧ r ≡ₚ sentence_list f p ∧ in_text_order r ∧
      built g (project_nodes base f ns order p r.*1) (project_edges base ns precedence connected order p) ∧
      g_name g = f ∧ g_ns g = ns ∧ g_root g = doc_root ns ∧ g_tokens g = word_ids p ∧ g_sentences g = r.*1.
  Proof.
    intros f [HW HP HL HS] HPl. unfold read_mmax. fold (graph_name base name). fold f.
    destruct (word_layer_ok precedence connected f p HW HP) as (g1 & E1 & B1 & N1 & R1 & M1 & T1). rewrite E1.
    destruct (levels_ok ns base p order HL HPl g1 _ _ (doc_root ns :: word_ids p) B1 N1) as (g2 & E2 & B2 & D2).
    { intros n. rewrite fmap_cons, mwho_always. cbn [mwho fst]. unfold ids. by rewrite <-list_fmap_compose. }
    rewrite E2. destruct D2 as (Q1 & Q2 & Q3 & Q4 & Q5 & _). unfold mmax_sentences. destruct HS as [[ss Hss] Hne HF].
    pose proof Hss as Hss'. unfold level_file in Hss'. destruct (dget "sentence" (mx_levels p)) as [ext|] eqn:Eext; [|done]. cbn [of_option]. rewrite Q1, M1.
    change (file_id f) with (stem f). rewrite Hss'. cbn [of_option].
    assert (Ess : sentences f p = ss) by (unfold sentences; by rewrite Hss). rewrite Ess in HF, Hne.
    destruct (sentences_ok p ss) with (g := g2) (roots := @nil nid) (toks := @nil (list nid)) (2 := B2) as (g3 & E3 & B3 & D3).
    { eapply Forall_impl; [exact HF|]. cbn. tauto. } { by rewrite Q2. } { by rewrite Q4. }
    { intros w Hw. rewrite fmap_app, fmap_cons, mwho_always. apply elem_of_app. left. right. unfold ids. rewrite <-list_fmap_compose. exact Hw. }
    rewrite E3. cbn [app].
    destruct (sentences_thm (node_of "id" <$> ss) (sentence_words p <$> ss)) as (r & Er & HPr & HOr).
    { by rewrite !fmap_length. } { rewrite Forall_fmap. eapply Forall_impl; [exact HF|]. cbn. tauto. }
    rewrite zip_fmaps in HPr. rewrite Er. 
    assert (Hr : r ≠ []). { intros ->. apply Permutation_nil_l in HPr. by destruct ss. }
    destruct r as [|r0 r']; [done|]. set (r := r0 :: r') in *. clearbody r. clear r0 r'.
    assert (EF : filter (full p) ss = ss). { apply filter_all. eapply Forall_impl; [exact HF|]. unfold full. cbn. tauto. }
    rewrite EF in B3.
    assert (Hin : ∀ n, n ∈ r.*1 → n ∈ node_of "id" <$> ss).
    { intros n (q & -> & Hq)%elem_of_list_fmap. rewrite HPr in Hq. apply elem_of_list_fmap in Hq as (x & -> & Hx). cbn. by apply elem_of_list_fmap_1. }
    assert (B3' := built_ext g3 (set_sentences r.*1 g3) _ _ eq_refl eq_refl eq_refl B3).
    unfold mmax_set_tokens. destruct (set_tokens_ok (imap pair r.*1) (set_sentences r.*1 g3) _ _ B3') as (g4 & E4 & B4 & D4).
    { apply Forall_forall. intros [i n] Hp. cbn [snd]. apply elem_of_lookup_imap in Hp as (j & y & [= -> ->] & Hy). apply elem_of_list_lookup_2, Hin in Hy.
      rewrite !fmap_app. apply elem_of_app. right. rewrite mwho_always. unfold ids. rewrite <-list_fmap_compose. exact Hy. }
    rewrite E4. cbn [fst snd]. exists g4, r. split; [done|]. split; [unfold sentence_list; by rewrite Ess|]. split; [exact HOr|].
    destruct D3 as (S1 & S2 & S3 & S4 & S5 & _), D4 as (U1 & U2 & U3 & U4 & U5 & _). cbn in U1, U2, U3, U4, U5.
    split; [|rewrite U1, U2, U3, U4, U5, S1, S2, S3, S4, Q1, Q2, Q3, Q4; done].
    unfold project_nodes, project_mentions. rewrite fmap_imap in B4. rewrite Ess. unfold nodes_of in B4. rewrite <-!app_assoc in B4. exact B4.
  Qed.
End Doc.
Lemma effective_always_list l : ∀ s, effective s (Always <$> l) = l.
Proof. induction l as [|x l IH]; intros s; [done|]. cbn [fmap list_fmap effective]. f_equal. apply IH. Qed.
Lemma last_get (key : string) (v : pyval) (y : node_info) (L2 : list node_info) : dget key y.2 = Some v → (∀ z : node_info, z ∈ L2 → dget key z.2 = None) → ∀ L1 (a : attrs),
  dget key (foldl (λ a (y : node_info), dupdate a y.2) a (L1 ++ y :: L2)) = Some v.
Proof.
  intros Hy H2 L1 a. rewrite foldl_app. cbn [foldl]. set (b := dupdate _ y.2). assert (Hb : dget key b = Some v) by (unfold b; rewrite dget_dupdate, Hy; done). clearbody b.
  revert b Hb. induction L2 as [|z L2 IH]; intros b Hb; [done|]. cbn [foldl]. apply IH; [intros x Hx; apply H2; by right|]. rewrite dget_dupdate, H2 by left. done.
Qed.
Lemma project_tokens_attr g base f ns order p r E i s : built g (project_nodes base f ns order p r) E → NoDup r → r !! i = Some s →
  ∃ a, node_attrs g s = Some a ∧ dget "tokens" a = Some (VObj i).
Proof.
  intros HB HD Hi. unfold project_nodes in HB. set (M := project_mentions base f ns order p r) in *.
  assert (Hin : s ∈ ids (effective [] M)).
  { pose proof (elem_effective M s []) as H. rewrite elem_of_nil in H. enough (s ∈ mwho <$> M) by tauto. unfold M, project_mentions. rewrite fmap_cons, !fmap_app. right. rewrite !elem_of_app. right. right. right.
    rewrite mwho_always. unfold ids. rewrite fmap_imap. apply elem_of_lookup_imap. by exists i, s. }
  set (a := foldl (λ a (y : node_info), dupdate a y.2) [] (filter (λ y : node_info, y.1.1 = s) (effective [] M))).
  assert (Hl : ∃ l, (s, l, a) ∈ combined (effective [] M)).
  { eexists. unfold combined. apply elem_of_list_fmap. exists s. split; [reflexivity|]. by apply elem_distinct. }
  destruct Hl as [l Hl]. destruct (built_node_attrs _ _ _ _ _ _ HB Hl) as (b & Hb & _ & HK). exists b. split; [done|]. rewrite HK by done. unfold a, M, project_mentions.
  change (?x :: ?y ++ ?z ++ ?u ++ ?v) with ((x :: y) ++ z ++ u ++ v). rewrite !app_assoc. rewrite effective_app, effective_always_list, filter_app.
  set (h := λ (i : nat) (s : nid), (s, [], [("tokens", VObj i)]) : node_info).
  assert (E1 : imap h r = imap h (take i r) ++ h i s :: imap (λ j s, h (S i + j) s) (drop (S i) r)).
  { rewrite <-(take_drop_middle r i s Hi) at 1. rewrite imap_app. f_equal. cbn [imap]. pose proof (lookup_lt_Some _ _ _ Hi) as Hlt. rewrite take_length, Nat.min_l by lia. f_equal; [by rewrite Nat.add_0_r|].
    apply imap_ext. intros j x _. cbn. by rewrite Nat.add_succ_r. }
  match goal with |- context [imap ?k r] => change (imap k r) with (imap h r) end. rewrite E1, filter_app. rewrite filter_cons_True by done. rewrite !app_assoc. apply last_get; [done|].
  intros z [Hz Hin']%elem_of_list_filter. exfalso. apply elem_of_lookup_imap in Hin' as (j & x & -> & Hj). cbn in Hz. subst x.
  rewrite lookup_drop in Hj. pose proof (NoDup_lookup _ _ _ _ HD Hi Hj). lia.
Qed.
