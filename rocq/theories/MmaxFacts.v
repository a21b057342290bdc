(** * MmaxFacts: reading an MMAX2 project *)
From Verif Require Import PyBase DocGraph Relabel StrNum Query Text Rst Nltk Parsers Anaphora Conano Decour Ptb Convert Tiger Mmax.
From Verif Require Import SpecGraph DocGraphFacts History Effects RelabelFacts MergeFacts AllHist MergeAll GraphThms SpecImport ImportFacts PtbFacts TextFacts LabelFacts SpecTiger TigerFacts TigerWalk TigerSent TigerReject BuiltFrom TigerDoc TigerTree SpecMmax.

(** ** Mentions *)
Definition mwho (m : mm_mention) : nid := match m with Always x => x.1.1 | Optional x => x.1.1 end.
Lemma effective_ext M : ∀ s s', (∀ n, n ∈ s ↔ n ∈ s') → effective s M = effective s' M.
Proof.
  induction M as [|m M IH]; intros s s' H; [done|]. destruct m as [x|x]; cbn [effective].
  - f_equal. apply IH. intros n. by rewrite !elem_of_cons, H.
  - destruct (decide (x.1.1 ∈ s)) as [Hx|Hx].
    + rewrite decide_True by (by apply H). by apply IH.
    + rewrite decide_False by (by rewrite <-H). f_equal. apply IH. intros n. by rewrite !elem_of_cons, H.
Qed.
Lemma effective_app M M' : ∀ s, effective s (M ++ M') = effective s M ++ effective ((mwho <$> M) ++ s) M'.
Proof.
  induction M as [|m M IH]; intros s; [done|]. rewrite fmap_cons. destruct m as [x|x]; cbn [effective app].
  - rewrite IH. f_equal. f_equal. apply effective_ext. intros n. cbn [mwho]. rewrite elem_of_cons, !elem_of_app, elem_of_cons. tauto.
  - destruct (decide _) as [Hx|Hx].
    + rewrite IH. f_equal. apply effective_ext. intros n. cbn [mwho]. rewrite elem_of_cons, !elem_of_app. split; [tauto|]. intros [-> |?]; tauto.
    + cbn [app]. rewrite IH. f_equal. f_equal. apply effective_ext. intros n. cbn [mwho]. rewrite elem_of_cons, !elem_of_app, elem_of_cons. tauto.
Qed.
Lemma elem_effective M n : ∀ s, n ∈ s ∨ n ∈ ids (effective s M) ↔ n ∈ s ∨ n ∈ mwho <$> M.
Proof.
  induction M as [|m M IH]; intros s; [done|]. rewrite fmap_cons, elem_of_cons. destruct m as [x|x]; cbn [effective mwho].
  - change (ids (x :: effective (x.1.1 :: s) M)) with (x.1.1 :: ids (effective (x.1.1 :: s) M)). rewrite elem_of_cons.
    specialize (IH (x.1.1 :: s)). rewrite elem_of_cons in IH. tauto.
  - destruct (decide _) as [Hx|Hx].
    + rewrite IH. split; [tauto|]. intros [?|[-> |?]]; tauto.
    + change (ids (x :: effective (x.1.1 :: s) M)) with (x.1.1 :: ids (effective (x.1.1 :: s) M)). rewrite elem_of_cons.
      specialize (IH (x.1.1 :: s)). rewrite elem_of_cons in IH. tauto.
Qed.
Definition nodes_of (M : list mm_mention) : list node_info := combined (effective [] M).
Lemma elem_nodes_of M n : n ∈ ids (nodes_of M) ↔ n ∈ mwho <$> M.
Proof. unfold nodes_of. rewrite combined_ids, elem_distinct. pose proof (elem_effective M n []) as H. rewrite elem_of_nil in H. tauto. Qed.
Lemma effective_always M x : effective [] (M ++ [Always x]) = effective [] M ++ [x].
Proof. by rewrite effective_app. Qed.
Lemma nodes_old M x : x.1.1 ∈ mwho <$> M → nodes_of (M ++ [Optional x]) = nodes_of M.
Proof.
  intros H. unfold nodes_of. rewrite effective_app. cbn [effective]. rewrite decide_True by (rewrite app_nil_r; done). by rewrite app_nil_r.
Qed.
Lemma nodes_new M x : x.1.1 ∉ mwho <$> M → nodes_of (M ++ [Optional x]) = nodes_of (M ++ [Always x]).
Proof.
  intros H. unfold nodes_of. rewrite !effective_app. cbn [effective]. by rewrite decide_False by (rewrite app_nil_r; done).
Qed.
Lemma built_always g M E n layers ad attr l : built g (nodes_of M) E → asked_layers (g_ns g) layers l →
  ∃ g', add_node g n layers ad attr = (g', None) ∧ same_doc g g' ∧
    ∀ a, (∀ k, dget k (given_attrs ad attr) = dget k a) → built g' (nodes_of (M ++ [Always (n, l, a)])) E.
Proof.
  intros HB Ha. destruct (built_node g _ E n layers ad attr l HB Ha) as (g' & E1 & B1 & D1). exists g'. split; [done|]. split; [done|].
  intros a HA. unfold nodes_of. rewrite effective_always. eapply built_same; [|apply (combined_snoc _ (n, l, a))]. eapply built_same; [exact B1|]. by apply note_ext.
Qed.
Lemma built_put_attrs g M E n d : built g (nodes_of M) E → n ∈ mwho <$> M → dget "layers" d = None →
  ∃ g', node_update g n d = (g', None) ∧ same_doc g g' ∧ built g' (nodes_of (M ++ [Always (n, [], d)])) E.
Proof.
  intros HB Hn Hd. destruct (built_update g _ E n d HB) as (g' & E1 & B1 & D1); [by apply elem_nodes_of|done|].
  exists g'. split; [done|]. split; [done|]. unfold nodes_of. rewrite effective_always. eapply built_same; [exact B1|]. apply (combined_snoc _ (n, [], d)).
Qed.

Lemma built_edge_as g M E u v l ad attr a : built g (nodes_of M) E → u ∈ mwho <$> M → v ∈ mwho <$> M → l ≠ [] →
  (∀ k, dget k (given_attrs ad attr) = dget k a) →
  ∃ g', add_edge g u v (VSet l) None ad attr = (g', None) ∧ built g' (nodes_of M) (E ++ [(u, v, l, a)]) ∧ same_doc g g'.
Proof.
  intros HB Hu Hv Hl Ha. destruct (built_edge_in g _ E u v (VSet l) ad attr l HB) as (g' & E1 & B1 & D1); [by apply elem_nodes_of..|by left|].
  exists g'. split; [done|]. split; [|done]. eapply built_same_edges; [exact B1|]. apply Forall2_app; [apply Forall_Forall2_diag, Forall_forall; done|].
  apply List.Forall2_cons; [|constructor]. by repeat split.
Qed.
Lemma two_get (a b : pyval) k : dget k (given_attrs None [("edge_type", a); ("label", b)]) = dget k [("edge_type", a); ("label", b)].
Proof. unfold given_attrs. rewrite dget_dupdate. cbn [default dget]. by repeat destruct (decide _). Qed.
Lemma one_get (a b : attrs) key (v : pyval) k : dget k a = dget k b → dget k (given_attrs (Some a) [(key, v)]) = dget k ((key, v) :: b).
Proof. intros E. unfold given_attrs. rewrite dget_dupdate. cbn [default]. cbn [dget]. by destruct (decide _). Qed.
(** ** Words *)
Section Read.
  Context (ns : string).
  Notation tok_layers := [ns; ns +:+ ":token"].
  Lemma words_ok connected ws : Forall (λ w, has_att w "id" ∧ is_Some (x_text w)) ws → ∀ g M E,
    built g (nodes_of M) E → g_ns g = ns → g_root g = doc_root ns → doc_root ns ∈ mwho <$> M →
    ∃ g', loop (mmax_word connected) ws g = (g', None) ∧
      built g' (nodes_of (M ++ (Always <$> (word_info ns <$> ws)))) (E ++ (if connected then (λ w, (doc_root ns, w, tok_layers, [])) <$> (node_of "id" <$> ws) else [])) ∧
      g_ns g' = ns ∧ g_root g' = doc_root ns ∧ g_name g' = g_name g ∧ g_tokens g' = g_tokens g ++ (node_of "id" <$> ws).
  Proof.
    induction 1 as [|w ws [Hid [t Ht]] _ IH]; intros g M E HB Hns Hr Hin.
    - exists g. split; [done|]. rewrite !fmap_nil, !(app_nil_r M), (app_nil_r (g_tokens g)). split; [|done]. by destruct connected; rewrite app_nil_r.
    - cbn [loop]. unfold mmax_word at 1. rewrite (x_get_ok _ _ Hid), Ht. cbn [of_option]. set (g0 := set_tokens _ g).
      assert (B0 : built g0 (nodes_of M) E) by (by apply built_tokens). assert (Hns0 : g_ns g0 = ns) by done.
      destruct (built_always g0 M E (NStr (att "id" w)) (VSet [g_ns g0; g_ns g0 +:+ ":token"]) (Some [(g_ns g0 +:+ ":token", VStr (str t)); ("label", VStr (str t))]) [] [g_ns g0; g_ns g0 +:+ ":token"] B0) as (g1 & E1 & D1 & B1); [by left|].
      rewrite E1. rewrite !Hns0 in B1. specialize (B1 _ (λ k, eq_refl)).
      assert (EI : Always (NStr (att "id" w), tok_layers, given_attrs (Some [(ns +:+ ":token", VStr (str t)); ("label", VStr (str t))]) []) = Always (word_info ns w)).
      { unfold word_info, word_text, given_attrs. rewrite Ht. done. }
      rewrite EI in B1. destruct D1 as (P1 & P2 & P3 & P4 & P5 & P6).
      assert (G : ∃ g2, (if connected then add_edge g1 (g_root g1) (NStr (att "id" w)) (VSet [g_ns g1; g_ns g1 +:+ ":token"]) None None [] else (g1, None)) = (g2, None) ∧
        built g2 (nodes_of (M ++ [Always (word_info ns w)])) (E ++ (if connected then [(doc_root ns, node_of "id" w, tok_layers, [])] else [])) ∧ same_doc g1 g2).
      { destruct connected; [|exists g1; by rewrite app_nil_r].
        destruct (built_edge_in g1 (nodes_of (M ++ [Always (word_info ns w)])) E (doc_root ns) (node_of "id" w) (VSet [ns; ns +:+ ":token"]) None [] tok_layers B1) as (g2 & E2 & B2 & D2).
        - apply elem_nodes_of. rewrite fmap_app. apply elem_of_app. by left.
        - apply elem_nodes_of. rewrite fmap_app. apply elem_of_app. right. left.
        - by left.
        - exists g2. rewrite P2, P3, Hns0. change (g_root g0) with (g_root g). rewrite Hr. done. }
      destruct G as (g2 & E2 & B2 & D2). rewrite E2. destruct D2 as (Q1 & Q2 & Q3 & Q4 & Q5 & Q6).
      destruct (IH g2 _ _ B2) as (g3 & E3 & B3 & R1 & R2 & R3 & R4).
      { by rewrite Q2, P2. } { rewrite Q3, P3. done. } { rewrite fmap_app. apply elem_of_app. by left. }
      exists g3. split; [exact E3|]. rewrite <-!app_assoc in B3. split; [|split; [done|split; [done|split]]].
      + rewrite !fmap_cons. destruct connected; exact B3.
      + rewrite R3, Q1, P1. done.
      + rewrite R4, Q4, P4. cbn [g_tokens g0 set_tokens]. rewrite <-app_assoc. done.
  Qed.
  (** ** Markables *)
  Lemma span_edges_ok layer m ls ws : ls ≠ [] → ∀ g held M E,
    built g (nodes_of M) E → g_ns g = ns → m ∈ mwho <$> M → Forall (λ w, w ∈ mwho <$> M) ws →
    ∃ g' held', loop (mmax_span_edge layer m) ws (g, ls, held) = ((g', ls, held'), None) ∧
      built g' (nodes_of M) (E ++ ((λ w, (m, w, ls, [("edge_type", VStr "spans"); ("label", VStr (ns +:+ ":" +:+ layer))])) <$> ws)) ∧ same_doc g g'.
  Proof.
    intros Hls. induction ws as [|w ws IH]; intros g held M E HB Hns Hm HF.
    - exists g, held. rewrite fmap_nil, app_nil_r. split; [done|]. split; [done|apply same_doc_refl].
    - apply Forall_cons in HF as [Hw HF]. cbn [loop]. unfold mmax_span_edge at 1, mm_add_edge at 1. change (mm_graph (g, ls, held)) with g. rewrite Hns.
      destruct (built_edge_as g M E m w ls None _ _ HB Hm Hw Hls (two_get (VStr spans) (VStr (ns +:+ ":" +:+ layer)))) as (g1 & E1 & B1 & D1).
      rewrite E1. cbn [fst snd]. set (held1 := if bool_decide _ then _ else _). clearbody held1.
      destruct (IH g1 held1 M _ B1) as (g2 & held2 & E2 & B2 & D2); [by rewrite (sd_ns _ _ D1)|done|done|].
      exists g2, held2. split; [exact E2|]. rewrite <-app_assoc in B2. split; [exact B2|]. by eapply same_doc_trans.
  Qed.
  Lemma antecedents_ok m ls cs : ls ≠ [] → Forall (λ c : chars, ":"%char ∉ c) cs → ∀ g held M E,
    built g (nodes_of M) E → g_ns g = ns → m ∈ mwho <$> M →
    ∃ g' held', loop (mmax_antecedent m) cs (g, ls, held) = ((g', ls, held'), None) ∧
      built g' (nodes_of (M ++ ((λ a, Optional (a, ls, [])) <$> ((λ c, NStr (str c)) <$> cs))))
        (E ++ ((λ a, (m, a, ls, [("edge_type", VStr "points_to"); ("label", VStr (ns +:+ ":antecedent"))])) <$> ((λ c, NStr (str c)) <$> cs))) ∧ same_doc g g'.
  Proof.
    intros Hls. induction 1 as [|c cs Hc _ IH]; intros g held M E HB Hns Hm.
    - exists g, held. rewrite !fmap_nil, !app_nil_r. split; [done|]. split; [done|apply same_doc_refl].
    - cbn [loop]. unfold mmax_antecedent at 1. rewrite (split_char_none _ _ Hc). cbn [List.last]. change (mm_graph (g, ls, held)) with g. rewrite Hns.
      set (n := NStr (str c)).
      assert (G : ∃ g1 held1, (if decide (n ∈ nodes g) then ((g, ls, held), None) else mm_add_node n None [] (g, ls, held)) = ((g1, ls, held1), None) ∧
        built g1 (nodes_of (M ++ [Optional (n, ls, [])])) E ∧ same_doc g g1).
      { destruct (decide (n ∈ nodes g)) as [Hn|Hn].
        - exists g, held. split; [done|]. split; [|apply same_doc_refl]. rewrite nodes_old; [done|]. apply elem_nodes_of. change (n ∈ ids (nodes_of M)). unfold ids. by rewrite <-(proj1 (b_nodes _ _ _ HB)).
        - unfold mm_add_node. destruct (built_always g M E n (VSet ls) None [] ls HB) as (g1 & E1 & D1 & B1); [by left|]. rewrite E1. cbn [fst snd].
          eexists g1, _. split; [reflexivity|]. split; [|done]. rewrite nodes_new; [by apply B1|].
          intros H. apply Hn. rewrite (proj1 (b_nodes _ _ _ HB)). by apply elem_nodes_of. }
      destruct G as (g1 & held1 & E1 & B1 & D1). rewrite E1. unfold mm_add_edge at 1.
      assert (I1 : m ∈ mwho <$> M ++ [Optional (n, ls, [])]) by (rewrite fmap_app; apply elem_of_app; by left).
      assert (I2 : n ∈ mwho <$> M ++ [Optional (n, ls, [])]) by (rewrite fmap_app; apply elem_of_app; right; left).
      destruct (built_edge_as g1 _ E m n ls None _ _ B1 I1 I2 Hls (two_get (VStr points_to) (VStr (ns +:+ ":antecedent")))) as (g2 & E2 & B2 & D2).
      rewrite E2. cbn [fst snd]. set (held2 := if bool_decide _ then _ else _). clearbody held2.
      destruct (IH g2 held2 _ _ B2) as (g3 & held3 & E3 & B3 & D3).
      { by rewrite (sd_ns _ _ D2), (sd_ns _ _ D1). } { rewrite fmap_app. apply elem_of_app. by left. }
      exists g3, held3. split; [exact E3|]. rewrite <-!app_assoc in B3. split; [exact B3|]. eapply same_doc_trans; [exact D1|]. by eapply same_doc_trans.
  Qed.
  Lemma split_char_sub c s : ∀ p, p ∈ split_char c s → ∀ x, x ∈ p → x ∈ s.
  Proof.
    induction s as [|y s IH]; intros p Hp x Hx.
    - cbn in Hp. apply elem_of_list_singleton in Hp as ->. done.
    - destruct (decide (y = c)) as [->|Hy].
      + assert (E : split_char c (c :: s) = [] :: split_char c s) by exact (split_char_app c [] s (not_elem_of_nil _)).
        rewrite E in Hp. apply elem_of_cons in Hp as [->|Hp]; [by apply elem_of_nil in Hx|]. right. by eapply IH.
      + revert Hp. cbn [split_char]. rewrite decide_False by done. pose proof (split_char_nonnil c s). destruct (split_char c s) as [|q qs] eqn:Es; [done|].
        intros [->|Hp]%elem_of_cons.
        * apply elem_of_cons in Hx as [->|Hx]; [left|]. right. eapply IH; [left|done].
        * right. eapply IH; [right; exact Hp|done].
  Qed.
  Lemma mm_antecedents_plain x : plain_antecedents x → Forall (λ c : chars, ":"%char ∉ c) (mm_antecedents x) ∧ (λ c, NStr (str c)) <$> mm_antecedents x = antecedents x.
  Proof.
    unfold plain_antecedents, att, mm_antecedents, antecedents. intros H. destruct (dget "anaphor_antecedent" (x_attrib x)) as [a|]; [|split; [by constructor|done]].
    destruct (decide _); [split; [by constructor|done]|]. split; [|done]. apply Forall_forall. intros p Hp Hc. apply H. cbn [default]. by eapply split_char_sub.
  Qed.
  Lemma span_ok g x : has_span x → (let! span := x_get (x_attrib x) "span" in spanstring2tokens g None (chs span)) = Ok (filter (λ n, n ∈ nodes g) (span_words x)).
  Proof.
    intros [Ha [l Hl]]. rewrite (x_get_ok _ _ Ha). cbn [rbind]. rewrite (spanstring_ok _ _ _ Hl). unfold span_words. by rewrite Hl.
  Qed.
  Lemma filter_same {A} (P Q : A → Prop) `{∀ x, Decision (P x), ∀ x, Decision (Q x)} (l : list A) : (∀ x, P x ↔ Q x) → filter P l = filter Q l.
  Proof.
    intros HPQ. induction l as [|x l IH]; [done|]. destruct (decide (P x)) as [Hx|Hx].
    - rewrite !filter_cons_True by (try done; by apply HPQ). by f_equal.
    - rewrite !filter_cons_False by (try done; by rewrite <-HPQ). done.
  Qed.
  Lemma markable_ok layer x g held M E seen : has_att x "id" → has_span x → NoDup (dkeys (x_attrib x)) → plain_antecedents x →
    built g (nodes_of M) E → g_ns g = ns → (∀ n, n ∈ mwho <$> M ↔ n ∈ seen) →
    ∃ g' held', mmax_markable layer x (g, level_layers ns layer, held) = ((g', level_layers ns layer, held'), None) ∧
      built g' (nodes_of (M ++ markable_mentions ns (layer, x))) (E ++ markable_edges ns (node_of "id" x :: seen) (layer, x)) ∧ same_doc g g'.
  Proof.
    intros Hid Hsp HN Hpl HB Hns Hseen. unfold mmax_markable. rewrite (x_get_ok _ _ Hid). unfold mm_add_node. change (mm_graph (g, level_layers ns layer, held)) with g. rewrite Hns.
    destruct (built_always g M E (NStr (att "id" x)) (VSet (level_layers ns layer)) (Some (x_feats ns x)) [("label", VStr (att "id" x +:+ ":" +:+ layer))] (level_layers ns layer) HB) as (g1 & E1 & D1 & B1); [by left|].
    rewrite E1. cbn [fst snd]. 
    assert (B1' : built g1 (nodes_of (M ++ [Always (markable_info ns (layer, x))])) E).
    { apply B1. intros k. apply one_get. by apply feats_get. }
    clear B1. set (held1 := if decide _ then _ else _). clearbody held1. change (mm_graph (g1, level_layers ns layer, held1)) with g1. rewrite (span_ok _ _ Hsp).
    set (M1 := M ++ [Always (markable_info ns (layer, x))]) in *.
    assert (HM1 : ∀ n, n ∈ nodes g1 ↔ n ∈ mwho <$> M1) by (intros n; rewrite (proj1 (b_nodes _ _ _ B1')); apply elem_nodes_of).
    assert (HS : ∀ n, n ∈ nodes g1 ↔ n ∈ node_of "id" x :: seen).
    { intros n. rewrite HM1. unfold M1. rewrite fmap_app, elem_of_app, elem_of_cons, Hseen.
      change (mwho <$> [Always (markable_info ns (layer, x))]) with [node_of "id" x]. rewrite elem_of_list_singleton. tauto. }
    rewrite (filter_same _ (λ n, n ∈ node_of "id" x :: seen) _ HS).
    destruct (span_edges_ok layer (NStr (att "id" x)) (level_layers ns layer) (filter (λ n, n ∈ node_of "id" x :: seen) (span_words x)) ltac:(done) g1 held1 M1 E B1') as (g2 & held2 & E2 & B2 & D2).
    { by rewrite (sd_ns _ _ D1). } { apply HM1, HS. left. } { apply Forall_forall. intros w [Hw _]%elem_of_list_filter. by apply HM1, HS. }
    rewrite E2. destruct (mm_antecedents_plain x Hpl) as [Hc Ec].
    destruct (antecedents_ok (NStr (att "id" x)) (level_layers ns layer) (mm_antecedents x) ltac:(done) Hc g2 held2 M1 _ B2) as (g3 & held3 & E3 & B3 & D3).
    { by rewrite (sd_ns _ _ D2), (sd_ns _ _ D1). } { apply HM1, HS. left. }
    exists g3, held3. split; [exact E3|]. rewrite Ec in B3. split.
    - unfold M1 in B3. rewrite <-!app_assoc in B3. exact B3.
    - eapply same_doc_trans; [exact D1|]. by eapply same_doc_trans.
  Qed.
  Lemma markable_edges_ext m s s' : (∀ n, n ∈ s ↔ n ∈ s') → markable_edges ns s m = markable_edges ns s' m.
  Proof. intros H. unfold markable_edges. f_equal. f_equal. by apply filter_same. Qed.
  Lemma markables_edges_ext l : ∀ s s', (∀ n, n ∈ s ↔ n ∈ s') → markables_edges ns s l = markables_edges ns s' l.
  Proof.
    induction l as [|m l IH]; intros s s' H; [done|]. cbn [markables_edges]. f_equal.
    - unfold markable_edges. f_equal. f_equal. apply filter_same. intros n. by rewrite !elem_of_cons, H.
    - apply IH. intros n. by rewrite !elem_of_cons, !elem_of_app, H.
  Qed.
  Lemma markables_edges_app l l' : ∀ s, markables_edges ns s (l ++ l') = markables_edges ns s l ++ markables_edges ns ((m ← l; node_of "id" m.2 :: antecedents m.2) ++ s) l'.
  Proof.
    induction l as [|m l IH]; intros s; [done|]. cbn [markables_edges app]. rewrite IH, <-app_assoc. f_equal. f_equal. apply markables_edges_ext.
    intros n. cbn [mbind list_bind]. rewrite !elem_of_app, !elem_of_cons, !elem_of_app. tauto.
  Qed.
  Lemma mwho_markable m : mwho <$> markable_mentions ns m = node_of "id" m.2 :: antecedents m.2.
  Proof. unfold markable_mentions. rewrite fmap_cons. f_equal. rewrite <-list_fmap_compose. apply list_fmap_id. Qed.
  Notation good_markable x := (has_att x "id" ∧ has_span x ∧ NoDup (dkeys (x_attrib x)) ∧ plain_antecedents x).
  Lemma level_ok layer ms : Forall (λ x, good_markable x) ms → ∀ g held M E seen,
    built g (nodes_of M) E → g_ns g = ns → (∀ n, n ∈ mwho <$> M ↔ n ∈ seen) →
    ∃ g' held', loop (mmax_markable layer) ms (g, level_layers ns layer, held) = ((g', level_layers ns layer, held'), None) ∧
      built g' (nodes_of (M ++ (m ← pair layer <$> ms; markable_mentions ns m))) (E ++ markables_edges ns seen (pair layer <$> ms)) ∧ same_doc g g'.
  Proof.
    induction 1 as [|x ms (H1 & H2 & H3 & H4) _ IH]; intros g held M E seen HB Hns Hseen.
    - exists g, held. cbn. rewrite !app_nil_r. split; [done|]. split; [done|apply same_doc_refl].
    - cbn [loop]. destruct (markable_ok layer x g held M E seen H1 H2 H3 H4 HB Hns Hseen) as (g1 & held1 & E1 & B1 & D1). rewrite E1.
      destruct (IH g1 held1 _ _ (node_of "id" x :: antecedents x ++ seen) B1) as (g2 & held2 & E2 & B2 & D2).
      { by rewrite (sd_ns _ _ D1). } { intros n. rewrite fmap_app, mwho_markable, elem_of_app, elem_of_cons, elem_of_cons, elem_of_app, Hseen. cbn [snd]. tauto. }
      exists g2, held2. split; [exact E2|]. split; [|by eapply same_doc_trans]. rewrite <-!app_assoc in B2. rewrite fmap_cons. exact B2.
  Qed.
  Lemma levels_ok base p order : complete_levels base order p → project_plain base order p → ∀ g M E seen,
    built g (nodes_of M) E → g_ns g = ns → (∀ n, n ∈ mwho <$> M ↔ n ∈ seen) →
    ∃ g', loop (mmax_layer base p) order g = (g', None) ∧
      built g' (nodes_of (M ++ (m ← markables base order p; markable_mentions ns m))) (E ++ markables_edges ns seen (markables base order p)) ∧ same_doc g g'.
  Proof.
    intros [HF HM] HP. unfold project_plain in HP. induction order as [|layer order IH]; intros g M E seen HB Hns Hseen.
    - exists g. cbn. rewrite !app_nil_r. split; [done|]. split; [done|apply same_doc_refl].
    - apply Forall_cons in HF as [[ms Hms] HF]. unfold markables in HM, HP. cbn [mbind list_bind] in HM, HP. apply Forall_app in HM as [HM1 HM2], HP as [HP1 HP2].
      rewrite Hms in HM1, HP1. cbn [default] in HM1, HP1. rewrite Forall_fmap in HM1, HP1.
      cbn [loop]. unfold mmax_layer at 1. unfold level_file in Hms. destruct (dget layer (mx_levels p)) as [ext|] eqn:Eext; [|done]. cbn [of_option].
      change (file_id base) with (stem base). rewrite Hms. cbn [of_option]. rewrite Hns.
      destruct (level_ok layer ms) with (g := g) (held := @nil mref) (M := M) (E := E) (seen := seen) as (g1 & held1 & E1 & B1 & D1); [|done..|].
      { rewrite Forall_forall in HM1, HP1 |- *. intros x Hx. destruct (HM1 x Hx), (HP1 x Hx). done. }
      change [ns; ns +:+ ":markable"; ns +:+ ":" +:+ layer] with (level_layers ns layer). rewrite E1. cbn [fst snd]. change (mm_graph (g1, level_layers ns layer, held1)) with g1.
      destruct (IH HF HM2 HP2 g1 _ _ ((m ← pair layer <$> ms; node_of "id" m.2 :: antecedents m.2) ++ seen) B1) as (g2 & E2 & B2 & D2).
      { by rewrite (sd_ns _ _ D1). }
      { intros n. rewrite fmap_app, !elem_of_app, Hseen. assert (EQ : mwho <$> (m ← pair layer <$> ms; markable_mentions ns m) = m ← pair layer <$> ms; node_of "id" m.2 :: antecedents m.2).
        { generalize (pair layer <$> ms). intros l. induction l as [|m l IHl]; [done|]. cbn [mbind list_bind]. rewrite fmap_app, mwho_markable. f_equal. exact IHl. }
        rewrite EQ. tauto. }
      exists g2. split; [exact E2|]. split; [|by eapply same_doc_trans]. rewrite <-!app_assoc in B2. 
      assert (EM : markables base (layer :: order) p = (pair layer <$> ms) ++ markables base order p).
      { unfold markables. cbn [mbind list_bind]. unfold level_file at 1. rewrite Eext, Hms. done. }
      rewrite EM, bind_app, markables_edges_app. exact B2.
  Qed.
End Read.
