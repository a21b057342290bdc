(** * ExportxmlElem: each kind of element of an ExportXML document *)
From Verif Require Import PyBase DocGraph Relabel StrNum Query Text Rst Nltk Parsers Anaphora Conano Decour Ptb Convert Tiger Urml Exportxml.
From Verif Require Import SpecGraph DocGraphFacts History Effects RelabelFacts GraphThms SpecImport ImportFacts PtbFacts TextFacts OffsetFacts GeoffFacts DecourFacts AnaphoraFacts ConllReadText TigerFacts BuiltFrom ViewFacts SpecAnaphora SpecQuery SpanFacts SpecRs3Graph Rs3Facts Rs3Desc Rs3Read Rs3Doc.
From Verif Require UrmlFacts TigerTree UrmlDoc ConanoFacts.
From Verif Require Import SpecExportxml ExportxmlFacts ExportxmlStep.

Lemma ga_none attr k : dget k (given_attrs None attr) = dget k attr.
Proof. unfold given_attrs. rewrite dget_dupdate. cbn [default dget]. by destruct (dget k attr). Qed.
Lemma ga_some a attr k : dget k (given_attrs (Some a) attr) = dget k (attr ++ a).
Proof. unfold given_attrs. rewrite dget_dupdate, dget_app. done. Qed.
Lemma features_get ns x key : key ≠ xml_id → dget (ns +:+ ":" +:+ key) (features ns x) = VStr <$> att key x.
Proof.
  intros Hk. unfold features, att. change "{http://www.w3.org/XML/1998/namespace}id" with xml_id. induction (x_attrib x) as [|[k v] l IH]; [done|]. rewrite filter_cons. cbn [fst]. destruct (decide (k ≠ xml_id)) as [H|H].
  - rewrite fmap_cons. cbn [dget fst snd]. destruct (decide (key = k)) as [->|Hn].
    + by rewrite decide_True.
    + rewrite decide_False by (intros HE; do 2 apply append_inj_l in HE; done). exact IH.
  - cbn [dget]. rewrite decide_False by (intros ->; done). exact IH.
Qed.
Lemma features_layers ns x : dget "layers" (features ns x) = None.
Proof.
  apply dget_None. unfold features, dkeys. rewrite <-list_fmap_compose. intros H. apply elem_of_list_fmap in H as (p & H & _). cbn in H. symmetry in H. revert H. apply (key_layers ns p.1).
Qed.
Lemma then_run (p q : xprog) st st1 : p st = (st1, None) → x_then p q st = q st1.
Proof. intros H. unfold x_then. by rewrite H. Qed.
Lemma need_run {A} (r : res A) o (k : A → xprog) st a : agrees r o → o = Some a → x_need r k st = k a st.
Proof. unfold agrees, x_need. intros H ->. by rewrite H. Qed.
Section Element.
  Context (ns : string) (o : xopts) (root : nid).
  Notation V := (mview ns root).
  Notation L l := (ns +:+ ":" +:+ l).
  Notation seen := (seen ns root).
  Notation mentioned := (mentioned root).
  Definition side_after (p : place) (d : side) : side :=
    Side (sd_name d)
      (if decide (x_tag p.2 = "word") then sd_toks d ++ [node_at p] else sd_toks d)
      (if decide (x_tag p.2 = "sentence") then sd_sents d ++ [node_at p] else sd_sents d)
      (if decide (x_tag p.2 ∈ ["edu"; "topic"]) then dset (node_at p) (words_inside p) (sd_lists d)
       else if decide (x_tag p.2 = "sentence") then dset (node_at p) (sentence_tokens p) (sd_lists d) else sd_lists d)
      (if decide (x_tag p.2 = "connective") then dset (node_at p) (filter (λ q : string * string, q.1 ≠ "konn") (x_attrib p.2)) (sd_dicts d) else sd_dicts d).
  Lemma node_at_some anc x i : id_in (anc, x) = Some i → NStr i = node_at (anc, x).
  Proof. intros H. unfold node_at. by rewrite H. Qed.
  Lemma in_mentioned_node F E n l a : n ∈ mentioned (F ++ [(n, l, a)]) E.
  Proof. apply mentioned_node. by left. Qed.
  Hint Resolve in_mentioned_node : core.
  Lemma mentioned_more F E f m : m ∈ mentioned F E → m ∈ mentioned (F ++ [f]) E.
  Proof. destruct f as [[n l] a]. intros H. apply mentioned_node. by right. Qed.
  Lemma mentioned_edges F E E' m : m ∈ mentioned F E → m ∈ mentioned F (E ++ E').
  Proof. unfold ExportxmlFacts.mentioned, edge_ends. rewrite bind_app, !elem_of_cons, !elem_of_app. tauto. Qed.
  Notation effect prog F E d p := (λ st, ∃ st', prog st = (st', None) ∧ seen st' (F ++ about_nodes ns o p) (E ++ about_edges ns o root p) (side_after p d)).

  Lemma connective_ok st F E d anc x : seen st F E d → is_Some (id_in (anc, x)) → node_at (anc, x) ∈ mentioned F E →
    ∃ st', add_connective ns anc x st = (st', None) ∧ seen st' (F ++ [(node_at (anc, x), [L "connective"], [("connective", VObj 1)])]) E
      (Side (sd_name d) (sd_toks d) (sd_sents d) (sd_lists d) (dset (node_at (anc, x)) (filter (λ q : string * string, q.1 ≠ "konn") (x_attrib x)) (sd_dicts d))).
  Proof.
    intros HS [i Hi] Hm. unfold add_connective. rewrite (need_run _ _ _ _ i (id_agrees anc x) Hi). cbv beta. rewrite (node_at_some _ _ _ Hi).
    destruct (e_layer ns root st F E d _ (in_layer ns "connective") HS Hm) as (st1 & E1 & H1). rewrite (then_run _ _ _ _ E1).
    destruct (e_update ns root st1 _ E d (node_at (anc, x)) [("connective", VObj 1)] H1) as (st2 & E2 & H2); [apply mentioned_more, Hm|done|]. rewrite (then_run _ _ _ _ E2).
    eexists. split; [reflexivity|]. apply e_join in H2. destruct H2 as [A1 A2 A3 ->]. by split.
  Qed.
  Lemma discrel_ok st F E d anc x : seen st F E d → no_relations o = false → is_Some (id_in (anc, x)) → node_at (anc, x) ∈ mentioned F E → has "arg2" x → has "relation" x →
    ∃ st', add_discrel ns o anc x st = (st', None) ∧ seen st' (F ++ [(node_at (anc, x), [L "discourse"; L "relation"], features ns x)])
      (E ++ [(node_at (anc, x), NStr (get "arg2" x), [ns; L "discourse"; L "relation"],
        [("edge_type", VStr "points_to"); ("relation", VStr (get "relation" x)); ("label", VStr ("discourse:" +:+ get "relation" x))])]) d.
  Proof.
    intros HS HO [i Hi] Hm [b Hb] [r Hr]. unfold add_discrel. rewrite HO. rewrite (need_run _ _ _ _ i (id_agrees anc x) Hi), (need_run _ _ _ _ b (get_agrees x "arg2") Hb), (need_run _ _ _ _ r (get_agrees x "relation") Hr).
    cbv beta. rewrite (node_at_some _ _ _ Hi). unfold get. rewrite Hb, Hr. cbn [default].
    destruct (e_update ns root st F E d (node_at (anc, x)) (attribs_to_dict ns x) HS Hm) as (st1 & E1 & H1); [apply features_layers|]. rewrite (then_run _ _ _ _ E1).
    destruct (e_layer ns root st1 _ E d (node_at (anc, x)) (in_layer ns "discourse") H1) as (st2 & E2 & H2); [done|]. rewrite (then_run _ _ _ _ E2). apply e_join in H2.
    destruct (e_layer ns root st2 _ E d (node_at (anc, x)) (in_layer ns "relation") H2) as (st3 & E3 & H3); [done|]. rewrite (then_run _ _ _ _ E3). apply e_join in H3.
    apply (e_edge ns root st3 _ E d (λ _, node_at (anc, x)) _ (node_at (anc, x)) _ [ns; L "discourse"; L "relation"] None); [exact H3|by left|done|]. intros k _. apply ga_none.
  Qed.
  Lemma word_edges_ok st F E d i layer anc x l a : seen st (F ++ [(NStr i, l, a)]) E d → all_named (tagged "word" (inside (anc, x))) →
    ∃ st', add_word_edges ns i layer anc x st = (st', None) ∧ seen st' (F ++ [(NStr i, l, ("tokens", VObj 0) :: a)])
      (E ++ ((λ w, (NStr i, w, [ns; L layer], [("edge_type", VStr "spans")])) <$> words_inside (anc, x)))
      (Side (sd_name d) (sd_toks d) (sd_sents d) (dset (NStr i) (words_inside (anc, x)) (sd_lists d)) (sd_dicts d)).
  Proof.
    intros HS HW. apply seek_some in HW as [ws Hws]. unfold add_word_edges. rewrite (need_run _ _ _ _ ws (below_agrees "word" anc x) Hws). apply seek_val in Hws. cbv beta. fold (words_inside (anc, x)) in Hws. rewrite Hws.
    destruct (e_edges ns root (λ w, w) st _ E d (NStr i) [in_layer ns layer] [("edge_type", VStr spans)] [("edge_type", VStr "spans")] (words_inside (anc, x)) HS) as (st1 & E1 & H1); [intros k _; apply ga_none|]. rewrite (then_run _ _ _ _ E1).
    destruct (e_update ns root st1 _ _ d (NStr i) [("tokens", VObj 0)] H1) as (st2 & E2 & H2); [done|done|]. rewrite (then_run _ _ _ _ E2). apply e_join in H2. rewrite app_nil_r in H2.
    eexists. split; [reflexivity|]. destruct H2 as [A1 A2 A3 ->]. by split.
  Qed.
  Lemma edu_ok st F E d anc x : seen st F E d → is_Some (id_in (anc, x)) → all_named (tagged "word" (inside (anc, x))) →
    ∃ st', add_edu ns anc x st = (st', None) ∧ seen st' (F ++ [(node_at (anc, x), [L "edu"], ("tokens", VObj 0) :: features ns x)])
      (E ++ ((λ w, (node_at (anc, x), w, [ns; L "edu"], [("edge_type", VStr "spans")])) <$> words_inside (anc, x)))
      (Side (sd_name d) (sd_toks d) (sd_sents d) (dset (node_at (anc, x)) (words_inside (anc, x)) (sd_lists d)) (sd_dicts d)).
  Proof.
    intros HS [i Hi] HW. unfold add_edu. rewrite (need_run _ _ _ _ i (id_agrees anc x) Hi). cbv beta.
    destruct (e_node ns root st F E d (NStr i) [in_layer ns "edu"] (Some (attribs_to_dict ns x)) [] (features ns x) HS) as (st1 & E1 & H1); [intros k _; apply ga_some|]. rewrite (then_run _ _ _ _ E1).
    rewrite <-(node_at_some _ _ _ Hi). by apply word_edges_ok.
  Qed.
  Lemma topic_ok st F E d anc x : seen st F E d → is_Some (id_in (anc, x)) → has "description" x → all_named (tagged "word" (inside (anc, x))) →
    ∃ st', add_topic ns anc x st = (st', None) ∧ seen st' (F ++ [(node_at (anc, x), [L "topic"], [("tokens", VObj 0); ("description", VStr (get "description" x))])])
      (E ++ ((λ w, (node_at (anc, x), w, [ns; L "topic"], [("edge_type", VStr "spans")])) <$> words_inside (anc, x)))
      (Side (sd_name d) (sd_toks d) (sd_sents d) (dset (node_at (anc, x)) (words_inside (anc, x)) (sd_lists d)) (sd_dicts d)).
  Proof.
    intros HS [i Hi] [t Ht] HW. unfold add_topic. rewrite (need_run _ _ _ _ i (id_agrees anc x) Hi), (need_run _ _ _ _ t (get_agrees x "description") Ht). cbv beta. unfold get. rewrite Ht. cbn [default].
    destruct (e_node ns root st F E d (NStr i) [in_layer ns "topic"] None [("description", VStr t)] [("description", VStr t)] HS) as (st1 & E1 & H1); [intros k _; apply ga_none|]. rewrite (then_run _ _ _ _ E1).
    rewrite <-(node_at_some _ _ _ Hi). by apply word_edges_ok.
  Qed.
  Lemma edurange_ok st F E d anc x : seen st F E d → is_Some (id_in (anc, x)) → all_named (tagged "edu" (inside (anc, x))) →
    ∃ st', add_edurange ns anc x st = (st', None) ∧ seen st' (F ++ [(node_at (anc, x), [L "edu:range"], features ns x)])
      (E ++ ((λ e, (node_at (anc, x), e, [ns; L "edu:range"], [("edge_type", VStr "spans")])) <$> (node_at <$> tagged "edu" (inside (anc, x))))) d.
  Proof.
    intros HS [i Hi] HW. unfold add_edurange. rewrite (need_run _ _ _ _ i (id_agrees anc x) Hi). cbv beta.
    destruct (e_node ns root st F E d (NStr i) [in_layer ns "edu:range"] (Some (attribs_to_dict ns x)) [] (features ns x) HS) as (st1 & E1 & H1); [intros k _; apply ga_some|]. rewrite (then_run _ _ _ _ E1).
    apply seek_some in HW as [ws Hws]. rewrite (need_run _ _ _ _ ws (below_agrees "edu" anc x) Hws). apply seek_val in Hws. cbv beta. rewrite Hws, <-(node_at_some _ _ _ Hi).
    apply (e_edges ns root (λ w, w) st1 _ E d (NStr i) [in_layer ns "edu:range"] [("edge_type", VStr spans)]); [exact H1|]. intros k _; apply ga_none.
  Qed.
  Lemma ne_ok st F E d anc x : seen st F E d → is_Some (id_in (anc, x)) → has "type" x → all_named (children (anc, x)) →
    ∃ st', add_ne ns anc x st = (st', None) ∧ seen st' (F ++ [(node_at (anc, x), [L "ne"], ("label", VStr ("ne:" +:+ get "type" x)) :: features ns x)])
      (E ++ ((λ k, (node_at (anc, x), k, [ns; L "ne"], [("edge_type", VStr "spans"); ("label", VStr ("ne:" +:+ get "type" x))])) <$> (node_at <$> children (anc, x)))) d.
  Proof.
    intros HS [i Hi] [t Ht] HW. unfold add_ne. rewrite (need_run _ _ _ _ i (id_agrees anc x) Hi), (need_run _ _ _ _ t (get_agrees x "type") Ht). cbv beta. unfold get. rewrite Ht. cbn [default].
    destruct (e_node ns root st F E d (NStr i) [in_layer ns "ne"] (Some (attribs_to_dict ns x)) [("label", VStr ("ne:" +:+ t))] (("label", VStr ("ne:" +:+ t)) :: features ns x) HS) as (st1 & E1 & H1); [intros k _; apply ga_some|]. rewrite (then_run _ _ _ _ E1).
    apply seek_some in HW as [ws Hws]. rewrite (need_run _ _ _ _ ws (kids_agree anc x) Hws). apply seek_val in Hws. cbv beta. rewrite Hws, <-(node_at_some _ _ _ Hi).
    apply (e_edges ns root (λ w, w) st1 _ E d (NStr i) [in_layer ns "ne"] [("edge_type", VStr spans); ("label", VStr ("ne:" +:+ t))]); [exact H1|]. intros k _; apply ga_none.
  Qed.
  Lemma phrase_ok st F E d anc x : seen st F E d → is_Some (id_in (anc, x)) → has "cat" x → is_Some (above_phrase (anc, x)) →
    ∃ st', add_node_element ns anc x st = (st', None) ∧ seen st' (F ++ [(node_at (anc, x), [L "syntax"], ("label", VStr (get "cat" x)) :: features ns x)])
      (E ++ [(to_node (above_phrase (anc, x)), node_at (anc, x), [ns], [("edge_type", VStr "dominates")])]) d.
  Proof.
    intros HS [i Hi] [c Hc] [p Hp]. unfold add_node_element. rewrite (need_run _ _ _ _ i (id_agrees anc x) Hi), (need_run _ _ _ _ p (phrase_agrees anc x) Hp), (need_run _ _ _ _ c (get_agrees x "cat") Hc).
    cbv beta. rewrite (node_at_some _ _ _ Hi). unfold get. rewrite Hp, Hc. cbn [default to_node].
    destruct (e_node ns root st F E d (node_at (anc, x)) [in_layer ns "syntax"] (Some (attribs_to_dict ns x)) [("label", VStr c)] (("label", VStr c) :: features ns x) HS) as (st1 & E1 & H1); [intros k _; apply ga_some|]. rewrite (then_run _ _ _ _ E1).
    apply (e_edge ns root st1 _ E d (λ _, NStr p)); [exact H1| |done|intros k _; apply ga_none]. by right.
  Qed.
  Lemma relation_ok st F E d anc x : seen st F E d → no_relations o = false → is_Some (parent_in (anc, x)) → to_node (parent_in (anc, x)) ∈ mentioned F E → has "type" x →
    ∃ st', add_relation ns o anc x st = (st', None) ∧ seen st' (F ++ (to_node (parent_in (anc, x)), [L (get "type" x)], [("relation", VStr (get "type" x))]) ::
      match att "target" x with
      | Some q => [(to_node (parent_in (anc, x)), [L "markable"], []); (NStr q, [L "markable"], [])]
      | None => []
      end)
      (E ++ match att "target" x with
      | Some q => [(to_node (parent_in (anc, x)), NStr q, [ns; L (get "type" x); L "coreference"], [("label", VStr (get "type" x)); ("edge_type", VStr "points_to")])]
      | None => []
      end) d.
  Proof.
    intros HS HO [p Hp] Hm [t Ht]. unfold add_relation. rewrite HO. rewrite (need_run _ _ _ _ p (parent_agrees anc x) Hp), (need_run _ _ _ _ t (get_agrees x "type") Ht).
    cbv beta. rewrite Hp in *. unfold get. rewrite Ht. cbn [default to_node] in *.
    destruct (e_update ns root st F E d (NStr p) [("relation", VStr t)] HS Hm) as (st1 & E1 & H1); [done|]. rewrite (then_run _ _ _ _ E1).
    destruct (e_layer ns root st1 _ E d (NStr p) (in_layer ns t) H1) as (st2 & E2 & H2); [done|]. rewrite (then_run _ _ _ _ E2). apply e_join in H2.
    change (dget "target" (x_attrib x)) with (att "target" x). destruct (att "target" x) as [q|]; [|exists st2; split; [done|]; by rewrite app_nil_r].
    destruct (e_layer ns root st2 _ E d (NStr p) (in_layer ns "markable") H2) as (st3 & E3 & H3); [done|]. rewrite (then_run _ _ _ _ E3).
    destruct (e_edge ns root st3 _ E d (λ _, NStr p) (NStr q) (NStr p) (VSet [ns; in_layer ns t; in_layer ns "coreference"]) [ns; L t; L "coreference"] None [("label", VStr t); ("edge_type", VStr points_to)] [("label", VStr t); ("edge_type", VStr "points_to")] H3) as (st4 & E4 & H4); [by left|done|intros k _; apply ga_none|]. rewrite (then_run _ _ _ _ E4).
    destruct (e_layer ns root st4 _ _ d (NStr q) (in_layer ns "markable") H4) as (st5 & E5 & H5); [apply mentioned_edge; cbn [fst snd]; by right; left|]. exists st5. split; [exact E5|]. rewrite <-!app_assoc in H5. exact H5.
  Qed.
  Lemma secedge_ok st F E d anc x : seen st F E d → no_secedges o = false → is_Some (id_in (anc, x)) → is_Some (parent_in (anc, x)) → has "cat" x →
    ∃ st', add_secedge ns o anc x st = (st', None) ∧ seen st' F
      (E ++ [(to_node (parent_in (anc, x)), node_at (anc, x), [ns; L "secedge"], [("label", VStr ("secedge:" +:+ get "cat" x)); ("edge_type", VStr "points_to")])]) d.
  Proof.
    intros HS HO [i Hi] [p Hp] [c Hc]. unfold add_secedge. rewrite HO. rewrite (need_run _ _ _ _ p (parent_agrees anc x) Hp), (need_run _ _ _ _ i (id_agrees anc x) Hi), (need_run _ _ _ _ c (get_agrees x "cat") Hc).
    cbv beta. rewrite (node_at_some _ _ _ Hi). unfold get. rewrite Hp, Hc. cbn [default to_node].
    apply (e_edge ns root st F E d (λ _, NStr p)); [done|by left|done|intros k _; apply ga_none].
  Qed.
  Lemma sentence_ok st F E d anc x : seen st F E d → is_Some (own_id x) →
    match att "span" x with Some s => ∃ ts, convert_spanstring (chs s) = Ok ts | None => all_named (tagged "word" (inside (anc, x))) end →
    ∃ st', add_sentence anc x st = (st', None) ∧ seen st' (F ++ [(node_at (anc, x), [], [("tokens", VObj 0)])])
      (E ++ [(root, node_at (anc, x), [ns], [("edge_type", VStr "dominates")])])
      (Side (sd_name d) (sd_toks d) (sd_sents d ++ [node_at (anc, x)]) (dset (node_at (anc, x)) (sentence_tokens (anc, x)) (sd_lists d)) (sd_dicts d)).
  Proof.
    intros HS [i Hi] HW. unfold add_sentence. rewrite (need_run _ _ _ _ i (get_agrees x xml_id) Hi). cbv beta. assert (Hn : NStr i = node_at (anc, x)). { unfold node_at, id_in. cbn [snd]. by rewrite Hi. } rewrite Hn.
    destruct (e_edge ns root st F E d g_root (node_at (anc, x)) root VNone [ns] None [("edge_type", VStr dominates)] [("edge_type", VStr "dominates")] HS) as (st1 & E1 & H1); [by right|apply HS|intros k _; apply ga_none|]. rewrite (then_run _ _ _ _ E1).
    set (n := node_at (anc, x)) in *.
    set (st2 := XState (set_sentences (g_sentences (xs_graph st1) ++ [n]) (xs_graph st1)) (xs_tokens st1) (xs_connective st1)).
    assert (E2 : on_graph (λ g, (set_sentences (g_sentences g ++ [n]) g, None)) st1 = (st2, None)) by done. rewrite (then_run _ _ _ _ E2).
    assert (H2 : seen st2 F (E ++ [(root, n, [ns], [("edge_type", VStr "dominates")])]) (Side (sd_name d) (sd_toks d) (sd_sents d ++ [n]) (sd_lists d) (sd_dicts d))).
    { destruct H1 as [A1 A2 A3 ->]. split; [|done..]. eapply view_ext; [..|exact A1]; done. }
    assert (ET : (match dget "span" (x_attrib x) with Some s => let! ts := convert_spanstring (chs s) in Ok ((λ t, NStr (str t)) <$> ts) | None => ids_below "word" anc x end) = Ok (sentence_tokens (anc, x))).
    { change (dget "span" (x_attrib x)) with (att "span" x). unfold sentence_tokens. cbn [snd]. destruct (att "span" x) as [s|]; [destruct HW as [ts ->]; done|].
      apply seek_some in HW as [ws Hws]. pose proof (below_agrees "word" anc x) as HA. rewrite Hws in HA. cbn [agrees] in HA. rewrite HA. apply seek_val in Hws. by rewrite Hws. }
    rewrite ET. unfold x_need.
    destruct (e_update ns root st2 _ _ _ n [("tokens", VObj 0)] H2) as (st3 & E3 & H3); [apply mentioned_edge; cbn [fst snd]; by right; left|done|]. rewrite (then_run _ _ _ _ E3).
    eexists. split; [reflexivity|]. destruct H3 as [A1 A2 A3 A4]. injection A4 as B1 B2 B3 B4 B5. split; [done|done|done|]. cbn [xs_graph xs_tokens xs_connective]. by rewrite B1, B2, B3, B4, B5.
  Qed.
  Lemma split_ok st F E d anc x : seen st F E d → no_relations o = false → no_splitrelations o = false → is_Some (id_in (anc, x)) → has "target" x → has "type" x →
    ∃ st', add_splitrelation ns o anc x st = (st', None) ∧ seen st' (F ++ [(node_at (anc, x), [L "relation"; L (get "type" x); L "markable"], []);
       (antecedent_span x, [L "targetspan"; L (get "type" x); L "markable"], [])])
      (E ++ (node_at (anc, x), antecedent_span x, [ns; L "coreference"; L "splitrelation"; L (get "type" x)], [("edge_type", VStr "points_to")]) ::
      ((λ c, (antecedent_span x, NStr (str c), [ns; L (get "type" x)], [("edge_type", VStr "spans")])) <$> antecedents x)) d.
  Proof.
    intros HS HO HO' [i Hi] [q Hq] [t Ht]. unfold add_splitrelation. rewrite HO, HO'. cbn [orb]. rewrite (need_run _ _ _ _ i (id_agrees anc x) Hi), (need_run _ _ _ _ q (get_agrees x "target") Hq). cbv zeta. rewrite (need_run _ _ _ _ t (get_agrees x "type") Ht).
    cbv beta. rewrite (node_at_some _ _ _ Hi). unfold antecedent_span, antecedents, get. rewrite Hq, Ht. cbn [default]. set (sp := NStr (str _)).
    destruct (e_node ns root st F E d (node_at (anc, x)) [in_layer ns "relation"; in_layer ns t; in_layer ns "markable"] None [] [] HS) as (st1 & E1 & H1); [intros k _; apply ga_none|]. rewrite (then_run _ _ _ _ E1).
    destruct (e_node ns root st1 _ E d sp [in_layer ns "targetspan"; in_layer ns t; in_layer ns "markable"] None [] [] H1) as (st2 & E2 & H2); [intros k _; apply ga_none|]. rewrite (then_run _ _ _ _ E2).
    destruct (e_edge ns root st2 _ E d (λ _, node_at (anc, x)) sp (node_at (anc, x)) (VSet [ns; in_layer ns "coreference"; in_layer ns "splitrelation"; in_layer ns t]) [ns; L "coreference"; L "splitrelation"; L t] None [("edge_type", VStr points_to)] [("edge_type", VStr "points_to")] H2) as (st3 & E3 & H3); [by left|done|intros k _; apply ga_none|]. rewrite (then_run _ _ _ _ E3).
    destruct (e_edges ns root (λ c : chars, NStr (str c)) st3 _ _ d sp [in_layer ns t] [("edge_type", VStr spans)] [("edge_type", VStr "spans")] (split_blanks (chs q)) H3) as (st4 & E4 & H4); [intros k _; apply ga_none|].
    exists st4. split; [exact E4|]. rewrite <-!app_assoc in H4. exact H4.
  Qed.
  Lemma word_ok st F E d anc x : seen st F E d → is_Some (id_in (anc, x)) → is_Some (above_word (anc, x)) → has "form" x →
    ∃ st', add_word ns anc x st = (st', None) ∧ seen st' (F ++ [(node_at (anc, x), [L "token"], (L "token", VStr (get "form" x)) :: ("label", VStr (get "form" x)) :: features ns x)])
      (E ++ [(to_node (above_word (anc, x)), node_at (anc, x), [ns], [("edge_type", VStr "dominates")])])
      (Side (sd_name d) (sd_toks d ++ [node_at (anc, x)]) (sd_sents d) (sd_lists d) (sd_dicts d)).
  Proof.
    intros HS [i Hi] [p Hp] [f Hf]. unfold add_word. rewrite (need_run _ _ _ _ i (id_agrees anc x) Hi), (need_run _ _ _ _ p (word_agrees anc x) Hp).
    cbv beta. rewrite (node_at_some _ _ _ Hi). set (n := node_at (anc, x)). unfold get. rewrite Hp, Hf. cbn [default to_node].
    set (st1 := XState (set_tokens (g_tokens (xs_graph st) ++ [n]) (xs_graph st)) (xs_tokens st) (xs_connective st)).
    assert (E1 : on_graph (λ g, (set_tokens (g_tokens g ++ [n]) g, None)) st = (st1, None)) by done. rewrite (then_run _ _ _ _ E1).
    assert (H1 : seen st1 F E (Side (sd_name d) (sd_toks d ++ [n]) (sd_sents d) (sd_lists d) (sd_dicts d))).
    { destruct HS as [A1 A2 A3 ->]. split; [|done..]. eapply view_ext; [..|exact A1]; done. }
    assert (EF : dget (in_layer ns "form") (attribs_to_dict ns x) = Some (VStr f)). { change (dget (ns +:+ ":" +:+ "form") (features ns x) = Some (VStr f)). rewrite features_get by done. by rewrite Hf. }
    rewrite EF. unfold x_need. cbn [of_option].
    destruct (e_node ns root st1 F E _ n [in_layer ns "token"] (Some (dupdate (attribs_to_dict ns x) [(in_layer ns "token", VStr f); ("label", VStr f)])) [] ((L "token", VStr f) :: ("label", VStr f) :: features ns x) H1) as (st2 & E2 & H2).
    { intros k _. rewrite ga_some. cbn [app]. rewrite dget_dupdate. change (attribs_to_dict ns x) with (features ns x). change ((L "token", VStr f) :: ("label", VStr f) :: features ns x) with ([(L "token", VStr f); ("label", VStr f)] ++ features ns x). by rewrite dget_app. }
    rewrite (then_run _ _ _ _ E2). apply (e_edge ns root st2 _ E _ (λ _, NStr p)); [exact H2|by right|done|intros k _; apply ga_none].
  Qed.
End Element.

(** ** All kinds *)
Ltac tags := repeat match goal with
  | |- context [decide (x_tag ?x = ?t)] => destruct (decide (x_tag x = t)) as [?Ht|?Ht]
  end.
Section All.
  Context (ns : string) (o : xopts) (root : nid).
  Lemma side_same p d : x_tag p.2 ∉ ["connective"; "edu"; "sentence"; "topic"; "word"] → side_after p d = d.
  Proof.
    intros H. unfold side_after. rewrite !elem_of_cons in H. repeat (rewrite decide_False by (rewrite ?elem_of_cons, ?elem_of_nil; tauto)). by destruct d.
  Qed.
  Lemma side_tag p d t : x_tag p.2 = t → side_after p d =
    Side (sd_name d)
      (if decide (t = "word") then sd_toks d ++ [node_at p] else sd_toks d)
      (if decide (t = "sentence") then sd_sents d ++ [node_at p] else sd_sents d)
      (if decide (t ∈ ["edu"; "topic"]) then dset (node_at p) (words_inside p) (sd_lists d)
       else if decide (t = "sentence") then dset (node_at p) (sentence_tokens p) (sd_lists d) else sd_lists d)
      (if decide (t = "connective") then dset (node_at p) (filter (λ q : string * string, q.1 ≠ "konn") (x_attrib p.2)) (sd_dicts d) else sd_dicts d).
  Proof. by intros <-. Qed.
  Lemma same_side st F E d d' : seen ns root st F E d → d = d' → seen ns root st F E d'.
  Proof. by intros ? <-. Qed.
  Lemma step_ok st F E d p : seen ns root st F E d → element_ok o (mentioned root F E) p →
    ∃ st', one_step ns o p st = (st', None) ∧ seen ns root st' (F ++ about_nodes ns o p) (E ++ about_edges ns o root p) (side_after p d).
  Proof.
    destruct p as [anc x]. intros HS. unfold element_ok, about_nodes, about_edges, one_step. cbv zeta. cbn [fst snd].
    assert (SS : ∀ t, x_tag x = t → t ∉ ["connective"; "edu"; "sentence"; "topic"; "word"] → side_after (anc, x) d = d). { intros t <- H. by apply side_same. }
    destruct (decide (x_tag x = "connective")) as [Ht|H1].
    { intros [Hi Hm]. rewrite decide_False by (by rewrite Ht). rewrite (side_tag (anc, x) d "connective" Ht). rewrite (app_nil_r E).
      destruct (connective_ok ns root st F E d anc x HS Hi Hm) as (st' & E1 & H1). exists st'. split; [|exact H1].
      destruct x as [tag a t kids tl]. cbn [x_tag] in Ht. subst tag. exact E1. }
    destruct (decide (x_tag x = "discRel")) as [Ht|H2].
    { rewrite decide_False by (by rewrite Ht). rewrite (SS _ Ht) by (apply (bool_decide_unpack _); reflexivity). destruct x as [tag a t kids tl]. cbn [x_tag] in Ht. subst tag. set (x := XElem _ a t kids tl) in *.
      change (parse ns o anc x) with (add_discrel ns o anc x). destruct (no_relations o) eqn:HO.
      - intros _. exists st. unfold add_discrel. rewrite HO, !app_nil_r. done.
      - intros [?|(Hi & Hm & Ha & Hr)]; [done|]. exact (discrel_ok ns o root st F E d anc x HS HO Hi Hm Ha Hr). }
    destruct (decide (x_tag x = "edu")) as [Ht|H3].
    { intros [Hi Hw]. rewrite decide_False by (by rewrite Ht). rewrite (side_tag (anc, x) d "edu" Ht). destruct (edu_ok ns root st F E d anc x HS Hi Hw) as (st' & E1 & HS1). exists st'. split; [|exact HS1].
      destruct x as [tag a t kids tl]. cbn [x_tag] in Ht. subst tag. exact E1. }
    destruct (decide (x_tag x = "edu-range")) as [Ht|H4].
    { intros [Hi Hw]. rewrite decide_False by (by rewrite Ht). rewrite (SS _ Ht) by (apply (bool_decide_unpack _); reflexivity).
      destruct (edurange_ok ns root st F E d anc x HS Hi Hw) as (st' & E1 & HS1). exists st'. split; [|exact HS1]. destruct x as [tag a t kids tl]. cbn [x_tag] in Ht. subst tag. exact E1. }
    destruct (decide (x_tag x = "ne")) as [Ht|H5].
    { intros (Hi & Hty & Hw). rewrite decide_False by (by rewrite Ht). rewrite (SS _ Ht) by (apply (bool_decide_unpack _); reflexivity).
      destruct (ne_ok ns root st F E d anc x HS Hi Hty Hw) as (st' & E1 & HS1). exists st'. split; [|exact HS1]. destruct x as [tag a t kids tl]. cbn [x_tag] in Ht. subst tag. exact E1. }
    destruct (decide (x_tag x = "node")) as [Ht|H6].
    { intros (Hi & Hc & Hp). rewrite decide_False by (by rewrite Ht). rewrite (SS _ Ht) by (apply (bool_decide_unpack _); reflexivity).
      destruct (phrase_ok ns root st F E d anc x HS Hi Hc Hp) as (st' & E1 & HS1). exists st'. split; [|exact HS1]. destruct x as [tag a t kids tl]. cbn [x_tag] in Ht. subst tag. exact E1. }
    destruct (decide (x_tag x = "relation")) as [Ht|H7].
    { rewrite decide_False by (by rewrite Ht). rewrite (SS _ Ht) by (apply (bool_decide_unpack _); reflexivity). destruct x as [tag a t kids tl]. cbn [x_tag] in Ht. subst tag. set (x := XElem _ a t kids tl) in *.
      change (parse ns o anc x) with (add_relation ns o anc x). destruct (no_relations o) eqn:HO.
      - intros _. exists st. unfold add_relation. rewrite HO, !app_nil_r. done.
      - intros [?|(Hp & Hm & Hty)]; [done|]. exact (relation_ok ns o root st F E d anc x HS HO Hp Hm Hty). }
    destruct (decide (x_tag x = "secEdge")) as [Ht|H8].
    { rewrite decide_False by (by rewrite Ht). rewrite (SS _ Ht) by (apply (bool_decide_unpack _); reflexivity). destruct x as [tag a t kids tl]. cbn [x_tag] in Ht. subst tag. set (x := XElem _ a t kids tl) in *.
      change (parse ns o anc x) with (add_secedge ns o anc x). rewrite app_nil_r. destruct (no_secedges o) eqn:HO.
      - intros _. exists st. unfold add_secedge. rewrite HO, !app_nil_r. done.
      - intros [?|(Hi & Hp & Hc)]; [done|]. exact (secedge_ok ns o root st F E d anc x HS HO Hi Hp Hc). }
    destruct (decide (x_tag x = "sentence")) as [Ht|H9].
    { intros [Hi Hw]. rewrite decide_False by (by rewrite Ht). rewrite (side_tag (anc, x) d "sentence" Ht). destruct (sentence_ok ns root st F E d anc x HS Hi Hw) as (st' & E1 & HS1). exists st'. split; [|exact HS1].
      destruct x as [tag a t kids tl]. cbn [x_tag] in Ht. subst tag. exact E1. }
    destruct (decide (x_tag x = "splitRelation")) as [Ht|H10].
    { rewrite decide_False by (by rewrite Ht). rewrite (SS _ Ht) by (apply (bool_decide_unpack _); reflexivity). destruct x as [tag a t kids tl]. cbn [x_tag] in Ht. subst tag. set (x := XElem _ a t kids tl) in *.
      change (parse ns o anc x) with (add_splitrelation ns o anc x). destruct (no_relations o || no_splitrelations o) eqn:HO.
      - intros _. exists st. unfold add_splitrelation. rewrite HO, !app_nil_r. done.
      - intros H. apply orb_false_iff in HO as [HO HO']. destruct H as [[?|?]|(Hi & Hq & Hty)]; [congruence..|]. exact (split_ok ns o root st F E d anc x HS HO HO' Hi Hq Hty). }
    destruct (decide (x_tag x = "topic")) as [Ht|H11].
    { intros (Hi & Hd & Hw). rewrite decide_False by (by rewrite Ht). rewrite (side_tag (anc, x) d "topic" Ht). destruct (topic_ok ns root st F E d anc x HS Hi Hd Hw) as (st' & E1 & HS1). exists st'. split; [|exact HS1].
      destruct x as [tag a t kids tl]. cbn [x_tag] in Ht. subst tag. exact E1. }
    destruct (decide (x_tag x = "word")) as [Ht|H12]; [|done].
    intros (Hi & Hp & Hf). rewrite (side_tag (anc, x) d "word" Ht). exact (word_ok ns root st F E d anc x HS Hi Hp Hf).
  Qed.
  (** ** Nothing else is accepted *)
  Lemma need_some {A} (r : res A) q (k : A → xprog) st st' : agrees r q → x_need r k st = (st', None) → ∃ a, q = Some a ∧ k a st = (st', None).
  Proof. intros HA H. apply need_ok in H as (a & Ha & H). exists a. split; [|done]. by eapply agrees_Ok. Qed.
  Lemma update_in st F E d n a st' : seen ns root st F E d → on_graph (λ g, node_update g n a) st = (st', None) → n ∈ mentioned root F E.
  Proof.
    intros HS H. apply graph_ok in H as (g' & H & _). unfold node_update in H. destruct (dget n (g_node (xs_graph st))) as [b|] eqn:Eb; [|done].
    apply (mview_some ns), (view_in _ _ _ _ (sn_view _ _ _ _ _ _ HS)), node_mem. by exists b.
  Qed.
  Lemma layer_in st F E d n l st' : seen ns root st F E d → on_graph (λ g, add_layer_node g n l) st = (st', None) → n ∈ mentioned root F E.
  Proof.
    intros HS H. apply graph_ok in H as (g' & H & _). unfold add_layer_node in H. destruct (dget n (g_node (xs_graph st))) as [b|] eqn:Eb; [|done].
    apply (mview_some ns), (view_in _ _ _ _ (sn_view _ _ _ _ _ _ HS)), node_mem. by exists b.
  Qed.
  Lemma word_edges_only i layer anc x st st' : add_word_edges ns i layer anc x st = (st', None) → all_named (tagged "word" (inside (anc, x))).
  Proof. intros H. apply (need_some _ _ _ _ _ (below_agrees "word" anc x)) in H as (ws & H & _). apply seek_some. by exists ws. Qed.
  Lemma step_only st F E d p st' : seen ns root st F E d → one_step ns o p st = (st', None) → element_ok o (mentioned root F E) p.
  Proof.
    destruct p as [anc x]. intros HS. unfold element_ok, one_step. cbv zeta. cbn [fst snd].
    destruct (decide (x_tag x = "connective")) as [Ht|H1].
    { rewrite decide_False by (by rewrite Ht). destruct x as [tag a t kids tl]. cbn [x_tag] in Ht. subst tag. set (x := XElem _ a t kids tl) in *. change (parse ns o anc x) with (add_connective ns anc x).
      intros H. apply (need_some _ _ _ _ _ (id_agrees anc x)) in H as (i & Hi & H). apply then_ok in H as (st1 & H & _). apply (layer_in _ _ _ _ _ _ _ HS) in H. split; [by exists i|]. by rewrite <-(node_at_some _ _ _ Hi). }
    destruct (decide (x_tag x = "discRel")) as [Ht|H2].
    { rewrite decide_False by (by rewrite Ht). destruct x as [tag a t kids tl]. cbn [x_tag] in Ht. subst tag. set (x := XElem _ a t kids tl) in *. change (parse ns o anc x) with (add_discrel ns o anc x).
      unfold add_discrel. destruct (no_relations o); [by left|]. intros H. right.
      apply (need_some _ _ _ _ _ (id_agrees anc x)) in H as (i & Hi & H). apply (need_some _ _ _ _ _ (get_agrees x "arg2")) in H as (b & Hb & H). apply (need_some _ _ _ _ _ (get_agrees x "relation")) in H as (r & Hr & H).
      apply then_ok in H as (st1 & H & _). apply (update_in _ _ _ _ _ _ _ HS) in H. rewrite (node_at_some _ _ _ Hi) in H. split; [by exists i|]. split; [done|]. split; [by exists b|by exists r]. }
    destruct (decide (x_tag x = "edu")) as [Ht|H3].
    { rewrite decide_False by (by rewrite Ht). destruct x as [tag a t kids tl]. cbn [x_tag] in Ht. subst tag. set (x := XElem _ a t kids tl) in *. change (parse ns o anc x) with (add_edu ns anc x).
      intros H. apply (need_some _ _ _ _ _ (id_agrees anc x)) in H as (i & Hi & H). apply then_ok in H as (st1 & _ & H). split; [by exists i|by eapply word_edges_only]. }
    destruct (decide (x_tag x = "edu-range")) as [Ht|H4].
    { rewrite decide_False by (by rewrite Ht). destruct x as [tag a t kids tl]. cbn [x_tag] in Ht. subst tag. set (x := XElem _ a t kids tl) in *. change (parse ns o anc x) with (add_edurange ns anc x).
      intros H. apply (need_some _ _ _ _ _ (id_agrees anc x)) in H as (i & Hi & H). apply then_ok in H as (st1 & _ & H). split; [by exists i|].
      apply (need_some _ _ _ _ _ (below_agrees "edu" anc x)) in H as (ws & H & _). apply seek_some. by exists ws. }
    destruct (decide (x_tag x = "ne")) as [Ht|H5].
    { rewrite decide_False by (by rewrite Ht). destruct x as [tag a t kids tl]. cbn [x_tag] in Ht. subst tag. set (x := XElem _ a t kids tl) in *. change (parse ns o anc x) with (add_ne ns anc x).
      intros H. apply (need_some _ _ _ _ _ (id_agrees anc x)) in H as (i & Hi & H). apply (need_some _ _ _ _ _ (get_agrees x "type")) in H as (c & Hc & H). apply then_ok in H as (st1 & _ & H).
      apply (need_some _ _ _ _ _ (kids_agree anc x)) in H as (ws & H & _). split; [by exists i|]. split; [by exists c|]. apply seek_some. by exists ws. }
    destruct (decide (x_tag x = "node")) as [Ht|H6].
    { rewrite decide_False by (by rewrite Ht). destruct x as [tag a t kids tl]. cbn [x_tag] in Ht. subst tag. set (x := XElem _ a t kids tl) in *. change (parse ns o anc x) with (add_node_element ns anc x).
      intros H. apply (need_some _ _ _ _ _ (id_agrees anc x)) in H as (i & Hi & H). apply (need_some _ _ _ _ _ (phrase_agrees anc x)) in H as (q & Hq & H). apply (need_some _ _ _ _ _ (get_agrees x "cat")) in H as (c & Hc & H).
      split; [by exists i|]. split; [by exists c|by exists q]. }
    destruct (decide (x_tag x = "relation")) as [Ht|H7].
    { rewrite decide_False by (by rewrite Ht). destruct x as [tag a t kids tl]. cbn [x_tag] in Ht. subst tag. set (x := XElem _ a t kids tl) in *. change (parse ns o anc x) with (add_relation ns o anc x).
      unfold add_relation. destruct (no_relations o); [by left|]. intros H. right.
      apply (need_some _ _ _ _ _ (parent_agrees anc x)) in H as (q & Hq & H). apply (need_some _ _ _ _ _ (get_agrees x "type")) in H as (c & Hc & H).
      apply then_ok in H as (st1 & H & _). apply (update_in _ _ _ _ _ _ _ HS) in H. rewrite Hq. split; [by exists q|]. split; [done|by exists c]. }
    destruct (decide (x_tag x = "secEdge")) as [Ht|H8].
    { rewrite decide_False by (by rewrite Ht). destruct x as [tag a t kids tl]. cbn [x_tag] in Ht. subst tag. set (x := XElem _ a t kids tl) in *. change (parse ns o anc x) with (add_secedge ns o anc x).
      unfold add_secedge. destruct (no_secedges o); [by left|]. intros H. right.
      apply (need_some _ _ _ _ _ (parent_agrees anc x)) in H as (q & Hq & H). apply (need_some _ _ _ _ _ (id_agrees anc x)) in H as (i & Hi & H). apply (need_some _ _ _ _ _ (get_agrees x "cat")) in H as (c & Hc & H).
      split; [by exists i|]. split; [by exists q|by exists c]. }
    destruct (decide (x_tag x = "sentence")) as [Ht|H9].
    { rewrite decide_False by (by rewrite Ht). destruct x as [tag a t kids tl]. cbn [x_tag] in Ht. subst tag. set (x := XElem _ a t kids tl) in *. change (parse ns o anc x) with (add_sentence anc x).
      intros H. apply (need_some _ _ _ _ _ (get_agrees x xml_id)) in H as (i & Hi & H). apply then_ok in H as (st1 & _ & H). apply then_ok in H as (st2 & _ & H). apply need_ok in H as (ts & Hts & _).
      split; [by exists i|]. change (dget "span" (x_attrib x)) with (att "span" x) in Hts. destruct (att "span" x) as [s|].
      - destruct (convert_spanstring (chs s)) as [us|e]; [by exists us|done].
      - apply (agrees_Ok _ _ _ (below_agrees "word" anc x)) in Hts. apply seek_some. by exists ts. }
    destruct (decide (x_tag x = "splitRelation")) as [Ht|H10].
    { rewrite decide_False by (by rewrite Ht). destruct x as [tag a t kids tl]. cbn [x_tag] in Ht. subst tag. set (x := XElem _ a t kids tl) in *. change (parse ns o anc x) with (add_splitrelation ns o anc x).
      unfold add_splitrelation. destruct (no_relations o); [by left; left|]. destruct (no_splitrelations o); [by left; right|]. cbn [orb]. intros H. right.
      apply (need_some _ _ _ _ _ (id_agrees anc x)) in H as (i & Hi & H). apply (need_some _ _ _ _ _ (get_agrees x "target")) in H as (q & Hq & H). apply (need_some _ _ _ _ _ (get_agrees x "type")) in H as (c & Hc & H).
      split; [by exists i|]. split; [by exists q|by exists c]. }
    destruct (decide (x_tag x = "topic")) as [Ht|H11].
    { rewrite decide_False by (by rewrite Ht). destruct x as [tag a t kids tl]. cbn [x_tag] in Ht. subst tag. set (x := XElem _ a t kids tl) in *. change (parse ns o anc x) with (add_topic ns anc x).
      intros H. apply (need_some _ _ _ _ _ (id_agrees anc x)) in H as (i & Hi & H). apply (need_some _ _ _ _ _ (get_agrees x "description")) in H as (c & Hc & H). apply then_ok in H as (st1 & _ & H).
      split; [by exists i|]. split; [by exists c|by eapply word_edges_only]. }
    destruct (decide (x_tag x = "word")) as [Ht|H12].
    { intros H. apply (need_some _ _ _ _ _ (id_agrees anc x)) in H as (i & Hi & H). apply (need_some _ _ _ _ _ (word_agrees anc x)) in H as (q & Hq & H). apply then_ok in H as (st1 & _ & H). apply need_ok in H as (f & Hf & _).
      split; [by exists i|]. split; [by exists q|]. change (dget (ns +:+ ":" +:+ "form") (features ns x)) with (dget (in_layer ns "form") (attribs_to_dict ns x)) in *.
      pose proof (features_get ns x "form" ltac:(done)) as HF. change (dget (ns +:+ ":" +:+ "form") (features ns x)) with (dget (in_layer ns "form") (attribs_to_dict ns x)) in HF. rewrite HF in Hf. unfold has. destruct (att "form" x) as [v|]; [by exists v|done]. }
    destruct x as [tag a t kids tl]. cbn [x_tag] in *. cbn [parse x_tag]. cbv zeta. rewrite !decide_False by done. done.
  Qed.
End All.
