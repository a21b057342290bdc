(** * TigerDocSpan: spans in a document; rejected documents *)
From stdpp Require Import sorting.
From Verif Require Import PyBase DocGraph Relabel StrNum Query Text Rst Nltk Parsers Anaphora Conano Decour Ptb Convert Tiger.
From Verif Require Import SpecGraph SpecConvert DocGraphFacts History Effects RelabelFacts MergeFacts AllHist MergeAll GraphThms SpecImport ImportFacts PtbFacts NatSort SpecQuery SpanFacts ConvertFacts BracketFacts OutlineSpan SpecBrackets SpecTiger TigerFacts TigerWalk TigerSent TigerReject BuiltFrom TigerDoc TigerSpan TigerTree.

Lemma NoDup_concat_same {A} (ls : list (list A)) : NoDup (concat ls) → ∀ i j l1 l2 x, ls !! i = Some l1 → ls !! j = Some l2 → x ∈ l1 → x ∈ l2 → i = j.
Proof.
  induction ls as [|l ls IH]; intros HD i j l1 l2 x Hi Hj H1 H2; [by rewrite lookup_nil in Hi|]. cbn [concat] in HD. apply NoDup_app in HD as (_ & HX & HD).
  assert (Hin : ∀ k l', ls !! k = Some l' → x ∈ l' → x ∈ concat ls) by (intros k l' Hk Hx; apply elem_concat; exists l'; split; [done|by eapply elem_of_list_lookup_2]).
  destruct i as [|i], j as [|j]; cbn in Hi, Hj; [done| | |f_equal; by eapply IH].
  - injection Hi as ->. exfalso. by eapply HX, Hin.
  - injection Hj as ->. exfalso. by eapply HX, Hin.
Qed.
Lemma ids_concat (ls : list (list node_info)) : ids (concat ls) = concat (ids <$> ls).
Proof. induction ls as [|l ls IH]; [done|]. rewrite fmap_cons. cbn [concat]. by rewrite ids_app, IH. Qed.
Lemma document_ids ns x : ids (document_nodes ns x) = doc_root ns :: concat (imap (λ i s, distinct (who <$> mentions i "tiger" s)) (sentences_in x)).
Proof.
  change (doc_root ns :: ids (concat (imap (λ i s, described "tiger" (mentions i "tiger" s)) (sentences_in x))) = doc_root ns :: concat (imap (λ i s, distinct (who <$> mentions i "tiger" s)) (sentences_in x))).
  f_equal. rewrite ids_concat. f_equal. rewrite fmap_imap. apply imap_ext. intros i s _. unfold compose. apply ids_described.
Qed.
Section doc.
  Context (ns : string) (x : xml).
  Notation ss := (sentences_in x).
  Context (HG : Forall good_sentence ss) (HD : NoDup (ids (document_nodes ns x))).
  Definition doc_under (u v : nid) : Prop := ∃ i s, ss !! i = Some s ∧ (under i "tiger" s u v ∨ u = doc_root ns ∧ v = final_root "tiger" s).
  Lemma good_at i s : ss !! i = Some s → good_sentence s.
  Proof using HG. intros H. rewrite Forall_forall in HG. by eapply HG, elem_of_list_lookup_2. Qed.
  Lemma same_sentence i j s s' n : ss !! i = Some s → ss !! j = Some s' → n ∈ who <$> mentions i "tiger" s → n ∈ who <$> mentions j "tiger" s' → i = j.
  Proof using HD.
    rewrite document_ids in HD. apply NoDup_cons in HD as [_ HD']. intros Hi Hj H1 H2.
    refine (NoDup_concat_same _ HD' i j _ _ n _ _ (proj2 (elem_distinct _ _) H1) (proj2 (elem_distinct _ _) H2)); rewrite list_lookup_imap; [by rewrite Hi|by rewrite Hj].
  Qed.
  Lemma root_apart i s : ss !! i = Some s → doc_root ns ∉ who <$> mentions i "tiger" s.
  Proof using HD.
    rewrite document_ids in HD. apply NoDup_cons in HD as [HN _]. intros Hi Hin. apply HN. apply elem_concat. exists (distinct (who <$> mentions i "tiger" s)). split; [by apply elem_distinct|].
    apply elem_of_lookup_imap. by exists i, s.
  Qed.
  Lemma under_in i s u v : ss !! i = Some s → under i "tiger" s u v → u ∈ who <$> mentions i "tiger" s ∧ v ∈ who <$> mentions i "tiger" s.
  Proof using HG. intros Hi H. destruct (good_at i s Hi) as (W & K & T). destruct (sentence_ok i "tiger" s W K T) as (g & _ & HB & _). by eapply under_nodes. Qed.
  Lemma doc_edge e : e ∈ document_edges ns x ↔ ∃ i s, ss !! i = Some s ∧
    (e ∈ sentence_edges i "tiger" s ∨ e = (doc_root ns, final_root "tiger" s, [ns; ns +:+ ":sentence"], [("edge_type", VStr "dominates")])).
  Proof.
    unfold document_edges. rewrite elem_concat. split.
    - intros (l & He & Hl). apply elem_of_lookup_imap in Hl as (i & s & -> & Hi). exists i, s. split; [done|]. apply elem_of_app in He as [He|He]; [by left|]. right. by apply elem_of_list_singleton in He.
    - intros (i & s & Hi & He). eexists. split; [|apply elem_of_lookup_imap; by exists i, s]. apply elem_of_app. destruct He as [He| ->]; [by left|right; by left].
  Qed.
  Lemma doc_covers g N u v : built g N (document_edges ns x) → covers g u v ↔ proper doc_under u v.
  Proof.
    intros HB. rewrite (built_covers _ _ _ u v HB). unfold proper. split; intros [Hne H]; (split; [done|]).
    - destruct H as (e & He & Eu & Ev & Hp). apply doc_edge in He as (i & s & Hi & [He| ->]); exists i, s; (split; [done|]); [left; apply sentence_covers; by exists e|]. right. by subst.
    - destruct H as (i & s & Hi & [H|[-> ->]]).
      + apply sentence_covers in H as (e & He & ? & ? & ?). exists e. split; [|done]. apply doc_edge. exists i, s. split; [done|by left].
      + eexists. split; [apply doc_edge; exists i, s; split; [done|right; reflexivity]|]. done.
  Qed.
  Lemma doc_typed : Forall (λ e : edge_info, is_Some (dget "edge_type" e.2)) (document_edges ns x).
  Proof.
    apply Forall_forall. intros e He. apply doc_edge in He as (i & s & Hi & [He| ->]); [|by eexists]. pose proof (sentence_typed i "tiger" s) as H. rewrite Forall_forall in H. by apply H.
  Qed.
  (** below a node of a sentence there are nodes of the sentence only *)
  Lemma doc_step i s u v : ss !! i = Some s → u ∈ who <$> mentions i "tiger" s → doc_under u v ↔ under i "tiger" s u v.
  Proof using HG HD.
    intros Hi Hu. split; [|intros H; exists i, s; split; [done|by left]]. intros (j & s' & Hj & [H|[-> _]]); [|exfalso; exact (root_apart i s Hi Hu)].
    destruct (under_in j s' u v Hj H) as [Hu' _]. assert (i = j) as -> by exact (same_sentence i j s s' u Hi Hj Hu Hu'). rewrite Hi in Hj. by injection Hj as ->.
  Qed.
  Lemma doc_rtc i s u v : ss !! i = Some s → u ∈ who <$> mentions i "tiger" s → rtc doc_under u v ↔ rtc (under i "tiger" s) u v.
  Proof using HG HD.
    intros Hi Hu. split; intros H.
    - induction H as [|a b c Hab _ IH]; [apply rtc_refl|]. apply (doc_step i s a b Hi Hu) in Hab. eapply rtc_l; [exact Hab|]. apply IH. exact (proj2 (under_in i s a b Hi Hab)).
    - induction H as [|a b c Hab _ IH]; [apply rtc_refl|]. eapply rtc_l; [exact (proj2 (doc_step i s a b Hi Hu) Hab)|]. apply IH. exact (proj2 (under_in i s a b Hi Hab)).
  Qed.
  Lemma doc_acyclic : (∀ s, s ∈ ss → ∀ n, ¬ tc (child s) n n) → acyclic (proper doc_under).
  Proof using HG HD.
    intros HA n Hc.
    assert (Hlast : ∀ u v, tc (proper doc_under) u v → ∃ i s, ss !! i = Some s ∧ v ∈ who <$> mentions i "tiger" s).
    { intros u v H. induction H as [u v [_ (i & s & Hi & [H|[_ ->]])]|u v w _ _ IH]; [..|done]; exists i, s; (split; [done|]); [exact (proj2 (under_in i s u v Hi H))|apply final_root_in]. }
    destruct (Hlast n n Hc) as (i & s & Hi & Hn).
    assert (G : ∀ u v, tc (proper doc_under) u v → u ∈ who <$> mentions i "tiger" s → tc (proper (under i "tiger" s)) u v).
    { intros u v H. induction H as [u v [Hne H]|u v w [Hne H] _ IH]; intros Hu.
      - apply tc_once. split; [done|]. exact (proj1 (doc_step i s u v Hi Hu) H).
      - apply (doc_step i s u v Hi Hu) in H. eapply tc_l; [split; [done|exact H]|]. apply IH. exact (proj2 (under_in i s u v Hi H)). }
    refine (under_acyclic i "tiger" s _ n (G n n Hc Hn)). apply HA. by eapply elem_of_list_lookup_2.
  Qed.
  Lemma doc_is_token g t : ns = "tiger" → built g (combined (document_nodes ns x)) (document_edges ns x) → g_ns g = ns →
    is_token g t ↔ ∃ s, s ∈ ss ∧ t ∈ token_ids s.
  Proof using HG HD.
    intros Ens HB Hns. pose proof (built_same _ _ _ _ HB (combined_nodup _ HD)) as HB'. unfold is_token. rewrite Hns, Ens.
    assert (Hkey : "tiger:token" ≠ "layers") by done. split.
    - intros (a & Ha & Hk). assert (Hin : t ∈ nodes g) by (apply node_mem; by exists a). destruct (b_nodes _ _ _ HB') as [HN _]. rewrite HN in Hin.
      apply elem_of_list_fmap in Hin as ([[n l] b] & -> & Hin). cbn in *. destruct (built_node_attrs _ _ _ _ _ _ HB' Hin) as (a' & Ha' & _ & HK). rewrite Ha in Ha'. injection Ha' as <-.
      change ("tiger" +:+ ":token") with "tiger:token" in Hk. rewrite HK in Hk by done. unfold document_nodes in Hin. apply elem_of_cons in Hin as [[= -> -> ->]|Hin]; [by destruct Hk|].
      apply elem_concat in Hin as (d & Hin & Hd). apply elem_of_lookup_imap in Hd as (i & s & -> & Hi). unfold described in Hin. apply elem_of_list_fmap in Hin as (m & [= -> -> ->] & Hm).
      exists s. split; [by eapply elem_of_list_lookup_2|]. destruct (good_at i s Hi) as (_ & _ & T). by apply (sentence_tokens_are i "tiger" s m T).
    - intros (s & Hs & Ht). apply elem_of_list_lookup in Hs as (i & Hi). destruct (good_at i s Hi) as (_ & _ & T). pose proof Ht as Hk. apply (sentence_tokens_are i "tiger" s t T) in Hk.
      assert (Hin : (t, layers_given "tiger" t (mentions i "tiger" s), attrs_given t (mentions i "tiger" s)) ∈ document_nodes ns x).
      { right. apply elem_concat. exists (described "tiger" (mentions i "tiger" s)). split.
        - unfold described. apply (elem_of_list_fmap_1 (λ n, (n, layers_given "tiger" n (mentions i "tiger" s), attrs_given n (mentions i "tiger" s)))). apply elem_distinct. by apply token_mentioned.
        - apply elem_of_lookup_imap. by exists i, s. }
      destruct (built_node_attrs _ _ _ _ _ _ HB' Hin) as (b & Hb & _ & HK). exists b. split; [done|]. change ("tiger" +:+ ":token") with "tiger:token" in *. by rewrite HK.
  Qed.
  Lemma doc_span g : ns = "tiger" → built g (combined (document_nodes ns x)) (document_edges ns x) → g_ns g = ns →
    (∀ s, s ∈ ss → ∀ n, ¬ tc (child s) n n) → ∀ n, n ∈ nodes g →
    ∃ l, (∀ k, length (nodes g) < k → get_span k g n = Ok l) ∧ sorted nat_cmp l ∧ ∀ t, t ∈ l ↔ (∃ s, s ∈ ss ∧ t ∈ token_ids s) ∧ rtc doc_under n t.
  Proof using HG HD.
    intros Ens HB Hns HA n Hn. assert (C : Consistent g) by apply HB.
    destruct (get_span_total g n C (built_typed _ _ _ HB doc_typed)) as [l Hl]; [eapply acyclic_ext; [intros u v; apply (doc_covers g _ u v HB)|by apply doc_acyclic]|done|].
    exists l. split; [done|]. specialize (Hl (S (length (nodes g))) ltac:(lia)). split; [by eapply get_span_sorted|].
    intros t. rewrite (get_span_elem g C _ n l Hl t), (doc_is_token g t Ens HB Hns). unfold below. by rewrite (rtc_ext _ _ n t (λ u v, doc_covers g _ u v HB)), rtc_proper.
  Qed.
  Lemma token_sentence i s t : ss !! i = Some s → t ∈ who <$> mentions i "tiger" s → (∃ s', s' ∈ ss ∧ t ∈ token_ids s') → t ∈ token_ids s.
  Proof using HD.
    intros Hi Ht (s' & Hs' & Ht'). apply elem_of_list_lookup in Hs' as (j & Hj). assert (i = j) as -> by exact (same_sentence i j s s' t Hi Hj Ht (token_mentioned j "tiger" s' t Ht')). rewrite Hi in Hj. by injection Hj as ->.
  Qed.
  Lemma rtc_in i s u v : ss !! i = Some s → u ∈ who <$> mentions i "tiger" s → rtc (under i "tiger" s) u v → v ∈ who <$> mentions i "tiger" s.
  Proof using HG. intros Hi Hu H. induction H as [|a b c Hab _ IH]; [done|]. apply IH. exact (proj2 (under_in i s a b Hi Hab)). Qed.
  (** a node of a sentence spans the tokens it spans in the sentence *)
  Lemma doc_span_sentence g : ns = "tiger" → built g (combined (document_nodes ns x)) (document_edges ns x) → g_ns g = ns →
    (∀ s, s ∈ ss → ∀ n, ¬ tc (child s) n n) → ∀ i s n, ss !! i = Some s → n ∈ who <$> mentions i "tiger" s →
    ∃ l, (∀ k, length (nodes g) < k → get_span k g n = Ok l) ∧ sorted nat_cmp l ∧ ∀ t, t ∈ l ↔ t ∈ token_ids s ∧ rtc (under i "tiger" s) n t.
  Proof using HG HD.
    intros Ens HB Hns HA i s n Hi Hn. destruct (doc_span g Ens HB Hns HA n) as (l & Hl & HS & HE).
    { destruct (b_nodes _ _ _ HB) as [HN _]. rewrite HN. change (n ∈ ids (combined (document_nodes ns x))). rewrite combined_ids, elem_distinct, document_ids. right. apply elem_concat. exists (distinct (who <$> mentions i "tiger" s)).
      split; [by apply elem_distinct|]. apply elem_of_lookup_imap. by exists i, s. }
    exists l. split; [done|]. split; [done|]. intros t. rewrite HE, (doc_rtc i s n t Hi Hn). split.
    - intros [H1 H2]. split; [|done]. eapply token_sentence; [exact Hi| |exact H1]. by eapply rtc_in.
    - intros [H1 H2]. split; [|done]. exists s. split; [by eapply elem_of_list_lookup_2|done].
  Qed.
  (** the root of the document spans all tokens *)
  Lemma doc_span_root g : ns = "tiger" → built g (combined (document_nodes ns x)) (document_edges ns x) → g_ns g = ns →
    Forall (λ s, tree_shaped s ∧ sentence_root s ∉ token_ids s) ss →
    ∃ l, (∀ k, length (nodes g) < k → get_span k g (doc_root ns) = Ok l) ∧ sorted nat_cmp l ∧ ∀ t, t ∈ l ↔ ∃ s, s ∈ ss ∧ t ∈ token_ids s.
  Proof using HG HD.
    intros Ens HB Hns HF. rewrite Forall_forall in HF. destruct (doc_span g Ens HB Hns (λ s Hs, ts_acyclic _ (proj1 (HF s Hs))) (doc_root ns)) as (l & Hl & HS & HE).
    { destruct (b_nodes _ _ _ HB) as [HN _]. rewrite HN. change (doc_root ns ∈ ids (combined (document_nodes ns x))). rewrite combined_ids, elem_distinct, document_ids. left. }
    exists l. split; [done|]. split; [done|]. intros t. rewrite HE. split; [by intros [? _]|]. intros (s & Hs & Ht). split; [by exists s|]. destruct (HF s Hs) as [HT Hr].
    apply elem_of_list_lookup in Hs as (i & Hi). eapply rtc_l; [exists i, s; split; [exact Hi|right; split; reflexivity]|].
    apply (doc_rtc i s _ t Hi (final_root_in i "tiger" s)). assert (Hfr : final_root "tiger" s = sentence_root s) by (unfold final_root; by rewrite decide_False). rewrite Hfr.
    apply tree_reach; [done|done|]. apply elem_of_list_fmap in Ht as (y & -> & Hy). unfold base_mentions. rewrite fmap_cons, fmap_app. right. apply elem_of_app. left.
    apply elem_of_list_fmap. exists (node_of "id" y, AToken, token_feats "tiger" y). split; [done|]. apply elem_of_list_bind. exists y. split; [left|done].
  Qed.
End doc.
(** ** Rejected documents *)
Lemma document_needs name ns x : Forall well_formed (sentences_in x) → (read_tiger name ns x).2 = None → has_att x "id" ∧ Forall complete (sentences_in x).
Proof.
  intros HW. unfold read_tiger, x_get. destruct (dget "id" (x_attrib x)) as [v|] eqn:Eid; [|done]. cbn [of_option].
  rewrite x_path_elements. change (elements ["body"; "s"] x) with (sentences_in x). destruct (loop _ _ _) as [s e] eqn:EL. destruct e; [destruct s; done|]. intros _. split; [by exists v|].
  assert (H : Forall (λ y, well_formed y → complete y) (sentences_in x)).
  { apply Forall_forall. intros z Hz. refine (loop_all tiger_add_sentence (λ y, well_formed y → complete y) _ _ _ _ EL z Hz). intros y [g ls] s' _ Hy Wy. unfold tiger_add_sentence in Hy. destruct (tiger_sentence (length ls) "tiger" y) as [[sg ts] [e|]] eqn:ES; [done|]. apply (sentence_needs (length ls) "tiger"); [done|]. by rewrite ES. }
  rewrite Forall_forall in H, HW |- *. intros y Hy. exact (H y Hy (HW y Hy)).
Qed.
