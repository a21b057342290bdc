(** * TigerSpan: the tokens of constituents *)
From Verif Require Import PyBase DocGraph Relabel StrNum Query Text Rst Nltk Parsers Anaphora Conano Decour Ptb Convert Tiger.
From Verif Require Import SpecGraph SpecConvert DocGraphFacts History Effects RelabelFacts MergeFacts AllHist MergeAll GraphThms SpecImport ImportFacts PtbFacts NatSort SpecQuery SpanFacts ConvertFacts BracketFacts OutlineSpan SpecTiger TigerFacts TigerWalk TigerSent TigerReject BuiltFrom TigerDoc.

Definition non_pointing (e : edge_info) : Prop := dget "edge_type" e.2 ≠ Some (VStr "points_to").
Lemma built_covers g N E u v : built g N E → covers g u v ↔ u ≠ v ∧ ∃ e, e ∈ E ∧ e.1.1.1 = u ∧ e.1.1.2 = v ∧ non_pointing e.
Proof.
  intros HB. unfold covers. destruct (b_edges _ _ _ HB) as (es & HP & HE). split; intros [Hne H]; (split; [done|]).
  - destruct H as (k & a & Ha & Ht). assert (Hin : (u, v, k, a) ∈ edges g) by (by apply elem_edges; [apply HB|]). rewrite HP in Hin.
    apply elem_of_list_lookup in Hin as (j & Hj). destruct (Forall2_lookup_l _ _ _ _ _ HE Hj) as (e & He & (E1 & E2 & _ & HK)). exists e. split; [by eapply elem_of_list_lookup_2|]. split; [done|]. split; [done|]. unfold non_pointing. by rewrite <-HK.
  - destruct H as (e & He & Eu & Ev & Ht). apply elem_of_list_lookup in He as (j & Hj). destruct (Forall2_lookup_r _ _ _ _ _ HE Hj) as ([[[u' v'] k] a] & He & (E1 & E2 & _ & HK)). cbn in E1, E2, HK. subst.
    apply elem_of_list_lookup_2 in He. rewrite <-HP in He. apply elem_edges in He; [|apply HB]. exists k, a. split; [done|]. rewrite HK by done. exact Ht.
Qed.
Lemma built_typed g N E : built g N E → Forall (λ e : edge_info, is_Some (dget "edge_type" e.2)) E → typed g.
Proof.
  intros HB HF u v k a Ha. destruct (b_edges _ _ _ HB) as (es & HP & HE). assert (Hin : (u, v, k, a) ∈ edges g) by (by apply elem_edges; [apply HB|]). rewrite HP in Hin.
  apply elem_of_list_lookup in Hin as (j & Hj). destruct (Forall2_lookup_l _ _ _ _ _ HE Hj) as (e & He & (_ & _ & _ & HK)). cbn in HK. rewrite HK by done. rewrite Forall_forall in HF. by eapply HF, elem_of_list_lookup_2.
Qed.
Lemma plain_key key : (":"%char ∈ chs key → False) → ∀ ns x, dget key (in_ns ns x) = None.
Proof. intros H ns x. by apply in_ns_plain. Qed.
(** the non-pointing edges of a sentence *)
Lemma phrases_edges_elem ns toks ps : ∀ last e, e ∈ phrases_edges ns toks last ps →
  (∃ n y, n ∈ ps ∧ y ∈ edges_in n ∧ e = phrase_edge ns toks (node_of "id" n) y) ∨ (∃ n y lab, n ∈ ps ∧ y ∈ secedges_in n ∧ e = phrase_secedge ns (node_of "id" n) lab y).
Proof.
  induction ps as [|p ps IH]; intros last e He; cbn [phrases_edges] in He; [by apply elem_of_nil in He|].
  apply elem_of_app in He as [He|He].
  - unfold phrase_edges in He. apply elem_of_app in He as [He|He]; apply elem_of_list_fmap in He as (y & -> & Hy).
    + left. exists p, y. split; [left|done].
    + right. exists p, y. eexists. split; [left|]. split; [done|]. reflexivity.
  - apply IH in He as [(n & y & Hn & ?)|(n & y & lab & Hn & ?)]; [left; exists n, y|right; exists n, y, lab]; (split; [by right|done]).
Qed.
Lemma phrases_edges_child ns toks ps n y : ∀ last, n ∈ ps → y ∈ edges_in n → phrase_edge ns toks (node_of "id" n) y ∈ phrases_edges ns toks last ps.
Proof.
  induction ps as [|p ps IH]; intros last Hn Hy; [by apply elem_of_nil in Hn|]. cbn [phrases_edges]. apply elem_of_app. apply elem_of_cons in Hn as [->|Hn].
  - left. unfold phrase_edges. apply elem_of_app. left. apply (elem_of_list_fmap_1 (phrase_edge ns toks (node_of "id" p))). done.
  - right. by apply IH.
Qed.
Lemma sentence_covers i ns x u v : (∃ e, e ∈ sentence_edges i ns x ∧ e.1.1.1 = u ∧ e.1.1.2 = v ∧ non_pointing e) ↔ under i ns x u v.
Proof.
  unfold sentence_edges, annotated_edges, under. split.
  - intros (e & He & <- & <- & Ht). apply elem_of_app in He as [He|He]; [apply elem_of_app in He as [He|He]|].
    + exfalso. apply elem_of_list_bind in He as (t & He & _). unfold token_edges in He. apply elem_of_list_fmap in He as (s & -> & _). by apply Ht.
    + apply phrases_edges_elem in He as [(n & y & Hn & Hy & ->)|(n & y & lab & Hn & Hy & ->)]; [left; by exists n, y|]. exfalso. by apply Ht.
    + right. apply elem_of_list_fmap in He as (n & -> & Hn). done.
  - intros [(n & y & Hn & Hy & -> & ->)|[-> Hv]].
    + exists (phrase_edge ns (token_ids x) (node_of "id" n) y). split; [apply elem_of_app; left; apply elem_of_app; right; by apply phrases_edges_child|].
      split; [done|]. split; [done|]. unfold non_pointing, phrase_edge. cbn. repeat destruct (decide _); congruence.
    + exists (attached ns (final_root ns x) v). split; [apply elem_of_app; right; by apply elem_of_list_fmap_1|]. done.
Qed.
Lemma sentence_typed i ns x : Forall (λ e : edge_info, is_Some (dget "edge_type" e.2)) (sentence_edges i ns x).
Proof.
  apply Forall_forall. intros e He. unfold sentence_edges, annotated_edges in He. apply elem_of_app in He as [He|He]; [apply elem_of_app in He as [He|He]|].
  - apply elem_of_list_bind in He as (t & He & _). unfold token_edges in He. apply elem_of_list_fmap in He as (s & -> & _). by eexists.
  - apply phrases_edges_elem in He as [(n & y & Hn & Hy & ->)|(n & y & lab & Hn & Hy & ->)]; by eexists.
  - apply elem_of_list_fmap in He as (n & -> & Hn). by eexists.
Qed.
(** a node without edges has no children *)
Lemma unattached_alone i ns x v : v ∈ unattached i ns x → alone (annotated_edges ns x) v ∧ v ∈ who <$> base_mentions i ns x.
Proof.
  unfold unattached. destruct (decide _); [|intros H; destruct (not_elem_of_nil _ H)]. intros [H1 H2]%elem_of_list_filter. split; [exact H1|]. exact (proj1 (elem_distinct _ _) H2).
Qed.
Lemma alone_child ns x u v : alone (annotated_edges ns x) u → ¬ child x u v ∧ ¬ child x v u.
Proof.
  unfold alone. rewrite Forall_forall. intros H. split; intros (n & e & Hn & He & E1 & E2).
  - destruct (H (phrase_edge ns (token_ids x) (node_of "id" n) e)) as [H1 H2]; [apply elem_of_app; right; by apply phrases_edges_child|]. by apply H1.
  - destruct (H (phrase_edge ns (token_ids x) (node_of "id" n) e)) as [H1 H2]; [apply elem_of_app; right; by apply phrases_edges_child|]. by apply H2.
Qed.
Definition proper {A} (R : A → A → Prop) (u v : A) : Prop := u ≠ v ∧ R u v.
Lemma under_acyclic i ns x : (∀ n, ¬ tc (child x) n n) → acyclic (proper (under i ns x)).
Proof.
  intros HA n Hc.
  assert (Hdead : ∀ v w, v ∈ unattached i ns x → ¬ (proper (under i ns x) (final_root ns x) v ∧ proper (under i ns x) v w)).
  { intros v w Hv [[Hne _] [_ [H|[-> _]]]]; [|done]. apply unattached_alone in Hv as [Hv _]. by apply (alone_child ns x v w) in Hv as [Hv _]. }
  assert (G : ∀ a b, tc (proper (under i ns x)) a b → tc (child x) a b ∨ ∀ w, ¬ proper (under i ns x) b w).
  { intros a b H. induction H as [a b [Hne [H|[-> H]]]|a b c [Hne [H|[-> H]]] Hbc IH].
    - left. by apply tc_once.
    - right. intros w Hw. apply (Hdead b w H). split; [split; [done|by right]|done].
    - destruct IH as [IH|IH]; [left; by eapply tc_l|by right].
    - exfalso. assert (∃ w, proper (under i ns x) b w) as [w Hw] by (inversion Hbc; subst; by eexists). apply (Hdead b w H). split; [split; [done|by right]|done]. }
  destruct (G n n Hc) as [H|H]; [by apply (HA n)|]. assert (∃ w, proper (under i ns x) n w) as [w Hw] by (inversion Hc; subst; by eexists). by apply (H w).
Qed.
Lemma acyclic_ext {A} (R R' : A → A → Prop) : (∀ x y, R x y ↔ R' x y) → acyclic R' → acyclic R.
Proof. intros H HA x Hx. apply (HA x). clear HA. revert Hx. generalize x at 2 4. intros y Hx. induction Hx as [a b Hab|a b c Hab _ IH]; [apply tc_once; exact (proj1 (H a b) Hab)|]. exact (tc_l _ _ _ _ (proj1 (H a b) Hab) IH). Qed.
Lemma rtc_proper {A} `{EqDecision A} (R : A → A → Prop) x y : rtc (proper R) x y ↔ rtc R x y.
Proof.
  split; intros H.
  - induction H as [|x y z [_ Hxy] _ IH]; [done|by eapply rtc_l].
  - induction H as [|x y z Hxy _ IH]; [done|]. destruct (decide (x = y)) as [->|Hne]; [done|]. eapply rtc_l; [by split|done].
Qed.
Lemma rtc_ext {A} (R R' : A → A → Prop) x y : (∀ x y, R x y ↔ R' x y) → rtc R x y ↔ rtc R' x y.
Proof. intros HR. split; intros H; (induction H as [|a b c Hab _ IH]; [done|eapply rtc_l; [by apply HR|done]]). Qed.
(** attributes of nodes of a sentence *)
Lemma virtual_attrs i ns x n k : dget k (attrs_given n (mentions i ns x)) = dget k (attrs_given n (base_mentions i ns x)).
Proof.
  unfold mentions. destruct (decide _); [|by rewrite app_nil_r]. destruct (decide (NStr (ns +:+ ":VROOT") = n)) as [<-|Hne].
  - rewrite attrs_same'. done.
  - rewrite attrs_other by done. done.
Qed.
Lemma sentence_tokens_are i ns x n : no_token_att x → is_Some (dget (ns +:+ ":token") (attrs_given n (mentions i ns x))) ↔ n ∈ token_ids x.
Proof. intros HT. rewrite virtual_attrs. by apply root_token. Qed.
Lemma token_mentioned i ns x n : n ∈ token_ids x → n ∈ who <$> mentions i ns x.
Proof.
  intros (t & -> & Ht)%elem_of_list_fmap. unfold mentions, base_mentions. rewrite fmap_app. apply elem_of_app. left. rewrite fmap_cons, fmap_app. right. apply elem_of_app. left.
  apply elem_of_list_fmap. exists (node_of "id" t, AToken, token_feats ns t). split; [done|]. apply elem_of_list_bind. exists t. split; [left|done].
Qed.
Lemma sentence_is_token g i ns x t : built g (described ns (mentions i ns x)) (sentence_edges i ns x) → g_ns g = ns → no_token_att x → is_token g t ↔ t ∈ token_ids x.
Proof.
  intros HB Hns HT. unfold is_token. rewrite Hns. rewrite <-(sentence_tokens_are i ns x t HT).
  assert (Hkey : ns +:+ ":token" ≠ "layers") by (apply not_eq_sym; nc). split.
  - intros (a & Ha & Hk). assert (Hin : t ∈ nodes g) by (apply node_mem; by exists a). destruct (b_nodes _ _ _ HB) as [HN _].
    assert (Hin' : t ∈ ids (described ns (mentions i ns x))) by (unfold ids; by rewrite <-HN). rewrite ids_described in Hin'.
    assert (Hd : (t, layers_given ns t (mentions i ns x), attrs_given t (mentions i ns x)) ∈ described ns (mentions i ns x)).
    { unfold described. by apply (elem_of_list_fmap_1 (λ n, (n, layers_given ns n (mentions i ns x), attrs_given n (mentions i ns x)))). }
    destruct (built_node_attrs _ _ _ _ _ _ HB Hd) as (b & Hb & _ & HK). rewrite Ha in Hb. injection Hb as <-. by rewrite <-HK.
  - intros Hs. pose proof Hs as Ht. apply (sentence_tokens_are i ns x t HT) in Ht. apply (token_mentioned i ns) in Ht.
    assert (Hd : (t, layers_given ns t (mentions i ns x), attrs_given t (mentions i ns x)) ∈ described ns (mentions i ns x)).
    { unfold described. apply (elem_of_list_fmap_1 (λ n, (n, layers_given ns n (mentions i ns x), attrs_given n (mentions i ns x)))). by apply elem_distinct. }
    destruct (built_node_attrs _ _ _ _ _ _ HB Hd) as (b & Hb & _ & HK). exists b. split; [done|]. by rewrite HK.
Qed.
Lemma sentence_span g i ns x n : built g (described ns (mentions i ns x)) (sentence_edges i ns x) → g_ns g = ns → no_token_att x →
  (∀ n, ¬ tc (child x) n n) → n ∈ nodes g →
  ∃ l, (∀ k, length (nodes g) < k → get_span k g n = Ok l) ∧ sorted nat_cmp l ∧ ∀ t, t ∈ l ↔ t ∈ token_ids x ∧ rtc (under i ns x) n t.
Proof.
  intros HB Hns HT HA Hn. assert (HC : ∀ u v, covers g u v ↔ proper (under i ns x) u v) by (intros u v; by rewrite (built_covers _ _ _ u v HB), sentence_covers).
  assert (C : Consistent g) by apply HB.
  destruct (get_span_total g n C (built_typed _ _ _ HB (sentence_typed i ns x))) as [l Hl]; [eapply acyclic_ext; [exact HC|by apply under_acyclic]|done|].
  exists l. split; [done|]. specialize (Hl (S (length (nodes g))) ltac:(lia)). split; [by eapply get_span_sorted|].
  intros t. rewrite (get_span_elem g C _ n l Hl t), (sentence_is_token g i ns x t HB Hns HT). unfold below. by rewrite (rtc_ext _ _ n t HC), rtc_proper.
Qed.
(** ** Trees *)
Lemma annotated_linked ns x e : e ∈ annotated_edges ns x → e.1.1.1 ∈ linked_ids x ∧ e.1.1.2 ∈ linked_ids x.
Proof.
  intros He. unfold linked_ids. rewrite !elem_of_app. unfold annotated_edges in He. apply elem_of_app in He as [He|He].
  - apply elem_of_list_bind in He as (t & He & Ht). unfold token_edges in He. apply elem_of_list_fmap in He as (s & -> & Hs). cbn [fst snd].
    split; left; apply elem_of_list_bind; exists t; (split; [|exact Ht]); apply elem_of_list_bind; exists s; (split; [|exact Hs]); [left|right; left].
  - apply phrases_edges_elem in He as [(n & y & Hn & Hy & ->)|(n & y & lab & Hn & Hy & ->)]; cbn [fst snd phrase_edge phrase_secedge];
    split; right; apply elem_of_list_bind; exists n; (split; [|exact Hn]); apply elem_of_list_bind; exists y; (split; [|apply elem_of_app; by (left + right)]); first [by left|right; by left].
Qed.
Lemma tree_reach i ns x t : tree_shaped x → sentence_root x ∉ token_ids x → t ∈ who <$> base_mentions i ns x → rtc (under i ns x) (sentence_root x) t.
Proof.
  intros HT Hr Ht.
  assert (Hfr : final_root ns x = sentence_root x) by (unfold final_root; by rewrite decide_False).
  destruct (decide (t = sentence_root x)) as [->|Hne]; [apply rtc_refl|].
  destruct (decide (alone (annotated_edges ns x) t)) as [Hal|Hal].
  - apply rtc_once. right. split; [done|]. unfold unattached. rewrite decide_True.
    + apply elem_of_list_filter. split; [done|]. by apply elem_distinct.
    + assert (H1 : sentence_root x ∈ distinct (who <$> base_mentions i ns x)) by (apply elem_distinct; left).
      assert (H2 : t ∈ distinct (who <$> base_mentions i ns x)) by (by apply elem_distinct).
      revert H1 H2. generalize (distinct (who <$> base_mentions i ns x)). intros [|a [|b l]] H1 H2; [by apply elem_of_nil in H1| |cbn; lia].
      apply elem_of_list_singleton in H1, H2. congruence.
  - assert (Hch : ∃ u, child x u t).
    { unfold alone in Hal. 
      assert (∃ e, e ∈ annotated_edges ns x ∧ (t = e.1.1.1 ∨ t = e.1.1.2)) as (e & He & Het).
      { apply not_Forall_Exists in Hal; [|intros ?; apply _]. apply Exists_exists in Hal as (e & He & Hx). exists e. split; [done|]. destruct (decide (e.1.1.1 = t)); [by left|]. destruct (decide (e.1.1.2 = t)); [by right|]. exfalso. by apply Hx. }
      destruct (annotated_linked ns x e He) as [L1 L2]. destruct (ts_root _ HT t) as [->|?]; [destruct Het as [-> | ->]; done|done|done]. }
    (* climb: the chain of parents ends at the root *)
    assert (Hgo : ∀ k n, length (n ← phrases_in x; node_of "idref" <$> edges_in n) < k → (n = sentence_root x ∨ ∃ u, child x u n) → rtc (child x) (sentence_root x) n).
    { apply (acyclic_fuel (flip (child x)) (n ← phrases_in x; node_of "idref" <$> edges_in n)
        (λ k n, (n = sentence_root x ∨ ∃ u, child x u n) → rtc (child x) (sentence_root x) n)).
      - intros n Hn. apply (ts_acyclic _ HT n). clear -Hn. assert (G : ∀ a b, tc (flip (child x)) a b → tc (child x) b a).
        { intros a b H. induction H as [a b H|a b c H _ IH]; [by apply tc_once|]. eapply tc_r; [exact IH|exact H]. }
        by apply G.
      - intros a b (n & e & Hn & He & E1 & E2). apply elem_of_list_bind. exists n. split; [|done]. rewrite E2. by apply elem_of_list_fmap_1.
      - intros k n IH [->|[u Hu]]; [apply rtc_refl|]. eapply rtc_r; [|exact Hu]. apply IH; [exact Hu|].
        destruct Hu as (p & e & Hp & He & -> & ->). apply (ts_root _ HT). refine (proj1 (annotated_linked ns x (phrase_edge ns (token_ids x) (node_of "id" p) e) _)).
        apply elem_of_app. right. by apply phrases_edges_child. }
    specialize (Hgo _ t (Nat.lt_succ_diag_r _) (or_intror Hch)). clear -Hgo. induction Hgo as [|a b c Hab _ IH]; [apply rtc_refl|]. eapply rtc_l; [left; exact Hab|exact IH].
Qed.
