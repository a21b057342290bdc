(** * TigerTree: spans of trees, of documents; connected sentences *)
From stdpp Require Import sorting.
From Verif Require Import PyBase DocGraph Relabel StrNum Query Text Rst Nltk Parsers Anaphora Conano Decour Ptb Convert Tiger.
From Verif Require Import SpecGraph SpecConvert DocGraphFacts History Effects RelabelFacts MergeFacts AllHist MergeAll GraphThms SpecImport ImportFacts PtbFacts NatSort SpecQuery SpanFacts ConvertFacts BracketFacts OutlineSpan SpecBrackets SpecTiger TigerFacts TigerWalk TigerSent TigerReject BuiltFrom TigerDoc TigerSpan.

Lemma NoDup_position {A B} (f : A → B) (P : A → Prop) `{∀ x, Decision (P x)} (l : list A) : NoDup (f <$> filter P l) →
  ∀ i j x y, l !! i = Some x → l !! j = Some y → P x → P y → f x = f y → i = j.
Proof.
  induction l as [|z l IH]; intros HD i j x y Hi Hj Px Py Hf; [done|].
  assert (Hin : ∀ k w, l !! k = Some w → P w → f w ∈ f <$> filter P l).
  { intros k w Hk Pw. apply elem_of_list_fmap_1, elem_of_list_filter. split; [done|by eapply elem_of_list_lookup_2]. }
  rewrite filter_cons in HD. destruct i as [|i], j as [|j]; cbn in Hi, Hj; [done| | |].
  - injection Hi as ->. rewrite decide_True in HD by done. apply NoDup_cons in HD as [HN _]. exfalso. apply HN. rewrite Hf. by eapply Hin.
  - injection Hj as ->. rewrite decide_True in HD by done. apply NoDup_cons in HD as [HN _]. exfalso. apply HN. rewrite <-Hf. by eapply Hin.
  - f_equal. eapply IH; [|exact Hi|exact Hj|done..]. destruct (decide (P z)); [by apply NoDup_cons in HD as [_ HD]|done].
Qed.
Global Instance non_pointing_dec e : Decision (non_pointing e).
Proof. unfold non_pointing. apply _. Defined.
Lemma filter_all {A} (P : A → Prop) `{∀ x, Decision (P x)} l : Forall P l → filter P l = l.
Proof. induction 1 as [|x l Hx _ IH]; [done|]. rewrite filter_cons, decide_True by done. by rewrite IH. Qed.
Lemma filter_none {A} (P : A → Prop) `{∀ x, Decision (P x)} l : Forall (λ x, ¬ P x) l → filter P l = [].
Proof. induction 1 as [|x l Hx _ IH]; [done|]. rewrite filter_cons, decide_False by done. done. Qed.
Lemma phrases_targets ns toks ps : ∀ last, (λ e : edge_info, e.1.1.2) <$> filter non_pointing (phrases_edges ns toks last ps) = n ← ps; node_of "idref" <$> edges_in n.
Proof.
  induction ps as [|p ps IH]; intros last; [done|]. cbn [phrases_edges]. rewrite filter_app, fmap_app, IH, bind_cons. f_equal.
  unfold phrase_edges. rewrite filter_app. rewrite (filter_all _ (_ <$> edges_in p)).
  - rewrite (filter_none _ (_ <$> secedges_in p)).
    + rewrite app_nil_r, <-list_fmap_compose. done.
    + apply Forall_fmap, Forall_forall. intros e _ H. by apply H.
  - apply Forall_fmap, Forall_forall. intros e _. unfold non_pointing. cbn. repeat destruct (decide _); congruence.
Qed.
Lemma sentence_targets i ns x : tree_shaped x → NoDup ((λ e : edge_info, e.1.1.2) <$> filter non_pointing (sentence_edges i ns x)).
Proof.
  intros HT. unfold sentence_edges, annotated_edges. rewrite !filter_app, !fmap_app, phrases_targets. rewrite (filter_none _ (tokens_in x ≫= _)).
  - cbn [app fmap list_fmap]. rewrite (filter_all _ (_ <$> unattached i ns x)).
    + rewrite <-list_fmap_compose. assert (E : ((λ e : edge_info, e.1.1.2) ∘ attached ns (final_root ns x)) <$> unattached i ns x = unattached i ns x) by (rewrite <-(list_fmap_id (unattached i ns x)) at 2; done). rewrite E.
      apply NoDup_app. split; [apply HT|]. split.
      * intros v Hv Hu. apply unattached_alone in Hu as [Hu _]. apply elem_of_list_bind in Hv as (n & Hv & Hn). apply elem_of_list_fmap in Hv as (e & -> & He).
        apply (alone_child ns x _ (node_of "id" n)) in Hu as [_ Hu]. apply Hu. by exists n, e.
      * unfold unattached. destruct (decide _); [apply NoDup_filter, NoDup_distinct|by apply NoDup_nil].
    + apply Forall_fmap, Forall_forall. intros v _. unfold non_pointing. by intros [=].
  - apply Forall_forall. intros e He Hp. apply elem_of_list_bind in He as (t & He & _). unfold token_edges in He. apply elem_of_list_fmap in He as (s & -> & _). by apply Hp.
Qed.
Lemma built_parents g N E : built g N E → NoDup ((λ e : edge_info, e.1.1.2) <$> filter non_pointing E) →
  ∀ u1 u2 v k1 a1 k2 a2, u1 ≠ v → u2 ≠ v →
    edge_attrs g u1 v k1 = Some a1 → dget "edge_type" a1 ≠ Some (VStr points_to) →
    edge_attrs g u2 v k2 = Some a2 → dget "edge_type" a2 ≠ Some (VStr points_to) → u1 = u2 ∧ k1 = k2.
Proof.
  intros HB HD u1 u2 v k1 a1 k2 a2 _ _ H1 T1 H2 T2. destruct (b_edges _ _ _ HB) as (es & HP & HE).
  assert (I1 : (u1, v, k1, a1) ∈ es) by (rewrite <-HP; apply elem_edges; [apply HB|done]).
  assert (I2 : (u2, v, k2, a2) ∈ es) by (rewrite <-HP; apply elem_edges; [apply HB|done]).
  apply elem_of_list_lookup in I1 as (i & Hi). apply elem_of_list_lookup in I2 as (j & Hj).
  destruct (Forall2_lookup_l _ _ _ _ _ HE Hi) as (e1 & He1 & (_ & E1 & _ & K1)). destruct (Forall2_lookup_l _ _ _ _ _ HE Hj) as (e2 & He2 & (_ & E2 & _ & K2)).
  cbn in E1, E2, K1, K2.
  assert (i = j) as ->. { eapply (NoDup_position _ _ _ HD i j e1 e2 He1 He2); unfold non_pointing; [rewrite <-K1 by done; exact T1|rewrite <-K2 by done; exact T2|congruence]. }
  rewrite Hi in Hj. by injection Hj as -> -> _.
Qed.
Lemma sorted_id_before l : distinct_keys l → sorted nat_cmp l → StronglySorted id_before l.
Proof.
  intros HK HS. apply sorted_strongly in HS. induction HS as [|x l HS IH HF]; constructor.
  - apply IH. intros t t' Ht Ht'. apply HK; by right.
  - rewrite Forall_forall in HF |- *. intros y Hy. specialize (HF y Hy). destruct (nat_cmp x y) eqn:E; [|by right|done]. left. apply HK; [left|by right|done].
Qed.
Lemma under_nodes g i ns x u v : built g (described ns (mentions i ns x)) (sentence_edges i ns x) → under i ns x u v → u ∈ who <$> mentions i ns x ∧ v ∈ who <$> mentions i ns x.
Proof.
  intros HB Huv. apply built_ends in HB. rewrite Forall_forall in HB. apply sentence_covers in Huv as (e & He & <- & <- & _).
  destruct (HB e He) as [H1 H2]. rewrite !ids_described, !elem_distinct in *. done.
Qed.
Lemma tree_span g i ns x : built g (described ns (mentions i ns x)) (sentence_edges i ns x) → g_ns g = ns → no_token_att x →
  tree_shaped x → NoDup (token_ids x) → distinct_keys (token_ids x) → sentence_root x ∉ token_ids x →
  ∀ k, length (nodes g) < k → get_span k g (sentence_root x) = Ok (nat_sorted (token_ids x)).
Proof.
  intros HB Hns HT HS HD HK Hr k Hk.
  assert (Hin : sentence_root x ∈ nodes g).
  { destruct (b_nodes _ _ _ HB) as [HN _]. rewrite HN. change (sentence_root x ∈ ids (described ns (mentions i ns x))). rewrite ids_described. apply elem_distinct. unfold mentions, base_mentions. rewrite fmap_app. apply elem_of_app. left. left. }
  destruct (sentence_span g i ns x (sentence_root x) HB Hns HT (ts_acyclic _ HS) Hin) as (l & Hl & Hsort & Hel). rewrite (Hl k Hk). f_equal.
  assert (HC : ∀ u v, covers g u v ↔ proper (under i ns x) u v) by (intros u v; by rewrite (built_covers _ _ _ u v HB), sentence_covers).
  assert (HN : NoDup l). { eapply (get_span_NoDup g); [apply HB|eapply acyclic_ext; [exact HC|by apply under_acyclic, HS]|eapply built_parents; [exact HB|by apply sentence_targets]|apply (Hl k Hk)]. }
  assert (HP : l ≡ₚ nat_sorted (token_ids x)).
  { apply NoDup_Permutation; [done|by rewrite nat_sorted_perm|]. intros t. rewrite nat_sorted_perm, Hel. split; [by intros [? _]|]. intros Ht. split; [done|].
    apply tree_reach; [done|done|]. apply elem_of_list_fmap in Ht as (y & -> & Hy). unfold base_mentions. rewrite fmap_cons, fmap_app. right. apply elem_of_app. left.
    apply elem_of_list_fmap. exists (node_of "id" y, AToken, token_feats ns y). split; [done|]. apply elem_of_list_bind. exists y. split; [left|done]. }
  apply same_sorted; [by apply sorted_strongly|apply sorted_id_before; [|apply nat_sorted_sorted]|done].
  intros t t' Ht Ht'. rewrite nat_sorted_perm in Ht, Ht'. by apply HK.
Qed.
(** ** No node is left alone *)
Lemma sentence_connected i ns x n : 1 < length (distinct (who <$> base_mentions i ns x)) → n ∈ who <$> mentions i ns x →
  n ≠ NStr (ns +:+ ":VROOT") → ∃ e, e ∈ sentence_edges i ns x ∧ (e.1.1.1 = n ∨ e.1.1.2 = n).
Proof.
  intros H1 Hn Hv. assert (Hb : n ∈ who <$> base_mentions i ns x).
  { unfold mentions in Hn. rewrite fmap_app in Hn. apply elem_of_app in Hn as [?|Hn]; [done|]. destruct (decide _); [|destruct (not_elem_of_nil _ Hn)]. apply elem_of_list_singleton in Hn. by subst. }
  destruct (decide (alone (annotated_edges ns x) n)) as [Hal|Hal].
  - exists (attached ns (final_root ns x) n). split; [|by right]. apply elem_of_app. right. apply (elem_of_list_fmap_1 (attached ns (final_root ns x))). unfold unattached. rewrite decide_True by done. apply elem_of_list_filter. split; [done|by apply elem_distinct].
  - unfold alone in Hal. apply not_Forall_Exists in Hal; [|intros ?; apply _]. apply Exists_exists in Hal as (e & He & Hx). exists e. split; [by apply elem_of_app; left|].
    destruct (decide (e.1.1.1 = n)); [by left|]. destruct (decide (e.1.1.2 = n)); [by right|]. exfalso. by apply Hx.
Qed.
Lemma built_incident g N E n e : built g N E → e ∈ E → e.1.1.1 = n ∨ e.1.1.2 = n → ∃ u v k a, edge_attrs g u v k = Some a ∧ (u = n ∨ v = n).
Proof.
  intros HB He Hn. destruct (b_edges _ _ _ HB) as (es & HP & HE). apply elem_of_list_lookup in He as (j & Hj). destruct (Forall2_lookup_r _ _ _ _ _ HE Hj) as ([[[u v] k] a] & He & (E1 & E2 & _)).
  cbn in E1, E2. subst. apply elem_of_list_lookup_2 in He. rewrite <-HP in He. apply elem_edges in He; [|apply HB]. exists (e.1.1.1), (e.1.1.2), k, a. split; [exact He|]. exact Hn.
Qed.
