(** * MmaxSpan: words of markables, chains of antecedents, what the reader needs *)
From stdpp Require Import relations.
From Verif Require Import PyBase DocGraph Relabel StrNum Query Text Rst Nltk Parsers Anaphora Conano Decour Ptb Convert Tiger Mmax.
From Verif Require Import SpecGraph DocGraphFacts History Effects RelabelFacts MergeFacts AllHist MergeAll GraphThms SpecImport ImportFacts PtbFacts TextFacts LabelFacts SpecQuery SpanFacts QueryThms SpecTiger TigerFacts TigerWalk TigerSent TigerReject BuiltFrom TigerDoc TigerSpan TigerTree SpecMmax MmaxFacts MmaxDoc.

(** ** Tokens *)
Lemma collected_get (key : string) (L : list node_info) : ∀ a : attrs, is_Some (dget key (foldl (λ a (y : node_info), dupdate a y.2) a L)) ↔ is_Some (dget key a) ∨ ∃ y : node_info, y ∈ L ∧ is_Some (dget key y.2).
Proof.
  induction L as [|x L IH]; intros a.
  - cbn [foldl]. split; [by left|]. intros [?|(y & Hy & _)]; [done|by apply elem_of_nil in Hy].
  - cbn [foldl]. rewrite IH, dget_dupdate. split.
    + intros [H|(y & Hy & H)]; [|right; exists y; split; [by right|done]]. destruct (dget key x.2) as [v|] eqn:E; [right; exists x; split; [left|by eexists]|by left].
    + intros [H|(y & [->|Hy]%elem_of_cons & H)].
      * left. destruct (dget key x.2); [by eexists|done].
      * left. destruct (dget key x.2); [by eexists|]. by destruct H.
      * right. by exists y.
Qed.
Lemma combined_is_token g L E t : built g (combined L) E → is_token g t ↔ ∃ y, y ∈ L ∧ y.1.1 = t ∧ is_Some (dget (g_ns g +:+ ":token") y.2).
Proof.
  intros HB. set (a := foldl (λ a (y : node_info), dupdate a y.2) [] (filter (λ y : node_info, y.1.1 = t) L)).
  assert (HA : is_Some (dget (g_ns g +:+ ":token") a) ↔ ∃ y, y ∈ L ∧ y.1.1 = t ∧ is_Some (dget (g_ns g +:+ ":token") y.2)).
  { unfold a. rewrite collected_get. split.
    - intros [[? ?]|(y & [Hy Hin]%elem_of_list_filter & H)]; [done|]. by exists y.
    - intros (y & Hy & Ht & H). right. exists y. split; [by apply elem_of_list_filter|done]. }
  assert (HD : t ∈ ids L → ∃ l, (t, l, a) ∈ combined L).
  { intros Ht. eexists. unfold combined. apply elem_of_list_fmap. exists t. split; [reflexivity|]. by apply elem_distinct. }
  assert (Hkey : g_ns g +:+ ":token" ≠ "layers") by (apply not_eq_sym; nc).
  rewrite <-HA. unfold is_token. split.
  - intros (b & Hb & Hk). assert (Hin : t ∈ nodes g) by (apply node_mem; by exists b). rewrite (proj1 (b_nodes _ _ _ HB)) in Hin.
    change (t ∈ ids (combined L)) in Hin. rewrite combined_ids, elem_distinct in Hin. destruct (HD Hin) as (l & Hl).
    destruct (built_node_attrs _ _ _ _ _ _ HB Hl) as (c & Hc & _ & HK). rewrite Hb in Hc. injection Hc as <-. by rewrite <-HK.
  - intros Hs. pose proof Hs as (y & Hy & Ht & _)%HA. assert (Hin : t ∈ ids L) by (rewrite <-Ht; unfold ids; by apply (elem_of_list_fmap_1 (λ y : node_info, y.1.1))).
    destruct (HD Hin) as (l & Hl). destruct (built_node_attrs _ _ _ _ _ _ HB Hl) as (c & Hc & _ & HK). exists c. split; [done|]. by rewrite HK.
Qed.
Lemma effective_sub y M : ∀ s, y ∈ effective s M → Always y ∈ M ∨ Optional y ∈ M.
Proof.
  induction M as [|m M IH]; intros s H; [by apply elem_of_nil in H|]. rewrite !elem_of_cons. destruct m as [x|x]; cbn [effective] in H.
  - apply elem_of_cons in H as [->|H]; [naive_solver|]. apply IH in H. tauto.
  - destruct (decide _); [apply IH in H; tauto|]. apply elem_of_cons in H as [->|H]; [naive_solver|]. apply IH in H. tauto.
Qed.
Lemma effective_sup y M : ∀ s, Always y ∈ M → y ∈ effective s M.
Proof.
  induction M as [|m M IH]; intros s H; [by apply elem_of_nil in H|]. apply elem_of_cons in H as [<-|H]; [left|]. destruct m as [x|x]; cbn [effective].
  - right. by apply IH.
  - destruct (decide _); [by apply IH|]. right. by apply IH.
Qed.
Lemma project_tokens base f ns order p r t : no_token_atts base order p →
  (∃ y, y ∈ effective [] (project_mentions base f ns order p r) ∧ y.1.1 = t ∧ is_Some (dget (ns +:+ ":token") y.2)) ↔ t ∈ word_ids p.
Proof.
  intros HT. split.
  - intros (y & Hy & Ht & Hs). apply effective_sub in Hy. unfold project_mentions in Hy.
    assert (Hm : (∃ b : bool, (if b then Always y else Optional y) ∈ project_mentions base f ns order p r)) by (destruct Hy as [Hy|Hy]; [by exists true|by exists false]).
    clear Hy. destruct Hm as (b & Hy). unfold project_mentions in Hy. rewrite elem_of_cons, !elem_of_app in Hy. destruct Hy as [Hy|[Hy|[Hy|[Hy|Hy]]]].
    + destruct b; [|done]. injection Hy as ->. by destruct Hs.
    + apply elem_of_list_fmap in Hy as (z & Hz & (w & -> & Hw)%elem_of_list_fmap). destruct b; [|done]. injection Hz as ->. rewrite <-Ht. exact (elem_of_list_fmap_1 (node_of "id") _ _ Hw).
    + apply elem_of_list_bind in Hy as (m & Hy & Hm). exfalso. apply elem_of_cons in Hy as [Hy|Hy].
      * destruct b; [|done]. injection Hy as ->. unfold markable_info in Hs. cbn [snd dget] in Hs. destruct (decide (ns +:+ ":token" = "label")) as [E|_]; [by apply (no_colon ns "token" "label"); [intros H; apply elem_of_list_In in H; vm_compute in H; naive_solver|]|].
        change (ns +:+ ":token") with (ns +:+ ":" +:+ "token") in Hs. rewrite dget_in_ns in Hs. unfold no_token_atts in HT. rewrite Forall_forall in HT. apply (HT m Hm). unfold has_att. destruct (dget "token" (x_attrib m.2)); [by eexists|by destruct Hs].
      * apply elem_of_list_fmap in Hy as (a & Ha & _). destruct b; [done|]. injection Ha as ->. by destruct Hs.
    + apply elem_of_list_fmap in Hy as (z & Hz & (x & -> & Hx)%elem_of_list_fmap). destruct b; [|done]. injection Hz as ->. by destruct Hs.
    + apply elem_of_list_fmap in Hy as (z & Hz & Hx). destruct b; [|done]. injection Hz as ->. apply elem_of_lookup_imap in Hx as (i & s & -> & _). exfalso. cbn [snd dget] in Hs.
      destruct (decide (ns +:+ ":token" = "tokens")) as [E|_]; [|by destruct Hs]. revert E. apply not_eq_sym. nc.
  - intros (w & -> & Hw)%elem_of_list_fmap. exists (word_info ns w). split; [|split; [done|]].
    + apply effective_sup. unfold project_mentions. right. apply elem_of_app. left. by apply elem_of_list_fmap_1, elem_of_list_fmap_1.
    + cbn [word_info snd dget]. rewrite decide_True by done. by eexists.
Qed.
(** ** Edges *)
Lemma markables_edges_elem ns l e : ∀ seen, e ∈ markables_edges ns seen l ↔
  ∃ pre m post, l = pre ++ m :: post ∧ e ∈ markable_edges ns (node_of "id" m.2 :: (m ← pre; node_of "id" m.2 :: antecedents m.2) ++ seen) m.
Proof.
  induction l as [|m l IH]; intros seen.
  - split; [intros H; by apply elem_of_nil in H|]. intros (pre & m & post & H & _). by destruct pre.
  - cbn [markables_edges]. rewrite elem_of_app, IH. split.
    + intros [H|(pre & m' & post & -> & H)]; [by exists [], m, l|]. exists (m :: pre), m', post. split; [done|].
      erewrite (markable_edges_ext ns m'); [exact H|]. intros n. cbn [mbind list_bind]. rewrite !elem_of_cons, !elem_of_app, !elem_of_cons, !elem_of_app. tauto.
    + intros (pre & m' & post & E & H). destruct pre as [|m0 pre]; cbn [app] in E; injection E as -> ->; [by left|]. right. exists pre, m', post. split; [done|].
      erewrite (markable_edges_ext ns m'); [exact H|]. intros n. cbn [mbind list_bind]. rewrite !elem_of_cons, !elem_of_app, !elem_of_cons, !elem_of_app. tauto.
Qed.
Lemma markable_nonpointing ns seen m e : e ∈ markable_edges ns seen m → (dget "edge_type" e.2 = Some (VStr "spans") ∧ e.1.1.1 = node_of "id" m.2 ∧ e.1.1.2 ∈ span_words m.2 ∧ e.1.1.2 ∈ seen) ∨
  (dget "edge_type" e.2 = Some (VStr "points_to") ∧ e.1.1.1 = node_of "id" m.2 ∧ e.1.1.2 ∈ antecedents m.2 ∧ e.1.2 = level_layers ns m.1).
Proof.
  unfold markable_edges. intros [(w & -> & [Hw Hin]%elem_of_list_filter)%elem_of_list_fmap|(a & -> & Ha)%elem_of_list_fmap]%elem_of_app; [left|right]; done.
Qed.
(** the markable [u] has the existing word [w] *)
Definition marks (base : string) (order : list string) (p : mmax) (u w : nid) : Prop :=
  w ∈ word_ids p ∧ ∃ m, m ∈ markables base order p ∧ u = node_of "id" m.2 ∧ w ∈ span_words m.2.
Lemma project_covers base ns order p u v : ids_apart base ns order p →
  (∃ e, e ∈ project_edges base ns false false order p ∧ e.1.1.1 = u ∧ e.1.1.2 = v ∧ non_pointing e) ↔ marks base order p u v.
Proof.
  intros HA. unfold project_edges, word_edges. cbn [app]. split.
  - intros (e & (pre & m & post & E & He)%markables_edges_elem & Eu & Ev & Hn). destruct (markable_nonpointing _ _ _ _ He) as [(Ht & E1 & Hw & Hs)|(Ht & _)]; [|by destruct (Hn Ht)].
    assert (Hm : m ∈ markables base order p) by (rewrite E; apply elem_of_app; right; left).
    subst. split; [|exists m; done]. assert (Hno : e.1.1.2 ∉ doc_root ns :: markable_ids base order p) by (apply HA; right; by exists m).
    rewrite elem_of_cons, elem_of_app, elem_of_cons in Hs. rewrite elem_of_cons in Hno. unfold markable_ids in Hno. rewrite E in Hno. rewrite bind_app, bind_cons in Hno.
    rewrite !elem_of_app, elem_of_cons in Hno. tauto.
  - intros (Hw & m & Hm & -> & Hs). apply elem_of_list_split in Hm as (pre & post & E).
    exists (node_of "id" m.2, v, level_layers ns m.1, [("edge_type", VStr "spans"); ("label", VStr (ns +:+ ":" +:+ m.1))]).
    split; [|split; [done|split; [done|by unfold non_pointing]]]. apply markables_edges_elem. exists pre, m, post. split; [done|]. unfold markable_edges. apply elem_of_app. left.
    apply elem_of_list_fmap. exists v. split; [done|]. apply elem_of_list_filter. split; [|done]. rewrite elem_of_cons, elem_of_app, elem_of_cons. tauto.
Qed.
Lemma project_typed base ns precedence order p : Forall (λ e : edge_info, is_Some (dget "edge_type" e.2)) (project_edges base ns precedence false order p).
Proof.
  apply Forall_forall. unfold project_edges. intros e [He|He]%elem_of_app.
  - unfold word_edges in He. destruct precedence; [|by apply elem_of_nil in He]. apply elem_of_list_fmap in He as (x & -> & _). by eexists.
  - apply markables_edges_elem in He as (pre & m & post & _ & He). destruct (markable_nonpointing _ _ _ _ He) as [(Ht & _)|(Ht & _)]; rewrite Ht; by eexists.
Qed.
Lemma marks_apart base ns order p u w : ids_apart base ns order p → marks base order p u w → u ∉ word_ids p ∧ u ≠ w.
Proof.
  intros HA (Hw & m & Hm & -> & Hs). assert (Hin : node_of "id" m.2 ∈ markable_ids base order p) by (unfold markable_ids; apply elem_of_list_bind; exists m; split; [left|done]).
  split.
  - intros H. apply (HA (node_of "id" m.2)); [by left|by right].
  - intros <-. apply (HA (node_of "id" m.2)); [by left|by right].
Qed.
Lemma project_span g base f ns order p r n : built g (project_nodes base f ns order p r) (project_edges base ns false false order p) → g_ns g = ns →
  no_token_atts base order p → ids_apart base ns order p → n ∈ nodes g →
  ∃ l, (∀ k, length (nodes g) < k → get_span k g n = Ok l) ∧ sorted nat_cmp l ∧
    ∀ t, t ∈ l ↔ t ∈ word_ids p ∧ (t = n ∨ marks base order p n t).
Proof.
  intros HB Hns HT HA Hn. assert (HC : ∀ u v, covers g u v ↔ marks base order p u v).
  { intros u v. rewrite (built_covers _ _ _ u v HB), (project_covers base ns order p u v HA). split; [tauto|]. intros H. split; [|done]. by apply (marks_apart base ns order p u v). }
  assert (C : Consistent g) by apply HB.
  assert (Hac : acyclic (covers g)).
  { intros x Hx. assert (Hx' : ∃ y, covers g x y) by (inversion Hx; by eexists). destruct Hx' as (y & H1). apply HC in H1. apply (marks_apart base ns) in H1 as [H1 _]; [|done]. apply H1.
    clear H1. assert (HE : ∀ u v, tc (covers g) u v → v ∈ word_ids p) by (induction 1 as [u v H|u v w _ _ IH]; [apply HC in H; apply H|done]). by apply (HE x). }
  destruct (get_span_total g n C (built_typed _ _ _ HB (project_typed base ns false order p)) Hac Hn) as [l Hl].
  exists l. split; [done|]. specialize (Hl (S (length (nodes g))) ltac:(lia)). split; [by eapply get_span_sorted|].
  intros t. rewrite (get_span_elem g C _ n l Hl t). unfold project_nodes in HB. rewrite (combined_is_token g _ _ t HB), Hns, (project_tokens base f ns order p r t HT).
  assert (HBl : below g n t ↔ t = n ∨ marks base order p n t).
  { clear -HC HA. unfold below. split.
    - intros H. inversion H as [|? y ? H1 H2]; subst; [by left|]. right. apply HC in H1. inversion H2 as [|? z ? H3 H4]; subst; [done|]. exfalso. apply HC in H3.
      apply (marks_apart base ns) in H3 as [H3 _]; [|done]. apply H3. apply H1.
    - intros [->|H]; [done|]. apply rtc_once. by apply HC. }
  by rewrite HBl.
Qed.
(** ** Chains *)
Lemma built_points g N E layer u v : built g N E →
  points g layer u v ↔ ∃ e, e ∈ E ∧ e.1.1.1 = u ∧ e.1.1.2 = v ∧ dget "edge_type" e.2 = Some (VStr "points_to") ∧ match layer with None => True | Some l => l ∈ e.1.2 end.
Proof.
  intros HB. unfold points. destruct (b_edges _ _ _ HB) as (es & HP & HE). split; intros H.
  - destruct H as (k & a & Ha & Ht & Hl). assert (Hin : (u, v, k, a) ∈ edges g) by (by apply elem_edges; [apply HB|]). rewrite HP in Hin.
    apply elem_of_list_lookup in Hin as (j & Hj). destruct (Forall2_lookup_l _ _ _ _ _ HE Hj) as (e & He & (E1 & E2 & HL & HK)). exists e. split; [by eapply elem_of_list_lookup_2|].
    split; [done|]. split; [done|]. split; [by rewrite <-HK|]. destruct layer; [|done]. by apply HL.
  - destruct H as (e & He & Eu & Ev & Ht & Hl). apply elem_of_list_lookup in He as (j & Hj). destruct (Forall2_lookup_r _ _ _ _ _ HE Hj) as ([[[u' v'] k] a] & He & (E1 & E2 & HL & HK)). cbn in E1, E2, HL, HK. subst.
    apply elem_of_list_lookup_2 in He. rewrite <-HP in He. apply elem_edges in He; [|apply HB]. exists k, a. split; [done|]. split; [by rewrite HK|]. destruct layer; [|done]. by apply HL.
Qed.
Lemma project_points g base f ns order p r precedence level u v : built g (project_nodes base f ns order p r) (project_edges base ns precedence false order p) →
  level ≠ Some "markable" →
  points g ((λ l, ns +:+ ":" +:+ l) <$> level) u v ↔ refers base order p level u v.
Proof.
  intros HB Hlev. rewrite (built_points _ _ _ _ u v HB). unfold project_edges. split.
  - intros (e & [He|He]%elem_of_app & Eu & Ev & Ht & Hl).
    + unfold word_edges in He. destruct precedence; [|by apply elem_of_nil in He]. by apply elem_of_list_fmap in He as (x & -> & _).
    + apply markables_edges_elem in He as (pre & m & post & E & He). destruct (markable_nonpointing _ _ _ _ He) as [(Ht' & _)|(_ & E1 & Ha & El)]; [by rewrite Ht in Ht'|].
      exists m. split; [rewrite E; apply elem_of_app; right; left|]. subst. split; [|done]. destruct level as [l|]; [|done]. cbn [fmap option_fmap option_map] in Hl. rewrite El in Hl. unfold level_layers in Hl.
      rewrite !elem_of_cons, elem_of_nil in Hl. destruct Hl as [Hl|[Hl|[Hl|[]]]].
      * exfalso. apply (f_equal (λ s, length (chs s))) in Hl. rewrite !chs_app, !app_length in Hl. cbn in Hl. lia.
      * apply append_inj_l in Hl. by injection Hl as ->.
      * by apply append_inj_l, append_inj_l in Hl.
  - intros (m & Hm & Hl & -> & Ha). apply elem_of_list_split in Hm as (pre & post & E).
    exists (node_of "id" m.2, v, level_layers ns m.1, [("edge_type", VStr "points_to"); ("label", VStr (ns +:+ ":antecedent"))]).
    split; [|split; [done|split; [done|split; [done|]]]].
    + apply elem_of_app. right. apply markables_edges_elem. exists pre, m, post. split; [done|]. unfold markable_edges. apply elem_of_app. right. by apply (elem_of_list_fmap_1 (λ a, (node_of "id" m.2, a, level_layers ns m.1, [("edge_type", VStr "points_to"); ("label", VStr (ns +:+ ":antecedent"))]))).
    + destruct level as [l|]; [|done]. cbn [fmap option_fmap option_map]. rewrite Hl. unfold level_layers. right. right. left.
Qed.
Lemma project_chains g base f ns order p r precedence level : built g (project_nodes base f ns order p r) (project_edges base ns precedence false order p) →
  level ≠ Some "markable" → (∀ l, level = Some l → plain_str (ns +:+ ":" +:+ l)) → (∀ n, ¬ tc (refers base order p level) n n) →
  ∃ bound, ∀ fuel res, bound < fuel → get_pointing_chains fuel g ((λ l, ns +:+ ":" +:+ l) <$> level) res →
    ∃ cs, res = Ok cs ∧ NoDup cs ∧ ∀ c, c ∈ cs ↔ maximal_chain (refers base order p level) c.
Proof.
  intros HB Hm Hl Hac. assert (HP : ∀ u v, points g ((λ l, ns +:+ ":" +:+ l) <$> level) u v ↔ refers base order p level u v) by (intros u v; exact (project_points g base f ns order p r precedence level u v HB Hm)).
  destruct (b_inv _ _ _ HB) as [C L].
  destruct (chains_thm g ((λ l, ns +:+ ":" +:+ l) <$> level) C L (built_typed _ _ _ HB (project_typed base ns precedence order p))) as (bound & H).
  { intros l. destruct level as [l'|]; [|done]. cbn. intros [= <-]. by apply Hl. }
  { eapply acyclic_ext; [exact HP|exact Hac]. }
  exists bound. intros fuel res Hf Hr. destruct (H fuel res Hf Hr) as (cs & E & HD & HC & _). exists cs. split; [done|]. split; [done|]. intros c. rewrite HC.
  unfold maximal_chain. assert (HL : ∀ c, linked (points g ((λ l, ns +:+ ":" +:+ l) <$> level)) c ↔ linked (refers base order p level) c).
  { intros c0. induction c0 as [|x c0 IH]; [done|]. destruct c0 as [|y c0]; [done|]. cbn [linked] in *. by rewrite HP, IH. }
  rewrite HL. split; intros (H1 & H2 & H3 & H4); (split; [done|]; split; [done|]; split); intros x Hx y; specialize (H3 x); specialize (H4 x); rewrite ?HP; rewrite <-?HP; naive_solver.
Qed.
Lemma markable_in_graph g base f ns order p r E m : built g (project_nodes base f ns order p r) E → m ∈ markables base order p → node_of "id" m.2 ∈ nodes g.
Proof.
  intros HB Hm. rewrite (proj1 (b_nodes _ _ _ HB)). apply (elem_nodes_of (project_mentions base f ns order p r)). unfold project_mentions. rewrite fmap_cons, !fmap_app. right. rewrite !elem_of_app. right. left.
  apply elem_of_list_fmap. exists (Always (markable_info ns m)). split; [done|]. apply elem_of_list_bind. exists m. split; [left|done].
Qed.
