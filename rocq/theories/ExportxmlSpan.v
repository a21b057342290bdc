(** * ExportxmlSpan: the tokens of ExportXML elements *)
From stdpp Require Import relations.
From Verif Require Import PyBase DocGraph Relabel StrNum Query Text Rst Nltk Parsers Anaphora Conano Decour Ptb Convert Tiger Urml Exportxml.
From Verif Require Import SpecGraph DocGraphFacts History Effects RelabelFacts GraphThms SpecImport ImportFacts PtbFacts TextFacts OffsetFacts GeoffFacts DecourFacts AnaphoraFacts ConllReadText BuiltFrom ViewFacts SpecAnaphora SpecQuery SpanFacts TigerSpan.
From Verif Require UrmlRead ConanoFacts.
From Verif Require Import SpecExportxml ExportxmlFacts ExportxmlStep ExportxmlElem ExportxmlDoc.

(** ** Places *)
Lemma inside_cons anc x : inside_of anc x = concat ((λ k, (x :: anc, k) :: inside_of (x :: anc) k) <$> x_kids x).
Proof. by destruct x. Qed.
Lemma elem_inside p anc x : p ∈ inside_of anc x ↔ ∃ k, k ∈ x_kids x ∧ (p = (x :: anc, k) ∨ p ∈ inside_of (x :: anc) k).
Proof.
  rewrite inside_cons, elem_concat. split.
  - intros (l & Hp & Hl). apply elem_of_list_fmap in Hl as (k & -> & Hk). exists k. split; [done|]. by apply elem_of_cons in Hp.
  - intros (k & Hk & Hp). eexists. split; [|apply elem_of_list_fmap; by exists k]. by apply elem_of_cons.
Qed.
Lemma inside_trans x : ∀ anc p q, p ∈ inside_of anc x → q ∈ inside_of p.1 p.2 → q ∈ inside_of anc x.
Proof.
  induction x as [t a tx kids tl IH] using ConanoFacts.xml_ind'. intros anc p q Hp Hq. apply elem_inside in Hp as (k & Hk & Hp). apply elem_inside. exists k. split; [done|]. right.
  destruct Hp as [->|Hp]; [exact Hq|]. rewrite Forall_forall in IH. by eapply (IH k Hk).
Qed.
Lemma read_at_cons anc x : read_at anc x = (anc, x) :: if decide (x_tag x = "word") then concat (read_at (x :: anc) <$> x_kids x) else [].
Proof. by destruct x. Qed.
Lemma read_at_sub x : ∀ anc p, p ∈ read_at anc x → p = (anc, x) ∨ p ∈ inside_of anc x.
Proof.
  induction x as [t a tx kids tl IH] using ConanoFacts.xml_ind'. intros anc p Hp. rewrite read_at_cons in Hp. apply elem_of_cons in Hp as [Hp|Hp]; [by left|]. right.
  destruct (decide _); [|by apply elem_of_nil in Hp]. apply elem_concat in Hp as (l & Hp & Hl). apply elem_of_list_fmap in Hl as (k & -> & Hk). apply elem_inside. exists k. split; [done|].
  rewrite Forall_forall in IH. by apply (IH k Hk).
Qed.
Lemma read_inside x p : p ∈ read_of x ↔ p ∈ inside ([], x).
Proof.
  unfold read_of. rewrite elem_of_list_bind. split.
  - intros (q & Hp & Hq). destruct q as [anc y]. apply read_at_sub in Hp as [->|Hp]; [done|]. exact (inside_trans x [] (anc, y) p Hq Hp).
  - intros Hp. exists p. split; [|done]. destruct p as [anc y]. rewrite read_at_cons. left.
Qed.
Lemma elem_tagged t l p : p ∈ tagged t l ↔ p ∈ l ∧ x_tag p.2 = t.
Proof. unfold tagged. rewrite elem_of_list_filter. tauto. Qed.
Lemma elem_words p v : v ∈ words_inside p ↔ ∃ q, q ∈ inside p ∧ x_tag q.2 = "word" ∧ v = node_at q.
Proof. unfold words_inside. rewrite elem_of_list_fmap. split; intros (q & Hq); exists q; rewrite elem_tagged in *; tauto. Qed.
Lemma elem_tokens x v : v ∈ tokens_of (read_of x) ↔ ∃ q, q ∈ inside ([], x) ∧ x_tag q.2 = "word" ∧ v = node_at q.
Proof. unfold tokens_of. rewrite elem_of_list_fmap. split; intros (q & Hq); exists q; rewrite elem_tagged, read_inside in *; tauto. Qed.

Section Span.
  Context (ns : string) (o : xopts) (x : xml).
  Notation root := (root_of ns x).
  Notation E0 := (links ns o root (read_of x)).
  (** ** Edges of an element *)
  Definition leads (q : place) (u v : nid) : Prop :=
    (x_tag q.2 ∈ ["edu"; "topic"] ∧ u = node_at q ∧ v ∈ words_inside q) ∨
    (x_tag q.2 = "edu-range" ∧ u = node_at q ∧ v ∈ node_at <$> tagged "edu" (inside q)) ∨
    (x_tag q.2 = "ne" ∧ u = node_at q ∧ v ∈ node_at <$> children q) ∨
    ((x_tag q.2 = "node" ∨ x_tag q.2 = "word") ∧ u = to_node (above q) ∧ v = node_at q) ∨
    (x_tag q.2 = "sentence" ∧ u = root ∧ v = node_at q) ∨
    (x_tag q.2 = "splitRelation" ∧ u = antecedent_span q.2).
  Lemma edge_leads q e : e ∈ about_edges ns o root q → is_Some (dget "edge_type" e.2) ∧ (dget "edge_type" e.2 ≠ Some (VStr "points_to") → leads q e.1.1.1 e.1.1.2).
  Proof.
    unfold about_edges, leads, above. cbv zeta. intros He.
    destruct (decide (x_tag q.2 = "connective")); [by apply elem_of_nil in He|].
    destruct (decide (x_tag q.2 = "discRel")). { destruct (no_relations o); [by apply elem_of_nil in He|]. apply elem_of_list_singleton in He as ->. split; [by eexists|done]. }
    destruct (decide (x_tag q.2 = "edu")) as [->|]. { apply elem_of_list_fmap in He as (w & -> & Hw). split; [by eexists|]. intros _. left. split; [left|done]. }
    destruct (decide (x_tag q.2 = "edu-range")) as [->|]. { apply elem_of_list_fmap in He as (w & -> & Hw). split; [by eexists|]. intros _. right. left. done. }
    destruct (decide (x_tag q.2 = "ne")) as [->|]. { apply elem_of_list_fmap in He as (w & -> & Hw). split; [by eexists|]. intros _. right. right. left. done. }
    destruct (decide (x_tag q.2 = "node")) as [Ht|]. { apply elem_of_list_singleton in He as ->. split; [by eexists|]. intros _. right. right. right. left. split; [by left|done]. }
    destruct (decide (x_tag q.2 = "relation")). { destruct (no_relations o); [by apply elem_of_nil in He|]. destruct (att "target" q.2); [|by apply elem_of_nil in He]. apply elem_of_list_singleton in He as ->. split; [by eexists|done]. }
    destruct (decide (x_tag q.2 = "secEdge")). { destruct (no_secedges o); [by apply elem_of_nil in He|]. apply elem_of_list_singleton in He as ->. split; [by eexists|done]. }
    destruct (decide (x_tag q.2 = "sentence")) as [Ht|]. { apply elem_of_list_singleton in He as ->. split; [by eexists|]. intros _. right. right. right. right. left. done. }
    destruct (decide (x_tag q.2 = "splitRelation")) as [Ht|].
    { destruct (no_relations o || no_splitrelations o); [by apply elem_of_nil in He|]. apply elem_of_cons in He as [->|He]; [split; [by eexists|done]|]. apply elem_of_list_fmap in He as (c & -> & _). split; [by eexists|]. intros _. right. right. right. right. right. done. }
    destruct (decide (x_tag q.2 = "topic")) as [->|]. { apply elem_of_list_fmap in He as (w & -> & Hw). split; [by eexists|]. intros _. left. split; [right; left|done]. }
    destruct (decide (x_tag q.2 = "word")) as [Ht|]; [|by apply elem_of_nil in He]. apply elem_of_list_singleton in He as ->. split; [by eexists|]. intros _. right. right. right. left. split; [by right|done].
  Qed.
  Lemma over_leads u v : over ns o x u v → ∃ q, q ∈ inside ([], x) ∧ leads q u v.
  Proof.
    intros (e & He & <- & <- & Ht). unfold links in He. apply elem_of_list_bind in He as (q & He & Hq). apply read_inside in Hq. exists q. split; [done|]. by apply edge_leads.
  Qed.
  Lemma over_by q u v l b : q ∈ inside ([], x) → (u, v, l, b) ∈ about_edges ns o root q → dget "edge_type" b ≠ Some (VStr "points_to") → over ns o x u v.
  Proof. intros Hq He Ht. exists (u, v, l, b). split; [|done]. unfold links. apply elem_of_list_bind. exists q. split; [done|by apply read_inside]. Qed.
  Lemma leads_over q u v : q ∈ inside ([], x) → x_tag q.2 ≠ "splitRelation" → leads q u v → over ns o x u v.
  Proof.
    intros Hq Hs. unfold leads, above. intros [(Ht & -> & Hv)|[(Ht & -> & Hv)|[(Ht & -> & Hv)|[(Ht & -> & ->)|[(Ht & -> & ->)|(Ht & _)]]]]]; [| | | | |done].
    - apply elem_of_cons in Ht as [Ht|Ht]; [|apply elem_of_list_singleton in Ht]; (eapply (over_by q); [done|unfold about_edges; cbv zeta; rewrite Ht; repeat (rewrite decide_False by done); rewrite decide_True by done; apply elem_of_list_fmap; by exists v|done]).
    - eapply (over_by q); [done|unfold about_edges; cbv zeta; rewrite Ht; repeat (rewrite decide_False by done); rewrite decide_True by done; apply elem_of_list_fmap; by exists v|done].
    - eapply (over_by q); [done|unfold about_edges; cbv zeta; rewrite Ht; repeat (rewrite decide_False by done); rewrite decide_True by done; apply elem_of_list_fmap; by exists v|done].
    - destruct Ht as [Ht|Ht]; rewrite Ht.
      + rewrite decide_True by done. eapply (over_by q); [done|unfold about_edges; cbv zeta; rewrite Ht; repeat (rewrite decide_False by done); rewrite decide_True by done; apply elem_of_list_singleton; reflexivity|done].
      + rewrite decide_False by done. eapply (over_by q); [done|unfold about_edges; cbv zeta; rewrite Ht; repeat (rewrite decide_False by done); rewrite decide_True by done; apply elem_of_list_singleton; reflexivity|done].
    - eapply (over_by q); [done|unfold about_edges; cbv zeta; rewrite Ht; repeat (rewrite decide_False by done); rewrite decide_True by done; apply elem_of_list_singleton; reflexivity|done].
  Qed.
  (** ** The graph *)
  Lemma says_built g : says_exactly ns o false root (read_of x) g → GInv g → ∃ N, built g N E0.
  Proof.
    intros [H1 H2 H3] HI. set (N := (λ n, (n, ns :: layers_about (facts ns o (read_of x)) n, attrs_about (facts ns o (read_of x)) n) : node_info) <$> nodes g).
    exists N. split; [done| |by rewrite app_nil_r in H3]. split; [unfold N; rewrite <-list_fmap_compose; symmetry; apply list_fmap_id|]. unfold N. apply Forall_fmap, Forall_forall. intros n Hn. apply node_mem in Hn as [a Ha]. exists a. split; [exact Ha|]. cbn. by apply H2.
  Qed.
  Lemma attrs_some F n k : is_Some (dget k (attrs_about F n)) ↔ ∃ f : node_info, f ∈ F ∧ f.1.1 = n ∧ is_Some (dget k f.2).
  Proof.
    unfold attrs_about. assert (G : ∀ l : list node_info, is_Some (dget k (l ≫= (λ f, f.2))) ↔ ∃ f : node_info, f ∈ l ∧ is_Some (dget k f.2)).
    { induction l as [|f l IH]; [split; [intros [? ?]; done|intros (f & H & _); by apply elem_of_nil in H]|]. rewrite bind_cons, dget_app. destruct (dget k f.2) as [v|] eqn:E.
      - split; [intros _; exists f; split; [left|by rewrite E; eexists]|by eexists].
      - rewrite IH. split; [intros (f' & Hf & ?); exists f'; split; [by right|done]|]. intros (f' & [->|Hf]%elem_of_cons & H); [rewrite E in H; by destruct H|by exists f']. }
    rewrite G. split.
    - intros (f & Hf & H). rewrite elem_of_reverse in Hf. apply elem_of_list_filter in Hf as [? ?]. by exists f.
    - intros (f & Hf & Hn & H). exists f. split; [|done]. rewrite elem_of_reverse. by apply elem_of_list_filter.
  Qed.
  Lemma token_fact (HT : no_token_atts x) q f : q ∈ inside ([], x) → f ∈ about_nodes ns o q → is_Some (dget (ns +:+ ":" +:+ "token") f.2) ↔ x_tag q.2 = "word".
  Proof.
    intros Hq Hf. assert (HX : dget (ns +:+ ":" +:+ "token") (features ns q.2) = None) by (rewrite features_get by done; by rewrite (HT q Hq)).
    assert (HK : ∀ k, ":"%char ∉ chs k → ns +:+ ":" +:+ "token" ≠ k).
    { intros k Hk E. apply Hk. rewrite <-E, !chs_app. apply elem_of_app. right. cbn. left. }
    assert (K1 := HK "connective" ltac:(apply (bool_decide_unpack _); reflexivity)). assert (K2 := HK "tokens" ltac:(apply (bool_decide_unpack _); reflexivity)). assert (K3 := HK "label" ltac:(apply (bool_decide_unpack _); reflexivity)).
    assert (K4 := HK "relation" ltac:(apply (bool_decide_unpack _); reflexivity)). assert (K5 := HK "description" ltac:(apply (bool_decide_unpack _); reflexivity)).
    assert (N0 : ∀ P, is_Some (@None pyval) ↔ P → False → True) by done.
    revert Hf. unfold about_nodes. cbv zeta.
    destruct (decide (x_tag q.2 = "connective")) as [->|]. { intros ->%elem_of_list_singleton. cbn [fst snd dget]. rewrite decide_False by done. split; [intros [? ?]; done|done]. }
    destruct (decide (x_tag q.2 = "discRel")) as [->|]. { destruct (no_relations o); [by intros ?%elem_of_nil|]. intros ->%elem_of_list_singleton. cbn [fst snd]. rewrite HX. split; [intros [? ?]; done|done]. }
    destruct (decide (x_tag q.2 = "edu")) as [->|]. { intros ->%elem_of_list_singleton. cbn [fst snd dget]. rewrite decide_False by done. rewrite HX. split; [intros [? ?]; done|done]. }
    destruct (decide (x_tag q.2 = "edu-range")) as [->|]. { intros ->%elem_of_list_singleton. cbn [fst snd dget]. rewrite HX. split; [intros [? ?]; done|done]. }
    destruct (decide (x_tag q.2 = "ne")) as [->|]. { intros ->%elem_of_list_singleton. cbn [fst snd dget]. rewrite decide_False by done. rewrite HX. split; [intros [? ?]; done|done]. }
    destruct (decide (x_tag q.2 = "node")) as [->|]. { intros ->%elem_of_list_singleton. cbn [fst snd dget]. rewrite decide_False by done. rewrite HX. split; [intros [? ?]; done|done]. }
    destruct (decide (x_tag q.2 = "relation")) as [->|]. { destruct (no_relations o); [by intros ?%elem_of_nil|]. intros [->|Hf]%elem_of_cons.
      - cbn [fst snd dget]. rewrite decide_False by done. split; [intros [? ?]; done|done].
      - destruct (att "target" q.2); [|by apply elem_of_nil in Hf]. apply elem_of_cons in Hf as [->|Hf]; [|apply elem_of_list_singleton in Hf as ->]; (split; [intros [? ?]; done|done]). }
    destruct (decide (x_tag q.2 = "secEdge")); [by intros ?%elem_of_nil|].
    destruct (decide (x_tag q.2 = "sentence")) as [->|]. { intros ->%elem_of_list_singleton. cbn [fst snd dget]. rewrite decide_False by done. split; [intros [? ?]; done|done]. }
    destruct (decide (x_tag q.2 = "splitRelation")) as [->|]. { destruct (no_relations o || no_splitrelations o); [by intros ?%elem_of_nil|]. intros [->|Hf]%elem_of_cons; [|apply elem_of_list_singleton in Hf as ->]; (split; [intros [? ?]; done|done]). }
    destruct (decide (x_tag q.2 = "topic")) as [->|]. { intros ->%elem_of_list_singleton. cbn [fst snd dget]. rewrite !decide_False by done. split; [intros [? ?]; done|done]. }
    destruct (decide (x_tag q.2 = "word")) as [->|]; [|by intros ?%elem_of_nil]. intros ->%elem_of_list_singleton. cbn [fst snd dget]. rewrite decide_True by done. split; [done|by eexists].
  Qed.
  Lemma word_fact q : x_tag q.2 = "word" → (node_at q, [ns +:+ ":" +:+ "token"], (ns +:+ ":" +:+ "token", VStr (get "form" q.2)) :: ("label", VStr (get "form" q.2)) :: features ns q.2) ∈ about_nodes ns o q.
  Proof. intros Ht. unfold about_nodes. cbv zeta. rewrite Ht. repeat (rewrite decide_False by done). rewrite decide_True by done. left. Qed.
  Context (g : graph) (HS : says_exactly ns o false root (read_of x) g) (HI : GInv g) (Hns : g_ns g = ns) (HT : no_token_atts x).
  Lemma x_covers u v : covers g u v ↔ proper_over ns o x u v.
  Proof using HS HI. destruct (says_built g HS HI) as [N HB]. exact (built_covers g N E0 u v HB). Qed.
  Lemma x_typed : typed g.
  Proof using HS HI.
    destruct (says_built g HS HI) as [N HB]. eapply built_typed; [exact HB|]. apply Forall_forall. intros e He. unfold links in He. apply elem_of_list_bind in He as (q & He & _). exact (proj1 (edge_leads q e He)).
  Qed.
  Lemma x_token t : is_token g t ↔ t ∈ tokens_of (read_of x).
  Proof using HS Hns HT.
    unfold is_token. rewrite Hns, elem_tokens. change (ns +:+ ":token") with (ns +:+ ":" +:+ "token"). assert (Hk : ns +:+ ":" +:+ "token" ≠ "layers") by apply key_layers. split.
    - intros (a & Ha & Hs). destruct (se_about _ _ _ _ _ _ HS t a Ha) as [_ HA]. rewrite HA in Hs by done. apply attrs_some in Hs as (f & Hf & <- & Hs). unfold facts in Hf. apply elem_of_list_bind in Hf as (q & Hf & Hq%read_inside).
      exists q. split; [done|]. assert (Ht : x_tag q.2 = "word") by (by apply (token_fact HT q f)). split; [done|]. revert Hf. unfold about_nodes. cbv zeta. rewrite Ht. repeat (rewrite decide_False by done). rewrite decide_True by done. by intros ->%elem_of_list_singleton.
    - intros (q & Hq & Ht & ->). pose proof (word_fact q Ht) as Hf. set (f := (node_at q, _, _)) in Hf. assert (HF : f ∈ facts ns o (read_of x)) by (unfold facts; apply elem_of_list_bind; exists q; split; [done|by apply read_inside]).
      assert (Hn : node_at q ∈ nodes g). { apply (se_nodes _ _ _ _ _ _ HS). right. apply elem_of_app. left. apply (elem_of_list_fmap_1 (λ f : node_info, f.1.1)) in HF. exact HF. }
      apply node_mem in Hn as [a Ha]. exists a. split; [done|]. destruct (se_about _ _ _ _ _ _ HS _ a Ha) as [_ HA]. rewrite HA by done. apply attrs_some. exists f. split; [done|]. split; [done|]. by apply (token_fact HT q f).
  Qed.
  Lemma x_span n : acyclic (proper_over ns o x) → n ∈ nodes g → ∃ l, (∀ k, length (nodes g) < k → get_span k g n = Ok l) ∧ sorted nat_cmp l ∧ ∀ t, t ∈ l ↔ t ∈ tokens_of (read_of x) ∧ rtc (over ns o x) n t.
  Proof using HS HI Hns HT.
    intros HA Hn. assert (C : Consistent g) by apply HI. assert (HA' : acyclic (covers g)) by (eapply acyclic_ext; [apply x_covers|done]).
    destruct (get_span_total g n C x_typed HA' Hn) as [l Hl]. exists l. split; [done|]. specialize (Hl (S (length (nodes g))) ltac:(lia)). split; [by eapply get_span_sorted|].
    intros t. rewrite (get_span_elem g C _ n l Hl t), x_token. assert (HB : below g n t ↔ rtc (over ns o x) n t).
    { unfold below. rewrite (rtc_ext _ _ n t x_covers). exact (rtc_proper (over ns o x) n t). }
    by rewrite HB.
  Qed.
End Span.

(** ** Tidy documents *)
Section Tidy.
  Context (ns : string) (o : xopts) (x : xml) (HY : tidy ns x).
  Notation R := (over ns o x).
  Lemma own_same p q : p ∈ inside ([], x) → q ∈ inside ([], x) → own_node p → own_node q → node_at p = node_at q → p = q.
  Proof using HY.
    intros Hp Hq Op Oq E. pose proof (td_ids _ _ HY) as HD. apply NoDup_cons in HD as [_ HD].
    assert (Hp' : p ∈ filter (λ p : place, x_tag p.2 ∈ ["edu"; "edu-range"; "ne"; "node"; "sentence"; "topic"; "word"]) (inside ([], x))) by (by apply elem_of_list_filter).
    assert (Hq' : q ∈ filter (λ p : place, x_tag p.2 ∈ ["edu"; "edu-range"; "ne"; "node"; "sentence"; "topic"; "word"]) (inside ([], x))) by (by apply elem_of_list_filter).
    apply elem_of_list_lookup in Hp' as [i Hi]. apply elem_of_list_lookup in Hq' as [j Hj]. assert (i = j) as ->. { eapply NoDup_lookup; [exact HD| |]; rewrite list_lookup_fmap; [rewrite Hi|rewrite Hj]; cbn; by rewrite ?E. } congruence.
  Qed.
  Lemma own_root p : p ∈ inside ([], x) → own_node p → node_at p ≠ root_of ns x.
  Proof using HY.
    intros Hp Op E. pose proof (td_ids _ _ HY) as HD. apply NoDup_cons in HD as [HD _]. apply HD. rewrite <-E. apply elem_of_list_fmap_1. by apply elem_of_list_filter.
  Qed.
  Lemma own_tag p t : x_tag p.2 = t → t ∈ ["edu"; "edu-range"; "ne"; "node"; "sentence"; "topic"; "word"] → own_node p.
  Proof. by intros <-. Qed.
  Ltac own := eapply own_tag; [eassumption|apply (bool_decide_unpack _); reflexivity].
  (** the edges from a node of its own *)
  Lemma over_own p v : p ∈ inside ([], x) → own_node p → R (node_at p) v →
    (x_tag p.2 ∈ ["edu"; "topic"] ∧ v ∈ words_inside p) ∨ (x_tag p.2 = "edu-range" ∧ v ∈ node_at <$> tagged "edu" (inside p)) ∨ (x_tag p.2 = "ne" ∧ v ∈ node_at <$> children p) ∨
    (phrase p ∧ dominated x (node_at p) v).
  Proof using HY.
    intros Hp Op HR. apply over_leads in HR as (q & Hq & HR). unfold leads in HR.
    assert (HQ : ∀ t, x_tag q.2 = t → t ∈ ["edu"; "edu-range"; "ne"; "node"; "sentence"; "topic"; "word"] → node_at p = node_at q → p = q). { intros t Ht Hin E. by apply own_same; [..|eapply own_tag|]. }
    destruct HR as [(Ht & E & Hv)|[(Ht & E & Hv)|[(Ht & E & Hv)|[(Ht & E & ->)|[(Ht & E & _)|(Ht & E)]]]]].
    - left. assert (p = q) as ->; [|done]. apply elem_of_cons in Ht as [Ht|Ht]; [|apply elem_of_list_singleton in Ht]; (eapply HQ; [exact Ht|apply (bool_decide_unpack _); reflexivity|done]).
    - right. left. assert (p = q) as ->; [|done]. eapply HQ; [exact Ht|apply (bool_decide_unpack _); reflexivity|done].
    - right. right. left. assert (p = q) as ->; [|done]. eapply HQ; [exact Ht|apply (bool_decide_unpack _); reflexivity|done].
    - right. right. right. split.
      + destruct (td_above _ _ HY q Hq Ht) as (r & Hr & Pr & Er). assert (p = r) as ->; [|done]. apply own_same; [done..| |congruence]. destruct Pr as [Pr|Pr]; own.
      + exists q. done.
    - exfalso. by apply (own_root p Hp Op).
    - exfalso. by apply (td_antecedents _ _ HY q p Hq Hp Ht Op).
  Qed.
  Lemma over_word p v : p ∈ inside ([], x) → x_tag p.2 = "word" → ¬ R (node_at p) v.
  Proof using HY.
    intros Hp Ht HR. apply over_own in HR; [|done|own]. rewrite Ht in HR. unfold phrase in HR. rewrite Ht in HR. destruct HR as [[H _]|[[H _]|[[H _]|[[H|H] _]]]]; try done. revert H. apply (bool_decide_unpack _). reflexivity.
  Qed.
  Lemma rtc_word p t : p ∈ inside ([], x) → x_tag p.2 = "word" → rtc R (node_at p) t → t = node_at p.
  Proof using HY. intros Hp Ht HR. apply rtc_inv in HR as [E|(y & H1 & H2)]; [done|]. by apply (over_word p y) in Hp. Qed.
  Lemma reach_words p t : p ∈ inside ([], x) → x_tag p.2 ∈ ["edu"; "topic"] → (t ∈ tokens_of (read_of x) ∧ rtc R (node_at p) t) ↔ t ∈ words_inside p.
  Proof using HY.
    intros Hp Ht. assert (Op : own_node p). { unfold own_node. revert Ht. rewrite !elem_of_cons, elem_of_nil. tauto. }
    assert (Hw : x_tag p.2 ≠ "word"). { intros E. rewrite E in Ht. revert Ht. apply (bool_decide_unpack _). reflexivity. }
    split.
    - intros (Hin & HR). apply elem_tokens in Hin as (w & Hw1 & Hw2 & ->). apply rtc_inv in HR as [E0|(y & H1 & H2)].
      + exfalso. apply Hw. assert (p = w) as ->; [|done]. apply own_same; [done|done|done|own|done].
      + apply over_own in H1; [|done..]. destruct H1 as [[_ Hy]|[[E _]|[[E _]|[E _]]]].
        * apply elem_words in Hy as (q & Hq1 & Hq2 & ->). assert (Hq : q ∈ inside ([], x)) by (destruct p; eapply inside_trans; [exact Hp|exact Hq1]). apply rtc_word in H2; [|done..]. rewrite H2. apply elem_words. by exists q.
        * exfalso. rewrite E in Ht. revert Ht. apply (bool_decide_unpack _). reflexivity.
        * exfalso. rewrite E in Ht. revert Ht. apply (bool_decide_unpack _). reflexivity.
        * exfalso. destruct E as [E|E]; rewrite E in Ht; revert Ht; apply (bool_decide_unpack _); reflexivity.
    - intros Hv. split.
      + apply elem_words in Hv as (q & Hq1 & Hq2 & ->). apply elem_tokens. exists q. split; [(eapply inside_trans; eassumption)|done].
      + apply rtc_once. apply (leads_over ns o x p); [done| |left; done]. intros E. rewrite E in Ht. revert Ht. apply (bool_decide_unpack _). reflexivity.
  Qed.
  Lemma reach_range p t : p ∈ inside ([], x) → x_tag p.2 = "edu-range" → (t ∈ tokens_of (read_of x) ∧ rtc R (node_at p) t) ↔ ∃ q, q ∈ inside p ∧ x_tag q.2 = "edu" ∧ t ∈ words_inside q.
  Proof using HY.
    intros Hp Ht. assert (Op : own_node p) by own. split.
    - intros (Hin & HR). pose proof Hin as (w & Hw1 & Hw2 & ->)%elem_tokens. apply rtc_inv in HR as [E0|(y & H1 & H2)].
      + exfalso. assert (p = w) as ->; [|congruence]. apply own_same; [done|done|done|own|done].
      + apply over_own in H1; [|done..]. rewrite Ht in H1. unfold phrase in H1. rewrite Ht in H1. destruct H1 as [[E _]|[[_ Hy]|[[E _]|[[E|E] _]]]]; try done.
        * exfalso. revert E. apply (bool_decide_unpack _). reflexivity.
        * apply elem_of_list_fmap in Hy as (q & -> & [Hq1 Hq2]%elem_tagged). exists q. split; [done|]. split; [done|]. assert (Hq : q ∈ inside ([], x)) by (destruct p; eapply inside_trans; [exact Hp|exact Hq1]). apply (reach_words q); [done|rewrite Hq2; left|done].
    - intros (q & Hq1 & Hq2 & Hv). assert (Hq : q ∈ inside ([], x)) by (destruct p; eapply inside_trans; [exact Hp|exact Hq1]). apply reach_words in Hv as [H1 H2]; [|done|rewrite Hq2; left]. split; [done|]. eapply rtc_l; [|exact H2].
      apply (leads_over ns o x p); [done|by rewrite Ht|]. right. left. split; [done|]. split; [done|]. apply elem_of_list_fmap_1. by apply elem_tagged.
  Qed.
  Lemma dominated_over u v : dominated x u v → R u v.
  Proof. intros (q & Hq & Ht & -> & ->). apply (leads_over ns o x q); [done| |right; right; right; left; done]. destruct Ht as [->| ->]; done. Qed.
  Lemma reach_phrase p t : p ∈ inside ([], x) → phrase p → rtc R (node_at p) t ↔ rtc (dominated x) (node_at p) t.
  Proof using HY.
    intros Hp Pp. split; intros H; [|eapply rtc_subrel; [|exact H]; intros u v; apply dominated_over].
    remember (node_at p) as n eqn:En. revert p Hp Pp En. induction H as [n|n m t HR HR2 IH]; intros p Hp Pp ->; [done|].
    assert (Op : own_node p) by (destruct Pp; own). apply over_own in HR; [|done..]. assert (HD : dominated x (node_at p) m).
    { destruct HR as [[E _]|[[E _]|[[E _]|[_ E]]]]; [| | |done]; exfalso; destruct Pp as [Pp|Pp]; rewrite Pp in E; try done; revert E; apply (bool_decide_unpack _); reflexivity. }
    eapply rtc_l; [exact HD|]. destruct HD as (q & Hq & [Ht|Ht] & _ & ->).
    - apply (IH q); [done|by left|done].
    - assert (E : t = node_at q) by (by apply rtc_word). rewrite E. done.
  Qed.
  (** ** Sentences *)
  Lemma tc_flip {A} (S : A → A → Prop) u v : tc (λ a b, S b a) u v → tc S v u.
  Proof. induction 1 as [u v H|u v w H _ IH]; [by apply tc_once|]. eapply tc_r; eassumption. Qed.
  Lemma closed_down p t : p ∈ inside ([], x) → phrase p → closed_sentence x p → rtc (dominated x) (node_at p) t → t = node_at p ∨ ∃ r, r ∈ inside p ∧ (x_tag r.2 = "node" ∨ x_tag r.2 = "word") ∧ t = node_at r.
  Proof using HY.
    intros Hp Pp HC H. remember (node_at p) as n eqn:En.
    assert (G : ∀ n t, rtc (dominated x) n t → (n = node_at p ∨ ∃ r, r ∈ inside p ∧ (x_tag r.2 = "node" ∨ x_tag r.2 = "word") ∧ n = node_at r) → t = node_at p ∨ ∃ r, r ∈ inside p ∧ (x_tag r.2 = "node" ∨ x_tag r.2 = "word") ∧ t = node_at r).
    { clear n t H En. induction 1 as [n|n m t HD _ IH]; [done|]. intros Hn. apply IH. right. destruct HD as (q & Hq & Tq & -> & ->). exists q. split; [|done]. apply (HC q Hq Tq).
      destruct Hn as [Hn|(r & Hr & Tr & Hn)]; [by left|]. right. exists r. split; [done|]. split; [|done]. destruct Tr as [Tr|Tr]; [done|]. exfalso.
      assert (Hrx : r ∈ inside ([], x)) by (destruct p; eapply inside_trans; [exact Hp|exact Hr]).
      destruct (td_above _ _ HY q Hq Tq) as (s & Hs & Ps & Es). assert (E : s = r). { apply own_same; [done|done| |own|congruence]. destruct Ps as [Ps|Ps]; own. } subst s. destruct Ps as [Ps|Ps]; congruence. }
    subst n. apply (G _ t H). by left.
  Qed.
  Lemma closed_up p : acyclic (dominated x) → closed_sentence x p → p ∈ inside ([], x) → ∀ q, q ∈ inside p → (x_tag q.2 = "node" ∨ x_tag q.2 = "word") → rtc (dominated x) (node_at p) (node_at q).
  Proof.
    intros HA HC Hp. set (S := λ v u, dominated x u v). assert (HS : acyclic S) by (intros v Hv; apply tc_flip in Hv; exact (HA v Hv)).
    assert (G : ∀ k v, length (node_at <$> inside ([], x)) < k → (∃ q, q ∈ inside p ∧ (x_tag q.2 = "node" ∨ x_tag q.2 = "word") ∧ v = node_at q) → rtc (dominated x) (node_at p) v).
    { apply (acyclic_fuel S (node_at <$> inside ([], x)) (λ k v, (∃ q, q ∈ inside p ∧ (x_tag q.2 = "node" ∨ x_tag q.2 = "word") ∧ v = node_at q) → rtc (dominated x) (node_at p) v) HS).
      - intros v u (q & Hq & _ & _ & ->). by apply elem_of_list_fmap_1.
      - intros k v IH (q & Hq & Tq & ->). assert (Hqx : q ∈ inside ([], x)) by (destruct p; eapply inside_trans; [exact Hp|exact Hq]).
        assert (HD : dominated x (to_node (above q)) (node_at q)) by (by exists q). pose proof (proj1 (HC q Hqx Tq) Hq) as [E|(r & Hr & Tr & E)]; [rewrite <-E; by apply rtc_once|].
        eapply rtc_r; [|exact HD]. apply IH; [exact HD|]. exists r. split; [done|]. split; [by left|done]. }
    intros q Hq Tq. apply (G (Datatypes.S (length (node_at <$> inside ([], x))))); [lia|]. by exists q.
  Qed.
  Lemma reach_sentence p t : acyclic (dominated x) → p ∈ inside ([], x) → x_tag p.2 = "sentence" → closed_sentence x p → (t ∈ tokens_of (read_of x) ∧ rtc R (node_at p) t) ↔ t ∈ words_inside p.
  Proof using HY.
    intros HA Hp Tp HC. assert (Pp : phrase p) by (by right). rewrite (reach_phrase p t Hp Pp), elem_words. split.
    - intros [Ht H]. apply elem_tokens in Ht as (w & Hw & Tw & ->). apply closed_down in H; [|done..]. destruct H as [E|(r & Hr & Tr & E)].
      + exfalso. assert (w = p) as ->; [|congruence]. apply own_same; [done|done|own|own|done].
      + exists r. split; [done|]. split; [|done]. assert (Hrx : r ∈ inside ([], x)) by (destruct p; eapply inside_trans; [exact Hp|exact Hr]). rename E into E1.
        assert (w = r) as <-; [|done]. apply own_same; [done|done|own| |done]. destruct Tr as [Tr|Tr]; own.
    - intros (q & Hq & Tq & ->). split; [|apply closed_up; try done; by right]. apply elem_tokens. exists q. split; [destruct p; eapply inside_trans; [exact Hp|exact Hq]|done].
  Qed.
End Tidy.
