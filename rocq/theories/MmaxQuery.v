(** * MmaxQuery: what the reader needs; text of spans; potential markables *)
From Verif Require Import PyBase DocGraph Relabel StrNum Query Text Rst Nltk Parsers Anaphora Conano Decour Ptb Convert Tiger Mmax.
From Verif Require Import SpecGraph DocGraphFacts History Effects RelabelFacts MergeFacts AllHist MergeAll GraphThms SpecImport ImportFacts PtbFacts TextFacts LabelFacts SpecQuery SpanFacts OffsetFacts SelectFacts SpecTiger TigerFacts TigerWalk TigerSent TigerReject BuiltFrom TigerDoc SpecMmax MmaxFacts MmaxDoc.

(** ** What the reader needs *)
Lemma word_needs connected w g g' : mmax_word connected w g = (g', None) → has_att w "id" ∧ is_Some (x_text w).
Proof.
  intros H. unfold mmax_word in H. destruct (att_dec w "id") as [Hid|Hn]; [|by rewrite x_get_no in H]. rewrite (x_get_ok _ _ Hid) in H.
  destruct (x_text w); [split; [done|by eexists]|done].
Qed.
Lemma span_needs g x l : (let! span := x_get (x_attrib x) "span" in spanstring2tokens g None (chs span)) = Ok l → has_span x.
Proof.
  intros H. destruct (att_dec x "span") as [Hs|Hn]; [|by rewrite x_get_no in H]. rewrite (x_get_ok _ _ Hs) in H. cbn [rbind] in H.
  split; [done|]. unfold spanstring2tokens in H. destruct (convert_spanstring (chs (att "span" x))) as [ws|]; [by eexists|done].
Qed.
Lemma markable_needs layer x s s' : mmax_markable layer x s = (s', None) → has_att x "id" ∧ has_span x.
Proof.
  intros H. unfold mmax_markable in H. destruct (att_dec x "id") as [Hid|Hn]; [|by rewrite x_get_no in H]. rewrite (x_get_ok _ _ Hid) in H.
  destruct (mm_add_node _ _ _ _) as [s1 [e|]]; [done|]. split; [done|].
  destruct (let! span := x_get (x_attrib x) "span" in spanstring2tokens (mm_graph s1) None (chs span)) as [ts|e] eqn:E; [|done]. by eapply span_needs.
Qed.
Lemma layer_needs base p layer g g' : mmax_layer base p layer g = (g', None) →
  ∃ ms, level_file base p layer = Some ms ∧ ∀ x, x ∈ ms → has_att x "id" ∧ has_span x.
Proof.
  unfold mmax_layer, level_file. destruct (dget layer (mx_levels p)) as [ext|]; [|done]. cbn [of_option]. change (file_id base) with (stem base).
  destruct (mx_file p (stem base +:+ ext)) as [ms|]; [|done]. cbn [of_option]. intros [= _ H]. exists ms. split; [done|].
  destruct (loop (mmax_markable layer) ms _) as [s' o] eqn:EL. cbn [snd] in H. subst o. eapply loop_all; [|exact EL]. intros x s s'' _. apply markable_needs.
Qed.
Lemma levels_needs base p order g g' : loop (mmax_layer base p) order g = (g', None) → complete_levels base order p.
Proof.
  intros H. assert (HA : ∀ layer, layer ∈ order → ∃ ms, level_file base p layer = Some ms ∧ ∀ x, x ∈ ms → has_att x "id" ∧ has_span x).
  { eapply loop_all; [|exact H]. intros x s s' _. apply layer_needs. }
  split.
  - apply Forall_forall. intros layer (ms & Hms & _)%HA. by exists ms.
  - apply Forall_forall. intros m (layer & Hm & Hl)%elem_of_list_bind. destruct (HA _ Hl) as (ms & Hms & Hx). rewrite Hms in Hm. apply elem_of_list_fmap in Hm as (x & -> & Hin). by apply Hx.
Qed.
Lemma sentence_needs x s s' : mmax_sentence x s = (s', None) → has_att x "id" ∧ has_span x.
Proof.
  destruct s as [[g roots] toks]. intros H. unfold mmax_sentence in H. destruct (att_dec x "id") as [Hid|Hn]; [|by rewrite x_get_no in H]. rewrite (x_get_ok _ _ Hid) in H.
  split; [done|]. destruct (let! span := x_get (x_attrib x) "span" in spanstring2tokens g None (chs span)) as [ts|e] eqn:E; [|done]. by eapply span_needs.
Qed.
Lemma sort_needs roots toks r : sort_sentences roots toks = Ok r → Forall (λ p : nid * list nid, p.2 ≠ []) (zip roots toks).
Proof.
  unfold sort_sentences. destruct (forallb _ _) eqn:E; [|done]. intros _. apply Forall_forall. intros p Hp. rewrite forallb_forall in E.
  apply elem_of_list_In, E in Hp. intros Hn. rewrite bool_decide_eq_true_2 in Hp by done. done.
Qed.
Lemma project_needs base name ns precedence connected order p : project_plain base order p →
  (read_mmax base name ns precedence connected true order p).2 = None → project_complete base (graph_name base name) precedence order p.
Proof.
  intros HPl H. unfold read_mmax in H. fold (graph_name base name) in H. set (f := graph_name base name) in *.
  assert (HW : complete_words p).
  { apply Forall_forall. destruct precedence.
    - destruct (loop (mmax_word false) (mx_words p) _) as [g1 [e|]] eqn:E; [done|]. eapply loop_all; [|exact E]. intros w s s' _. apply word_needs.
    - destruct (loop (mmax_word connected) (mx_words p) _) as [g1 [e|]] eqn:E; [done|]. eapply loop_all; [|exact E]. intros w s s' _. apply word_needs. }
  assert (HPr : precedence = true → 1 < length (mx_words p)).
  { intros ->. destruct (word_layer_ok ns false false f p HW ltac:(done)) as (g1 & E1 & _ & _ & _ & _ & T1). rewrite E1 in H.
    unfold add_precedence_relations in H. rewrite T1 in H. unfold word_ids in H. destruct (mx_words p) as [|w0 [|w1 ws]]; [done|done|cbn; lia]. }
  destruct (word_layer_ok ns precedence connected f p HW HPr) as (g1 & E1 & B1 & N1 & R1 & M1 & T1). rewrite E1 in H.
  destruct (loop (mmax_layer base p) order g1) as [g2 [e|]] eqn:E2; [done|]. pose proof (levels_needs _ _ _ _ _ E2) as HL.
  destruct (levels_ok ns base p order HL HPl g1 _ _ (doc_root ns :: word_ids p) B1 N1) as (g2' & E2' & B2 & D2).
  { intros n. rewrite fmap_cons, mwho_always. cbn [mwho fst]. unfold ids. by rewrite <-list_fmap_compose. }
  rewrite E2 in E2'. injection E2' as <-. destruct D2 as (Q1 & Q2 & Q3 & Q4 & Q5 & _).
  split; [done|done|done|]. unfold mmax_sentences in H.
  destruct (dget "sentence" (mx_levels p)) as [ext|] eqn:Eext; [|done]. cbn [of_option] in H. rewrite Q1, M1 in H. change (file_id f) with (stem f) in H.
  destruct (mx_file p (stem f +:+ ext)) as [ss|] eqn:Ess; [|done]. cbn [of_option] in H.
  assert (HF : level_file f p "sentence" = Some ss) by (unfold level_file; by rewrite Eext).
  assert (HS : sentences f p = ss) by (unfold sentences; by rewrite HF).
  destruct (loop mmax_sentence ss (g2, [], [])) as [[[g3 roots] toks] [e|]] eqn:E3; [done|].
  assert (HN : Forall (λ x, has_att x "id" ∧ has_span x) ss).
  { apply Forall_forall. eapply loop_all; [|exact E3]. intros x s s' _. apply sentence_needs. }
  destruct (sentences_ok ns p ss HN) with (g := g2) (roots := @nil nid) (toks := @nil (list nid)) (1 := B2) as (g3' & E3' & B3 & D3).
  { by rewrite Q2. } { by rewrite Q4. }
  { intros w Hw. rewrite fmap_app, fmap_cons, mwho_always. apply elem_of_app. left. right. unfold ids. rewrite <-list_fmap_compose. exact Hw. }
  rewrite E3 in E3'. cbn [app] in E3'. injection E3' as _ -> ->.
  destruct (sort_sentences _ _) as [r|] eqn:Es; [|done]. pose proof (sort_needs _ _ _ Es) as Hne. rewrite zip_fmaps, Forall_fmap in Hne.
  split.
  - by rewrite HF.
  - rewrite HS. intros ->. cbn in Es. injection Es as <-. done.
  - rewrite HS. rewrite Forall_forall in HN, Hne |- *. intros x Hx. destruct (HN x Hx). split; [done|]. split; [done|]. exact (Hne x Hx).
Qed.
Lemma project_iff base name ns precedence connected order p : project_plain base order p →
  (read_mmax base name ns precedence connected true order p).2 = None ↔ project_complete base (graph_name base name) precedence order p.
Proof.
  intros HP. split; [by apply project_needs|]. intros HC. destruct (project_ok ns base name precedence connected order p HC HP) as (g & r & E & _). by rewrite E.
Qed.

(** ** Text of a span *)
Lemma span_text g renamed s l ws : spanstring2tokens g renamed s = Ok l → Forall2 (token_is g) l ws → spanstring2text g renamed s = Ok (str (joined ws)).
Proof.
  intros H HF. unfold spanstring2text. rewrite H. cbn [rbind].
  assert (E : rmap (λ t, let! a := of_option KeyError (node_attrs g t) in let! v := of_option KeyError (dget (g_ns g +:+ ":token") a) in match v with VStr w => Ok w | _ => Err TypeError end) l = Ok ws).
  { apply rmap_Ok. eapply Forall2_impl; [exact HF|]. intros t w Ht. unfold token_is in Ht. destruct Ht as (a & Ha & Hw). by rewrite Ha; cbn [of_option rbind]; rewrite Hw. }
  rewrite E. cbn [rbind]. f_equal. by rewrite <-join_sp_joined, str_chs.
Qed.
(** ** Potential markables *)
Section Phrases.
  Context (g : graph) (C : Consistent g) (L : Layered g).
  Notation isPP := (λ u, let! b := of_option KeyError (node_attrs g u) in Ok (bool_decide (dget "tiger:cat" b = Some (VStr "PP")))).
  Lemma pps_ok n : ∃ pps, rfilter isPP ((λ e : edge, e.1.1.1) <$> in_edges g n) = Ok pps ∧ ∀ u, u ∈ pps ↔ parent g u n ∧ has_cat g u "PP".
  Proof.
    assert (HP : ∀ u, u ∈ (λ e : edge, e.1.1.1) <$> in_edges g n ↔ parent g u n).
    { intros u. split.
      - intros ([[[u' v] k] a] & -> & He)%elem_of_list_fmap. apply elem_in_edges in He as [-> He]; [|done]. by exists k, a.
      - intros (k & a & He). apply elem_of_list_fmap. exists (u, n, k, a). split; [done|]. by apply elem_in_edges. }
    eexists. split.
    - apply rfilter_total, Forall_forall. intros u (k & a & He)%HP. apply (edge_node_l g) in He; [|done]. apply node_mem in He as [b Hb]. rewrite Hb. cbn. by eexists.
    - intros u. rewrite elem_of_list_filter, HP. unfold has_cat. split.
      + intros [H Hp]. split; [done|]. destruct (node_attrs g u) as [b|]; [|done]. cbn in H. injection H as H%bool_decide_eq_true. by exists b.
      + intros [Hp (b & Hb & Ht)]. split; [|done]. rewrite Hb. cbn. by rewrite bool_decide_eq_true_2.
  Qed.
  Lemma potential_ok : categorised g → ∃ l, potential_markables g = Ok l ∧
    ∀ n, n ∈ l ↔ phrase g n "PP" ∨ (has_cat g n "PP" ∧ ∃ m, phrase g m "NP" ∧ parent g n m) ∨ (phrase g n "NP" ∧ ∀ u, parent g u n → ¬ has_cat g u "PP").
  Proof.
    intros HC. unfold potential_markables. destruct (nodes_by_layer_ok g (LOne "tiger:syntax") C L) as (r & Er & _ & Hr). rewrite Er. cbn [rbind].
    set (f := λ n, _ : res (list nid)).
    assert (Hf : ∀ n, n ∈ r → ∃ out, f n = Ok out ∧ ∀ x, x ∈ out ↔
      (phrase g n "PP" ∧ x = n) ∨ (phrase g n "NP" ∧ parent g x n ∧ has_cat g x "PP") ∨ (phrase g n "NP" ∧ x = n ∧ ∀ u, parent g u n → ¬ has_cat g u "PP")).
    { intros n (a & Ha & Hl)%Hr. destruct (HC n a Ha Hl) as [cat Hcat].
      assert (HPh : ∀ c, phrase g n c ↔ cat = VStr c).
      { intros c. unfold phrase. rewrite Ha. split; [intros (b & [= <-] & _ & H); congruence|]. intros ->. by exists a. }
      unfold f. rewrite Ha. cbn [of_option rbind]. rewrite Hcat. cbn [of_option rbind]. destruct (decide (cat = VStr "NP")) as [EN|EN].
      - destruct (pps_ok n) as (pps & Ep & Hp). rewrite Ep. cbn [rbind]. eexists. split; [reflexivity|]. intros x. rewrite !HPh, EN. destruct pps as [|q pps].
        + rewrite elem_of_list_singleton. split.
          * intros ->. right. right. split; [done|]. split; [done|]. intros u Hu Hc. destruct (not_elem_of_nil u). by apply Hp.
          * intros [[? _]|[(_ & H)|(_ & ? & _)]]; [done| |done]. destruct (not_elem_of_nil x). by apply Hp.
        + rewrite Hp. split; [naive_solver|]. intros [[? _]|[(_ & H)|(_ & -> & H)]]; [done|done|]. exfalso. destruct (proj1 (Hp q) (elem_of_list_here _ _)) as [H1 H2]. by apply (H q).
      - destruct (decide (cat = VStr "PP")) as [EP|EP]; (eexists; split; [reflexivity|]); intros x; rewrite !HPh.
        + rewrite EP, elem_of_list_singleton. split; [intros ->; by left|]. intros [[_ ?]|[[? _]|[? _]]]; done.
        + rewrite elem_of_nil. split; [done|]. intros [[? _]|[[? _]|[? _]]]; done. }
    assert (HT : ∃ rs, Forall2 (λ n y, f n = Ok y) r rs).
    { clear -Hf. induction r as [|n r IH]; [exists []; constructor|]. destruct (Hf n (elem_of_list_here _ _)) as (y & Hy & _). destruct IH as [rs Hrs]; [intros m Hm; apply Hf; by right|]. exists (y :: rs). by constructor. }
    destruct HT as [rs Hrs]. exists (concat rs). split; [apply rconcat_Ok; by exists rs|]. intros x.
    assert (HX : x ∈ concat rs ↔ ∃ n out, n ∈ r ∧ f n = Ok out ∧ x ∈ out).
    { rewrite elem_concat. split.
      - intros (out & Hx & Hin). apply elem_of_list_lookup in Hin as [i Hi]. destruct (Forall2_lookup_r _ _ _ _ _ Hrs Hi) as (n & Hn & Hfn). exists n, out. split; [by eapply elem_of_list_lookup_2|done].
      - intros (n & out & Hin & Hfn & Hx). apply elem_of_list_lookup in Hin as [i Hi]. destruct (Forall2_lookup_l _ _ _ _ _ Hrs Hi) as (out' & Ho & Hfn'). rewrite Hfn in Hfn'. injection Hfn' as <-. exists out. split; [done|by eapply elem_of_list_lookup_2]. }
    rewrite HX. assert (Hmem : ∀ n c, phrase g n c → n ∈ r) by (intros n c (a & Ha & Hl & _); apply Hr; by exists a). split.
    - intros (n & out & Hn & Hfn & Hx). destruct (Hf n Hn) as (out' & Hfn' & HO). rewrite Hfn in Hfn'. injection Hfn' as <-. apply HO in Hx as [[H ->]|[(H & H1 & H2)|(H & -> & H1)]]; [by left| |by right; right].
      right. left. split; [done|]. by exists n.
    - intros [H|[[H (m & Hm & Hp)]|[H Hu]]].
      + destruct (Hf x (Hmem _ _ H)) as (out & Hfn & HO). exists x, out. split; [by eapply Hmem|]. split; [done|]. apply HO. by left.
      + destruct (Hf m (Hmem _ _ Hm)) as (out & Hfn & HO). exists m, out. split; [by eapply Hmem|]. split; [done|]. apply HO. right. left. done.
      + destruct (Hf x (Hmem _ _ H)) as (out & Hfn & HO). exists x, out. split; [by eapply Hmem|]. split; [done|]. apply HO. right. right. done.
  Qed.
End Phrases.
