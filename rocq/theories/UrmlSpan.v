(** * UrmlSpan: text and spans of URML documents *)
From stdpp Require Import relations.
From Verif Require Import PyBase DocGraph Relabel StrNum Query Text Rst Nltk Parsers Anaphora Conano Decour Ptb Convert Tiger Urml.
From Verif Require Import SpecGraph DocGraphFacts History Effects RelabelFacts GraphThms SpecImport ImportFacts TextFacts AnaphoraFacts DecourFacts SpecQuery SpanFacts TigerSpan Rs3Facts SpecUrml UrmlPath UrmlFacts UrmlDoc UrmlRead.

Lemma edge_type_ne ns k : "edge_type" ≠ ns +:+ String ":" k.
Proof.
  intros E. apply (f_equal chs) in E. rewrite chs_app in E. assert (H : ":"%char ∈ chs "edge_type") by (rewrite E, elem_of_app; right; cbn; left).
  revert H. apply (bool_decide_unpack _). vm_compute. exact I.
Qed.
Lemma named_inj ns a b : named ns a = named ns b → a = b.
Proof. intros H%nstr_inj. by do 2 apply append_inj_l in H. Qed.
Section Span.
  Context (ns : string) (tokenize : bool) (d : urmldoc).
  Local Notation E0 := (structure_edges ns tokenize d).
  Local Notation words := ((all_tokens ns tokenize d).*1).
  Lemma typed_edges : Forall (λ e : edge_info, ∃ t, dget "edge_type" e.2 = Some (VStr t) ∧ (t = "spans" ∨ t = "dominates")) E0.
  Proof.
    apply Forall_forall. intros e He. unfold structure_edges in He. apply elem_of_app in He as [He|He]; apply elem_of_list_bind in He as (x & He & _).
    - apply elem_of_list_fmap in He as (t & -> & _). exists "spans". split; [done|by left].
    - unfold relation_edges in He. apply elem_of_list_fmap in He as (p & -> & _). cbn [snd]. unfold relation_attrs. pose proof (edge_type_ne ns "rel_name"). pose proof (edge_type_ne ns "rel_type").
      cbn [dget]. rewrite !decide_False by done. rewrite decide_True by done. eexists. split; [reflexivity|]. destruct (decide _); [by left|by right].
  Qed.
  Lemma step_cases u v : step E0 u v ↔ (∃ a b, linked_to d a b ∧ u = named ns a ∧ v = named ns b) ∨ (∃ s, s ∈ ud_segs d ∧ u = named ns (us_id s) ∧ v ∈ (tokens_of ns tokenize s).*1).
  Proof.
    unfold step, structure_edges. split.
    - intros (l & b & He). apply elem_of_app in He as [He|He]; apply elem_of_list_bind in He as (x & He & Hx).
      + right. apply elem_of_list_fmap in He as (t & E & Ht). injection E as -> -> _ _. exists x. split; [done|]. split; [done|]. by apply elem_of_list_fmap_1.
      + left. unfold relation_edges in He. apply elem_of_list_fmap in He as (p & E & Hp). injection E as -> -> _ _. exists p.1, p.2. split; [|done]. exists x. split; [done|]. by destruct p.
    - intros [(a & b & (r & Hr & Hab) & -> & ->)|(s & Hs & -> & Hv)].
      + exists [ns], (relation_attrs ns r). apply elem_of_app. right. apply elem_of_list_bind. exists r. split; [|done]. unfold relation_edges. apply elem_of_list_fmap. by exists (a, b).
      + apply elem_of_list_fmap in Hv as (t & -> & Ht). eexists _, _. apply elem_of_app. left. apply elem_of_list_bind. exists s. split; [|done]. unfold segment_edges. apply elem_of_list_fmap. exists t. done.
  Qed.
  Lemma word_iff v : v ∈ words ↔ ∃ s, s ∈ ud_segs d ∧ v ∈ (tokens_of ns tokenize s).*1.
  Proof.
    unfold all_tokens. rewrite elem_of_list_fmap. split.
    - intros (t & -> & Ht). apply elem_of_list_bind in Ht as (s & Ht & Hs). exists s. split; [done|]. by apply elem_of_list_fmap_1.
    - intros (s & Hs & Hv). apply elem_of_list_fmap in Hv as (t & -> & Ht). exists t. split; [done|]. apply elem_of_list_bind. by exists s.
  Qed.
  Context (g : graph) (HG : GInv g) (HN : node_set g (urml_nodes ns tokenize d)) (HE : has_edges g E0) (Hns : g_ns g = ns) (HD : distinct_ids ns tokenize d) (HA : acyclic (step E0)).
  Lemma g_built : ∃ N, built g N E0.
  Proof.
    destruct HN as [HP HF]. apply (Permutation_map_inv (λ x : node_info, x.1.1)) in HP as (N & E & HP). exists N. split; [done|split; [done|by rewrite <-HP]|done].
  Qed.
  Lemma covers_step u v : covers g u v ↔ step E0 u v.
  Proof.
    destruct g_built as [N HB]. rewrite (built_covers _ _ _ u v HB). split.
    - intros (_ & [[[u' v'] l] b] & He & H1 & H2 & _). cbn [fst snd] in H1, H2. subst u' v'. by exists l, b.
    - intros H. split; [intros ->; apply (HA v); by apply tc_once|]. destruct H as (l & b & He). exists (u, v, l, b). split; [done|]. split; [done|]. split; [done|].
      pose proof typed_edges as HT. rewrite Forall_forall in HT. destruct (HT _ He) as (t & Ht & Hor). unfold non_pointing. rewrite Ht. intros [= ->]. by destruct Hor.
  Qed.
  Lemma g_acyclic : acyclic (covers g).
  Proof. intros x Hx. apply (HA x). eapply tc_sub; [|exact Hx]. intros u v. apply covers_step. Qed.
  Lemma g_typed : typed g.
  Proof. destruct g_built as [N HB]. eapply built_typed; [exact HB|]. eapply Forall_impl; [apply typed_edges|]. intros e (t & -> & _). by eexists. Qed.
  Lemma token_iff t : is_token g t ↔ t ∈ words.
  Proof.
    destruct HN as [HP HF]. rewrite Forall_forall in HF. unfold is_token. rewrite Hns. split.
    - intros (a & Ha & Ht). assert (Hin : t ∈ nodes g) by (apply node_mem; by exists a). rewrite HP in Hin. apply elem_of_list_fmap in Hin as (x & -> & Hx).
      destruct (HF x Hx) as (a' & Ha' & _ & HK). assert (a' = a) as -> by congruence. rewrite HK in Ht by apply key_layers. unfold urml_nodes, described in Hx. rewrite !elem_of_app in Hx.
      pose proof (label_ne ns "token"). destruct Hx as [[Hx|Hx]|Hx].
      + apply elem_of_list_bind in Hx as (s & Hx & Hs). apply elem_of_app in Hx as [Hx|Hx].
        * apply elem_of_list_fmap in Hx as (t & -> & Ht'). cbn [token_info fst]. apply word_iff. exists s. split; [done|]. by apply elem_of_list_fmap_1.
        * apply elem_of_list_singleton in Hx as ->. cbn [segment_info snd dget] in Ht. pose proof (key_ne' ns ":token" ":text" ltac:(done)). rewrite !decide_False in Ht by done. by destruct Ht.
      + apply elem_of_list_fmap in Hx as (r & -> & _). cbn [relation_info snd dget] in Ht. pose proof (key_ne' ns ":token" ":rel_name" ltac:(done)). pose proof (key_ne' ns ":token" ":rel_type" ltac:(done)). rewrite !decide_False in Ht by done. by destruct Ht.
      + apply elem_of_list_fmap in Hx as (n & -> & _). cbn in Ht. by destruct Ht.
    - intros (q & -> & Hq)%elem_of_list_fmap. assert (Hx : token_info ns q ∈ urml_nodes ns tokenize d).
      { unfold urml_nodes, described. rewrite !elem_of_app. left. left. unfold all_tokens in Hq. apply elem_of_list_bind in Hq as (s & Hq & Hs). apply elem_of_list_bind. exists s. split; [|done]. apply elem_of_app. left. by apply elem_of_list_fmap_1. }
      destruct (HF _ Hx) as (a & Ha & _ & HK). exists a. split; [exact Ha|]. rewrite HK by apply key_layers. cbn. rewrite decide_True by done. by eexists.
  Qed.
  Lemma segment_not_word s : s ∈ ud_segs d → named ns (us_id s) ∉ words.
  Proof.
    intros Hs Hw. apply word_iff in Hw as (s' & Hs' & Hw). destruct HD as [HD1 _]. unfold described in HD1. rewrite fmap_app in HD1. apply NoDup_app in HD1 as (HD1 & _). revert Hs Hs' HD1. clear -Hw.
    intros Hs Hs' HD1. apply elem_of_list_fmap in Hw as (t & Et & Ht). destruct t as [tn tv]. cbn [fst] in Et.
    assert (H1 : ∃ i, (s0 ← ud_segs d; (token_info ns <$> tokens_of ns tokenize s0) ++ [segment_info ns tokenize d s0]) !! i = Some (segment_info ns tokenize d s)).
    { apply elem_of_list_lookup, elem_of_list_bind. exists s. split; [|done]. apply elem_of_app. right. left. }
    assert (H2 : ∃ i, (s0 ← ud_segs d; (token_info ns <$> tokens_of ns tokenize s0) ++ [segment_info ns tokenize d s0]) !! i = Some (token_info ns (tn, tv))).
    { apply elem_of_list_lookup, elem_of_list_bind. exists s'. split; [|done]. apply elem_of_app. left. by apply elem_of_list_fmap_1. }
    destruct H1 as [i Hi], H2 as [j Hj]. assert (i = j) as <-.
    { eapply (NoDup_lookup _ i j (named ns (us_id s)) HD1); rewrite list_lookup_fmap; [by rewrite Hi|]. rewrite Hj. cbn. by rewrite Et. }
    rewrite Hi in Hj. injection Hj as _ H _ _. pose proof (key_ne' ns ":segment" ":token" ltac:(done)). done.
  Qed.
  Lemma targets_NoDup : units_only ns tokenize d → NoDup (snd <$> (relations d ≫= linked_by)) → NoDup ((λ e : edge_info, e.1.1.2) <$> E0).
  Proof.
    intros HU HT. unfold structure_edges. rewrite fmap_app.
    assert (H1 : (λ e : edge_info, e.1.1.2) <$> (s ← ud_segs d; segment_edges ns tokenize s) = words).
    { unfold all_tokens. clear. induction (ud_segs d) as [|s l IH]; [done|]. cbn [mbind list_bind]. rewrite !fmap_app. f_equal; [|exact IH]. unfold segment_edges. by rewrite <-list_fmap_compose. }
    assert (H2 : (λ e : edge_info, e.1.1.2) <$> (r ← relations d; relation_edges ns r) = named ns <$> (snd <$> (relations d ≫= linked_by))).
    { clear. induction (relations d) as [|r l IH]; [done|]. cbn [mbind list_bind]. rewrite !fmap_app. f_equal; [|exact IH]. unfold relation_edges. by rewrite <-!list_fmap_compose. }
    rewrite H1, H2. apply NoDup_app. split; [|split].
    - destruct HD as [HD1 _]. unfold described in HD1. rewrite fmap_app in HD1. apply NoDup_app in HD1 as (HD1 & _). unfold all_tokens. revert HD1. clear. induction (ud_segs d) as [|s l IH]; [intros _; by apply NoDup_nil|]. cbn [mbind list_bind]. rewrite !fmap_app.
      assert (HI : (λ x : node_info, x.1.1) <$> (token_info ns <$> tokens_of ns tokenize s) = (tokens_of ns tokenize s).*1) by (by rewrite <-list_fmap_compose). rewrite HI. intros (H1 & H2 & H3)%NoDup_app.
      apply NoDup_app in H1 as (H1 & _). apply NoDup_app. split; [done|]. split; [|by apply IH]. intros n Hn Hm. apply (H2 n); [apply elem_of_app; by left|]. apply elem_of_list_fmap in Hm as (t & -> & Ht). apply elem_of_list_bind in Ht as (s' & Ht & Hs').
      apply elem_of_list_fmap. exists (token_info ns t). split; [done|]. apply elem_of_list_bind. exists s'. split; [|done]. apply elem_of_app. left. by apply elem_of_list_fmap_1.
    - intros n Hn (b & -> & Hb)%elem_of_list_fmap. apply elem_of_list_fmap in Hb as ([a b'] & -> & Hb). apply elem_of_list_bind in Hb as (r & Hb & Hr). destruct (HU a b') as [_ H]; [by exists r|]. by apply H.
    - apply NoDup_fmap_2; [|done]. intros x y. apply named_inj.
  Qed.
  Lemma unit_span a : units_only ns tokenize d → named ns a ∈ nodes g → named ns a ∉ words →
    ∃ l, (∀ k, length (nodes g) < k → get_span k g (named ns a) = Ok l) ∧ sorted nat_cmp l ∧
      (∀ t, t ∈ l ↔ ∃ s, s ∈ ud_segs d ∧ rtc (linked_to d) a (us_id s) ∧ t ∈ (tokens_of ns tokenize s).*1) ∧
      (NoDup (snd <$> (relations d ≫= linked_by)) → NoDup l).
  Proof.
    intros HU Ha Hw. pose proof (proj1 HG) as C. destruct (get_span_total g (named ns a) C g_typed g_acyclic Ha) as [l Hl]. exists l. split; [done|]. specialize (Hl (S (length (nodes g))) ltac:(lia)).
    split; [by eapply get_span_sorted|].
    assert (HB : ∀ v, below g (named ns a) v ↔ ∃ b, rtc (linked_to d) a b ∧ (v = named ns b ∨ ∃ s, s ∈ ud_segs d ∧ us_id s = b ∧ v ∈ (tokens_of ns tokenize s).*1)).
    { intros v. unfold below. split.
      - revert v. refine (rtc_ind_r _ _ _ _); [exists a; split; [done|by left]|]. intros v w _ Hc (b & Hb & [->|(s & Hs & <- & Hv)]); apply covers_step, step_cases in Hc.
        + destruct Hc as [(a' & b' & Hab & E1 & ->)|(s & Hs & E1 & Hv)]; apply named_inj in E1.
          * subst a'. exists b'. split; [eapply rtc_r; done|by left].
          * subst b. eexists. split; [exact Hb|]. right. by exists s.
        + assert (Hvw : v ∈ words) by (apply word_iff; by exists s). exfalso. destruct Hc as [(a' & b' & Hab & E1 & _)|(s' & Hs' & E1 & _)]; subst v.
          * by apply HU in Hab as [? _].
          * by apply segment_not_word in Hvw.
      - assert (HR : ∀ b, rtc (linked_to d) a b → rtc (covers g) (named ns a) (named ns b)).
        { intros b H. clear Ha Hw Hl. induction H as [x|x y z Hxy _ IH]; [done|]. eapply rtc_l; [|exact IH]. apply covers_step, step_cases. left. by exists x, y. }
        intros (b & Hb & [->|(s & Hs & <- & Hv)]); [by apply HR|]. eapply rtc_r; [by apply HR|]. apply covers_step, step_cases. right. by exists s. }
    split.
    - intros t. rewrite (get_span_elem g C _ _ l Hl t), token_iff, HB. split.
      + intros (Ht & b & Hb & [->|(s & Hs & <- & Hv)]); [|by exists s]. exfalso. revert Hb Ht. clear -HU Hw. intros Hb. destruct (rtc_inv_r _ _ Hb) as [<-|(z & _ & Hz)]; [done|]. by apply HU in Hz as [_ ?].
      + intros (s & Hs & Hr & Ht). split; [apply word_iff; by exists s|]. exists (us_id s). split; [done|]. right. by exists s.
    - intros HT. revert Hl. apply (get_span_NoDup g C g_acyclic). intros u1 u2 v k1 a1 k2 a2 _ _ H1 _ H2 _.
      destruct HE as (es & HP & HF). assert (HDT : NoDup ((λ e : nid * nid * nid * attrs, e.1.1.2) <$> edges g)).
      { rewrite HP. enough (E : (λ e : nid * nid * nid * attrs, e.1.1.2) <$> es = (λ e : edge_info, e.1.1.2) <$> E0) by (rewrite E; by apply targets_NoDup).
        clear -HF. induction HF as [|e e' es es' (_ & E & _) HE IH]; [done|]. rewrite !fmap_cons. by f_equal. }
      apply (elem_edges g _ _ _ _ C) in H1, H2. apply elem_of_list_lookup in H1 as [i Hi], H2 as [j Hj].
      assert (i = j) as <-; [|rewrite Hi in Hj; by injection Hj]. apply (NoDup_lookup _ i j v HDT); rewrite list_lookup_fmap; [by rewrite Hi|by rewrite Hj].
  Qed.
  Lemma text_ok tks : g_tokens g = words → complete d → tks = (ud_segs d ≫= words_in tokenize) → text_tokens g tks.
  Proof.
    intros Ht HC ->. unfold text_tokens. rewrite Ht. destruct HN as [_ HF]. rewrite Forall_forall in HF.
    assert (HX : Forall2 (λ (t : nid * pyval) w, t ∈ all_tokens ns tokenize d ∧ t.2 = VStr w) (all_tokens ns tokenize d) (ud_segs d ≫= words_in tokenize)).
    { enough (G : Forall2 (λ (t : nid * pyval) w, t.2 = VStr w) (all_tokens ns tokenize d) (ud_segs d ≫= words_in tokenize)).
      { apply Forall2_same_length_lookup. split; [by eapply Forall2_length|]. intros i x y Hx Hy. split; [by eapply elem_of_list_lookup_2|]. eapply (Forall2_lookup_lr _ _ _ _ _ _ G Hx Hy). }
      unfold all_tokens, complete in *. clear -HC. induction HC as [|s L Hs _ IH]; [apply List.Forall2_nil|]. cbn [mbind list_bind]. apply Forall2_app; [|exact IH]. clear IH.
      enough (G : (tokens_of ns tokenize s).*2 = VStr <$> words_in tokenize s).
      { apply Forall2_same_length_lookup. assert (HL : length (tokens_of ns tokenize s) = length (words_in tokenize s)) by (apply (f_equal length) in G; by rewrite !fmap_length in G).
        split; [done|]. intros i x y Hx Hy. apply (f_equal (lookup i)) in G. rewrite !list_lookup_fmap, Hx, Hy in G. by injection G. }
      unfold tokens_of. rewrite fmap_imap. assert (HI : ∀ l : list pyval, imap (λ i, snd ∘ (λ v, (token_name ns s i, v))) l = l) by (intros l; etransitivity; [apply (imap_const id)|apply list_fmap_id]). etransitivity; [apply HI|].
      unfold tokens_in, words_in. destruct (us_children s) as [|c l].
      - destruct tokenize; [|done]. by rewrite <-list_fmap_compose.
      - rewrite <-list_fmap_compose. apply Forall_fmap_ext_1. eapply Forall_impl; [exact Hs|]. intros o [w ->]. done. }
    apply Forall2_fmap_l. eapply Forall2_impl; [exact HX|]. intros t w [Hin Hw]. assert (Hx : token_info ns t ∈ urml_nodes ns tokenize d).
    { unfold urml_nodes, described. rewrite !elem_of_app. left. left. unfold all_tokens in Hin. apply elem_of_list_bind in Hin as (s & Hq & Hs). apply elem_of_list_bind. exists s. split; [|done]. apply elem_of_app. left. by apply elem_of_list_fmap_1. }
    destruct (HF _ Hx) as (a & Ha & _ & HK). exists a. split; [exact Ha|]. rewrite Hns, HK by apply key_layers. cbn [token_info snd dget]. rewrite decide_True by done. by rewrite Hw.
  Qed.
End Span.
