(** * TigerWalk: the reader walks through a sentence *)
From Verif Require Import PyBase DocGraph Relabel StrNum Query Text Rst Nltk Parsers Anaphora Conano Decour Ptb Convert Tiger.
From Verif Require Import SpecGraph DocGraphFacts History Effects RelabelFacts MergeFacts AllHist MergeAll GraphThms SpecImport ImportFacts PtbFacts AnaphoraFacts ConanoFacts ConvertFacts TextFacts SpecTiger TigerFacts.

Lemma x_path_elements path x : x_path path x = elements path x.
Proof. revert x. induction path as [|tag path IH]; intros x; [done|]. cbn. apply list_bind_ext; [|done]. intros y. apply IH. Qed.
Lemma findall_elements tag x : x_findall tag x = elements [tag] x.
Proof. cbn. unfold x_findall. induction (filter _ _) as [|y l IH]; [done|]. rewrite bind_cons. cbn. f_equal. exact IH. Qed.
Lemma x_get_ok x key : has_att x key → x_get (x_attrib x) key = Ok (att key x).
Proof. intros (v & H). unfold x_get, att. by rewrite H. Qed.
Lemma x_get_no x key : ¬ has_att x key → x_get (x_attrib x) key = Err KeyError.
Proof. unfold has_att, x_get. intros H. destruct (dget key (x_attrib x)) as [v|] eqn:E; [|done]. destruct H. by exists v. Qed.

Definition token_role (m : mention) : Prop := m.1.2 = AToken.
Definition toks_of (M : list mention) : list nid := who <$> filter (λ m, m.1.2 = AToken) M.
Definition based (M : list mention) : Prop := Forall (λ m : mention, m.1.2 ≠ TheVirtualRoot) M.
Lemma toks_app M M' : toks_of (M ++ M') = toks_of M ++ toks_of M'.
Proof. unfold toks_of. by rewrite filter_app, fmap_app. Qed.
Lemma toks_targets es : toks_of (targets es) = [].
Proof. unfold toks_of, targets. induction es as [|e es IH]; [done|]. rewrite fmap_cons, filter_cons_False by done. exact IH. Qed.
Lemma based_targets es : based (targets es).
Proof. unfold based, targets. apply Forall_fmap, Forall_forall. done. Qed.
Lemma who_targets es : who <$> targets es = node_of "idref" <$> es.
Proof. unfold targets. rewrite <-list_fmap_compose. by apply list_fmap_ext. Qed.

Section Ns.
  Context (ns : string).
  Lemma token_role_layer r : r ≠ TheVirtualRoot → ns +:+ ":token" ∈ role_layers ns r ↔ r = AToken.
  Proof.
    intros Hr. assert (H0 : ns +:+ ":token" ≠ ns) by (intros E; symmetry in E; by apply ns_longer in E).
    assert (H : ∀ a, a ≠ ":token" → ns +:+ ":token" ≠ ns +:+ a) by (intros a Ha E; by apply append_inj_l in E).
    destruct r; cbn; rewrite !elem_of_cons, ?elem_of_nil; try done; split; try done; try (intros _; tauto);
      intros HE; exfalso; repeat (destruct HE as [HE|HE]; [first [done|by apply H in HE]|]); done.
  Qed.
  Lemma token_layer M n : based M → ns +:+ ":token" ∈ layers_given ns n M ↔ n ∈ toks_of M.
  Proof.
    unfold based. rewrite Forall_forall. intros HB. unfold layers_given, toks_of. rewrite elem_of_app, elem_of_list_bind, elem_of_list_fmap. split.
    - intros [H|(m & H & [Hm [<- Hin]%elem_of_list_filter]%elem_of_list_filter)].
      + destruct (head (about n M)) as [m|] eqn:E; [|by apply elem_of_nil in H]. 
        assert (Hm : m ∈ about n M) by (destruct (about n M); [done|]; injection E as ->; left). apply elem_of_list_filter in Hm as [<- Hin].
        apply token_role_layer in H; [|by apply HB]. exists m. split; [done|]. by apply elem_of_list_filter.
      + apply token_role_layer in H; [|by apply HB]. exists m. split; [done|]. by apply elem_of_list_filter.
    - intros (m & -> & [Hr Hin]%elem_of_list_filter). right. exists m. split; [by apply token_role_layer; [apply HB|]|].
      apply elem_of_list_filter. split; [rewrite Hr; rewrite !elem_of_cons; tauto|]. by apply elem_of_list_filter.
  Qed.
  Lemma first_layer M n : based M → n ∈ who <$> M → ns ∈ layers_given ns n M.
  Proof.
    unfold based. rewrite Forall_forall. intros HB H. destruct (about_some n M H) as (m & l & E). unfold layers_given. rewrite E. cbn [head]. apply elem_of_app. left.
    assert (Hm : m ∈ about n M) by (rewrite E; left). apply elem_of_list_filter in Hm as [_ Hm]. apply HB in Hm. destruct (m.1.2); [left..|done].
  Qed.

  (** ** Secondary edges of tokens *)
  Lemma t_secedges_ok t es : Forall (λ e, has_att e "idref" ∧ NoDup (dkeys (x_attrib e))) es → ∀ g M E,
    g_ns g = ns → built g (described ns M) E → t ∈ who <$> M →
    ∃ g', loop (tiger_t_secedge t) es g = (g', None) ∧ same_doc g g' ∧
      built g' (described ns (M ++ targets es))
        (E ++ ((λ e, (t, node_of "idref" e, [ns; ns +:+ ":secedge"], ("edge_type", VStr "points_to") :: in_ns ns e)) <$> es)).
  Proof.
    induction 1 as [|e es [Hid Hnd] _ IH]; intros g M E Hns HB Ht.
    - exists g. split; [done|]. split; [apply same_doc_refl|]. unfold targets. cbn. by rewrite !app_nil_r.
    - cbn [loop]. unfold tiger_t_secedge at 1. rewrite (x_get_ok _ _ Hid).
      destruct (target_ok g ns M E (node_of "idref" e) HB Hns) as (g1 & E1 & D1 & B1). change (NStr (att "idref" e)) with (node_of "idref" e).
      rewrite E1. rewrite (sd_ns _ _ D1), Hns.
      destruct (edge_ok g1 ns _ E t (node_of "idref" e) [ns; ns +:+ ":secedge"] (Some (x_feats ns e)) [("edge_type", VStr points_to)] B1) as (g2 & E2 & D2 & B2).
      { rewrite fmap_app. apply elem_of_app. by left. } { rewrite fmap_app. apply elem_of_app. right. left. } { done. }
      rewrite E2.
      destruct (IH g2 (M ++ [(node_of "idref" e, ATarget, [])]) (E ++ [(t, node_of "idref" e, [ns; ns +:+ ":secedge"], ("edge_type", VStr "points_to") :: in_ns ns e)])) as (g3 & E3 & D3 & B3).
      { by rewrite (sd_ns _ _ D2), (sd_ns _ _ D1). }
      { apply B2. intros k. unfold given_attrs. rewrite dget_dupdate. cbn. destruct (decide _); [done|]. by apply feats_get. }
      { rewrite fmap_app. apply elem_of_app. by left. }
      exists g3. split; [done|]. split; [eapply same_doc_trans; [exact D1|by eapply same_doc_trans]|].
      rewrite <-!app_assoc in B3. exact B3.
  Qed.
  (** ** Tokens *)
  Definition good_token (t : xml) : Prop := has_att t "id" ∧ has_att t "word" ∧ NoDup (dkeys (x_attrib t)) ∧ Forall (λ e, has_att e "idref" ∧ NoDup (dkeys (x_attrib e))) (secedges_in t).
  Lemma feat_ok x k : has_att x k → NoDup (dkeys (x_attrib x)) → dget (ns +:+ ":" +:+ k) (x_feats ns x) = Some (VStr (att k x)).
  Proof. intros (v & H) HN. rewrite feats_get, dget_in_ns by done. unfold att. by rewrite H. Qed.
  Lemma tokens_ok ts : Forall good_token ts → ∀ g M E T,
    g_ns g = ns → built g (described ns M) E →
    ∃ g', loop tiger_terminal ts (g, T) = ((g', T ++ (node_of "id" <$> ts)), None) ∧ same_doc g g' ∧
      built g' (described ns (M ++ (t ← ts; token_mentions ns t))) (E ++ (t ← ts; token_edges ns t)).
  Proof.
    induction 1 as [|t ts (Hid & Hw & Hnd & Hes) _ IH]; intros g M E T Hns HB.
    - exists g. cbn. rewrite !app_nil_r. split; [done|]. split; [apply same_doc_refl|done].
    - cbn [loop]. unfold tiger_terminal at 1. rewrite (x_get_ok _ _ Hid), Hns. 
      change (ns +:+ ":word") with (ns +:+ ":" +:+ "word"). rewrite (feat_ok t "word" Hw Hnd). change (NStr (att "id" t)) with (node_of "id" t).
      destruct (add_mention g ns M E (node_of "id" t) AToken (Some (dset (ns +:+ ":token") (VStr (att "word" t)) (x_feats ns t))) [("label", VStr (att "word" t))] HB) as (g1 & E1 & D1 & B1).
      { left. rewrite !elem_of_cons. tauto. }
      cbn [role_layers] in E1. rewrite E1. specialize (B1 (token_feats ns t)).
      rewrite findall_elements. change (elements ["secedge"] t) with (secedges_in t).
      destruct (t_secedges_ok (node_of "id" t) (secedges_in t) Hes g1 (M ++ [(node_of "id" t, AToken, token_feats ns t)]) E) as (g2 & E2 & D2 & B2).
      { by rewrite (sd_ns _ _ D1). }
      { apply B1. intros k. unfold given_attrs, token_feats. rewrite dget_dupdate. cbn. destruct (decide _); [done|]. rewrite dget_dset. destruct (decide _); [done|]. by apply feats_get. }
      { rewrite fmap_app. apply elem_of_app. right. left. }
      rewrite E2. cbn [fst snd].
      destruct (IH g2 (M ++ token_mentions ns t) (E ++ token_edges ns t) (T ++ [node_of "id" t])) as (g3 & E3 & D3 & B3).
      { by rewrite (sd_ns _ _ D2), (sd_ns _ _ D1). } { rewrite <-app_assoc in B2. exact B2. }
      exists g3. split; [rewrite E3, <-app_assoc; done|]. split; [eapply same_doc_trans; [exact D1|by eapply same_doc_trans]|].
      rewrite <-!app_assoc in B3. exact B3.
  Qed.
  (** ** Phrases *)
  Definition phrase_edge (toks : list nid) (n : nid) (e : xml) : edge_info :=
    (n, node_of "idref" e, [ns; ns +:+ ":edge"],
      ("label", VStr (att "label" e)) :: ("edge_type", VStr (if decide (node_of "idref" e ∈ toks) then "spans" else "dominates")) :: in_ns ns e).
  Definition phrase_secedge (n : nid) (lab : string) (e : xml) : edge_info :=
    (n, node_of "idref" e, [ns; ns +:+ ":secedge"], ("label", VStr lab) :: ("edge_type", VStr "points_to") :: in_ns ns e).
  Definition lab_of (l : option string) : option (option pyval) := (λ s, Some (VStr s)) <$> l.
  Definition last_label (es : list xml) (l : option string) : option string := match es with [] => l | _ => Some (List.last (att "label" <$> es) "") end.
  Lemma last_default {A} (l : list A) d d' : l ≠ [] → List.last l d = List.last l d'.
  Proof. induction l as [|x l IH]; [done|]. intros _. destruct l; [done|]. by apply IH. Qed.
  Lemma last_cons e es l : last_label (e :: es) l = last_label es (Some (att "label" e)).
  Proof. destruct es; [done|]. unfold last_label. f_equal. Qed.
  Lemma edges_ok' toks n es : Forall (λ e, has_att e "idref" ∧ has_att e "label" ∧ NoDup (dkeys (x_attrib e))) es → ∀ g M E l,
    g_ns g = ns → built g (described ns M) E → n ∈ who <$> M → based M → toks_of M = toks →
    ∃ g', loop (tiger_edge n) es (g, lab_of l) = ((g', lab_of (last_label es l)), None) ∧ same_doc g g' ∧
      built g' (described ns (M ++ targets es)) (E ++ (phrase_edge toks n <$> es)).
  Proof.
    induction 1 as [|e es (Hid & Hlab & Hnd) _ IH]; intros g M E l Hns HB Hn Hb Ht.
    - exists g. split; [done|]. split; [apply same_doc_refl|]. unfold targets. cbn. by rewrite !app_nil_r.
    - cbn [loop]. unfold tiger_edge at 1. rewrite (x_get_ok _ _ Hid). change (NStr (att "idref" e)) with (node_of "idref" e).
      destruct (target_ok g ns M E (node_of "idref" e) HB Hns) as (g1 & E1 & D1 & B1). rewrite E1. rewrite (sd_ns _ _ D1), Hns.
      set (M1 := M ++ [(node_of "idref" e, ATarget, [])]) in *.
      assert (Hb1 : based M1) by (apply Forall_app; split; [done|by apply Forall_singleton]).
      assert (Ht1 : toks_of M1 = toks) by (unfold M1; rewrite toks_app, Ht; apply app_nil_r).
      assert (Hin : node_of "idref" e ∈ who <$> M1) by (unfold M1; rewrite fmap_app; apply elem_of_app; right; left).
      assert (Hd : (node_of "idref" e, layers_given ns (node_of "idref" e) M1, attrs_given (node_of "idref" e) M1) ∈ described ns M1).
      { unfold described. apply (elem_of_list_fmap_1 (λ n, (n, layers_given ns n M1, attrs_given n M1)) _ (node_of "idref" e)). by apply elem_distinct. }
      destruct (built_node_attrs _ _ _ _ _ _ B1 Hd) as (b & Hb' & HL & HK). rewrite Hb'. cbn [of_option rbind].
      pose proof (first_layer _ _ Hb1 Hin) as HF. apply HL in HF as (ls & Hls & _). rewrite Hls. cbn [of_option rbind].
      change (ns +:+ ":label") with (ns +:+ ":" +:+ "label"). rewrite (feat_ok e "label" Hlab Hnd). cbn [of_option rbind].
      assert (Ety : (if decide (ns +:+ ":token" ∈ ls) then spans else dominates) = if decide (node_of "idref" e ∈ toks) then "spans" else "dominates").
      { assert (HT : ns +:+ ":token" ∈ ls ↔ node_of "idref" e ∈ toks).
        { rewrite <-Ht1, <-(token_layer M1 _ Hb1), <-HL. unfold has_layer. rewrite Hls. split; [intros; by exists ls|]. by intros (? & [= <-] & ?). }
        destruct (decide (_ ∈ ls)), (decide (_ ∈ toks)); tauto. }
      rewrite Ety.
      destruct (edge_ok g1 ns M1 E n (node_of "idref" e) [ns; ns +:+ ":edge"] (Some (x_feats ns e)) [("label", VStr (att "label" e)); ("edge_type", VStr (if decide (node_of "idref" e ∈ toks) then "spans" else "dominates"))] B1) as (g2 & E2 & D2 & B2).
      { unfold M1. rewrite fmap_app. apply elem_of_app. by left. } { done. } { done. }
      rewrite E2. cbn [fst snd].
      destruct (IH g2 M1 (E ++ [phrase_edge toks n e]) (Some (att "label" e))) as (g3 & E3 & D3 & B3).
      { by rewrite (sd_ns _ _ D2), (sd_ns _ _ D1). }
      { apply B2. intros k. unfold given_attrs. rewrite dget_dupdate. cbn. destruct (decide (k = "label")); [done|]. destruct (decide (k = "edge_type")); [done|]. by apply feats_get. }
      { unfold M1. rewrite fmap_app. apply elem_of_app. by left. } { done. } { done. }
      exists g3. split; [rewrite last_cons; exact E3|]. split; [eapply same_doc_trans; [exact D1|by eapply same_doc_trans]|].
      unfold M1 in B3. rewrite <-!app_assoc in B3. exact B3.
  Qed.
  Lemma n_secedges_ok n lab es : Forall (λ e, has_att e "idref" ∧ NoDup (dkeys (x_attrib e))) es → ∀ g M E,
    g_ns g = ns → built g (described ns M) E → n ∈ who <$> M →
    ∃ g', loop (tiger_n_secedge n) es (g, lab_of (Some lab)) = ((g', lab_of (Some lab)), None) ∧ same_doc g g' ∧
      built g' (described ns (M ++ targets es)) (E ++ (phrase_secedge n lab <$> es)).
  Proof.
    induction 1 as [|e es [Hid Hnd] _ IH]; intros g M E Hns HB Ht.
    - exists g. split; [done|]. split; [apply same_doc_refl|]. unfold targets. cbn. by rewrite !app_nil_r.
    - cbn [loop]. unfold tiger_n_secedge at 1. rewrite (x_get_ok _ _ Hid).
      destruct (target_ok g ns M E (node_of "idref" e) HB Hns) as (g1 & E1 & D1 & B1). change (NStr (att "idref" e)) with (node_of "idref" e).
      rewrite E1. rewrite (sd_ns _ _ D1), Hns. cbn [lab_of fmap option_fmap option_map of_option rbind].
      destruct (edge_ok g1 ns _ E n (node_of "idref" e) [ns; ns +:+ ":secedge"] (Some (x_feats ns e)) [("label", VStr lab); ("edge_type", VStr points_to)] B1) as (g2 & E2 & D2 & B2).
      { rewrite fmap_app. apply elem_of_app. by left. } { rewrite fmap_app. apply elem_of_app. right. left. } { done. }
      rewrite E2. cbn [fst snd].
      destruct (IH g2 (M ++ [(node_of "idref" e, ATarget, [])]) (E ++ [phrase_secedge n lab e])) as (g3 & E3 & D3 & B3).
      { by rewrite (sd_ns _ _ D2), (sd_ns _ _ D1). }
      { apply B2. intros k. unfold given_attrs. rewrite dget_dupdate. cbn. destruct (decide (k = "label")); [done|]. destruct (decide (k = "edge_type")); [done|]. by apply feats_get. }
      { rewrite fmap_app. apply elem_of_app. by left. }
      exists g3. split; [exact E3|]. split; [eapply same_doc_trans; [exact D1|by eapply same_doc_trans]|].
      rewrite <-!app_assoc in B3. exact B3.
  Qed.
  Definition good_phrase (n : xml) : Prop := has_att n "id" ∧ has_att n "cat" ∧ NoDup (dkeys (x_attrib n)) ∧
    Forall (λ e, has_att e "idref" ∧ has_att e "label" ∧ NoDup (dkeys (x_attrib e))) (edges_in n) ∧
    Forall (λ e, has_att e "idref" ∧ NoDup (dkeys (x_attrib e))) (secedges_in n).
  (** a label for every secondary edge *)
  Fixpoint labelled (l : option string) (ps : list xml) : Prop :=
    match ps with
    | [] => True
    | n :: ps => (secedges_in n ≠ [] → is_Some (last_label (edges_in n) l)) ∧ labelled (last_label (edges_in n) l) ps
    end.
  Lemma last_label_default es l : default "" (last_label es l) = List.last (att "label" <$> es) (default "" l).
  Proof. destruct es as [|e es]; [done|]. cbn [last_label default]. by apply last_default. Qed.
  Lemma phrase_edges_eq toks l n : (phrase_edge toks (node_of "id" n) <$> edges_in n) ++ (phrase_secedge (node_of "id" n) (default "" (last_label (edges_in n) l)) <$> secedges_in n) = phrase_edges ns toks (default "" l) n.
  Proof. by rewrite last_label_default. Qed.
  Lemma phrases_ok toks ps : Forall good_phrase ps → ∀ g M E l,
    g_ns g = ns → built g (described ns M) E → based M → toks_of M = toks → labelled l ps →
    ∃ g' l', loop tiger_nonterminal ps (g, lab_of l) = ((g', l'), None) ∧ same_doc g g' ∧
      built g' (described ns (M ++ (n ← ps; phrase_mentions ns n))) (E ++ phrases_edges ns toks (default "" l) ps).
  Proof.
    induction 1 as [|n ps (Hid & Hcat & Hnd & Hes & Hss) _ IH]; intros g M E l Hns HB Hb Ht Hl.
    - exists g, (lab_of l). cbn. rewrite !app_nil_r. split; [done|]. split; [apply same_doc_refl|done].
    - destruct Hl as [Hl1 Hl2]. cbn [loop]. unfold tiger_nonterminal at 1. rewrite (x_get_ok _ _ Hid), Hns. 
      change (ns +:+ ":cat") with (ns +:+ ":" +:+ "cat"). rewrite (feat_ok n "cat" Hcat Hnd). change (NStr (att "id" n)) with (node_of "id" n).
      set (feats := dset "label" (VStr (att "cat" n)) (x_feats ns n)).
      assert (HF : ∀ k, dget k feats = dget k (phrase_feats ns n)).
      { intros k. unfold feats, phrase_feats. rewrite dget_dset. cbn. destruct (decide _); [done|]. by apply feats_get. }
      assert (Hstep : ∃ g1, (if decide (node_of "id" n ∈ nodes g) then node_update g (node_of "id" n) feats
             else add_node g (node_of "id" n) (VSet [ns; ns +:+ ":syntax"]) (Some feats) []) = (g1, None) ∧ same_doc g g1 ∧
             built g1 (described ns (M ++ [(node_of "id" n, APhrase, phrase_feats ns n)])) E).
      { destruct (decide (node_of "id" n ∈ nodes g)) as [H|H]; rewrite (nodes_built _ _ _ _ _ HB) in H.
        - destruct (update_mention g ns M E (node_of "id" n) APhrase feats HB) as (g1 & E1 & D1 & B1).
          { rewrite !elem_of_cons, elem_of_nil. naive_solver. } { done. }
          { rewrite HF. unfold phrase_feats. cbn. apply in_ns_plain. intros Hc. apply elem_of_list_In in Hc. vm_compute in Hc. naive_solver. }
          exists g1. split; [done|]. split; [done|]. by apply B1.
        - destruct (add_mention g ns M E (node_of "id" n) APhrase (Some feats) [] HB) as (g1 & E1 & D1 & B1); [by right|].
          exists g1. split; [done|]. split; [done|]. by apply B1. }
      destruct Hstep as (g1 & E1 & D1 & B1). rewrite E1. clear E1 HF feats.
      set (M1 := M ++ [(node_of "id" n, APhrase, phrase_feats ns n)]) in *.
      assert (Hb1 : based M1) by (apply Forall_app; split; [done|by apply Forall_singleton]).
      assert (Ht1 : toks_of M1 = toks) by (unfold M1; rewrite toks_app, Ht; apply app_nil_r).
      assert (Hin : node_of "id" n ∈ who <$> M1) by (unfold M1; rewrite fmap_app; apply elem_of_app; right; left).
      rewrite !findall_elements. change (elements ["edge"] n) with (edges_in n). change (elements ["secedge"] n) with (secedges_in n).
      destruct (edges_ok' toks (node_of "id" n) (edges_in n) Hes g1 M1 E l) as (g2 & E2 & D2 & B2); [by rewrite (sd_ns _ _ D1)|done..|].
      rewrite E2. 
      assert (Hns2 : g_ns g2 = ns) by (by rewrite (sd_ns _ _ D2), (sd_ns _ _ D1)).
      assert (Hstep : ∃ g3, loop (tiger_n_secedge (node_of "id" n)) (secedges_in n) (g2, lab_of (last_label (edges_in n) l)) = ((g3, lab_of (last_label (edges_in n) l)), None) ∧ same_doc g2 g3 ∧
        built g3 (described ns (M1 ++ targets (edges_in n) ++ targets (secedges_in n))) (E ++ phrase_edges ns toks (default "" l) n)).
      { destruct (secedges_in n) as [|s ss] eqn:Es.
        - exists g2. split; [done|]. split; [apply same_doc_refl|]. cbn [targets fmap list_fmap]. rewrite app_nil_r.
          rewrite <-phrase_edges_eq, Es. rewrite app_nil_r. exact B2.
        - rewrite <-Es in *. destruct Hl1 as (lab & Hlab); [by rewrite Es|]. rewrite Hlab.
          destruct (n_secedges_ok (node_of "id" n) lab (secedges_in n) Hss g2 (M1 ++ targets (edges_in n)) (E ++ (phrase_edge toks (node_of "id" n) <$> edges_in n)) Hns2 B2) as (g3 & E3 & D3 & B3).
          { rewrite fmap_app. apply elem_of_app. by left. }
          exists g3. split; [done|]. split; [done|]. rewrite <-phrase_edges_eq, Hlab. rewrite <-!app_assoc in B3. exact B3. }
      destruct Hstep as (g3 & E3 & D3 & B3). rewrite E3.
      assert (EM : M1 ++ targets (edges_in n) ++ targets (secedges_in n) = M ++ phrase_mentions ns n).
      { unfold M1, phrase_mentions, targets. rewrite fmap_app, <-!app_assoc. done. }
      rewrite EM in B3.
      destruct (IH g3 (M ++ phrase_mentions ns n) (E ++ phrase_edges ns toks (default "" l) n) (last_label (edges_in n) l)) as (g4 & l4 & E4 & D4 & B4).
      { by rewrite (sd_ns _ _ D3). } { done. }
      { rewrite <-EM. apply Forall_app. split; [done|]. apply Forall_app. split; apply based_targets. }
      { rewrite <-EM, !toks_app, !toks_targets, Ht1, !app_nil_r. done. } { done. }
      exists g4, l4. split; [done|]. split. { eapply same_doc_trans; [exact D1|]. eapply same_doc_trans; [exact D2|]. by eapply same_doc_trans. }
      rewrite <-!app_assoc in B4. cbn [phrases_edges]. rewrite <-last_label_default. exact B4.
  Qed.
End Ns.
