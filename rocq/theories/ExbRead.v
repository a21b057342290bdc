(** * ExbRead: reading an Exmaralda document step by step *)
From Verif Require Import PyBase DocGraph Relabel StrNum Query Text Rst Nltk Parsers Anaphora Conano Decour Ptb Convert Tiger Exb.
From Verif Require Import SpecGraph DocGraphFacts History Effects RelabelFacts GraphThms SpecImport ImportFacts PtbFacts TextFacts OffsetFacts GeoffFacts DecourFacts AnaphoraFacts TigerFacts BuiltFrom ViewFacts SpecQuery SpanFacts SpecUrml UrmlFacts UrmlDoc SpecExb.

(** ** Events *)
Lemma range_ok e : gen_token_range (chs (ev_start e)) (chs (ev_end e)) =
  match extent e with Some (i, j) => Ok ((λ z, "T"%char :: chs (str_Z z)) <$> xrange i j) | None => gen_token_range (chs (ev_start e)) (chs (ev_end e)) end.
Proof. unfold gen_token_range, extent, tokenid2index. destruct (py_int (tail (chs (ev_start e)))); [|done]. cbn [rbind]. destruct (py_int (tail (chs (ev_end e)))); done. Qed.
Lemma range_bad e : extent e = None → ∃ x, gen_token_range (chs (ev_start e)) (chs (ev_end e)) = Err x.
Proof. unfold gen_token_range, extent, tokenid2index. destruct (py_int (tail (chs (ev_start e)))); cbn [rbind]; [|by eexists]. destruct (py_int (tail (chs (ev_end e)))); [done|by eexists]. Qed.
Lemma xrange_length i j : length (xrange i j) = Z.to_nat (j - i).
Proof. unfold xrange. by rewrite fmap_length, seq_length. Qed.
Lemma single_iff e i j : extent e = Some (i, j) → single e ↔ length (xrange i j) = 1.
Proof. intros E. unfold single. rewrite E, xrange_length. cbn. split; [intros [= H]; lia|]. intros H. f_equal. lia. Qed.
Lemma point_str z : NStr (str ("T"%char :: chs (str_Z z))) = point z.
Proof. unfold point. f_equal. apply chs_inj. rewrite chs_app, chs_str. done. Qed.
Lemma anno_ok l : Forall (λ e, is_Some (extent e)) l → is_token_annotation_tier l = Ok (bool_decide (Forall single l)).
Proof.
  induction l as [|e l IH]; intros HF; [done|]. apply Forall_cons in HF as [[[i j] He] HF]. pose proof (IH HF) as IH'. cbn [is_token_annotation_tier].
  assert (HS : single e ↔ (j - i)%Z = 1%Z). { unfold single. rewrite He. cbn. split; [by intros [= ?]|by intros ->]. }
  unfold extent in He. unfold tokenid2index. destruct (py_int (tail (chs (ev_start e)))); [|done]. destruct (py_int (tail (chs (ev_end e)))); [|done]. injection He as -> ->. cbn [rbind].
  destruct (decide _) as [H|H].
  - rewrite IH'. f_equal. apply bool_decide_ext. rewrite Forall_cons. rewrite <-HS in H. tauto.
  - f_equal. symmetry. apply bool_decide_eq_false. rewrite Forall_cons, HS. tauto.
Qed.
(** a number that cannot be read is found, if all others before it are single *)
Lemma anno_inv l b : is_token_annotation_tier l = Ok b → b = bool_decide (Forall single l) .
Proof.
  revert b. induction l as [|e l IH]; intros b; [by intros [= <-]|]. cbn [is_token_annotation_tier]. unfold tokenid2index.
  destruct (py_int (tail (chs (ev_end e)))) as [j|] eqn:E1; [|done]. cbn [rbind]. destruct (py_int (tail (chs (ev_start e)))) as [i|] eqn:E2; [|done]. cbn [rbind].
  assert (HS : single e ↔ (j - i)%Z = 1%Z). { unfold single, extent. rewrite E1, E2. cbn. split; [by intros [= ?]|by intros ->]. }
  destruct (decide _) as [H|H].
  - intros Hb. rewrite (IH _ Hb). apply bool_decide_ext. rewrite Forall_cons, HS. tauto.
  - intros [= <-]. symmetry. apply bool_decide_eq_false. rewrite Forall_cons, HS. tauto.
Qed.
(** ** Reading *)
Section Read.
  Context (name ns tt : string) (TL : list nid).
  Local Notation root := (NStr (ns +:+ ":root_node")).
  Definition first_info : node_info := (first_root, ["discoursegraph"], []).
  Definition known (M : list (nid * (string * pyval))) (S : list node_info) : list node_info := first_info :: (point_info ns M <$> TL) ++ S.
  Record Xs (M : list (nid * (string * pyval))) (S : list node_info) (E : list edge_info) (g : graph) : Prop := {
    xs_view : viewed g (uview ns (known M S) (ends E)) E;
    xs_name : g_name g = name;
    xs_ns : g_ns g = ns;
    xs_root : g_root g = root;
    xs_tokens : g_tokens g = TL;
  }.
  Lemma known_ids M S : ids (known M S) = first_root :: TL ++ ids S.
  Proof. unfold known, ids. rewrite fmap_cons, fmap_app, <-list_fmap_compose. f_equal. f_equal. rewrite <-(list_fmap_id TL) at 2. apply list_fmap_ext. done. Qed.
  Lemma xs_node M S E g n l a ad : Xs M S E g → n ∉ first_root :: TL ++ ids S → ns ∈ l → (∀ k, k ≠ "layers" → dget k (given_attrs ad []) = dget k a) →
    ∃ g', add_node g n (VSet l) ad [] = (g', None) ∧ Xs M (S ++ [(n, l, a)]) E g'.
  Proof.
    intros [A0 A1 A2 A3 A4] Hn Hl Ha. rewrite <-(known_ids M S) in Hn. destruct (uview_node g ns _ _ E n l a ad A0 Hn Hl Ha) as (g' & E1 & V1 & (B1 & B2 & B3 & B4 & B5 & B6)).
    exists g'. split; [done|]. split; try congruence. unfold known. rewrite app_assoc. exact V1.
  Qed.
  Lemma xs_edge M S E g u v ty : Xs M S E g →
    ∃ g', add_edge g u v VNone None None [("edge_type", VStr ty)] = (g', None) ∧ Xs M S (E ++ [(u, v, [ns], [("edge_type", VStr ty)])]) g'.
  Proof.
    intros [A0 A1 A2 A3 A4]. destruct (uview_edge_as g ns _ _ E u v VNone [ns] None [("edge_type", VStr ty)] [("edge_type", VStr ty)] A0 A2) as (g' & E1 & V1 & (B1 & B2 & B3 & B4 & B5 & B6)); [right; by rewrite A2|apply plain_one|].
    exists g'. split; [done|]. split; try congruence. rewrite ends_snoc. exact V1.
  Qed.
  Lemma uview_point M S B n : NoDup (first_root :: TL) → n ∈ TL → uview ns (known M S) B n = Some ([ns], rev (snd <$> filter (λ m : nid * (string * pyval), m.1 = n) M)).
  Proof.
    intros HD Hn. unfold uview, infos, known. rewrite fmap_cons. cbn [dget fst]. apply NoDup_cons in HD as [HD _]. unfold first_info. cbn [fst snd]. rewrite decide_False by (by intros ->).
    rewrite fmap_app, dget_app. rewrite <-list_fmap_compose. set (f := _ ∘ _). assert (Hg : dget n (f <$> TL) = Some ([ns], rev (snd <$> filter (λ m : nid * (string * pyval), m.1 = n) M))).
    { clear HD. subst f. unfold compose, point_info. cbn [fst snd]. induction TL as [|m l IH]; [by apply elem_of_nil in Hn|]. rewrite fmap_cons. cbn [dget]. destruct (decide (n = m)) as [<-|Hm]; [done|].
      apply IH. apply elem_of_cons in Hn as [?|?]; [done|done]. }
    by rewrite Hg.
  Qed.
  Lemma marks_get (M : list (nid * (string * pyval))) n k v key : dget key (rev (snd <$> filter (λ m : nid * (string * pyval), m.1 = n) (M ++ [(n, (k, v))]))) =
    if decide (key = k) then Some v else dget key (rev (snd <$> filter (λ m : nid * (string * pyval), m.1 = n) M)).
  Proof. rewrite filter_app, filter_cons, decide_True by done. rewrite filter_nil, fmap_app, rev_app_distr. done. Qed.
  Lemma xs_mark M S E g n k v : NoDup (first_root :: TL) → k ≠ "layers" → Xs M S E g → n ∈ TL →
    ∃ g', node_update g n [(k, v)] = (g', None) ∧ Xs (M ++ [(n, (k, v))]) S E g'.
  Proof.
    intros HD Hk [A0 A1 A2 A3 A4] Hn. pose proof (uview_point M S (ends E) n HD Hn) as HU. destruct (view_update g _ E n [(k, v)] _ A0 HU) as (g' & E1 & V1 & (B1 & B2 & B3 & B4 & B5 & B6)).
    { cbn [dget]. by rewrite decide_False. }
    exists g'. split; [done|]. split; try congruence. eapply view_same; [exact V1|]. intros m. unfold vset. destruct (decide (m = n)) as [->|Hm].
    - rewrite (uview_point _ S (ends E) n HD Hn). cbn [dget fst snd]. rewrite decide_False by done. split; cbn [fst snd]; [done|]. intros key Hkey. rewrite marks_get, dget_dupdate. cbn [dget]. by destruct (decide (key = k)).
    - assert (HE : uview ns (known (M ++ [(n, (k, v))]) S) (ends E) m = uview ns (known M S) (ends E) m); [|rewrite HE; apply same_at_refl].
      unfold uview, known, infos. rewrite !fmap_cons. cbn [dget]. destruct (decide _); [done|]. rewrite !fmap_app, !dget_app, <-!list_fmap_compose.
      assert (HG : dget m ((λ x : node_info, (x.1.1, (x.1.2, x.2))) ∘ point_info ns (M ++ [(n, (k, v))]) <$> TL) = dget m ((λ x : node_info, (x.1.1, (x.1.2, x.2))) ∘ point_info ns M <$> TL)).
      { clear -Hm. unfold compose, point_info. cbn [fst snd]. induction TL as [|x l IH]; [done|]. rewrite !fmap_cons. cbn [dget]. destruct (decide (m = x)) as [<-|]; [|exact IH].
        f_equal. f_equal. rewrite filter_app, filter_cons, decide_False by (intros H; by apply Hm). rewrite filter_nil, app_nil_r. done. }
      by rewrite HG.
  Qed.
  Lemma xs_unmarked M S E g n d : Xs M S E g → n ∉ first_root :: TL ++ ids S → n ∉ ends E → (node_update g n d).2 = Some KeyError.
  Proof.
    intros [A0 A1 A2 A3 A4] Hn He. unfold node_update. assert (HN : n ∉ nodes g). { rewrite (view_in _ _ _ _ A0), uview_some, known_ids. tauto. }
    apply node_nmem in HN. unfold node_attrs in HN. by rewrite HN.
  Qed.
  (** ** Tiers *)
  Lemma tok_key_layers k : ns +:+ ":" +:+ k ≠ "layers".
  Proof. apply key_layers. Qed.
  Lemma words_loop M S E (L : list event) : NoDup (first_root :: TL) → Forall (λ e, single e ∧ NStr (ev_start e) ∈ TL) L → ∀ g, Xs M S E g →
    ∃ g', loop exb_word L g = (g', None) ∧ Xs (M ++ ((λ e, (NStr (ev_start e), (ns +:+ ":token", text_value e))) <$> L)) S E g'.
  Proof.
    intros HD. revert M. induction L as [|e L IH]; intros M HF g HX; [exists g; rewrite fmap_nil, app_nil_r; done|]. apply Forall_cons in HF as [[H1 H2] HF]. cbn [loop]. unfold exb_word at 1.
    destruct (extent e) as [[i j]|] eqn:Ee; [|unfold single in H1; by rewrite Ee in H1]. rewrite range_ok, Ee. rewrite fmap_length. rewrite decide_True by (by apply (single_iff e i j Ee)).
    rewrite (xs_ns _ _ _ _ HX). destruct (xs_mark M S E g (NStr (ev_start e)) (ns +:+ ":token") (text_value e) HD ltac:(apply key_layers) HX H2) as (g1 & E1 & X1).
    unfold text_value in E1 at 1. rewrite E1. destruct (IH _ HF g1 X1) as (g2 & E2 & X2). exists g2. split; [exact E2|]. rewrite fmap_cons. rewrite <-app_assoc in X2. exact X2.
  Qed.
  Lemma marks_loop M S E c (L : list event) : NoDup (first_root :: TL) → Forall (λ e, NStr (ev_start e) ∈ TL) L → ∀ g, Xs M S E g →
    ∃ g', loop (exb_mark c) L g = (g', None) ∧ Xs (M ++ ((λ e, (NStr (ev_start e), (ns +:+ ":" +:+ c, VStr (default "" (ev_text e))))) <$> L)) S E g'.
  Proof.
    intros HD. revert M. induction L as [|e L IH]; intros M HF g HX; [exists g; rewrite fmap_nil, app_nil_r; done|]. apply Forall_cons in HF as [H2 HF]. cbn [loop]. unfold exb_mark at 1.
    rewrite (xs_ns _ _ _ _ HX). destruct (xs_mark M S E g (NStr (ev_start e)) (ns +:+ ":" +:+ c) (VStr (default "" (ev_text e))) HD ltac:(apply key_layers) HX H2) as (g1 & E1 & X1).
    rewrite E1. destruct (IH _ HF g1 X1) as (g2 & E2 & X2). exists g2. split; [exact E2|]. rewrite fmap_cons. rewrite <-app_assoc in X2. exact X2.
  Qed.
  Lemma points_loop M S n (L : list Z) : ∀ E g, Xs M S E g →
    ∃ g', loop (λ t g, add_edge g n (NStr (str t)) VNone None None [("edge_type", VStr spans)]) ((λ z, "T"%char :: chs (str_Z z)) <$> L) g = (g', None) ∧
      Xs M S (E ++ (spanned ns n <$> (point <$> L))) g'.
  Proof.
    induction L as [|z L IH]; intros E g HX; [exists g; rewrite !fmap_nil, app_nil_r; done|]. rewrite !fmap_cons. cbn [loop]. rewrite point_str.
    destruct (xs_edge M S E g n (point z) spans HX) as (g1 & E1 & X1). rewrite E1. destruct (IH _ g1 X1) as (g2 & E2 & X2). exists g2. split; [exact E2|]. rewrite <-app_assoc in X2. exact X2.
  Qed.
  Lemma span_step M S E g t p : Xs M S E g → is_Some (extent p.2) → span_name t p.1 ∉ first_root :: TL ++ ids S →
    ∃ g', exb_span (ti_id t) p g = (g', None) ∧ Xs M (S ++ [span_info ns t p]) (E ++ span_edges ns t p) g'.
  Proof.
    intros HX [[i j] He] Hn. unfold exb_span. rewrite (xs_ns _ _ _ _ HX), range_ok, He. cbv zeta.
    destruct (xs_node M S E g (span_name t p.1) [ns; ns +:+ ":span"] (span_info ns t p).2 (Some (span_info ns t p).2) HX Hn) as (g1 & E1 & X1); [left|apply plain_dict|].
    unfold span_name in E1 at 1. unfold span_info in E1. cbn [snd] in E1. rewrite E1. destruct (xs_edge _ _ _ g1 (NStr (ti_id t)) (span_name t p.1) dominates X1) as (g2 & E2 & X2). unfold span_name in E2 at 1. rewrite E2.
    destruct (points_loop _ _ (span_name t p.1) (xrange i j) _ g2 X2) as (g3 & E3 & X3). exists g3. split; [exact E3|]. unfold span_edges, points. rewrite He. rewrite <-app_assoc in X3. exact X3.
  Qed.
  Lemma spans_loop M t (L : list (nat * event)) : Forall (λ p, is_Some (extent p.2)) L → ∀ S E g, Xs M S E g → NoDup (first_root :: TL ++ ids (S ++ (span_info ns t <$> L))) →
    ∃ g', loop (exb_span (ti_id t)) L g = (g', None) ∧ Xs M (S ++ (span_info ns t <$> L)) (E ++ (L ≫= span_edges ns t)) g'.
  Proof.
    induction L as [|p L IH]; intros HF S E g HX HD; [exists g; cbn; rewrite !app_nil_r; done|]. apply Forall_cons in HF as [He HF]. cbn [loop].
    rewrite fmap_cons in HD. assert (HD' : NoDup (first_root :: TL ++ ids ((S ++ [span_info ns t p]) ++ (span_info ns t <$> L)))) by (rewrite <-app_assoc; exact HD).
    assert (Hn : span_name t p.1 ∉ first_root :: TL ++ ids S).
    { clear HD'. unfold ids in HD. rewrite fmap_app, fmap_cons, app_assoc in HD. change (NoDup ((first_root :: TL ++ ids S) ++ span_name t p.1 :: ids (span_info ns t <$> L))) in HD. apply NoDup_app in HD as (_ & HD & _). intros Hin. apply (HD _ Hin). left. }
    destruct (span_step M S E g t p HX He Hn) as (g1 & E1 & X1). rewrite E1. destruct (IH HF _ _ g1 X1 HD') as (g2 & E2 & X2). exists g2. split; [exact E2|].
    cbn [mbind list_bind]. rewrite <-!app_assoc in X2. exact X2.
  Qed.
  Lemma imap_snd_Forall {A} (P : A → Prop) (l : list A) : Forall P l → Forall (λ p : nat * A, P p.2) (imap pair l).
  Proof. intros HF. rewrite Forall_forall in HF. apply Forall_forall. intros [i x] Hx. apply elem_of_lookup_imap in Hx as (i' & y & [= -> ->] & Hy). apply HF. by eapply elem_of_list_lookup_2. Qed.
  Lemma span_tier_ok M S E g t : Xs M S E g → Forall (λ e, is_Some (extent e)) (ti_events t) → NoDup (first_root :: TL ++ ids (S ++ tier_nodes ns t)) →
    ∃ g', exb_span_tier t g = (g', None) ∧ Xs M (S ++ tier_nodes ns t) (E ++ tier_edges ns t) g'.
  Proof.
    intros HX HF HD. unfold exb_span_tier. rewrite (xs_ns _ _ _ _ HX). cbv zeta. unfold tier_nodes in *.
    assert (Hn : NStr (ti_id t) ∉ first_root :: TL ++ ids S).
    { unfold ids in HD. rewrite fmap_app, fmap_cons, app_assoc in HD. change (NoDup ((first_root :: TL ++ ids S) ++ NStr (ti_id t) :: ids (span_info ns t <$> imap pair (ti_events t)))) in HD. apply NoDup_app in HD as (_ & HD & _). intros Hin. apply (HD _ Hin). left. }
    destruct (xs_node M S E g (NStr (ti_id t)) [ns; ns +:+ ":tier"] (tier_info ns t).2 (Some (tier_info ns t).2) HX Hn) as (g1 & E1 & X1); [left|apply plain_dict|].
    unfold tier_info in E1. cbn [snd] in E1. rewrite E1. rewrite (xs_root _ _ _ _ X1). destruct (xs_edge _ _ _ g1 root (NStr (ti_id t)) dominates X1) as (g2 & E2 & X2). rewrite E2.
    assert (HD' : NoDup (first_root :: TL ++ ids ((S ++ [tier_info ns t]) ++ (span_info ns t <$> imap pair (ti_events t))))) by (rewrite <-app_assoc; exact HD).
    destruct (spans_loop M t (imap pair (ti_events t)) (imap_snd_Forall _ _ HF) _ _ g2 X2 HD') as (g3 & E3 & X3). exists g3. split; [exact E3|]. unfold tier_edges. rewrite <-!app_assoc in X3. exact X3.
  Qed.
  Definition tier_new (t : tier) : list node_info := if decide (is_span_tier tt t) then tier_nodes ns t else [].
  Definition tier_links (t : tier) : list edge_info := if decide (is_span_tier tt t) then tier_edges ns t else [].
  Lemma tier_ok M S E g t : Xs M S E g →
    Forall (λ e, is_Some (extent e) ∧ (is_word_tier tt t → single e) ∧ (¬ is_span_tier tt t → NStr (ev_start e) ∈ TL)) (ti_events t) → NoDup (first_root :: TL ++ ids (S ++ tier_new t)) →
    ∃ g', exb_tier tt t g = (g', None) ∧ Xs (M ++ marks_of ns tt t) (S ++ tier_new t) (E ++ tier_links t) g'.
  Proof.
    intros HX HF HD. unfold exb_tier. assert (HD1 : NoDup (first_root :: TL)). { rewrite app_comm_cons in HD. by apply NoDup_app in HD as (HD & _). }
    unfold tier_new, tier_links, marks_of in *. destruct (decide (ti_category t = tt)) as [Ht|Ht].
    - rewrite !(decide_False (P := is_span_tier tt t)) by (intros [H _]; done). rewrite !(decide_True (P := is_word_tier tt t)) by done. rewrite !app_nil_r.
      apply words_loop; [done| |exact HX]. eapply Forall_impl; [exact HF|]. intros e (_ & H2 & H3). split; [by apply H2|]. apply H3. intros [H _]; done.
    - rewrite !(decide_False (P := is_word_tier tt t)) by done. rewrite anno_ok by (eapply Forall_impl; [exact HF|]; by intros e [? _]). destruct (bool_decide _) eqn:EB.
      + apply bool_decide_eq_true in EB. rewrite !(decide_True (P := is_mark_tier tt t)) by done. rewrite !(decide_False (P := is_span_tier tt t)) by (intros [_ H]; done). rewrite !app_nil_r.
        apply marks_loop; [done| |exact HX]. eapply Forall_impl; [exact HF|]. intros e (_ & _ & H3). apply H3. intros [_ H]; done.
      + apply bool_decide_eq_false in EB. assert (HS : is_span_tier tt t) by (split; assumption). rewrite !(decide_True (P := is_span_tier tt t)) in HD |- * by done. rewrite !(decide_False (P := is_mark_tier tt t)) by (intros [_ H]; done). rewrite !(decide_True (P := is_span_tier tt t)) by done. rewrite app_nil_r.
        apply span_tier_ok; [exact HX| |done]. eapply Forall_impl; [exact HF|]. by intros e [? _].
  Qed.
  Lemma tiers_loop (L : list tier) : Forall (λ t, Forall (λ e, is_Some (extent e) ∧ (is_word_tier tt t → single e) ∧ (¬ is_span_tier tt t → NStr (ev_start e) ∈ TL)) (ti_events t)) L →
    ∀ M S E g, Xs M S E g → NoDup (first_root :: TL ++ ids (S ++ (L ≫= tier_new))) →
    ∃ g', loop (exb_tier tt) L g = (g', None) ∧ Xs (M ++ (L ≫= marks_of ns tt)) (S ++ (L ≫= tier_new)) (E ++ (L ≫= tier_links)) g'.
  Proof.
    induction L as [|t L IH]; intros HF M S E g HX HD; [exists g; cbn; rewrite !app_nil_r; done|]. apply Forall_cons in HF as [He HF]. cbn [loop].
    cbn [mbind list_bind] in HD |- *. rewrite (app_assoc S) in HD. assert (HD1 : NoDup (first_root :: TL ++ ids (S ++ tier_new t))).
    { unfold ids in HD. rewrite fmap_app in HD. rewrite (app_assoc TL), app_comm_cons in HD. by apply NoDup_app in HD as (HD & _). }
    destruct (tier_ok M S E g t HX He HD1) as (g1 & E1 & X1). rewrite E1. destruct (IH HF _ _ _ g1 X1 HD) as (g2 & E2 & X2). exists g2. split; [exact E2|]. rewrite <-!app_assoc in X2. exact X2.
  Qed.
End Read.
