(** * ExbDoc: reading an Exmaralda document *)
From Verif Require Import PyBase DocGraph Relabel StrNum Query Text Rst Nltk Parsers Anaphora Conano Decour Ptb Convert Tiger Exb.
From Verif Require Import SpecGraph DocGraphFacts History Effects RelabelFacts GraphThms SpecImport ImportFacts PtbFacts TextFacts OffsetFacts GeoffFacts DecourFacts AnaphoraFacts TigerFacts BuiltFrom ViewFacts SpecQuery SpanFacts SpecUrml UrmlFacts UrmlDoc SpecExb ExbRead.

Lemma bare_ids ns (l : list nid) : ids ((λ n, (n, [ns], [])) <$> l) = l.
Proof. unfold ids. rewrite <-list_fmap_compose. apply list_fmap_id. Qed.
(** the nodes of a described graph *)
Lemma uview_set g ns R E E' : viewed g (uview ns R (ends E)) E' → NoDup (ids R) →
  node_set g (R ++ ((λ n, (n, [ns], [])) <$> remove_dups (filter (λ n, n ∉ ids R) (ends E)))).
Proof.
  intros HV HD. set (B := remove_dups _). assert (HB : ∀ n, n ∈ B ↔ n ∉ ids R ∧ n ∈ ends E) by (intros n; subst B; rewrite elem_of_remove_dups, elem_of_list_filter; done).
  assert (HI : ∀ n, n ∈ ids (R ++ ((λ n, (n, [ns], [])) <$> B)) ↔ n ∈ ids R ∨ n ∈ ends E).
  { intros n. rewrite ids_app, bare_ids, elem_of_app, HB. destruct (decide (n ∈ ids R)); tauto. }
  split.
  - apply NoDup_Permutation; [apply (v_inv _ _ _ HV)| |].
    + change (NoDup (ids (R ++ ((λ n, (n, [ns], [])) <$> B)))). rewrite ids_app, bare_ids. apply NoDup_app. split; [done|]. split; [|apply NoDup_remove_dups]. intros n Hn. rewrite HB. tauto.
    + intros n. rewrite (view_in _ _ _ _ HV), uview_some. symmetry. apply HI.
  - apply Forall_forall. intros y Hy. pose proof (v_nodes _ _ _ HV y.1.1) as H. unfold uview in H. apply elem_of_app in Hy as [Hy|Hy].
    + assert (Hg : dget y.1.1 (infos R) = Some (y.1.2, y.2)).
      { apply elem_dget. { pose proof (infos_keys R) as HK. unfold dkeys in HK |- *. rewrite HK. exact HD. } unfold infos. apply elem_of_list_fmap. exists y. done. }
      rewrite Hg in H. exact H.
    + apply elem_of_list_fmap in Hy as (n & -> & Hn). cbn [fst snd] in *. apply HB in Hn as [Hn Hn']. pose proof (proj2 (infos_none R n) Hn) as Hg. rewrite Hg in H. rewrite decide_True in H by done. exact H.
Qed.
Section Doc.
  Context (name ns tt : string).
  Local Notation root := (NStr (ns +:+ ":root_node")).
  Lemma xs_start : Xs name ns [] [] [] [] (set_root root (set_ns ns (set_name name (init_graph "" "discoursegraph" None)))).
  Proof.
    split; try done. eapply view_ext; [| | |eapply built_view; [apply (built_init "" "discoursegraph")|..]]; try done.
    - intros n. rewrite uview_some. cbn. rewrite elem_of_nil. naive_solver.
    - intros n x. unfold uview, known, first_info. cbn [infos fmap list_fmap dget fst snd app]. destruct (decide _) as [H|]; [|done]. intros [= <-]. eexists. split; [left|]. split; [done|apply same_content_refl].
  Qed.
  Lemma points_ok (L : list string) : ∀ TL g, Xs name ns TL [] [] [] g → NoDup (first_root :: TL ++ (NStr <$> L)) →
    ∃ g', loop exb_point L g = (g', None) ∧ Xs name ns (TL ++ (NStr <$> L)) [] [] [] g'.
  Proof.
    induction L as [|t L IH]; intros TL g HX HD; [exists g; rewrite fmap_nil, app_nil_r; done|]. cbn [loop]. unfold exb_point at 1. rewrite (xs_ns _ _ _ _ _ _ _ HX).
    rewrite fmap_cons in HD |- *. assert (Hn : NStr t ∉ first_root :: TL). { rewrite app_comm_cons in HD. apply NoDup_app in HD as (_ & HD & _). intros Hin. apply (HD _ Hin). left. }
    pose proof HX as [A0 A1 A2 A3 A4]. destruct (uview_node g ns _ _ [] (NStr t) [ns] [] None A0) as (g1 & E1 & V1 & (B1 & B2 & B3 & B4 & B5 & B6)); [by rewrite known_ids, app_nil_r|left|done|]. rewrite E1.
    destruct (IH (TL ++ [NStr t]) (set_tokens (g_tokens g1 ++ [NStr t]) g1)) as (g2 & E2 & X2).
    - split; try (cbn; congruence). assert (HK : known ns (TL ++ [NStr t]) [] [] = known ns TL [] [] ++ [(NStr t, [ns], [])]) by (unfold known; rewrite !app_nil_r, fmap_app; done).
      rewrite HK. eapply view_ext; [| | |exact V1]; done.
    - rewrite <-app_assoc. exact HD.
    - exists g2. split; [exact E2|]. rewrite <-app_assoc in X2. exact X2.
  Qed.
  Lemma bind_filter {A B} (P : A → Prop) `{!∀ x, Decision (P x)} (f : A → list B) (l : list A) : (l ≫= λ x, if decide (P x) then f x else []) = filter P l ≫= f.
  Proof. induction l as [|x l IH]; [done|]. cbn [mbind list_bind]. rewrite filter_cons. destruct (decide (P x)); cbn [mbind list_bind app]; by rewrite IH. Qed.
  Lemma new_nodes ts : ts ≫= tier_new ns tt = span_nodes ns tt ts.
  Proof. apply bind_filter. Qed.
  Lemma new_edges ts : ts ≫= tier_links ns tt = exb_edges ns tt ts.
  Proof. apply bind_filter. Qed.
  Definition final (filename : string) (nm : option string) : string := match nm with Some n => if decide (n = "") then filename else n | None => filename end.
  Lemma read_tiers ignored d : match ignored with Some (c :: cs) => filter (λ t, ti_category t ∉ c :: cs) (ex_tiers d) | _ => ex_tiers d end = tiers_read ignored d.
  Proof.
    unfold tiers_read. destruct ignored as [[|c cs]|]; try done; cbn [default]; unfold id; (induction (ex_tiers d) as [|t l IH]; [done|]); rewrite filter_cons, decide_True by apply not_elem_of_nil; f_equal; exact IH.
  Qed.
  Lemma timeline_ids d : NStr <$> get_token_ids d = timeline d.
  Proof. unfold get_token_ids, timeline. by rewrite <-list_fmap_compose. Qed.
  (** ** Accepted *)
  Lemma distinct_all ts d : exb_distinct ns tt ts d → NoDup (first_root :: timeline d ++ ids (span_nodes ns tt ts)).
  Proof. intros [H1 H2]. apply NoDup_cons in H1 as [_ H1]. apply NoDup_cons. done. Qed.
  Lemma first_part ts d : exb_distinct ns tt ts d →
    ∃ g, loop exb_point (get_token_ids d) (set_root root (set_ns ns (set_name name (init_graph "" "discoursegraph" None)))) = (g, None) ∧ Xs name ns (timeline d) [] [] [] g.
  Proof.
    intros HD. apply distinct_all in HD. destruct (points_ok (get_token_ids d) [] _ xs_start) as (g & E1 & X1).
    - rewrite timeline_ids. rewrite app_comm_cons in HD. by apply NoDup_app in HD as (HD & _).
    - exists g. split; [exact E1|]. rewrite timeline_ids in X1. exact X1.
  Qed.
  Lemma tiers_ok ts d g : exb_distinct ns tt ts d → exb_formed tt ts d → Xs name ns (timeline d) [] [] [] g →
    ∃ g', loop (exb_tier tt) ts g = (g', None) ∧ Xs name ns (timeline d) (ts ≫= marks_of ns tt) (span_nodes ns tt ts) (exb_edges ns tt ts) g'.
  Proof.
    intros HD HF HX. apply distinct_all in HD. destruct (tiers_loop name ns tt (timeline d) ts) with (M := ([] : list (nid * (string * pyval)))) (S := ([] : list node_info)) (E := ([] : list edge_info)) (g := g) as (g' & E1 & X1); [exact HF|exact HX| |].
    - rewrite new_nodes. exact HD.
    - exists g'. split; [exact E1|]. rewrite new_nodes, new_edges in X1. exact X1.
  Qed.
  (** ** Rejected *)
  Context (TL : list nid).
  Definition closed_in (S : list node_info) (E : list edge_info) : Prop := ∀ n, n ∈ ends E → n = root ∨ n ∈ TL ∨ n ∈ ids S.
  Lemma words_inv M S E (L : list event) : NoDup (first_root :: TL) → closed_in S E → Forall (λ e, NStr (ev_start e) ∉ first_root :: root :: ids S) L → ∀ g, Xs name ns TL M S E g →
    (loop exb_word L g).2 = None → Forall (λ e, single e ∧ NStr (ev_start e) ∈ TL) L.
  Proof.
    intros HD HC. revert M. induction L as [|e L IH]; intros M HF g HX; [done|]. apply Forall_cons in HF as [H2 HF]. cbn [loop]. destruct (exb_word e g) as [g1 [x|]] eqn:E1; [done|]. intros HN.
    unfold exb_word in E1. destruct (extent e) as [[i j]|] eqn:Ee; [|destruct (range_bad e Ee) as (x & Hx); rewrite Hx in E1; done]. rewrite range_ok, Ee, fmap_length in E1.
    destruct (decide _) as [H1|]; [|done]. assert (HS : single e) by (by apply (single_iff e i j Ee)). rewrite (xs_ns _ _ _ _ _ _ _ HX) in E1.
    destruct (decide (NStr (ev_start e) ∈ TL)) as [Hin|Hin].
    - apply List.Forall_cons; [done|]. destruct (xs_mark name ns TL M S E g (NStr (ev_start e)) (ns +:+ ":token") (match ev_text e with Some s => VStr s | None => VNone end) HD ltac:(apply key_layers) HX Hin) as (g1' & E1' & X1).
      rewrite E1' in E1. injection E1 as ->. by apply (IH _ HF g1 X1).
    - exfalso. pose proof (xs_unmarked name ns TL M S E g (NStr (ev_start e)) [(ns +:+ ":token", match ev_text e with Some s => VStr s | None => VNone end)] HX) as H. rewrite E1 in H.
      enough (None = Some KeyError) by done. apply H.
      + rewrite !elem_of_cons in H2. rewrite elem_of_cons, elem_of_app. naive_solver.
      + intros Hn. apply HC in Hn as [?|[?|?]]; [|done|]; apply H2; rewrite !elem_of_cons; auto.
  Qed.
  Lemma marks_inv M S E c (L : list event) : NoDup (first_root :: TL) → closed_in S E → Forall (λ e, NStr (ev_start e) ∉ first_root :: root :: ids S) L → ∀ g, Xs name ns TL M S E g →
    (loop (exb_mark c) L g).2 = None → Forall (λ e, NStr (ev_start e) ∈ TL) L.
  Proof.
    intros HD HC. revert M. induction L as [|e L IH]; intros M HF g HX; [done|]. apply Forall_cons in HF as [H2 HF]. cbn [loop]. destruct (exb_mark c e g) as [g1 [x|]] eqn:E1; [done|]. intros HN.
    unfold exb_mark in E1. rewrite (xs_ns _ _ _ _ _ _ _ HX) in E1. destruct (decide (NStr (ev_start e) ∈ TL)) as [Hin|Hin].
    - apply List.Forall_cons; [done|]. destruct (xs_mark name ns TL M S E g (NStr (ev_start e)) (ns +:+ ":" +:+ c) (VStr (default "" (ev_text e))) HD ltac:(apply key_layers) HX Hin) as (g1' & E1' & X1).
      rewrite E1' in E1. injection E1 as ->. by apply (IH _ HF g1 X1).
    - exfalso. pose proof (xs_unmarked name ns TL M S E g (NStr (ev_start e)) [(ns +:+ ":" +:+ c, VStr (default "" (ev_text e)))] HX) as H. rewrite E1 in H.
      enough (None = Some KeyError) by done. apply H.
      + rewrite !elem_of_cons in H2. rewrite elem_of_cons, elem_of_app. naive_solver.
      + intros Hn. apply HC in Hn as [?|[?|?]]; [|done|]; apply H2; rewrite !elem_of_cons; auto.
  Qed.
  Lemma spans_inv t (L : list (nat * event)) : ∀ M S E g, Xs name ns TL M S E g → NoDup (first_root :: TL ++ ids (S ++ (span_info ns t <$> L))) →
    (loop (exb_span (ti_id t)) L g).2 = None → Forall (λ p, is_Some (extent p.2)) L.
  Proof.
    induction L as [|p L IH]; intros M S E g HX HD; [done|]. cbn [loop]. destruct (exb_span (ti_id t) p g) as [g1 [x|]] eqn:E1; [done|]. intros HN.
    rewrite fmap_cons in HD. assert (HD' : NoDup (first_root :: TL ++ ids ((S ++ [span_info ns t p]) ++ (span_info ns t <$> L)))) by (rewrite <-app_assoc; exact HD).
    assert (Hn : span_name t p.1 ∉ first_root :: TL ++ ids S).
    { clear HD'. unfold ids in HD. rewrite fmap_app, fmap_cons, app_assoc in HD. change (NoDup ((first_root :: TL ++ ids S) ++ span_name t p.1 :: ids (span_info ns t <$> L))) in HD. apply NoDup_app in HD as (_ & HD & _). intros Hin. apply (HD _ Hin). left. }
    destruct (extent p.2) as [[i j]|] eqn:Ee.
    - destruct (span_step name ns TL M S E g t p HX) as (g1' & E1' & X1); [by eexists|done|]. rewrite E1' in E1. injection E1 as ->. apply List.Forall_cons; [by eexists|]. by eapply IH.
    - exfalso. unfold exb_span in E1. destruct (range_bad _ Ee) as (x & Hx). by rewrite Hx in E1.
  Qed.
  Lemma snd_imap_Forall {A} (P : A → Prop) (l : list A) : Forall (λ p : nat * A, P p.2) (imap pair l) → Forall P l.
  Proof. rewrite !Forall_forall. intros HF x Hx. apply elem_of_list_lookup in Hx as (i & Hi). apply (HF (i, x)). apply elem_of_lookup_imap. by exists i, x. Qed.
  Lemma tier_inv M S E g t : Xs name ns TL M S E g → NoDup (first_root :: TL ++ ids (S ++ tier_new ns tt t)) → closed_in S E → Forall (λ e, NStr (ev_start e) ∉ first_root :: root :: ids S) (ti_events t) →
    (exb_tier tt t g).2 = None → Forall (λ e, is_Some (extent e) ∧ (is_word_tier tt t → single e) ∧ (¬ is_span_tier tt t → NStr (ev_start e) ∈ TL)) (ti_events t).
  Proof.
    intros HX HD HC HA. assert (HD1 : NoDup (first_root :: TL)). { rewrite app_comm_cons in HD. by apply NoDup_app in HD as (HD & _). }
    assert (HS : ∀ e, single e → is_Some (extent e)). { intros e. unfold single. destruct (extent e); [by eexists|done]. }
    unfold exb_tier. destruct (decide (ti_category t = tt)) as [Ht|Ht].
    - intros HN. eapply Forall_impl; [exact (words_inv M S E _ HD1 HC HA g HX HN)|]. intros e [H1 H2]. split; [by apply HS|done].
    - destruct (is_token_annotation_tier (ti_events t)) as [b|] eqn:EA; [|done]. apply anno_inv in EA as ->. destruct (bool_decide _) eqn:EB.
      + apply bool_decide_eq_true in EB. intros HN. pose proof (marks_inv M S E _ _ HD1 HC HA g HX HN) as HM. rewrite Forall_forall in HM, EB |- *. intros e He. split; [by apply HS, EB|]. split; [by intros ?|]. intros _. by apply HM.
      + apply bool_decide_eq_false in EB. assert (HSp : is_span_tier tt t) by (split; assumption). intros HN. unfold exb_span_tier in HN. unfold tier_new in HD. rewrite decide_True in HD by done. unfold tier_nodes in HD.
        assert (Hn : NStr (ti_id t) ∉ first_root :: TL ++ ids S).
        { unfold ids in HD. rewrite fmap_app, fmap_cons, app_assoc in HD. change (NoDup ((first_root :: TL ++ ids S) ++ NStr (ti_id t) :: ids (span_info ns t <$> imap pair (ti_events t)))) in HD. apply NoDup_app in HD as (_ & HD & _). intros Hin. apply (HD _ Hin). left. }
        rewrite (xs_ns _ _ _ _ _ _ _ HX) in HN. cbv zeta in HN. destruct (xs_node name ns TL M S E g (NStr (ti_id t)) [ns; ns +:+ ":tier"] (tier_info ns t).2 (Some (tier_info ns t).2) HX Hn) as (g1 & E1 & X1); [left|apply plain_dict|].
        unfold tier_info in E1. cbn [snd] in E1. rewrite E1 in HN. rewrite (xs_root _ _ _ _ _ _ _ X1) in HN. destruct (xs_edge name ns TL _ _ _ g1 root (NStr (ti_id t)) dominates X1) as (g2 & E2 & X2). rewrite E2 in HN.
        assert (HD' : NoDup (first_root :: TL ++ ids ((S ++ [tier_info ns t]) ++ (span_info ns t <$> imap pair (ti_events t))))) by (rewrite <-app_assoc; exact HD).
        pose proof (spans_inv t _ _ _ _ g2 X2 HD' HN) as HF. apply (snd_imap_Forall (λ e, is_Some (extent e))) in HF. eapply Forall_impl; [exact HF|]. intros e He. split; [done|]. split; [by intros ?|by intros ?].
  Qed.
  Lemma tiers_inv (L : list tier) : (∀ t e n, t ∈ L → is_span_tier tt t → e ∈ ti_events t → n ∈ points e → n ∈ TL) →
    ∀ M S E g, Xs name ns TL M S E g → NoDup (first_root :: TL ++ ids (S ++ (L ≫= tier_new ns tt))) → closed_in S E →
    (∀ t e, t ∈ L → e ∈ ti_events t → NStr (ev_start e) ∉ first_root :: root :: ids (S ++ (L ≫= tier_new ns tt))) →
    (loop (exb_tier tt) L g).2 = None →
    Forall (λ t, Forall (λ e, is_Some (extent e) ∧ (is_word_tier tt t → single e) ∧ (¬ is_span_tier tt t → NStr (ev_start e) ∈ TL)) (ti_events t)) L.
  Proof.
    induction L as [|t L IH]; intros HI M S E g HX HD HC HA; [done|]. cbn [loop]. cbn [mbind list_bind] in HD, HA. destruct (exb_tier tt t g) as [g1 [x|]] eqn:E1; [done|]. intros HN.
    rewrite (app_assoc S) in HD. assert (HD1 : NoDup (first_root :: TL ++ ids (S ++ tier_new ns tt t))).
    { unfold ids in HD. rewrite fmap_app in HD. rewrite (app_assoc TL), app_comm_cons in HD. by apply NoDup_app in HD as (HD & _). }
    assert (HT : Forall (λ e, is_Some (extent e) ∧ (is_word_tier tt t → single e) ∧ (¬ is_span_tier tt t → NStr (ev_start e) ∈ TL)) (ti_events t)).
    { eapply tier_inv; [exact HX|exact HD1|exact HC| |by rewrite E1]. apply Forall_forall. intros e He Hin. apply (HA t e); [left|done|]. rewrite !elem_of_cons in Hin |- *. rewrite ids_app, elem_of_app. tauto. }
    apply List.Forall_cons; [exact HT|]. destruct (tier_ok name ns tt TL M S E g t HX HT HD1) as (g1' & E1' & X1). rewrite E1' in E1. injection E1 as ->.
    eapply IH; [intros t' e n Ht'; apply HI; by right|exact X1|exact HD| | |exact HN].
    - intros n. unfold ends. rewrite bind_app, elem_of_app, ids_app, elem_of_app. intros [Hn|Hn]; [apply HC in Hn; tauto|]. unfold tier_links in Hn. unfold tier_new. destruct (decide (is_span_tier tt t)) as [HS|]; [|by apply elem_of_nil in Hn].
      apply elem_of_list_bind in Hn as (x & Hn & Hx). unfold tier_edges in Hx. apply elem_of_cons in Hx as [->|Hx].
      + cbn in Hn. rewrite !elem_of_cons in Hn. destruct Hn as [->|[->|Hn]]; [by left| |by apply elem_of_nil in Hn]. right. right. right. unfold tier_nodes, ids. rewrite fmap_cons. left.
      + apply elem_of_list_bind in Hx as ([i e] & Hx & Hp). assert (Hs : span_name t i ∈ ids (tier_nodes ns t)). { unfold tier_nodes, ids. rewrite fmap_cons. right. rewrite <-list_fmap_compose. apply elem_of_list_fmap. by exists (i, e). }
        assert (He : e ∈ ti_events t). { apply elem_of_lookup_imap in Hp as (i' & e' & [= -> ->] & Hp). by eapply elem_of_list_lookup_2. }
        unfold span_edges in Hx. cbn [fst snd] in Hx. apply elem_of_cons in Hx as [->|Hx].
        * cbn in Hn. rewrite !elem_of_cons in Hn. destruct Hn as [->|[->|Hn]]; [|tauto|by apply elem_of_nil in Hn]. right. right. right. unfold tier_nodes, ids. rewrite fmap_cons. left.
        * apply elem_of_list_fmap in Hx as (m & -> & Hm). cbn in Hn. rewrite !elem_of_cons in Hn. destruct Hn as [->|[->|Hn]]; [tauto| |by apply elem_of_nil in Hn]. right. left. eapply HI; [left|done|exact He|exact Hm].
    - intros t' e Ht' He. rewrite <-app_assoc. by apply (HA t' e); [right|].
  Qed.
End Doc.
Definition result_is (filename : string) (name : option string) (ns tt : string) (ignored : option (list string)) (d : exb) (g : graph) : Prop :=
  Xs (final filename name) ns (timeline d) (tiers_read ignored d ≫= marks_of ns tt) (span_nodes ns tt (tiers_read ignored d)) (exb_edges ns tt (tiers_read ignored d)) g.
Theorem document_ok filename name ns tt ignored d : exb_distinct ns tt (tiers_read ignored d) d → exb_formed tt (tiers_read ignored d) d →
  ∃ g, read_exb filename name ns tt ignored d = (g, None) ∧ result_is filename name ns tt ignored d g.
Proof.
  intros HD HF. destruct (first_part (final filename name) ns tt _ d HD) as (g1 & E1 & X1). destruct (tiers_ok _ ns tt _ d g1 HD HF X1) as (g2 & E2 & X2).
  exists g2. split; [|exact X2]. unfold read_exb. cbv zeta. fold (final filename name). rewrite E1, read_tiers. exact E2.
Qed.
Theorem accepted_iff filename name ns tt ignored d : exb_distinct ns tt (tiers_read ignored d) d → exb_inside tt (tiers_read ignored d) d → exb_apart ns tt (tiers_read ignored d) →
  (read_exb filename name ns tt ignored d).2 = None ↔ exb_formed tt (tiers_read ignored d) d.
Proof.
  intros HD HI HA. split; [|intros HF; destruct (document_ok filename name ns tt ignored d HD HF) as (g & E & _); by rewrite E].
  destruct (first_part (final filename name) ns tt _ d HD) as (g1 & E1 & X1). unfold read_exb. cbv zeta. fold (final filename name). rewrite E1, read_tiers. intros HN.
  eapply (tiers_inv (final filename name) ns tt (timeline d)); [exact HI|exact X1| | | |exact HN].
  - rewrite new_nodes. by apply distinct_all.
  - intros n Hn. by apply elem_of_nil in Hn.
  - rewrite new_nodes. exact HA.
Qed.
Lemma result_nodes filename name ns tt ignored d g : exb_distinct ns tt (tiers_read ignored d) d → result_is filename name ns tt ignored d g →
  node_set g (exb_nodes ns tt (tiers_read ignored d) d).
Proof.
  intros HD [A0 _ _ _ _]. apply (uview_set g ns _ _ _ A0). rewrite known_ids. by apply distinct_all.
Qed.
Lemma by_time_ok d : by_time d (isort (λ a b : string * Z, Z.compare a.2 b.2) (ex_timeline d)).
Proof.
  split; [apply isort_perm|]. split.
  - assert (HS := isort_sorted (λ a b : string * Z, Z.compare a.2 b.2)). unfold sorted, cle in HS. intros i j a b Hij Hi Hj.
    enough (H : Z.compare a.2 b.2 ≠ Gt) by exact H. eapply (HS _ _ (ex_timeline d) i j); try done.
    Unshelve. { intros x y z H1 H2. change (x.2 ≤ z.2)%Z. change (x.2 ≤ y.2)%Z in H1. change (y.2 ≤ z.2)%Z in H2. lia. } { intros x y H. apply Z.compare_gt_iff in H. change (y.2 ≤ x.2)%Z. lia. }
  - intros x. apply isort_stable. intros a b -> ->. by rewrite Z.compare_refl.
Qed.
