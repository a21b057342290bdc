(** * UrmlRead: the document graph of a URML document *)
From stdpp Require Import relations.
From Verif Require Import PyBase DocGraph Relabel StrNum Query Text Rst Nltk Parsers Anaphora Conano Decour Ptb Convert Tiger Urml.
From Verif Require Import SpecGraph DocGraphFacts History Effects RelabelFacts GraphThms SpecImport ImportFacts PtbFacts TextFacts OffsetFacts GeoffFacts DecourFacts AnaphoraFacts TigerFacts BuiltFrom ViewFacts SpecQuery SpanFacts SpecRs3Graph Rs3Doc Rs3Rel SpecUrml UrmlPath UrmlFacts UrmlDoc.

Lemma tc_sub {A} (R R' : A → A → Prop) x y : (∀ u v, R u v → R' u v) → tc R x y → tc R' x y.
Proof. intros H. induction 1 as [x y Hxy|x y z Hxy _ IH]; [apply tc_once; by apply H|eapply tc_l; [by apply H|exact IH]]. Qed.
Lemma step_pre g E u v : Consistent g → has_edges g E → u ∈ predecessors g v ↔ step E u v.
Proof.
  intros C (es & HP & HF). rewrite <-(c_sp g C u v). split.
  - intros (k & a & Ha)%(succ_has_edge g u v C). assert (Hin : (u, v, k, a) ∈ es) by (rewrite <-HP; by apply elem_edges).
    apply elem_of_list_lookup in Hin as [i Hi]. destruct (Forall2_lookup_l _ _ _ _ _ HF Hi) as ([[[u' v'] l] b] & He & H1 & H2 & _). cbn [fst snd] in H1, H2. subst u' v'. exists l, b. by eapply elem_of_list_lookup_2.
  - intros (l & b & Hin). apply elem_of_list_lookup in Hin as [i Hi]. destruct (Forall2_lookup_r _ _ _ _ _ HF Hi) as ([[[u' v'] k] a] & He & H1 & H2 & _). cbn [fst snd] in H1, H2. subst u' v'.
    assert (Hin : (u, v, k, a) ∈ edges g) by (rewrite HP; by eapply elem_of_list_lookup_2). apply elem_edges in Hin; [|done]. by eapply succ_edge.
Qed.
Lemma path_rpath g E l : Consistent g → has_edges g E → path E l ↔ rpath (λ u v, u ∈ predecessors g v) l.
Proof.
  intros C HE. induction l as [|u [|v l] IH]; [done|done|]. change (path E (u :: v :: l)) with (step E u v ∧ path E (v :: l)). rewrite rpath_cons, IH, (step_pre g E u v C HE). done.
Qed.
Lemma step_ends E u v : step E u v → u ∈ ends E ∧ v ∈ ends E.
Proof. intros (l & b & Hin). split; apply elem_of_list_bind; exists (u, v, l, b); (split; [|done]); [left|right; left]. Qed.
Section Final.
  Context (ns : string) (tokenize : bool) (d : urmldoc).
  Local Notation E0 := (structure_edges ns tokenize d).
  Local Notation R0 := (described ns tokenize d).
  Local Notation root := (named ns "root_node").
  Lemma ends_app E E' : ends (E ++ E') = ends E ++ ends E'.
  Proof. unfold ends. by rewrite bind_app. Qed.
  Lemma nodes_iff n : n ∈ ids (urml_nodes ns tokenize d) ↔ n ∈ ids R0 ∨ n ∈ ends E0.
  Proof.
    unfold urml_nodes. rewrite ids_app, elem_of_app. assert (HU : ids ((λ n, (n, [ns], [])) <$> undescribed ns tokenize d) = undescribed ns tokenize d).
    { unfold ids. rewrite <-list_fmap_compose. apply list_fmap_id. }
    rewrite HU. unfold undescribed. rewrite elem_of_remove_dups, elem_of_list_filter. change ((λ x : node_info, x.1.1) <$> R0) with (ids R0).
    unfold structure_edges. rewrite ends_app, elem_of_app.
    assert (HS : n ∈ ends (s ← ud_segs d; segment_edges ns tokenize s) → n ∈ ids R0).
    { unfold ends. rewrite elem_of_list_bind. intros (e & Hn & He). apply elem_of_list_bind in He as (s & He & Hs). unfold segment_edges in He. apply elem_of_list_fmap in He as (t & -> & Ht). cbn [fst snd] in Hn.
      unfold described, ids. rewrite fmap_app, elem_of_app. left. rewrite !elem_of_cons in Hn. destruct Hn as [->|[->|Hn]]; [| |by apply elem_of_nil in Hn].
      - apply elem_of_list_fmap. exists (segment_info ns tokenize d s). split; [done|]. apply elem_of_list_bind. exists s. split; [|done]. apply elem_of_app. right. left.
      - apply elem_of_list_fmap. exists (token_info ns t). split; [done|]. apply elem_of_list_bind. exists s. split; [|done]. apply elem_of_app. left. by apply elem_of_list_fmap_1. }
    assert (HR : n ∈ ends (r ← relations d; relation_edges ns r) ↔ n ∈ (r ← relations d; e ← linked_by r; [named ns e.1; named ns e.2])).
    { unfold ends. rewrite !elem_of_list_bind. split.
      - intros (e & Hn & He). apply elem_of_list_bind in He as (r & He & Hr). unfold relation_edges in He. apply elem_of_list_fmap in He as (p & -> & Hp). exists r. split; [|done]. apply elem_of_list_bind. exists p. done.
      - intros (r & Hn & Hr). apply elem_of_list_bind in Hn as (p & Hn & Hp). exists (named ns p.1, named ns p.2, [ns], relation_attrs ns r). split; [done|]. apply elem_of_list_bind. exists r. split; [|done]. unfold relation_edges. apply elem_of_list_fmap. by exists p. }
    rewrite HR. destruct (decide (n ∈ ids R0)); naive_solver.
  Qed.
  Lemma undescribed_NoDup : NoDup (ids R0) → NoDup (ids (urml_nodes ns tokenize d)).
  Proof.
    intros HD. unfold urml_nodes. rewrite ids_app. assert (HU : ids ((λ n, (n, [ns], [])) <$> undescribed ns tokenize d) = undescribed ns tokenize d).
    { unfold ids. rewrite <-list_fmap_compose. apply list_fmap_id. }
    rewrite HU. apply NoDup_app. split; [done|]. split; [|apply NoDup_remove_dups]. intros n Hn. unfold undescribed. rewrite elem_of_remove_dups, elem_of_list_filter. intros [H _]. by apply H.
  Qed.
  Lemma view_set g E : distinct_ids ns tokenize d → viewed g (vdel root (uview ns R0 (root :: ends E0))) E → node_set g (urml_nodes ns tokenize d).
  Proof.
    intros [HD HR] HV. change (root ∉ ids (urml_nodes ns tokenize d)) in HR. assert (HI : ∀ n, is_Some (vdel root (uview ns R0 (root :: ends E0)) n) ↔ n ∈ ids (urml_nodes ns tokenize d)).
    { intros n. unfold vdel. destruct (decide (n = root)) as [->|Hn]; [split; [by intros [? ?]|done]|]. rewrite uview_some, nodes_iff, elem_of_cons. naive_solver. }
    split.
    - apply NoDup_Permutation; [apply (v_inv _ _ _ HV)|by apply undescribed_NoDup|]. intros n. rewrite (view_in _ _ _ _ HV). apply HI.
    - apply Forall_forall. intros y Hy. assert (Hi : y.1.1 ∈ ids (urml_nodes ns tokenize d)) by (by apply (elem_of_list_fmap_1 (λ x : node_info, x.1.1))).
      assert (Hr : y.1.1 ≠ root) by (intros E1; by rewrite E1 in Hi). pose proof (v_nodes _ _ _ HV y.1.1) as H. unfold vdel, uview in H. rewrite decide_False in H by done. unfold urml_nodes in Hy. apply elem_of_app in Hy as [Hy|Hy].
      + assert (Hg : dget y.1.1 (infos R0) = Some (y.1.2, y.2)).
        { apply elem_dget. { pose proof (infos_keys R0) as HK. unfold dkeys in HK |- *. rewrite HK. exact HD. } unfold infos. apply elem_of_list_fmap. exists y. done. }
        rewrite Hg in H. exact H.
      + apply elem_of_list_fmap in Hy as (n & -> & Hn). cbn [fst snd] in *. pose proof Hn as Hn'. unfold undescribed in Hn. rewrite elem_of_remove_dups in Hn. apply elem_of_list_filter in Hn as [Hn _].
        change (n ∉ ids R0) in Hn. pose proof (proj2 (infos_none R0 n) Hn) as Hg. rewrite Hg in H. rewrite decide_True in H; [exact H|]. apply nodes_iff in Hi as [?|?]; [done|]. by right.
  Qed.
  (** ** Reading *)
  Definition linked_edges (precedence : bool) (r : nid) : list edge_info :=
    E0 ++ (if tokenize then if precedence then order_edges ns r (all_tokens ns tokenize d).*1 else [] else []).
  Lemma first_part nm : NoDup (ids R0) → Forall well_formed (relations d) →
    ∃ g1 g2, loop (urml_segment (segment_types_of ns d) tokenize) (ud_segs d) (set_name nm (init_graph "" ns None), []) = ((g1, (λ s, named ns (us_id s)) <$> ud_segs d), None) ∧
      loop urml_relation (relations d) g1 = (g2, None) ∧ Us nm ns R0 E0 (all_tokens ns tokenize d).*1 g2.
  Proof.
    intros HD HW. unfold described in HD. pose proof HD as HD1. unfold ids in HD1. rewrite fmap_app in HD1. apply NoDup_app in HD1 as (HD1 & _).
    destruct (segments_loop nm ns tokenize d (ud_segs d) (λ s Hs, Hs) [] [] [] _ [] (us_start nm ns) HD1) as (g1 & E1 & U1). cbn [app] in E1, U1.
    destruct (relations_loop nm ns (relations d)) with (R := (s ← ud_segs d; seg_infos ns tokenize d s)) (E := (ud_segs d ≫= segment_edges ns tokenize)) (T := (ud_segs d ≫= tokens_of ns tokenize).*1) (g := g1) as (g2 & E2 & U2); [|done|exact U1|exact HD|].
    { intros r Hr. by apply elem_of_list_filter in Hr as [? _]. }
    exists g1, g2. done.
  Qed.
  Lemma first_bad nm : NoDup (ids R0) → ¬ Forall well_formed (relations d) →
    ∃ g1 g2, loop (urml_segment (segment_types_of ns d) tokenize) (ud_segs d) (set_name nm (init_graph "" ns None), []) = ((g1, (λ s, named ns (us_id s)) <$> ud_segs d), None) ∧
      loop urml_relation (relations d) g1 = (g2, Some AssertionError).
  Proof.
    intros HD HW. unfold described in HD. pose proof HD as HD1. unfold ids in HD1. rewrite fmap_app in HD1. apply NoDup_app in HD1 as (HD1 & _).
    destruct (segments_loop nm ns tokenize d (ud_segs d) (λ s Hs, Hs) [] [] [] _ [] (us_start nm ns) HD1) as (g1 & E1 & U1). cbn [app] in E1, U1.
    pose proof (relations_bad nm ns (relations d)) as H. specialize (H ltac:(intros r Hr; by apply elem_of_list_filter in Hr as [? _]) HW _ _ _ _ U1 HD).
    exists g1. destruct (loop urml_relation (relations d) g1) as [g2 o]. cbn [snd] in H. subst o. by exists g2.
  Qed.
  Lemma new_root_ok nm g : distinct_ids ns tokenize d → Us nm ns R0 E0 (all_tokens ns tokenize d).*1 g → acyclic (step E0) → E0 ≠ [] →
    ∃ g' r, urml_new_root g = (g', None) ∧ starts_longest E0 r ∧ (∀ u, ¬ step E0 u r) ∧ viewed g' (vdel root (uview ns R0 (root :: ends E0))) E0 ∧
      g_name g' = nm ∧ g_ns g' = ns ∧ g_root g' = r ∧ g_tokens g' = (all_tokens ns tokenize d).*1 ∧ g_meta g' = [].
  Proof.
    intros HDI [A0 A1 A2 A3 A4 A5] HA HE. pose proof (proj1 (v_inv _ _ _ A0)) as C. pose proof (v_edges _ _ _ A0) as HEd. destruct HDI as [HD HR]. change (root ∉ ids (urml_nodes ns tokenize d)) in HR.
    assert (HS : ∀ u v, u ∈ predecessors g v ↔ step E0 u v) by (intros u v; by apply step_pre).
    assert (HA' : acyclic (λ u v, u ∈ predecessors g v)). { intros x Hx. apply (HA x). eapply tc_sub; [|exact Hx]. intros u v. apply HS. }
    destruct E0 as [|[[[u0 v0] l0] b0] E1] eqn:EE; [done|]. rewrite <-EE in *. assert (H0 : step E0 u0 v0) by (exists l0, b0; rewrite EE; left).
    destruct (longest_ok g C u0 v0 HA') as (r & l & L1 & L2 & L3 & L4 & L5 & L6); [by apply HS|]. unfold urml_new_root. rewrite L1, A3.
    assert (Hr : r ∈ ends E0). { destruct l as [|v l]; [done|]. apply rpath_cons in L2 as [H _]. apply HS in H. by apply step_ends in H as [? _]. }
    assert (Hrn : r ≠ root). { intros ->. apply HR. apply nodes_iff. by right. }
    rewrite decide_False by done. assert (M1 : dmem r (g_node g) = true) by (by rewrite dmem_spec). rewrite M1.
    assert (M2 : dmem root (g_node g) = true). { rewrite dmem_spec. apply (view_in _ _ _ _ A0), uview_some. right. left. } rewrite M2.
    assert (V1 : viewed (set_root r g) (uview ns R0 (root :: ends E0)) E0) by (eapply view_ext; [| | |exact A0]; done).
    destruct (view_remove _ _ _ root V1) as (g' & E2 & V2 & (B1 & B2 & B3 & B4 & B5 & B6)).
    { apply uview_some. right. left. }
    { apply Forall_forall. intros e He. split; intros Hn; apply HR, nodes_iff; right; apply elem_of_list_bind; exists e; (split; [|done]); rewrite Hn; [left|right; left]. }
    exists g', r. split; [exact E2|]. split.
    { exists l. split; [by apply (path_rpath g)|]. split; [done|]. intros l' Hl'. apply L6. by apply (path_rpath g) in Hl'. }
    split; [intros u Hu; apply HS in Hu; rewrite L4 in Hu; by apply elem_of_nil in Hu|]. split; [exact V2|]. cbn in B1, B2, B3, B4, B6. repeat split; congruence.
  Qed.
  Definition chosen_name (name : option string) : string := match name with Some n => if decide (n = "") then ud_id d else n | None => ud_id d end.
  Theorem document_ok name precedence : distinct_ids ns tokenize d → Forall well_formed (relations d) → acyclic (step E0) → E0 ≠ [] → (tokenize = true → precedence = true → 1 < length (all_tokens ns tokenize d)) →
    ∃ g r, read_urml name ns tokenize precedence d = (g, (λ s, named ns (us_id s)) <$> ud_segs d, None) ∧ GInv g ∧
      node_set g (urml_nodes ns tokenize d) ∧ has_edges g (linked_edges precedence r) ∧ g_root g = r ∧ starts_longest E0 r ∧ (∀ u, ¬ step E0 u r) ∧
      g_ns g = ns ∧ g_name g = chosen_name name ∧ g_tokens g = (all_tokens ns tokenize d).*1 ∧ g_meta g = [(ns +:+ ":edus", VObj 0)].
  Proof.
    intros HD HW HA HE HL. unfold read_urml. cbv zeta. change (match name with Some n => if decide (n = "") then ud_id d else n | None => ud_id d end) with (chosen_name name).
    destruct (first_part (chosen_name name) (proj1 HD) HW) as (g1 & g2 & E1 & E2 & U2). rewrite E1. change (filter (λ r, ur_tag r = "parRelation" ∨ ur_tag r = "hypRelation") (ud_rels d)) with (relations d). rewrite E2.
    destruct (new_root_ok _ g2 HD U2 HA HE) as (g3 & r & E3 & HS & HN & V3 & B1 & B2 & B3 & B4 & B5). rewrite E3.
    assert (HX : ∃ g4, (if tokenize then if precedence then add_precedence_relations g3 else (g3, None) else (g3, None)) = (g4, None) ∧ viewed g4 (vdel root (uview ns R0 (root :: ends E0))) (linked_edges precedence r) ∧ same_doc g3 g4).
    { unfold linked_edges. destruct tokenize eqn:Etk; [|exists g3; rewrite app_nil_r; split; [done|]; split; [exact V3|apply same_doc_refl]]. destruct precedence; [|exists g3; rewrite app_nil_r; split; [done|]; split; [exact V3|apply same_doc_refl]].
      specialize (HL eq_refl eq_refl). rewrite <-(fmap_length fst) in HL. unfold add_precedence_relations. rewrite B3, B4.
      assert (HK : ∀ n, n ∈ ids (urml_nodes ns true d) → is_Some (vdel root (uview ns (described ns true d) (root :: ends (structure_edges ns true d))) n)).
      { intros n Hn. unfold vdel. destruct HD as [HD HR]. rewrite decide_False by (intros ->; by apply HR). apply uview_some. rewrite <-Etk in Hn |- *. apply nodes_iff in Hn as [?|?]; [by left|by right; right]. }
      assert (HT : ∀ n, n ∈ (all_tokens ns true d).*1 → n ∈ ids (urml_nodes ns true d)).
      { intros n (t & -> & Ht)%elem_of_list_fmap. rewrite <-Etk in Ht |- *. apply nodes_iff. left. unfold all_tokens in Ht. apply elem_of_list_bind in Ht as (s & Ht & Hs). apply elem_of_list_fmap. exists (token_info ns t). split; [done|].
        unfold described. apply elem_of_app. left. apply elem_of_list_bind. exists s. split; [|done]. apply elem_of_app. left. by apply elem_of_list_fmap_1. }
      assert (Hr : r ∈ ids (urml_nodes ns true d)).
      { rewrite <-Etk in HS |- *. apply nodes_iff. right. destruct HS as (l & HP & Hl & _). destruct l as [|v l]; [done|]. destruct HP as [HP _]. by apply step_ends in HP as [? _]. }
      destruct (all_tokens ns true d).*1 as [|t0 [|t1 ts]] eqn:Et; [cbn in HL; lia|cbn in HL; lia|].
      destruct (prec_loop ns ((r, t0) :: zip (t0 :: t1 :: ts) (t1 :: ts)) g3 _ _ V3 B2) as (g4 & E4 & V4 & D4).
      - apply List.Forall_cons; [split; apply HK; [done|apply HT; left]|]. apply Forall_forall. intros [u v] Huv. cbn [fst snd].
        split; apply HK, HT; [by eapply elem_of_zip_l|right; by eapply elem_of_zip_r].
      - exists g4. split; [exact E4|]. split; [exact V4|exact D4]. }
    destruct HX as (g4 & E4 & V4 & (C1 & C2 & C3 & C4 & C5 & C6)). rewrite E4.
    assert (Hr : dmem (g_root g4) (g_node g4) = true).
    { rewrite dmem_spec. apply (view_in _ _ _ _ V4). rewrite C3, B3. unfold vdel. destruct HS as (l & HP & Hl & _). destruct l as [|v l]; [done|]. destruct HP as [HP _]. apply step_ends in HP as [HP _].
      rewrite decide_False; [apply uview_some; by right; right|]. intros ->. destruct HD as [_ HR]. apply HR, nodes_iff. by right. }
    rewrite Hr, C6, B5. change (dmem (ns +:+ ":edus") []) with false. cbn iota. eexists _, r. split; [reflexivity|].
    assert (HV : viewed (set_meta (dset (ns +:+ ":edus") (VObj 0) []) g4) (vdel root (uview ns R0 (root :: ends E0))) (linked_edges precedence r)) by (eapply view_ext; [| | |exact V4]; done).
    split; [apply HV|]. split; [eapply view_set; [exact HD|exact HV]|]. split; [apply HV|]. cbn. repeat split; try congruence; try done. 
  Qed.
  Theorem accepted_iff name precedence : distinct_ids ns tokenize d → (read_urml name ns tokenize precedence d).2 = None ↔
    Forall well_formed (relations d) ∧ acyclic (step E0) ∧ E0 ≠ [] ∧ (tokenize = true → precedence = true → 1 < length (all_tokens ns tokenize d)).
  Proof.
    intros HD. split; [|intros (H1 & H2 & H3 & H4); destruct (document_ok name precedence HD H1 H2 H3 H4) as (g & r & E & _); by rewrite E].
    unfold read_urml. cbv zeta. change (match name with Some n => if decide (n = "") then ud_id d else n | None => ud_id d end) with (chosen_name name).
    change (filter (λ r, ur_tag r = "parRelation" ∨ ur_tag r = "hypRelation") (ud_rels d)) with (relations d).
    assert (HW : Forall well_formed (relations d) ∨ ¬ Forall well_formed (relations d)).
    { generalize (relations d) as L. induction L as [|x L IH]; [left; by apply List.Forall_nil|]. destruct (well_formed_dec x) as [Hx|Hx]; [|right; intros H; by apply Forall_cons in H as [? _]]. destruct IH as [IH|IH]; [left; by apply List.Forall_cons|right; intros H; by apply Forall_cons in H as [_ ?]]. }
    destruct HW as [HW|HW]; [|destruct (first_bad (chosen_name name) (proj1 HD) HW) as (g1 & g2 & E1 & E2); rewrite E1, E2; done].
    destruct (first_part (chosen_name name) (proj1 HD) HW) as (g1 & g2 & E1 & E2 & U2). rewrite E1, E2. intros H. split; [done|]. pose proof (v_edges _ _ _ (us_view _ _ _ _ _ _ U2)) as HEd. pose proof (proj1 (v_inv _ _ _ (us_view _ _ _ _ _ _ U2))) as C.
    assert (HA : acyclic (step E0)).
    { intros x Hx. assert (Hx' : tc (λ u v, u ∈ predecessors g2 v) x x). { eapply tc_sub; [|exact Hx]. intros u v Huv. by apply (step_pre g2 E0). }
      unfold urml_new_root in H. rewrite (longest_err g2 C x Hx') in H. done. }
    assert (HN : E0 ≠ []).
    { intros EN. destruct (no_edges_err g2) as [e He]; [|unfold urml_new_root in H; rewrite He in H; done]. intros u v Huv. apply (step_pre g2 E0 u v C HEd) in Huv as (l & b & Hin). rewrite EN in Hin. by apply elem_of_nil in Hin. }
    split; [done|]. split; [done|]. intros Ht Hp. destruct (new_root_ok _ g2 HD U2 HA HN) as (g3 & r & E3 & _ & _ & _ & _ & _ & _ & B4 & _). rewrite E3 in H.
    assert (HH : (if tokenize then if precedence then add_precedence_relations g3 else (g3, None) else (g3, None)) = add_precedence_relations g3) by (by rewrite Ht, Hp). rewrite HH in H. clear HH.
    unfold add_precedence_relations in H. rewrite B4 in H. rewrite <-(fmap_length fst). destruct (all_tokens ns tokenize d).*1 as [|t0 [|t1 ts]]; [done|done|cbn; lia].
  Qed.
  (** every node is below a top *)
  Lemma top_above n : NoDup (ids R0) → Forall well_formed (relations d) → acyclic (step E0) → ∃ r, rtc (step E0) r n ∧ ∀ u, ¬ step E0 u r.
  Proof.
    intros HD HW HA. destruct (first_part "" HD HW) as (g1 & g2 & _ & _ & U2). pose proof (v_edges _ _ _ (us_view _ _ _ _ _ _ U2)) as HEd. pose proof (proj1 (v_inv _ _ _ (us_view _ _ _ _ _ _ U2))) as C.
    assert (HS : ∀ u v, u ∈ predecessors g2 v ↔ step E0 u v) by (intros u v; by apply step_pre).
    assert (HA' : acyclic (λ u v, u ∈ predecessors g2 v)). { intros x Hx. apply (HA x). eapply tc_sub; [|exact Hx]. intros u v. apply HS. }
    destruct (dist_total g2 C HA' n) as [p Hp]. destruct (path_start_ok g2 (S p.1) n p Hp ltac:(lia)) as (r & l & _ & H2 & _ & H4 & H5). exists r. split.
    - clear -H2 H4 HS. revert r H2 H4. induction l as [|x l IH]; intros r H2 H4.
      + injection H4 as <-. apply rtc_refl.
      + injection H4 as <-. destruct l as [|y l].
        * destruct H2 as [H2 _]. apply rtc_once. by apply HS.
        * destruct H2 as [H2 H3]. eapply rtc_l; [apply HS; exact H2|]. by apply IH.
    - intros u Hu. apply HS in Hu. rewrite H5 in Hu. by apply elem_of_nil in Hu.
  Qed.
End Final.
