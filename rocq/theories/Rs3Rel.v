(** * Rs3Rel: the relations of a file as spans *)
From Verif Require Import PyBase DocGraph Relabel StrNum Query Text Rst Nltk Parsers Anaphora Conano Decour Ptb Convert Tiger Rs3Graph.
From Verif Require Import SpecGraph DocGraphFacts History Effects RelabelFacts GraphThms SpecImport ImportFacts TextFacts AnaphoraFacts SpecQuery SpanFacts SelectFacts ConvertFacts BuiltFrom TigerSpan TigerTree NatSort SpecRs3Graph Rs3Facts Rs3Read Rs3Doc Rs3Span.

Lemma filter_Forall2 {A B} (R : A → B → Prop) (P : A → Prop) (Q : B → Prop) `{∀ x, Decision (P x)} `{∀ x, Decision (Q x)} l k :
  Forall2 R l k → (∀ x y, R x y → P x ↔ Q y) → Forall2 R (filter P l) (filter Q k).
Proof.
  intros HF HPQ. induction HF as [|x y l k Hxy HF IH]; [constructor|]. pose proof (HPQ x y Hxy) as Hi. rewrite !filter_cons. destruct (decide (P x)), (decide (Q y)); try (exfalso; tauto); [by constructor|done].
Qed.
Lemma rfold_all {S A B} (f : S → B → res S) (R : A → B → Prop) (F : list A → S) ks l :
  (∀ P y b, R y b → f (F P) b = Ok (F (P ++ [y]))) → Forall2 R ks l → ∀ P, rfold f (F P) l = Ok (F (P ++ ks)).
Proof.
  intros Hf HF. induction HF as [|y b ks l Hy HF IH]; intros P; [by rewrite app_nil_r|]. cbn [rfold]. rewrite (Hf P y b Hy). cbn [rbind]. rewrite IH, <-app_assoc. done.
Qed.
Lemma succ_edge g u v k a : edge_attrs g u v k = Some a → v ∈ successors g u.
Proof.
  unfold edge_attrs, keydict_of, successors. intros H. destruct (dget u (g_succ g)) as [nb|]; [|done]. cbn [default] in *. unfold id in *. destruct (dget v nb) as [kd|] eqn:Ev; [|done].
  apply dget_Some_elem in Ev. by apply (elem_of_list_fmap_1 fst) in Ev.
Qed.
Lemma succ_has_edge g u v : Consistent g → v ∈ successors g u → ∃ k a, edge_attrs g u v k = Some a.
Proof.
  intros C. unfold edge_attrs, keydict_of, successors. intros H. destruct (dget u (g_succ g)) as [nb|] eqn:Eu; [|by apply elem_of_nil in H]. cbn [default] in *. unfold id in *.
  apply dget_is_Some in H as [kd Hk]. rewrite Hk. cbn [default]. destruct (c_adj g C _ _ Eu) as [_ H2]. destruct (H2 _ _ Hk) as [H3 _].
  destruct kd as [|[k a] kd]; [done|]. exists k, a. cbn. by rewrite decide_True.
Qed.
Section Rel.
  Context (d : rs3doc) (g : graph) (fuel : nat).
  Context (HO : rs3_ok d) (HPl : plain_ids d) (HT : rst_tree_ok d) (HH : holds "rst" d g) (Hfuel : length (nodes g) < fuel).
  Local Notation els := (elements_of d).
  Local Notation nd := (node_of_el "rst").
  Definition span_of (x : xelem) : list nid := match get_span fuel g (nd x) with Ok l => l | Err _ => [] end.
  Lemma span_known x : x ∈ els → get_span fuel g (nd x) = Ok (span_of x) ∧ ∀ t, t ∈ span_of x ↔ ∃ s i w, segment s ∧ within d s x ∧ words s !! i = Some w ∧ t = token_node "rst" s i.
  Proof.
    intros Hx. destruct (element_span "rst" d HO HPl g x HH (rt_acyclic _ HT) Hx) as (l & Hl & _ & HS). unfold span_of. rewrite (Hl fuel Hfuel). done.
  Qed.
  (** ** The edges of an element *)
  Definition link_attrs (y : xelem) : attrs :=
    [("rst" +:+ ":rel_name", VStr (relation_of y)); ("rst" +:+ ":rel_type", VStr (declared d (relation_of y))); ("label", VStr ("rst" +:+ ":" +:+ relation_of y));
     ("edge_type", VStr (if decide (link_of d y = Plain) then "spans" else "dominates"))].
  Definition kid_edge (y : xelem) (p : nid * attrs) : Prop := p.1 = nd y ∧ attrs_are p.2 ["rst"] (link_attrs y).
  Lemma kid_layer m : (∃ x, x ∈ els ∧ m ∈ successors g (nd x) ∧ ∃ a, node_attrs g m = Some a ∧ layer_ok a (LMany ["rst:segment"; "rst:group"])) → ∃ y, y ∈ els ∧ m = nd y.
  Proof.
    intros (x & _ & _ & a & Ha & l & Hl & HL). pose proof (h_nodes _ _ _ HH) as [HN HF]. assert (Hm : m ∈ nodes g) by (apply node_mem; by exists a). rewrite HN in Hm.
    apply elem_of_list_fmap in Hm as (z & -> & Hz). rewrite Forall_forall in HF. destruct (HF z Hz) as (a' & Ha' & HA & _). assert (a' = a) as -> by congruence. apply HA in HL.
    unfold rs3_nodes in Hz. rewrite !elem_of_app in Hz. destruct Hz as [H|[H|[H|H]]].
    - destruct (decide _); [by apply elem_of_nil in H|]. apply elem_of_list_singleton in H as ->. apply elem_of_list_singleton in HL as ->. exfalso. revert Hl. apply (bool_decide_unpack _). vm_compute. exact I.
    - apply elem_of_list_fmap in H as (y & -> & Hy). by exists y.
    - apply elem_of_list_fmap in H as (i & -> & Hi). apply elem_of_list_singleton in HL as ->. exfalso. revert Hl. apply (bool_decide_unpack _). vm_compute. exact I.
    - apply elem_of_list_fmap in H as (i & -> & Hi). exfalso. cbn [rs3_token_info fst snd] in HL. repeat (apply elem_of_cons in HL as [->|HL]; [revert Hl; apply (bool_decide_unpack _); vm_compute; exact I|]). by apply elem_of_nil in HL.
  Qed.
  Lemma kids_listed x : x ∈ els → ∃ ms ks, select_neighbors_by_layer g (nd x) (LMany ["rst:segment"; "rst:group"]) = Ok ms ∧
    ks ≡ₚ kids_in els (el_id x) ∧
    Forall2 kid_edge ks (m ← ms; (λ p : nid * attrs, (m, p.2)) <$> default [] (dget m (default [] (dget (nd x) (g_succ g))))).
  Proof.
    intros Hx. destruct (holds_built "rst" d g HH) as (N & HN & HB). pose proof (h_cons _ _ _ HH) as C. assert (L : Layered g) by apply HB.
    destruct (neighbors_by_layer_ok g (nd x) (LMany ["rst:segment"; "rst:group"]) C L (holds_in "rst" d g x HH Hx)) as (ms & Hms & Hsub & Hel); [done|].
    set (R4 := m ← ms; (λ p : nid * attrs, (nd x, m, p.1, p.2)) <$> default [] (dget m (default [] (dget (nd x) (g_succ g))))).
    assert (HR : (m ← ms; (λ p : nid * attrs, (m, p.2)) <$> default [] (dget m (default [] (dget (nd x) (g_succ g))))) = (λ e : nid * nid * nid * attrs, (e.1.1.2, e.2)) <$> R4).
    { unfold R4. clear. induction ms as [|m ms IH]; [done|]. cbn [mbind list_bind]. rewrite fmap_app. f_equal; [|exact IH]. rewrite <-list_fmap_compose. done. }
    assert (HD : NoDup (successors g (nd x))).
    { unfold successors. destruct (dget (nd x) (g_succ g)) as [nb|] eqn:En; [|by apply NoDup_nil_2]. cbn [default]. unfold id. by destruct (c_adj g C _ _ En) as [H1 _]. }
    assert (HR4 : ∀ e, e ∈ R4 ↔ e ∈ edges g ∧ e.1.1.1 = nd x ∧ e.1.1.2 ∈ ms).
    { intros [[[u v] k] a]. rewrite elem_edges by done. cbn [fst snd]. unfold R4. rewrite elem_of_list_bind. split.
      - intros (m & Hm & Hin). apply elem_of_list_fmap in Hm as ([k' a'] & [= -> -> -> ->] & Hm). split; [|done]. unfold edge_attrs. apply elem_dget; [by apply keydict_NoDup|]. exact Hm.
      - intros (Ha & -> & Hm). exists v. split; [|done]. apply elem_of_list_fmap. exists (k, a). split; [done|]. unfold edge_attrs in Ha. apply dget_Some_elem in Ha. exact Ha. }
    assert (HND : NoDup R4).
    { unfold R4. apply NoDup_bind; [by eapply NoDup_sub|..].
      - intros m _. apply NoDup_fmap_2; [intros [? ?] [? ?] [= -> ->]; done|]. eapply (NoDup_fmap_1 fst). exact (keydict_NoDup g (nd x) m C).
      - intros m m' z _ _ (? & -> & _)%elem_of_list_fmap (? & [= <- _ _] & _)%elem_of_list_fmap. done. }
    set (P := λ e : nid * nid * nid * attrs, e.1.1.1 = nd x ∧ e.1.1.2 ∈ ms).
    assert (HP4 : R4 ≡ₚ filter P (edges g)).
    { apply NoDup_Permutation; [done|by apply NoDup_filter, NoDup_edges|]. intros e. rewrite HR4, elem_of_list_filter. unfold P. tauto. }
    destruct (h_edges _ _ _ HH) as (es & HPe & HE).
    assert (HF2 : Forall2 edge_is (filter P es) (filter (λ e : edge_info, e.1.1.1 = nd x ∧ e.1.1.2 ∈ ms) (rs3_edges "rst" true false d))).
    { apply filter_Forall2; [done|]. intros e e' (E1 & E2 & _). unfold P. by rewrite E1, E2. }
    assert (HP5 : filter P es ≡ₚ R4) by (by rewrite HP4, HPe).
    destruct (Permutation.Permutation_Forall2 HP5 HF2) as (E' & HE' & HF3).
    assert (Hms_kid : ∀ y, y ∈ els → el_parent y = Some (el_id x) → nd y ∈ ms).
    { intros y Hy Hp. apply Hel. split.
      - assert (Hc : covers g (nd x) (nd y)) by (apply (holds_covers "rst" d HO HPl g _ _ HH); left; by exists y, (el_id x)). destruct Hc as (_ & k & a & Ha & _). by eapply succ_edge.
      - pose proof (h_nodes _ _ _ HH) as [_ HF]. rewrite Forall_forall in HF.
        destruct (HF (desc_info "rst" (nd y) (element_desc "rst" d els y))) as (a & Ha & HA & _).
        { unfold rs3_nodes. rewrite !elem_of_app. right. left. by apply (elem_of_list_fmap_1 (λ x, desc_info "rst" (nd x) (element_desc "rst" d els x))). }
        exists a. split; [exact Ha|]. cbn [layer_ok]. exists ("rst:" +:+ layer_of y). split.
        + unfold layer_of. assert (Ht : ¬ top y) by (intros [_ Ht]; congruence). destruct (decide (segment y)); [left|]. rewrite decide_False by done. right. left.
        + apply HA. right. left. }
    assert (HK : filter (λ e : edge_info, e.1.1.1 = nd x ∧ e.1.1.2 ∈ ms) (rs3_edges "rst" true false d) = (λ y, (nd x, nd y, ["rst"], link_attrs y)) <$> kids_in els (el_id x)).
    { unfold rs3_edges. rewrite app_nil_r, filter_app.
      assert (H2 : filter (λ e : edge_info, e.1.1.1 = nd x ∧ e.1.1.2 ∈ ms) (token_edges_of "rst" d) = []).
      { apply filter_none, Forall_forall. intros e He [_ Hm]. apply elem_of_list_bind in He as (s & He & Hs). apply elem_of_list_fmap in He as (t & -> & Ht). unfold segment_tokens in Ht. apply elem_of_lookup_imap in Ht as (i & w & -> & _).
        cbn [fst snd] in Hm. apply Hel in Hm. destruct (kid_layer (token_node "rst" s i)) as (y & Hy & E); [by exists x|]. symmetry in E. by apply (token_not_node "rst" d HPl i s y) in E. }
      rewrite H2, app_nil_r. unfold link_edges. assert (Hsubl : ∀ y, y ∈ els → y ∈ els) by done. revert Hsubl. generalize els at 1 3 4 as l. clear H2.
      induction l as [|y l IH]; intros Hl; [done|]. cbn [mbind list_bind]. rewrite filter_app, IH by (intros z Hz; apply Hl; by right). unfold kids_in. rewrite filter_cons.
      assert (Hy : y ∈ els) by (apply Hl; left). unfold link_edge at 1. destruct (el_parent y) as [p|] eqn:Ep; [|rewrite decide_False by done; done].
      destruct (decide (Some p = Some (el_id x))) as [[= ->]|Hne].
      - rewrite filter_cons_True; [done|]. cbn [fst snd]. split; [done|]. by apply Hms_kid.
      - rewrite filter_cons_False; [done|]. cbn [fst snd]. intros [E _]. apply named_inj in E. congruence. }
    rewrite HK in HE'. symmetry in HE'. apply (Permutation_map_inv (λ y, (nd x, nd y, ["rst"], link_attrs y))) in HE' as (ks & -> & Hks).
    exists ms, ks. split; [done|]. split; [by symmetry|]. rewrite HR. apply Forall2_fmap_r. apply Forall2_flip in HF3. change (map ?f ks) with (f <$> ks) in HF3. rewrite Forall2_fmap_l in HF3.
    eapply Forall2_impl; [exact HF3|]. intros y e. unfold compose, flip, edge_is. cbn [fst snd]. intros (_ & E2 & E3). split; [done|exact E3].
  Qed.
  (** ** An element with its relations *)
  Definition triple (y : xelem) : nid * pyval * list nid := (nd y, VStr (relation_of y), span_of y).
  Definition rel_of (ts : list nid) (ks : list xelem) : rst_rel :=
    RstRel ts ((λ y, (nd y, span_of y)) <$> last (filter (λ y, link_of d y = Plain) ks)) (triple <$> filter (λ y, link_of d y = Satellite) ks) (triple <$> filter (λ y, link_of d y = Nucleus) ks).
  Lemma edge_step ts P y p : y ∈ els → kid_edge y p → rst_edge fuel g p.1 (rel_of ts P) p.2 = Ok (rel_of ts (P ++ [y])).
  Proof.
    intros Hy [Hp [_ HK]]. unfold rst_edge. rewrite Hp.
    assert (H1 : dget "edge_type" p.2 = Some (VStr (if decide (link_of d y = Plain) then "spans" else "dominates"))) by (rewrite HK by done; reflexivity).
    assert (H2 : dget "rst:rel_type" p.2 = Some (VStr (declared d (relation_of y)))) by (rewrite HK by done; reflexivity).
    assert (H3 : dget "rst:rel_name" p.2 = Some (VStr (relation_of y))) by (rewrite HK by done; reflexivity).
    rewrite H1, H2, H3, (proj1 (span_known y Hy)). cbn [of_option rbind]. unfold rel_of. rewrite !filter_app, !fmap_app.
    assert (Hf : ∀ k, filter (λ z, link_of d z = k) [y] = if decide (link_of d y = k) then [y] else []) by (intros k; rewrite filter_cons, filter_nil; done). rewrite !Hf.
    destruct (link_of d y) eqn:El; cbn [rr_tokens rr_nucleus rr_satellites rr_multinuc].
    - assert (Hd : declared d (relation_of y) = "rst") by (unfold link_of in El; repeat case_decide; done). rewrite Hd.
      rewrite !(decide_False (P := Satellite = Plain)), (decide_False (P := Satellite = Nucleus)), (decide_True (P := Satellite = Satellite)) by done. cbn. rewrite !app_nil_r. done.
    - assert (Hd : declared d (relation_of y) = "multinuc") by (unfold link_of in El; repeat case_decide; done). rewrite Hd.
      rewrite !(decide_False (P := Nucleus = Plain)), (decide_False (P := Nucleus = Satellite)), (decide_True (P := Nucleus = Nucleus)) by done. cbn. rewrite !app_nil_r. done.
    - rewrite !(decide_True (P := Plain = Plain)), (decide_False (P := Plain = Satellite)), (decide_False (P := Plain = Nucleus)) by done. cbn. rewrite !app_nil_r, last_snoc. done.
  Qed.
  Lemma node_entry x : x ∈ els → ∃ ks ts, ks ≡ₚ kids_in els (el_id x) ∧
    (∀ t, t ∈ ts ↔ ∃ i w, segment x ∧ words x !! i = Some w ∧ t = token_node "rst" x i) ∧
    ∃ o, rst_node fuel g (nd x) = Ok o ∧ (o = Some (rel_of ts ks) ∨ o = None ∧ rel_of ts ks = RstRel [] None [] []).
  Proof.
    intros Hx. destruct (kids_listed x Hx) as (ms & ks & Hms & Hks & HF). unfold rst_node. rewrite Hms. cbn [rbind].
    assert (HI : ∀ m, m ∈ successors g (nd x) → m ∈ nodes g).
    { intros m Hm. pose proof (c_sp _ (h_cons _ _ _ HH) (nd x) m) as Hsp. apply Hsp in Hm. rewrite <-(c_pred_dom _ (h_cons _ _ _ HH)). apply dget_is_Some. unfold predecessors in Hm. destruct (dget m (g_pred g)); [by eexists|]. by apply elem_of_nil in Hm. }
    pose proof (rfilter_total (istoken g) (successors g (nd x)) (proj2 (Forall_forall _ _) (λ m Hm, istoken_total g m (HI m Hm)))) as Hts.
    set (ts := filter (λ x, istoken g x = Ok true) (successors g (nd x))) in Hts. rewrite Hts. cbn [rbind].
    exists ks, (nat_sorted ts). split; [done|]. split.
    - intros t. rewrite (nat_sorted_perm ts). unfold ts. rewrite elem_of_list_filter. split.
      + intros [H1 H2]. apply istoken_Ok in H1 as [_ H1]. pose proof (proj1 H1 eq_refl) as Ht. apply (holds_token "rst" d g t HH) in Ht. change (doc_tokens "rst" d) with (toks_of "rst" (segments d)) in Ht. apply toks_ids in Ht as (s & i & Hs & ->).
        apply (succ_has_edge g _ _ (h_cons _ _ _ HH)) in H2 as (k & a & Ha).
        assert (Hc : covers g (nd x) (token_node "rst" s i)).
        { split; [by apply (token_not_node "rst" d HPl)|]. exists k, a. split; [done|]. destruct (holds_built "rst" d g HH) as (N & _ & HB). destruct (h_edges _ _ _ HH) as (es & HPe & HE).
          assert (Hin : (nd x, token_node "rst" s i, k, a) ∈ edges g) by (apply elem_edges; [apply HH|exact Ha]). rewrite HPe in Hin. apply elem_of_list_lookup in Hin as (j & Hj).
          destruct (Forall2_lookup_l _ _ _ _ _ HE Hj) as (e & He & (_ & _ & _ & HK)). cbn [snd] in HK. rewrite HK by done. apply elem_of_list_lookup_2 in He. pose proof (edge_typed "rst" d) as HTy. rewrite Forall_forall in HTy.
          destruct (HTy e He) as (t & -> & Hor). intros [= ->]. by destruct Hor. }
        apply (holds_covers "rst" d HO HPl g _ _ HH) in Hc as [(y & p & Hy & Hp & _ & E)|(y & j & w & Hy & Hseg & Hw & E1 & E2)].
        * symmetry in E. by apply (token_not_node "rst" d HPl) in E.
        * apply (node_inj "rst" d HO) in E1; [|done..]. subst y. by exists j, w.
      + intros (i & w & Hs & Hw & ->). assert (Hc : covers g (nd x) (token_node "rst" x i)) by (apply (holds_covers "rst" d HO HPl g _ _ HH); right; by exists x, i, w).
        destruct Hc as (_ & k & a & Ha & _). assert (Hsucc : token_node "rst" x i ∈ successors g (nd x)) by (by eapply succ_edge). split; [|done].
        destruct (istoken_total g (token_node "rst" x i)) as [b Hb]; [by apply HI|]. rewrite Hb. f_equal. apply istoken_Ok in Hb as [_ Hb]. apply Hb.
        apply (holds_token "rst" d g _ HH). apply elem_of_list_fmap. exists (token_node "rst" x i, w). split; [done|]. apply elem_of_list_bind. exists x. split; [apply elem_of_lookup_imap; by exists i, w|].
        apply elem_of_list_filter. split; [done|]. by apply (el_in d).
    - change (RstRel (nat_sorted ts) None [] []) with (rel_of (nat_sorted ts) []).
      rewrite (rfold_all (λ r (p : nid * attrs), rst_edge fuel g p.1 r p.2) (λ y p, y ∈ els ∧ kid_edge y p) (rel_of (nat_sorted ts)) ks).
      + cbn [rbind app]. eexists. split; [reflexivity|]. destruct (rel_of (nat_sorted ts) ks) as [[|] [|] [|] [|]]; first [left; reflexivity|right; split; reflexivity].
      + intros P y b [Hy Hk]. by apply edge_step.
      + apply Forall2_same_length_lookup_2; [by eapply Forall2_length|]. intros i y b Hi Hb. split; [|by eapply Forall2_lookup_lr].
        apply elem_of_list_lookup_2 in Hi. rewrite Hks in Hi. by apply elem_of_list_filter in Hi as [_ ?].
  Qed.
End Rel.
