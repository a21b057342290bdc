(** * Rs3Span: the tokens of an element *)
From Verif Require Import PyBase DocGraph Relabel StrNum Query Text Rst Nltk Parsers Anaphora Conano Decour Ptb Convert Tiger Rs3Graph.
From Verif Require Import SpecGraph DocGraphFacts History Effects RelabelFacts GraphThms SpecImport ImportFacts TextFacts AnaphoraFacts SpecQuery SpanFacts TigerSpan SpecRs3Graph Rs3Facts Rs3Read Rs3Doc.

(** a graph with the nodes and edges of the file, in any order *)
Record holds (ns : string) (d : rs3doc) (g : graph) : Prop := {
  h_cons : Consistent g;
  h_nodes : has_node_set g (rs3_nodes ns true d);
  h_edges : has_edges g (rs3_edges ns true false d);
  h_ns : g_ns g = ns;
  h_tokens : g_tokens g = (doc_tokens ns d).*1;
}.
Lemma attrs_layered a x l b : attrs_are a (x :: l) b → ∃ L, dget "layers" a = Some (VSet L).
Proof. intros [H _]. destruct (proj2 (H x)) as (L & HL & _); [left|]. by exists L. Qed.
Lemma edge_type_ne ns k : "edge_type" ≠ ns +:+ String ":" k.
Proof.
  intros E. apply (f_equal chs) in E. rewrite chs_app in E. assert (H : ":"%char ∈ chs "edge_type") by (rewrite E, elem_of_app; right; cbn; left).
  revert H. apply (bool_decide_unpack _). vm_compute. exact I.
Qed.
Section Span.
  Context (ns : string) (d : rs3doc).
  Local Notation els := (elements_of d).
  Lemma node_layered x : x ∈ rs3_nodes ns true d → ∃ y l, x.1.2 = y :: l.
  Proof.
    unfold rs3_nodes. rewrite !elem_of_app. intros [H|[H|[H|H]]].
    - destruct (decide _); [by apply elem_of_nil in H|]. apply elem_of_list_singleton in H as ->. by eexists _, _.
    - apply elem_of_list_fmap in H as (y & -> & _). by eexists _, _.
    - apply elem_of_list_fmap in H as (y & -> & _). by eexists _, _.
    - apply elem_of_list_fmap in H as (y & -> & _). by eexists _, _.
  Qed.
  (** the edges *)
  Definition is_link (u v : nid) : Prop := ∃ y p, y ∈ els ∧ el_parent y = Some p ∧ u = node_named ns p ∧ v = node_of_el ns y.
  Definition is_word_of (u v : nid) : Prop := ∃ s i w, s ∈ els ∧ segment s ∧ words s !! i = Some w ∧ u = node_of_el ns s ∧ v = token_node ns s i.
  Lemma edge_cases e : e ∈ rs3_edges ns true false d → (∃ y, y ∈ els ∧ e ∈ link_edge ns d y) ∨
    (∃ s i w, s ∈ segments d ∧ words s !! i = Some w ∧ e = (node_of_el ns s, token_node ns s i, ["rst"; "rst:token"], [("edge_type", VStr "spans")])).
  Proof.
    unfold rs3_edges. rewrite app_nil_r, elem_of_app. intros [H|H].
    - left. apply elem_of_list_bind in H as (y & H1 & H2). by exists y.
    - right. apply elem_of_list_bind in H as (s & H1 & H2). apply elem_of_list_fmap in H1 as (t & -> & Ht). unfold segment_tokens in Ht. apply elem_of_lookup_imap in Ht as (i & w & -> & Hw). by exists s, i, w.
  Qed.
  Lemma edge_typed : Forall (λ e : edge_info, ∃ t, dget "edge_type" e.2 = Some (VStr t) ∧ (t = "spans" ∨ t = "dominates")) (rs3_edges ns true false d).
  Proof.
    apply Forall_forall. intros e [(y & Hy & He)|(s & i & w & _ & _ & ->)]%edge_cases.
    - unfold link_edge in He. destruct (el_parent y); [|by apply elem_of_nil in He]. apply elem_of_list_singleton in He as ->. cbn [snd].
      eexists. split.
      + pose proof (edge_type_ne ns "rel_name"). pose proof (edge_type_ne ns "rel_type"). cbn. rewrite !decide_False by done. reflexivity.
      + destruct (decide _); [by left|by right].
    - exists "spans". split; [done|by left].
  Qed.
  Lemma holds_built g : holds ns d g → ∃ N, N ≡ₚ rs3_nodes ns true d ∧ built g N (rs3_edges ns true false d).
  Proof.
    intros [C [HN HF] HE _ _]. apply (Permutation_map_inv (λ x : node_info, x.1.1)) in HN as (N & E & HP). exists N. split; [done|]. split; [|split; [done|by rewrite <-HP]|done]. split; [done|]. split.
    - intros n a Ha. assert (Hn : n ∈ nodes g) by (apply node_mem; by exists a). rewrite E in Hn. apply elem_of_list_In, in_map_iff in Hn as (x & <- & Hx%elem_of_list_In). rewrite <-HP in Hx.
      rewrite Forall_forall in HF. destruct (HF x Hx) as (a' & Ha' & HA). destruct (node_layered x Hx) as (y & l & Hl). rewrite Hl in HA. assert (a' = a) as -> by congruence. by eapply attrs_layered.
    - intros u v k a Ha. destruct HE as (es & HPe & HE). assert (Hin : (u, v, k, a) ∈ edges g) by (by apply elem_edges). rewrite HPe in Hin. apply elem_of_list_lookup in Hin as (j & Hj).
      destruct (Forall2_lookup_l _ _ _ _ _ HE Hj) as (e & He & (_ & _ & HA)). cbn [snd] in HA. apply elem_of_list_lookup_2 in He. apply edge_cases in He as [(y & _ & He)|(s & i & w & _ & _ & ->)].
      + unfold link_edge in He. destruct (el_parent y); [|by apply elem_of_nil in He]. apply elem_of_list_singleton in He as ->. cbn [fst snd] in HA. eapply attrs_layered. exact HA.
      + cbn [fst snd] in HA. eapply attrs_layered. exact HA.
  Qed.
  Context (HO : rs3_ok d) (HPl : plain_ids d).
  Lemma el_in x : x ∈ els ↔ x ∈ d_body d.
  Proof. by rewrite (elements_perm d). Qed.
  Lemma el_inj x y : x ∈ els → y ∈ els → el_id x = el_id y → x = y.
  Proof.
    intros Hx Hy E. pose proof (ro_ids _ HO) as HD. rewrite <-(elements_perm d) in HD. apply elem_of_list_lookup in Hx as [a Ha], Hy as [b Hb].
    assert (a = b); [|congruence]. apply (NoDup_lookup _ a b (el_id x) HD); rewrite list_lookup_fmap; [by rewrite Ha|]. rewrite Hb. cbn. by rewrite E.
  Qed.
  Lemma node_inj x y : x ∈ els → y ∈ els → node_of_el ns x = node_of_el ns y → x = y.
  Proof. intros Hx Hy E%named_inj. by apply el_inj. Qed.
  Lemma token_not_node i s x : x ∈ els → node_of_el ns x ≠ token_node ns s i.
  Proof.
    intros Hx E. change (token_node ns s i) with (node_named ns (ns +:+ ":" +:+ el_id s +:+ "_" +:+ str_Z (Z.of_nat i))) in E. apply named_inj in E.
    unfold plain_ids in HPl. rewrite <-(elements_perm d), Forall_forall in HPl. apply (HPl x Hx). rewrite E. apply token_colon.
  Qed.
  Lemma token_not_parent i s x p : x ∈ els → el_parent x = Some p → node_named ns p ≠ token_node ns s i.
  Proof.
    intros Hx Hp E. change (token_node ns s i) with (node_named ns (ns +:+ ":" +:+ el_id s +:+ "_" +:+ str_Z (Z.of_nat i))) in E. apply named_inj in E.
    unfold plain_ids in HPl. rewrite <-(elements_perm d), Forall_forall in HPl. apply (proj2 (HPl x Hx) p Hp). rewrite E. apply token_colon.
  Qed.
  Lemma holds_covers g u v : holds ns d g → covers g u v ↔ is_link u v ∨ is_word_of u v.
  Proof.
    intros HH. destruct (holds_built g HH) as (N & _ & HB). rewrite (built_covers _ _ _ u v HB). split.
    - intros (_ & e & He & <- & <- & _). apply edge_cases in He as [(y & Hy & He)|(s & i & w & Hs & Hw & ->)].
      + unfold link_edge in He. destruct (el_parent y) as [p|] eqn:Ep; [|by apply elem_of_nil in He]. apply elem_of_list_singleton in He as ->. left. by exists y, p.
      + right. cbn [fst]. exists s, i, w. split; [apply elem_of_app; by left|]. split; [by apply elem_of_list_filter in Hs as [? _]|done].
    - assert (HT : ∀ e, e ∈ rs3_edges ns true false d → non_pointing e).
      { intros e He. pose proof edge_typed as HT. rewrite Forall_forall in HT. destruct (HT e He) as (t & Ht & Hor). unfold non_pointing. rewrite Ht. intros [= ->]. by destruct Hor. }
      intros [(y & p & Hy & Hp & -> & ->)|(s & i & w & Hs & Hseg & Hw & -> & ->)].
      + split; [intros E%named_inj; pose proof (ro_self _ HO) as HS; rewrite <-(elements_perm d), Forall_forall in HS; apply (HS y Hy); congruence|].
        assert (He : ∀ e, e ∈ link_edge ns d y → e ∈ rs3_edges ns true false d) by (intros e He; apply elem_of_app; left; apply elem_of_list_bind; by exists y).
        unfold link_edge in He. rewrite Hp in He. eexists. split; [apply He; left|]. split; [done|]. split; [done|]. apply HT, He. left.
      + split; [by apply token_not_node|]. assert (He : (node_of_el ns s, token_node ns s i, ["rst"; "rst:token"], [("edge_type", VStr "spans")]) ∈ rs3_edges ns true false d).
        { unfold rs3_edges. rewrite app_nil_r. apply elem_of_app. right. apply elem_of_list_bind. exists s. unfold elements_of in Hs. apply elem_of_app in Hs as [Hs|Hs]; [|apply elem_of_list_filter in Hs as [Hs _]; done].
          split; [|done]. apply elem_of_list_fmap. exists (token_node ns s i, w). split; [done|]. unfold segment_tokens. apply elem_of_lookup_imap. by exists i, w. }
        eexists. split; [exact He|]. split; [done|]. split; [done|]. by apply HT.
  Qed.
  Lemma no_way_on s i v : ¬ (is_link (token_node ns s i) v ∨ is_word_of (token_node ns s i) v).
  Proof.
    intros [(y & p & Hy & Hp & E & _)|(y & j & w & Hy & _ & _ & E & _)]; symmetry in E.
    - by apply (token_not_parent i s y p) in E.
    - by apply (token_not_node i s y) in E.
  Qed.
  Lemma below_iff g x v : holds ns d g → x ∈ els →
    below g (node_of_el ns x) v ↔ ∃ y, within d y x ∧ (v = node_of_el ns y ∨ ∃ i w, segment y ∧ words y !! i = Some w ∧ v = token_node ns y i).
  Proof.
    intros HH Hx. unfold below, within. split.
    - intros H. revert v H. refine (rtc_ind_r _ _ _ _).
      + exists x. split; [done|by left].
      + intros v w _ Hc (y & Hy & [->|(i & q & _ & _ & ->)]); apply (holds_covers g) in Hc; [|done| |done].
        * assert (Hyx : y ∈ els). { inversion Hy as [|? ? ? [H1 [H2 _]] _]; subst; [done|]. by apply el_in. }
          destruct Hc as [(z & p & Hz & Hp & E1 & ->)|(z & j & q & Hz & Hs & Hq & E1 & ->)].
          -- apply named_inj in E1. subst p. exists z. split; [|by left]. eapply rtc_l; [|exact Hy]. split; [by apply el_in|]. split; [by apply el_in|done].
          -- apply node_inj in E1; [|done..]. subst z. exists y. split; [done|]. right. by exists j, q.
        * by apply no_way_on in Hc.
    - assert (HB : ∀ y, within d y x → rtc (covers g) (node_of_el ns x) (node_of_el ns y)).
      { unfold within. intros y H. induction H as [y|y z x [H1 [H2 H3]] _ IH]; [done|]. eapply rtc_r; [by apply IH|]. apply (holds_covers g); [done|]. left. exists y, (el_id z). split; [by apply el_in|done]. }
      intros (y & Hy & [->|(i & w & Hs & Hw & ->)]); [by apply HB|]. eapply rtc_r; [by apply HB|]. apply (holds_covers g); [done|]. right.
      exists y, i, w. split; [|done]. inversion Hy as [|? ? ? [H1 [H2 _]] _]; subst; [done|]. by apply el_in.
  Qed.
  Lemma tc_attached g u v : holds ns d g → tc (covers g) u v → ∀ x z, x ∈ els → z ∈ els → v = node_of_el ns x → u = node_of_el ns z → tc (attached_to d) x z.
  Proof.
    intros HH H. induction H as [u v H|u w v H H' IH]; intros x z Hx Hz Ev Eu; subst; apply (holds_covers g) in H; [|done| |done].
    - destruct H as [(y & p & Hy & Hp & E1 & E2)|(y & j & q & Hy & Hs & Hq & E1 & E2)].
      + apply named_inj in E1. apply node_inj in E2; [|done..]. subst. apply tc_once. split; [by apply el_in|]. split; [by apply el_in|done].
      + by apply token_not_node in E2.
    - destruct H as [(y & p & Hy & Hp & E1 & ->)|(y & j & q & Hy & Hs & Hq & E1 & ->)].
      + apply named_inj in E1. subst p. eapply tc_r; [by apply (IH x y)|]. split; [by apply el_in|]. split; [by apply el_in|done].
      + exfalso. inversion H' as [? ? H1|? ? ? H1 _]; subst; apply (holds_covers g) in H1; try done; by apply no_way_on in H1.
  Qed.
  Lemma holds_acyclic g : holds ns d g → (∀ x, ¬ tc (attached_to d) x x) → acyclic (covers g).
  Proof.
    intros HH HA u Hu. assert (Hin : ∀ a b, tc (covers g) a b → ∃ w, covers g w b) by (induction 1 as [a b Hab|a b c _ _ IH]; [by exists a|done]).
    destruct (Hin _ _ Hu) as (w & Hw). apply (holds_covers g) in Hw; [|done]. destruct Hw as [(y & p & Hy & Hp & E1 & ->)|(y & j & q & Hy & Hs & Hq & E1 & ->)].
    - apply (HA y). by eapply tc_attached.
    - inversion Hu as [? ? H1|? ? ? H1 _]; subst; apply (holds_covers g) in H1; try done; by apply no_way_on in H1.
  Qed.
  Lemma holds_token g t : holds ns d g → is_token g t ↔ t ∈ (doc_tokens ns d).*1.
  Proof.
    intros HH. pose proof HH as [C [HN HF] _ Hns _]. rewrite Forall_forall in HF. unfold is_token. rewrite Hns. split.
    - intros (a & Ha & Ht). assert (Hin : t ∈ nodes g) by (apply node_mem; by exists a). rewrite HN in Hin. apply elem_of_list_fmap in Hin as (x & -> & Hx).
      destruct (HF x Hx) as (a' & Ha' & _ & HK). assert (a' = a) as -> by congruence. rewrite HK in Ht by apply key_layers.
      assert (Hnone : ∀ n D, dget (ns +:+ ":token") (desc_info ns n D).2 = None).
      { intros n D. unfold desc_info. cbn [snd]. rewrite dget_desc. pose proof (label_ne ns "token"). pose proof (key_ne' ns ":token" ":text" ltac:(done)). pose proof (key_ne' ns ":token" ":group_type" ltac:(done)).
        pose proof (key_ne' ns ":token" ":segment_type" ltac:(done)). pose proof (key_ne' ns ":token" ":rel_name" ltac:(done)). repeat case_decide; congruence. }
      unfold rs3_nodes in Hx. rewrite !elem_of_app in Hx. destruct Hx as [H|[H|[H|H]]].
      + destruct (decide _); [by apply elem_of_nil in H|]. apply elem_of_list_singleton in H as ->. by destruct Ht.
      + apply elem_of_list_fmap in H as (y & -> & _). rewrite Hnone in Ht. by destruct Ht.
      + apply elem_of_list_fmap in H as (y & -> & _). rewrite Hnone in Ht. by destruct Ht.
      + apply elem_of_list_fmap in H as (y & -> & Hy). cbn [rs3_token_info fst]. by apply elem_of_list_fmap_1.
    - intros (q & -> & Hq)%elem_of_list_fmap. assert (Hx : rs3_token_info ns q ∈ rs3_nodes ns true d).
      { unfold rs3_nodes. rewrite !elem_of_app. right. right. right. by apply elem_of_list_fmap_1. }
      destruct (HF _ Hx) as (a & Ha & _ & HK). exists a. split; [exact Ha|]. rewrite HK by apply key_layers. cbn. rewrite decide_True by done. by eexists.
  Qed.
  Lemma holds_in g x : holds ns d g → x ∈ els → node_of_el ns x ∈ nodes g.
  Proof.
    intros [C [HN HF] _ _ _] Hx. rewrite HN. apply elem_of_list_fmap. exists (desc_info ns (node_of_el ns x) (element_desc ns d els x)). split; [done|].
    unfold rs3_nodes. rewrite !elem_of_app. right. left. by apply (elem_of_list_fmap_1 (λ x, desc_info ns (node_of_el ns x) (element_desc ns d els x))).
  Qed.
  Lemma targets_NoDup : NoDup ((λ e : edge_info, e.1.1.2) <$> rs3_edges ns true false d).
  Proof.
    pose proof (ro_ids _ HO) as HD. rewrite <-(elements_perm d) in HD.
    assert (HS : NoDup (el_id <$> segments d)) by (unfold elements_of in HD; rewrite fmap_app in HD; by apply NoDup_app in HD as (? & _)).
    unfold rs3_edges. rewrite app_nil_r, fmap_app. apply NoDup_app. split; [|split].
    - unfold link_edges. revert HD. generalize els as l. induction l as [|x l IH]; intros HD; [by apply NoDup_nil|]. rewrite fmap_cons in HD. apply NoDup_cons in HD as [Hx HD]. cbn [mbind list_bind]. rewrite fmap_app.
      unfold link_edge at 1. destruct (el_parent x) as [p|]; [|by apply IH]. cbn [fmap list_fmap app fst snd]. apply NoDup_cons. split; [|by apply IH].
      intros (e & E & He)%elem_of_list_fmap. apply elem_of_list_bind in He as (y & He & Hy). unfold link_edge in He. destruct (el_parent y); [|by apply elem_of_nil in He]. apply elem_of_list_singleton in He as ->.
      cbn [fst snd] in E. apply named_inj in E. apply Hx. rewrite E. by apply elem_of_list_fmap_1.
    - intros n H1 H2. apply elem_of_list_fmap in H1 as (e & -> & H1), H2 as (e' & E & H2). apply elem_of_list_bind in H1 as (y & H1 & Hy). unfold link_edge in H1. destruct (el_parent y) as [pp|]; [|by apply elem_of_nil in H1]. apply elem_of_list_singleton in H1 as ->.
      apply elem_of_list_bind in H2 as (s & H2 & Hs). apply elem_of_list_fmap in H2 as (t & -> & Ht). unfold segment_tokens in Ht. apply elem_of_lookup_imap in Ht as (i & w & -> & Hw). cbn [fst snd] in E. by apply token_not_node in E.
    - enough (E : (λ e : edge_info, e.1.1.2) <$> token_edges_of ns d = (toks_of ns (segments d)).*1) by (rewrite E; by apply toks_NoDup).
      unfold token_edges_of, toks_of. clear. induction (segments d) as [|x l IH]; [done|]. cbn [mbind list_bind]. rewrite !fmap_app. f_equal; [|exact IH]. by rewrite <-list_fmap_compose.
  Qed.
  Lemma one_parent g u1 u2 v k1 a1 k2 a2 : holds ns d g → edge_attrs g u1 v k1 = Some a1 → edge_attrs g u2 v k2 = Some a2 → u1 = u2 ∧ k1 = k2.
  Proof.
    intros HH H1 H2. destruct (h_edges _ _ _ HH) as (es & HP & HE).
    assert (HD : NoDup ((λ e : nid * nid * nid * attrs, e.1.1.2) <$> edges g)).
    { rewrite HP. enough (E : (λ e : nid * nid * nid * attrs, e.1.1.2) <$> es = (λ e : edge_info, e.1.1.2) <$> rs3_edges ns true false d) by (rewrite E; apply targets_NoDup).
      clear -HE. induction HE as [|e e' es es' (_ & E & _) HE IH]; [done|]. rewrite !fmap_cons. by f_equal. }
    apply (elem_edges g _ _ _ _ (h_cons _ _ _ HH)) in H1, H2. apply elem_of_list_lookup in H1 as [i Hi], H2 as [j Hj].
    assert (i = j) as <-; [|rewrite Hi in Hj; by injection Hj]. apply (NoDup_lookup _ i j v HD); rewrite list_lookup_fmap; [by rewrite Hi|by rewrite Hj].
  Qed.
  Lemma span_once g k n l : holds ns d g → (∀ x, ¬ tc (attached_to d) x x) → get_span k g n = Ok l → NoDup l.
  Proof.
    intros HH HA. apply (get_span_NoDup g (h_cons _ _ _ HH) (holds_acyclic g HH HA)). intros u1 u2 v k1 a1 k2 a2 _ _ H1 _ H2 _. by eapply one_parent.
  Qed.
  Lemma element_span g x : holds ns d g → (∀ x, ¬ tc (attached_to d) x x) → x ∈ els →
    ∃ l, (∀ k, length (nodes g) < k → get_span k g (node_of_el ns x) = Ok l) ∧ sorted nat_cmp l ∧
      ∀ t, t ∈ l ↔ ∃ s i w, segment s ∧ within d s x ∧ words s !! i = Some w ∧ t = token_node ns s i.
  Proof.
    intros HH HA Hx. destruct (holds_built g HH) as (N & _ & HB). assert (HT : typed g).
    { eapply built_typed; [exact HB|]. eapply Forall_impl; [apply edge_typed|]. intros e (t & -> & _). by eexists. }
    destruct (get_span_total g (node_of_el ns x) (h_cons _ _ _ HH) HT (holds_acyclic g HH HA) (holds_in g x HH Hx)) as [l Hl].
    exists l. split; [done|]. specialize (Hl (S (length (nodes g))) ltac:(lia)). split; [by eapply get_span_sorted|].
    intros t. rewrite (get_span_elem g (h_cons _ _ _ HH) _ _ l Hl t), (holds_token g t HH), (below_iff g x t HH Hx). split.
    - intros (Ht & y & Hy & [->|(i & w & Hs & Hw & ->)]); [|by exists y, i, w].
      exfalso. assert (Hyx : y ∈ els). { inversion Hy as [|? ? ? [H1 [H2 _]] _]; subst; [done|]. by apply el_in. }
      change (doc_tokens ns d) with (toks_of ns (segments d)) in Ht. apply toks_ids in Ht as (z & i & _ & E). by apply token_not_node in E.
    - intros (s & i & w & Hs & Hw & Hq & ->). split; [|exists s; split; [done|]; right; by exists i, w].
      assert (Hsx : s ∈ els). { inversion Hw as [|? ? ? [H1 [H2 _]] _]; subst; [done|]. by apply el_in. }
      apply elem_of_list_fmap. exists (token_node ns s i, w). split; [done|]. apply elem_of_list_bind. exists s. split; [apply elem_of_lookup_imap; by exists i, w|].
      apply elem_of_list_filter. split; [done|]. by apply el_in.
  Qed.
End Span.
