(** * ConllReadSpan: dependencies in the graph of a CoNLL file *)
From stdpp Require Import sorting.
From Verif Require Import PyBase DocGraph Relabel StrNum NatSort Query Text Rst Nltk SpecGraph DocGraphFacts Effects RelabelFacts GraphThms SpecQuery SpanFacts SpecParse SpecImport ImportFacts SpecDecour DecourFacts SpecConll ConllRead SpecConllRead ConllReadText ConllReadFacts BracketFacts OutlineSpan SpecBrackets.

Lemma tc_last {A} (R : A → A → Prop) x y : tc R x y → ∃ z, rtc R x z ∧ R z y.
Proof. induction 1 as [x y H|x y z H _ (u & H1 & H2)]; [exists x; split; [apply rtc_refl|done]|]. exists u. split; [by eapply rtc_l|done]. Qed.
Lemma conll_edge_cases ns wss x : x ∈ conll_edges ns wss ↔ ∃ i ws, wss !! i = Some ws ∧ x ∈ sentence_edges ns (S i) ws.
Proof.
  unfold conll_edges. rewrite elem_concat. split.
  - intros (l & Hx & Hl). apply elem_of_lookup_imap in Hl as (i & ws & -> & Hi). by exists i, ws.
  - intros (i & ws & Hi & Hx). exists (sentence_edges ns (S i) ws). split; [done|]. apply elem_of_lookup_imap. by exists i, ws.
Qed.
Lemma conll_node_cases ns wss x : x ∈ conll_nodes ns wss ↔ x ∈ decour_base ns ∨ ∃ i ws, wss !! i = Some ws ∧ x ∈ sentence_nodes ns (S i) ws.
Proof.
  unfold conll_nodes. rewrite elem_of_app, elem_concat. split.
  - intros [H|(l & Hx & Hl)]; [by left|right]. apply elem_of_lookup_imap in Hl as (i & ws & -> & Hi). by exists i, ws.
  - intros [H|(i & ws & Hi & Hx)]; [by left|right]. exists (sentence_nodes ns (S i) ws). split; [done|]. apply elem_of_lookup_imap. by exists i, ws.
Qed.
Definition target (x : edge_info) : nid := x.1.1.2.
Lemma targets_snoc ns prev ws : target <$> conll_edges ns (prev ++ [ws]) = (target <$> conll_edges ns prev) ++ NStr (sent_id (S (length prev))) :: tok_ids (S (length prev)) ws.
Proof. rewrite conll_edges_snoc, fmap_app. f_equal. unfold sentence_edges. rewrite fmap_cons, <-list_fmap_compose. done. Qed.
Lemma targets_bound ns prev n : n ∈ target <$> conll_edges ns prev → ∃ j, j ≤ length prev ∧ (n = NStr (sent_id j) ∨ ∃ w, n = tok_id j w).
Proof.
  induction prev as [|ws prev IH] using rev_ind; [intros H; by apply elem_of_nil in H|]. rewrite targets_snoc, app_length, elem_of_app, elem_of_cons. intros [H|[H|H]].
  - destruct (IH H) as (j & Hj & ?). exists j. split; [cbn; lia|done].
  - exists (S (length prev)). split; [cbn; lia|by left].
  - exists (S (length prev)). split; [cbn; lia|right]. apply elem_of_list_fmap in H as (w & -> & _). by eexists.
Qed.
Lemma tok_ids_NoDup i ws : NoDup (w_id <$> ws) → NoDup (tok_ids i ws).
Proof.
  intros H. assert (E : tok_ids i ws = tok_id i <$> (w_id <$> ws)) by (unfold tok_ids; by rewrite <-list_fmap_compose). rewrite E. apply NoDup_fmap_2; [|done]. intros a b Hab. by apply tok_id_inj in Hab as [_ ?].
Qed.
Lemma targets_NoDup ns wss : Forall plain_words wss → NoDup (target <$> conll_edges ns wss).
Proof.
  induction wss as [|ws wss IH] using rev_ind; [constructor|]. rewrite Forall_app. intros [HF Hw]. apply Forall_cons in Hw as [[ND _] _]. rewrite targets_snoc. apply NoDup_app. split; [by apply IH|]. split.
  - intros n (j & Hj & Hn)%targets_bound. rewrite elem_of_cons. intros [->|H].
    + destruct Hn as [Hn|(w & Hn)]; [apply nstr_inj, sent_id_inj in Hn; lia|]. symmetry in Hn. by apply tok_sent in Hn.
    + apply elem_of_list_fmap in H as (w & -> & _). destruct Hn as [Hn|(v & Hn)]; [by apply tok_sent in Hn|]. apply tok_id_inj in Hn as [? _]. lia.
  - apply NoDup_cons. split; [|by apply tok_ids_NoDup]. intros H. apply elem_of_list_fmap in H as (w & H & _). symmetry in H. by apply tok_sent in H.
Qed.

Section spans.
  Context (name ns : string) (wss : list (list word)) (g : graph) (HR : finished name ns wss g) (HP : Forall plain_words wss) (HI : Forall (Forall (λ w, no_colon (w_id w))) wss).
  Lemma doc_GInv : GInv g.
  Proof. destruct (fi_grown _ _ _ _ HR) as (N & _ & HB). apply (b_inv _ _ _ HB). Qed.
  Lemma doc_nodes : nodes g ≡ₚ ids (conll_nodes ns wss).
  Proof. eapply grown_ids, (fi_grown _ _ _ _ HR). Qed.
  Lemma doc_node x : x ∈ conll_nodes ns wss → node_is g x.
  Proof. destruct (fi_grown _ _ _ _ HR) as (N & HPm & HB). intros Hx. rewrite HPm in Hx. destruct (b_nodes _ _ _ HB) as [_ HF]. rewrite Forall_forall in HF. by apply HF. Qed.
  Lemma doc_edges : has_edges g (conll_edges ns wss).
  Proof. destruct (fi_grown _ _ _ _ HR) as (N & _ & HB). apply (b_edges _ _ _ HB). Qed.
  Lemma edge_of u v k a : edge_attrs g u v k = Some a → ∃ x, x ∈ conll_edges ns wss ∧ edge_is (u, v, k, a) x.
  Proof.
    intros E. apply elem_edges in E; [|apply doc_GInv]. destruct doc_edges as (es & HPm & HF). rewrite HPm in E. apply elem_of_list_lookup in E as (i & Hi). destruct (Forall2_lookup_l _ _ _ _ _ HF Hi) as (x & Hx & He).
    exists x. split; [by eapply elem_of_list_lookup_2|done].
  Qed.
  Lemma of_edge x : x ∈ conll_edges ns wss → ∃ k a, edge_attrs g x.1.1.1 x.1.1.2 k = Some a ∧ attrs_are a x.1.2 x.2.
  Proof.
    intros (i & Hi)%elem_of_list_lookup. destruct doc_edges as (es & HPm & HF). destruct (Forall2_lookup_r _ _ _ _ _ HF Hi) as ([[[u v] k] a] & He & (E1 & E2 & E3)). cbn in E1, E2, E3.
    exists k, a. split; [|done]. apply elem_edges; [apply doc_GInv|]. rewrite HPm. subst u v. by eapply elem_of_list_lookup_2.
  Qed.
  Lemma edge_dominates x : x ∈ conll_edges ns wss → dget "edge_type" x.2 = Some (VStr dominates).
  Proof.
    rewrite conll_edge_cases. intros (i & ws & _ & Hx). unfold sentence_edges in Hx. apply elem_of_cons in Hx as [->|Hx]; [done|]. apply elem_of_list_fmap in Hx as (w & -> & _). done.
  Qed.
  Lemma doc_typed : typed g.
  Proof. intros u v k a (x & Hx & _ & _ & _ & Ha)%edge_of. rewrite Ha by done. rewrite (edge_dominates x Hx). by eexists. Qed.
  Lemma doc_unique u1 u2 v k1 a1 k2 a2 : edge_attrs g u1 v k1 = Some a1 → edge_attrs g u2 v k2 = Some a2 → u1 = u2 ∧ k1 = k2.
  Proof.
    intros E1 E2. apply elem_edges in E1, E2; [|apply doc_GInv..]. destruct doc_edges as (es & HPm & HF). rewrite HPm in E1, E2. pose proof (targets_NoDup ns wss HP) as ND.
    apply elem_of_list_lookup in E1 as (i & Hi), E2 as (j & Hj). destruct (Forall2_lookup_l _ _ _ _ _ HF Hi) as (x & Hx & (_ & Ex & _)). destruct (Forall2_lookup_l _ _ _ _ _ HF Hj) as (y & Hy & (_ & Ey & _)). cbn in Ex, Ey.
    assert (i = j) as <-. { apply (NoDup_lookup _ _ _ v ND); rewrite list_lookup_fmap; [rewrite Hx|rewrite Hy]; cbn; unfold target; congruence. }
    rewrite Hi in Hj. by injection Hj.
  Qed.
  Definition arc (u v : nid) : Prop := ∃ x, x ∈ conll_edges ns wss ∧ x.1.1.1 = u ∧ x.1.1.2 = v.
  Lemma covers_arc u v : covers g u v ↔ u ≠ v ∧ arc u v.
  Proof.
    split.
    - intros (Hne & k & a & E & _). split; [done|]. destruct (edge_of _ _ _ _ E) as (x & Hx & E1 & E2 & _). by exists x.
    - intros (Hne & x & Hx & <- & <-). split; [done|]. destruct (of_edge x Hx) as (k & a & E & _ & Ha). exists k, a. split; [done|]. rewrite Ha by done. by rewrite (edge_dominates x Hx).
  Qed.
  Lemma arc_sent u i : arc u (NStr (sent_id i)) → u = conll_root ns.
  Proof.
    intros (x & Hx & <- & E). apply conll_edge_cases in Hx as (j & ws & _ & Hx). unfold sentence_edges in Hx. apply elem_of_cons in Hx as [->|Hx]; [done|]. apply elem_of_list_fmap in Hx as (w & -> & _). cbn in E. by apply tok_sent in E.
  Qed.
  Lemma arc_tok u i h : arc u (tok_id i h) → ∃ j ws w, i = S j ∧ wss !! j = Some ws ∧ w ∈ ws ∧ w_id w = h ∧ u = head_node i (w_head w).
  Proof.
    intros (x & Hx & <- & E). apply conll_edge_cases in Hx as (j & ws & Hj & Hx). unfold sentence_edges in Hx. apply elem_of_cons in Hx as [->|Hx]; [cbn in E; symmetry in E; by apply tok_sent in E|].
    apply elem_of_list_fmap in Hx as (w & -> & Hw). cbn in E. apply tok_id_inj in E as [E <-]. subst i. by exists j, ws, w.
  Qed.
  Lemma arc_root u : ¬ arc u (conll_root ns).
  Proof.
    intros (x & Hx & _ & E). assert (Hin : conll_root ns ∈ target <$> conll_edges ns wss) by (rewrite <-E; exact (elem_of_list_fmap_1 target _ _ Hx)).
    assert (Hb : conll_root ns ∈ ids (decour_base ns)) by (unfold decour_base; rewrite ids_app; apply elem_of_app; right; left).
    apply conll_edge_cases in Hx as (i & ws & Hi & Hx). unfold sentence_edges in Hx. apply elem_of_cons in Hx as [->|Hx].
    - cbn in E. rewrite <-E in Hb. exact (sent_base ns _ Hb).
    - apply elem_of_list_fmap in Hx as (v & -> & Hv). cbn in E. rewrite <-E in Hb. rewrite Forall_forall in HI. specialize (HI ws (elem_of_list_lookup_2 _ _ _ Hi)). rewrite Forall_forall in HI. exact (tok_base ns _ _ (HI v Hv) Hb).
  Qed.
  Lemma arc_dep i ws w : wss !! i = Some ws → w ∈ ws → arc (head_node (S i) (w_head w)) (tok_id (S i) (w_id w)).
  Proof.
    intros Hi Hw. exists (dependency ns (S i) w). split; [|done]. apply conll_edge_cases. exists i, ws. split; [done|]. unfold sentence_edges. right. exact (elem_of_list_fmap_1 (dependency ns (S i)) ws w Hw).
  Qed.
  Lemma arc_root_sent i ws : wss !! i = Some ws → arc (conll_root ns) (NStr (sent_id (S i))).
  Proof. intros Hi. eexists. split; [apply conll_edge_cases; exists i, ws; split; [done|left]|done]. Qed.
  Lemma arc_unique u u' v : arc u v → arc u' v → u = u'.
  Proof. intros (x & Hx & <- & <-) (y & Hy & <- & E). destruct (of_edge x Hx) as (k & a & E1 & _). destruct (of_edge y Hy) as (k' & a' & E2 & _). rewrite E in E2. apply (doc_unique _ _ _ _ _ _ _ E1 E2). Qed.
  Lemma word_same i ws w v : wss !! i = Some ws → w ∈ ws → v ∈ ws → w_id w = w_id v → w = v.
  Proof.
    intros Hi Hw Hv E. rewrite Forall_forall in HP. destruct (HP ws (elem_of_list_lookup_2 _ _ _ Hi)) as [ND _]. apply elem_of_list_lookup in Hw as (a & Ha), Hv as (b & Hb).
    assert (a = b) as <-; [|congruence]. apply (NoDup_lookup _ _ _ (w_id w) ND); rewrite list_lookup_fmap; [by rewrite Ha|rewrite Hb; cbn; by rewrite E].
  Qed.
  (** climbing a cycle *)
  Lemma cycle_up x y : tc (covers g) x x → arc y x → tc (covers g) y y.
  Proof.
    intros Hc Hy. destruct (tc_last _ _ _ Hc) as (z & Hz & Hzx). apply covers_arc in Hzx as [Hne Hz']. pose proof (arc_unique _ _ _ Hz' Hy) as ->.
    assert (Hcov : covers g y x) by (by apply covers_arc). eapply tc_rtc_r; [apply tc_once; exact Hcov|exact Hz].
  Qed.
  Lemma no_cycle_at x : (∀ y, ¬ arc y x) → ¬ tc (covers g) x x.
  Proof. intros Hn Hc. destruct (tc_last _ _ _ Hc) as (z & _ & Hz). apply covers_arc in Hz as [_ Hz]. by apply (Hn z). Qed.
  Lemma governed_cycle i ws h w : wss !! i = Some ws → governed ws h w → (h = "0" ∨ h ∉ w_id <$> ws) → ¬ tc (covers g) (tok_id (S i) (w_id w)) (tok_id (S i) (w_id w)).
  Proof.
    intros Hi HG Hh. induction HG as [w Hw E|w v Hw Hv E H0 _ IH]; intros Hc.
    - pose proof (cycle_up _ _ Hc (arc_dep i ws w Hi Hw)) as Hc1. unfold head_node in Hc1. rewrite E in Hc1. destruct (decide (h = "0")) as [->|Hn0].
      + pose proof (cycle_up _ _ Hc1 (arc_root_sent i ws Hi)) as Hc2. revert Hc2. apply no_cycle_at. intros y. apply arc_root.
      + revert Hc1. apply no_cycle_at. intros y (j & ws' & w' & Ej & Hj & Hw' & Ew & _)%arc_tok. injection Ej as <-. rewrite Hi in Hj. injection Hj as <-.
        destruct Hh as [?|Hh]; [done|]. apply Hh. rewrite <-Ew. exact (elem_of_list_fmap_1 w_id ws w' Hw').
    - apply IH. pose proof (cycle_up _ _ Hc (arc_dep i ws w Hi Hw)) as Hc1. unfold head_node in Hc1. rewrite decide_False in Hc1 by done. by rewrite E in Hc1.
  Qed.
  Context (HC : Forall no_cycle wss).
  Lemma doc_acyclic : acyclic (covers g).
  Proof.
    intros x Hx. destruct (tc_last _ _ _ Hx) as (z & _ & Hz). apply covers_arc in Hz as [_ (e & He & _ & <-)]. apply conll_edge_cases in He as (i & ws & Hi & He).
    unfold sentence_edges in He. apply elem_of_cons in He as [->|He]; cbn in Hx.
    - pose proof (cycle_up _ _ Hx (arc_root_sent i ws Hi)) as Hc2. revert Hc2. apply no_cycle_at. intros y. apply arc_root.
    - apply elem_of_list_fmap in He as (w & -> & Hw). cbn in Hx. rewrite Forall_forall in HC. destruct (HC ws (elem_of_list_lookup_2 _ _ _ Hi) w Hw) as (h & Hh & HG). by apply (governed_cycle i ws h w Hi HG Hh).
  Qed.
  Lemma arc_ne u v : arc u v → u ≠ v.
  Proof.
    intros Ha Euv. destruct Ha as (e & He & E1 & E2). rewrite <-E1, <-E2 in Euv. clear E1 E2. apply conll_edge_cases in He as (i & ws & Hi & He). unfold sentence_edges in He. apply elem_of_cons in He as [->|He]; cbn in Euv.
    - assert (Hb : conll_root ns ∈ ids (decour_base ns)) by (unfold decour_base; rewrite ids_app; apply elem_of_app; right; left). rewrite Euv in Hb. exact (sent_base ns _ Hb).
    - apply elem_of_list_fmap in He as (w & -> & Hw). cbn in Euv. unfold head_node in Euv. destruct (decide _) as [|H0]; [symmetry in Euv; by apply tok_sent in Euv|]. apply tok_id_inj in Euv as [_ E2]. symmetry in E2.
      rewrite Forall_forall in HC. destruct (HC ws (elem_of_list_lookup_2 _ _ _ Hi) w Hw) as (h & Hh & HG). clear -E2 HG Hh H0 Hi HP Hw HR. induction HG as [w Hw' E|w v Hw' Hv E _ HG IH].
      + destruct Hh as [?|Hh]; [congruence|]. apply Hh. rewrite <-E, <-E2. exact (elem_of_list_fmap_1 w_id ws w Hw).
      + assert (w = v) as -> by (apply (word_same i ws); [done..|congruence]). by apply IH.
  Qed.
  Lemma head_not_root i h : no_colon h → head_node i h ≠ conll_root ns.
  Proof.
    intros Hh E. assert (Hb : conll_root ns ∈ ids (decour_base ns)) by (unfold decour_base; rewrite ids_app; apply elem_of_app; right; left).
    rewrite <-E in Hb. unfold head_node in Hb. destruct (decide _); [exact (sent_base ns _ Hb)|exact (tok_base ns _ _ Hh Hb)].
  Qed.
  Lemma arc_from i ws h t : wss !! i = Some ws → no_colon h → arc (head_node (S i) h) t → ∃ w, w ∈ ws ∧ w_head w = h ∧ t = tok_id (S i) (w_id w).
  Proof.
    intros Hi Hh (e & He & E1 & <-). apply conll_edge_cases in He as (j & ws' & Hj & He). unfold sentence_edges in He. apply elem_of_cons in He as [->|He]; cbn in E1 |- *.
    - exfalso. by apply (head_not_root (S i) h).
    - apply elem_of_list_fmap in He as (w & -> & Hw). cbn in E1 |- *.
      assert (j = i ∧ w_head w = h) as [-> <-]; [|rewrite Hi in Hj; injection Hj as <-; by exists w].
      unfold head_node in E1. destruct (decide (w_head w = "0")) as [E0|H0], (decide (h = "0")) as [E0'|H0'].
      + apply nstr_inj, sent_id_inj in E1. injection E1 as ->. split; congruence.
      + symmetry in E1. by apply tok_sent in E1.
      + by apply tok_sent in E1.
      + apply tok_id_inj in E1 as [E1 E2]. by injection E1 as ->.
  Qed.
  Lemma doc_below i ws h t : wss !! i = Some ws → no_colon h → below g (head_node (S i) h) t ↔ t = head_node (S i) h ∨ ∃ w, governed ws h w ∧ t = tok_id (S i) (w_id w).
  Proof.
    intros Hi Hh. split.
    - intros Hb. revert t Hb. refine (rtc_ind_r _ _ _ _); [by left|]. intros y t _ Hs IH. apply covers_arc in Hs as [_ Hs].
      right. destruct IH as [->|(v & Hv & ->)].
      + destruct (arc_from i ws h t Hi Hh Hs) as (w & Hw & E & ->). exists w. split; [by apply G_here|done].
      + assert (Hvw : v ∈ ws) by (by destruct Hv).
        assert (Hcv : no_colon (w_id v)). { rewrite Forall_forall in HI. specialize (HI ws (elem_of_list_lookup_2 _ _ _ Hi)). rewrite Forall_forall in HI. by apply HI. }
        destruct (decide (w_id v = "0")) as [E0|H0].
        * exfalso. destruct Hs as (e & He & E1 & <-). apply conll_edge_cases in He as (j & ws' & Hj & He). unfold sentence_edges in He. apply elem_of_cons in He as [->|He]; cbn in E1.
          -- assert (Hb : conll_root ns ∈ ids (decour_base ns)) by (unfold decour_base; rewrite ids_app; apply elem_of_app; right; left). rewrite E1 in Hb. exact (tok_base ns _ _ Hcv Hb).
          -- apply elem_of_list_fmap in He as (w & -> & _). cbn in E1. unfold head_node in E1. destruct (decide _) as [|H0]; [symmetry in E1; by apply tok_sent in E1|]. apply tok_id_inj in E1 as [_ E1]. congruence.
        * assert (E : tok_id (S i) (w_id v) = head_node (S i) (w_id v)) by (unfold head_node; by rewrite decide_False). rewrite E in Hs.
          destruct (arc_from i ws _ t Hi Hcv Hs) as (w & Hw & Ew & ->). exists w. split; [|done]. eapply G_up; [done|exact Hvw|done|congruence|done].
    - intros [->|(w & HG & ->)]; [apply rtc_refl|]. induction HG as [w Hw E|w v Hw Hv E H0 _ IH].
      + apply rtc_once, covers_arc. rewrite <-E. split; [apply arc_ne|]; by apply arc_dep with ws.
      + eapply rtc_r; [exact IH|]. apply covers_arc. assert (E' : tok_id (S i) (w_id v) = head_node (S i) (w_head w)) by (unfold head_node; rewrite decide_False by done; by rewrite E). rewrite E'. split; [apply arc_ne|]; by apply arc_dep with ws.
  Qed.
  (** tokens *)
  Lemma tok_is_token i ws w : wss !! i = Some ws → w ∈ ws → is_token g (tok_id (S i) (w_id w)).
  Proof.
    intros Hi Hw. assert (Hin : token_node ns (S i) w ∈ conll_nodes ns wss).
    { apply conll_node_cases. right. exists i, ws. split; [done|]. unfold sentence_nodes. right. apply elem_of_app. left. exact (elem_of_list_fmap_1 (token_node ns (S i)) ws w Hw). }
    destruct (doc_node _ Hin) as (a & Ha & _ & Hk). exists a. split; [exact Ha|]. rewrite (fi_ns _ _ _ _ HR). rewrite Hk.
    - cbn [snd token_node]. unfold token_attrs. rewrite dget_app. cbn [dget]. rewrite decide_False.
      + rewrite dget_app. destruct (dget _ (reverse _)) as [v|]; [by eexists|]. rewrite dget_app. cbn [dget]. destruct (decide _); [by eexists|]. destruct (decide _); [by eexists|]. rewrite decide_True by done. by eexists.
      + intros E. pose proof (colon_key ns "token") as Hc. change (":" +:+ "token") with ":token" in Hc. rewrite E in Hc. revert Hc. apply (bool_decide_unpack _). vm_compute. exact I.
    - intros E. pose proof (colon_key ns "token") as Hc. change (":" +:+ "token") with ":token" in Hc. rewrite E in Hc. revert Hc. apply (bool_decide_unpack _). vm_compute. exact I.
  Qed.
  Lemma colon_ne k : ":"%char ∉ chs k → ns +:+ ":token" ≠ k.
  Proof. intros H E. apply H. rewrite <-E. exact (colon_key ns "token"). Qed.
  Lemma plain_not_token x : x ∈ conll_nodes ns wss → dget (ns +:+ ":token") x.2 = None → ¬ is_token g x.1.1.
  Proof.
    intros Hx Hn (a & Ha & (v & Hv)). destruct (doc_node x Hx) as (a' & Ha' & _ & Hk). rewrite Ha in Ha'. injection Ha' as <-. rewrite (fi_ns _ _ _ _ HR) in Hv. rewrite Hk, Hn in Hv; [done|].
    apply colon_ne. apply (bool_decide_unpack _). vm_compute. exact I.
  Qed.
  Lemma sent_not_token i ws : wss !! i = Some ws → ¬ is_token g (NStr (sent_id (S i))).
  Proof.
    intros Hi. apply (plain_not_token (NStr (sent_id (S i)), [ns; ns +:+ ":sentence"], [("tokens", VObj (S i))])).
    - apply conll_node_cases. right. exists i, ws. split; [done|left].
    - cbn [snd dget]. rewrite decide_False; [done|]. apply colon_ne. apply (bool_decide_unpack _). vm_compute. exact I.
  Qed.
  Lemma lost_in i ws h : wss !! i = Some ws → h ∈ lost_heads ws → (tok_id (S i) h, [ns], []) ∈ conll_nodes ns wss.
  Proof.
    intros Hi Hh. apply conll_node_cases. right. exists i, ws. split; [done|]. unfold sentence_nodes. right. apply elem_of_app. right. exact (elem_of_list_fmap_1 (λ h, (tok_id (S i) h, [ns], [])) _ _ Hh).
  Qed.
  Lemma lost_not_token i ws h : wss !! i = Some ws → h ∈ lost_heads ws → ¬ is_token g (tok_id (S i) h).
  Proof. intros Hi Hh. exact (plain_not_token (tok_id (S i) h, [ns], []) (lost_in i ws h Hi Hh) eq_refl). Qed.
  (** spans *)
  Lemma node_in x : x ∈ conll_nodes ns wss → x.1.1 ∈ nodes g.
  Proof. intros Hx. rewrite doc_nodes. exact (elem_of_list_fmap_1 (λ x : node_info, x.1.1) _ _ Hx). Qed.
  Lemma span_of n : n ∈ nodes g → ∃ l, (∀ k, length (nodes g) < k → get_span k g n = Ok l) ∧ NoDup l ∧ sorted nat_cmp l ∧ ∀ t, t ∈ l ↔ is_token g t ∧ below g n t.
  Proof.
    intros Hn. destruct doc_GInv as [C _]. destruct (get_span_total g n C doc_typed doc_acyclic Hn) as (l & Hl). exists l. split; [done|].
    assert (El := Hl (S (length (nodes g))) ltac:(lia)). split; [|split].
    - eapply (get_span_NoDup g C doc_acyclic); [|exact El]. intros u1 u2 v k1 a1 k2 a2 _ _ E1 _ E2 _. by eapply doc_unique.
    - by eapply get_span_sorted.
    - intros t. by apply (get_span_elem g C _ _ _ El).
  Qed.
End spans.
