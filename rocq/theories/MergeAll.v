(** * MergeAll: merge_graphs as a whole (proofs) *)
From Verif Require Import PyBase DocGraph DocGraphFacts History Effects RelabelFacts MergeFacts AllHist.

Section mergeall.
  Implicit Types (g og : graph).

  Lemma iso_edges f g g' : Consistent g → Consistent g' → iso f g g' →
    ∃ es, es ≡ₚ edges g' ∧
      Forall2 (λ e e', e'.1 = (f e.1.1.1, f e.1.1.2, e.1.2) ∧ attr_eqv e.2 e'.2) (edges g) es.
  Proof.
    intros C C' I.
    set (F := λ e : nid * nid * nid * attrs,
      (f e.1.1.1, f e.1.1.2, e.1.2, default [] (edge_attrs g' (f e.1.1.1) (f e.1.1.2) e.1.2))).
    assert (HF : ∀ e, e ∈ edges g → ∃ a', edge_attrs g' (f e.1.1.1) (f e.1.1.2) e.1.2 = Some a' ∧
        F e = (f e.1.1.1, f e.1.1.2, e.1.2, a') ∧ attr_eqv e.2 a').
    { intros [[[u v] k] a] He. apply elem_edges in He; [|done].
      destruct (iso_edge f g g' I u v k a He) as (a' & Ha' & Hq). exists a'. split; [done|].
      split; [|done]. unfold F. simpl. by rewrite Ha'. }
    exists (F <$> edges g). split.
    - apply NoDup_Permutation.
      + apply NoDup_fmap_2_strong; [|by apply NoDup_edges].
        intros [[[u v] k] a] [[[u' v'] k'] a'] He He' Heq. unfold F in Heq. simpl in Heq.
        apply elem_edges in He, He'; try done. injection Heq as Hu Hv Hk _. subst k'.
        destruct (succ_nodes _ _ _ C (edge_succ _ _ _ _ _ He)).
        destruct (succ_nodes _ _ _ C (edge_succ _ _ _ _ _ He')).
        apply (iso_inj f g g' I) in Hu; [|done|done]. apply (iso_inj f g g' I) in Hv; [|done|done].
        subst. rewrite He in He'. congruence.
      + by apply NoDup_edges.
      + intros [[[u' v'] k'] a']. rewrite elem_of_list_fmap. split.
        * intros (e & Heq & He). destruct (HF e He) as (b & Hb & HFe & _). rewrite HFe in Heq.
          injection Heq as -> -> -> ->. by apply elem_edges.
        * intros He. apply elem_edges in He; [|done].
          destruct (iso_edge_inv f g g' I _ _ _ _ He) as (u & v & a & -> & -> & Ha).
          exists (u, v, k', a). split; [|by apply elem_edges]. unfold F. simpl. by rewrite He.
    - apply Forall2_fmap_r. apply Forall_Forall2_diag. apply Forall_forall. intros e He.
      destruct (HF e He) as (a' & Ha' & HFe & Hq). cbn beta. split; [done|].
      apply (f_equal snd) in HFe. simpl in HFe. simpl. rewrite HFe. done.
  Qed.

  Lemma attr_eqv_has_layer (a b : attrs) x : attr_eqv a b → has_layer a x ↔ has_layer b x.
  Proof. intros [H _]. apply H. Qed.

  Lemma out_edges_filter g n : Consistent g → n ∈ nodes g →
    out_edges g n ≡ₚ filter (λ e, e.1.1.1 = n) (edges g).
  Proof.
    intros C Hn. apply NoDup_Permutation.
    - unfold out_edges. destruct (succ_get _ _ C Hn) as [nb Hnb]. rewrite Hnb. simpl.
      destruct (c_adj g C _ _ Hnb) as [Hk1 Hk2]. apply NoDup_bind.
      + eapply (NoDup_fmap_1 fst). done.
      + intros [v kd] Hv. simpl. apply (elem_dget _ _ _ Hk1) in Hv. destruct (Hk2 _ _ Hv) as [_ Hnd].
        apply NoDup_bind.
        * eapply (NoDup_fmap_1 fst). done.
        * intros. apply NoDup_singleton.
        * intros [k a] [k' a'] z _ _ ->%elem_of_list_singleton [=]%elem_of_list_singleton. simpl in *. congruence.
      + intros [v kd] [v' kd'] z Hv Hv' Hz Hz'. simpl in *.
        apply elem_of_list_bind in Hz as ([k a] & ->%elem_of_list_singleton & _).
        apply elem_of_list_bind in Hz' as ([k' a'] & [=]%elem_of_list_singleton & _). simpl in *. subst.
        f_equal. apply (elem_dget _ _ _ Hk1) in Hv, Hv'. congruence.
    - apply NoDup_filter. by apply NoDup_edges.
    - intros [[[u v] k] a]. rewrite elem_of_list_filter, elem_edges, elem_out_edges by done. simpl. naive_solver.
  Qed.

  Lemma Forall2_perm_l {A B} (R : A → B → Prop) (l l' : list A) (k : list B) :
    Forall2 R l k → l ≡ₚ l' → ∃ k', k ≡ₚ k' ∧ Forall2 R l' k'.
  Proof.
    intros H Hp. revert k H. induction Hp as [|x l l' Hp IH|x y l|l l' l'' Hp1 IH1 Hp2 IH2]; intros k H.
    - apply Forall2_nil_inv_l in H as ->. by exists [].
    - apply Forall2_cons_inv_l in H as (b & k' & Hxb & H & ->). destruct (IH _ H) as (k'' & ? & ?).
      exists (b :: k''). split; [by constructor|by constructor].
    - apply Forall2_cons_inv_l in H as (b & k' & Hyb & H & ->).
      apply Forall2_cons_inv_l in H as (c & k'' & Hxc & H & ->).
      exists (c :: b :: k''). split; [by constructor|]. by repeat constructor.
    - destruct (IH1 _ H) as (k1 & ? & H1). destruct (IH2 _ H1) as (k2 & ? & ?). exists k2. split; [|done].
      by etrans.
  Qed.
  Lemma Forall2_comp {A B C} (R : A → B → Prop) (S : B → C → Prop) (T : A → C → Prop) l k m :
    (∀ x y z, R x y → S y z → T x z) → Forall2 R l k → Forall2 S k m → Forall2 T l m.
  Proof.
    intros H HR. revert m. induction HR as [|x y l k Hxy HR IH]; intros m HS.
    - apply Forall2_nil_inv_l in HS as ->. constructor.
    - apply Forall2_cons_inv_l in HS as (z & m' & Hyz & HS & ->). constructor; [by eapply H|by apply IH].
  Qed.

  (** The other graph is renamed by [f] and its tokens are permuted. *)
  Lemma merged_iso f g og og' g' :
    NInv og → NInv og' → iso f og og' →
    g_ns og' = g_ns og → g_root og' = g_root og → g_name og' = g_name og →
    (g_tokens g = [] → g_tokens og' = g_tokens og) → g_sentences og' = g_sentences og →
    f (g_root og) = g_root og → g_root og ∈ nodes og → g_root og ∉ nodes g →
    merged g og' g' → merge_result f g og g'.
  Proof.
    intros Ho Ho' I Hns Hr Hnm Htk Hsn Hfr Hrn Hrg M.
    assert (Hnodes : ∀ m, m ∈ nodes og → f m ∈ nodes og').
    { intros m Hm. apply node_mem in Hm as [a Ha]. destruct (iso_node f og og' I m a Ha) as (a' & Ha' & _).
      apply node_mem. by eexists. }
    assert (Hroot : ∀ m, m ∈ nodes og → f m = g_root og → m = g_root og).
    { intros m Hm Hf. apply (iso_inj f og og' I); [done|done|]. congruence. }
    destruct M as [M1 M2 M3 M4 M5 M6 M7 M8 M9]. rewrite Hr, Hns, Hnm, Hsn in *. constructor; try done.
    - intros n. split.
      + intros Hn. apply node_mem in Hn. destruct (decide (n ∈ nodes g)); [by left|right].
        destruct (decide (n ∈ nodes og')) as [Hn'|Hn'].
        * destruct (iso_node_inv f og og' I n Hn') as (m & Hm & ->). exists m. split; [done|]. split; [|done].
          intros ->. destruct Hn as [a Ha]. rewrite Hfr in Ha.
          rewrite (proj2 (M1 (g_root og))) in Ha; [done|by left].
        * destruct Hn as [a Ha]. rewrite (proj2 (M1 n)) in Ha; [done|by right].
      + intros Hn. apply node_mem. rewrite <-not_eq_None_Some, M1. intros [->|[Hn1 Hn2]].
        * destruct Hn as [?|(m & Hm & Hne & Heq)]; [done|]. apply Hne. by apply Hroot.
        * destruct Hn as [?|(m & Hm & Hne & ->)]; [done|]. by apply Hn2, Hnodes.
    - intros n Hn Hm. apply M2. intros Hn'. destruct (iso_node_inv f og og' I n Hn') as (m & Hm' & ->).
      by apply (Hm m).
    - intros m a Hne Ha. destruct (iso_node f og og' I m a Ha) as (b & Hb & Hq).
      assert (Hfm : f m ≠ g_root og).
      { intros Hf. apply Hne, Hroot; [|done]. apply node_mem. by eexists. }
      destruct (M3 (f m) b Hfm Hb) as (a' & Ha' & Hl & Hk & Ht). exists a'. split; [done|]. split_and!.
      + intros x. rewrite Hl. by rewrite (attr_eqv_has_layer a b).
      + intros key Hk1 Hk2. rewrite Hk by done. by rewrite (proj2 Hq key Hk1).
      + rewrite Ht. by rewrite !(proj2 Hq) by apply token_key_ne.
    - destruct M4 as (br & mv & He & Hbr & Hmv).
      destruct (iso_edges f og og' (proj1 (proj1 Ho)) (proj1 (proj1 Ho')) I) as (es & Hes & HR).
      assert (Hsrc : ∀ e, e ∈ edges og → f e.1.1.1 = g_root og ↔ e.1.1.1 = g_root og).
      { intros [[[u v] k] a] He'. apply elem_edges in He'; [|apply Ho]. simpl.
        destruct (succ_nodes _ _ _ (proj1 (proj1 Ho)) (edge_succ _ _ _ _ _ He')) as [Hu _].
        split; [by apply Hroot|]. by intros ->. }
      assert (HR' : Forall2 (λ e e', e ∈ edges og ∧ e'.1 = (f e.1.1.1, f e.1.1.2, e.1.2) ∧ attr_eqv e.2 e'.2)
                (edges og) es).
      { apply Forall2_same_length_lookup. split; [by eapply Forall2_length|].
        intros i x y Hx Hy. split; [by eapply elem_of_list_lookup_2|].
        by eapply (Forall2_lookup_lr _ _ _ _ _ _ HR). }
      exists br, mv. split_and!; [done| |].
      + assert (Hf : Forall2 (λ e e', e ∈ edges og ∧ e'.1 = (f e.1.1.1, f e.1.1.2, e.1.2) ∧ attr_eqv e.2 e'.2)
           (filter (λ e, e.1.1.1 ≠ g_root og) (edges og)) (filter (λ e, e.1.1.1 ≠ g_root og) es)).
        { apply Forall2_filter; [|done]. intros x y (Hx & Hy & _). rewrite Hy. simpl.
          by rewrite (Hsrc x Hx). }
        assert (Hp : filter (λ e, e.1.1.1 ≠ g_root og) es ≡ₚ filter (λ e, e.1.1.1 ≠ g_root og) (edges og'))
          by (by rewrite Hes).
        destruct (Forall2_perm_l (λ e' e, e ∈ edges og ∧ e'.1 = (f e.1.1.1, f e.1.1.2, e.1.2) ∧ attr_eqv e.2 e'.2)
            _ _ _ (proj2 (Forall2_flip _ _ _) Hf) Hp) as (l & Hl & HF).
        exists l. split; [done|]. apply Forall2_flip in HF.
        eapply (Forall2_comp _ _ _ _ _ _ _ HF Hbr). Unshelve.
        intros [[[u v] k] a] [[[u1 v1] k1] a1] [[[u2 v2] k2] a2] (_ & [= -> -> ->] & Hq) [[= -> ->] Hq'].
        split; [done|]. simpl in *. by eapply attr_eqv_trans.
      + assert (Hf : Forall2 (λ e e', e ∈ edges og ∧ e'.1 = (f e.1.1.1, f e.1.1.2, e.1.2) ∧ attr_eqv e.2 e'.2)
           (filter (λ e, e.1.1.1 = g_root og) (edges og)) (filter (λ e, e.1.1.1 = g_root og) es)).
        { apply Forall2_filter; [|done]. intros x y (Hx & Hy & _). rewrite Hy. simpl.
          by rewrite (Hsrc x Hx). }
        assert (Hrn' : g_root og ∈ nodes og') by (rewrite <-Hfr; by apply Hnodes).
        assert (Hp : filter (λ e, e.1.1.1 = g_root og) es ≡ₚ out_edges og' (g_root og)).
        { rewrite out_edges_filter; [by rewrite Hes|apply Ho'|done]. }
        destruct (Forall2_perm_l (λ e' e, e ∈ edges og ∧ e'.1 = (f e.1.1.1, f e.1.1.2, e.1.2) ∧ attr_eqv e.2 e'.2)
            _ _ _ (proj2 (Forall2_flip _ _ _) Hf) Hp) as (l & Hl & HF).
        exists l. split; [done|]. apply Forall2_flip in HF.
        eapply (Forall2_comp _ _ _ _ _ _ _ HF Hmv). Unshelve.
        intros [[[u v] k] a] [[[u1 v1] k1] a1] [[[u2 v2] k2] a2] (_ & [= -> -> ->] & Hq) ([= -> ->] & Hl2 & Hk2).
        split_and!; [done| |].
        * intros x. apply Hl2.
        * intros key Hkey. rewrite Hk2 by done. simpl. symmetry. by apply (proj2 Hq).
    - rewrite M5. destruct (g_tokens g); [|done]. by apply Htk.
  Qed.

  Lemma zip_fst_sub {A B} (l : list A) (k : list B) x : x ∈ (zip l k).*1 → x ∈ l.
  Proof.
    revert k. induction l as [|y l IH]; intros [|z k]; simpl; rewrite ?elem_of_nil; try done.
    rewrite !elem_of_cons. naive_solver.
  Qed.
  Lemma zip_snd_sub {A B} (l : list A) (k : list B) x : x ∈ (zip l k).*2 → x ∈ k.
  Proof.
    revert k. induction l as [|y l IH]; intros [|z k]; simpl; rewrite ?elem_of_nil; try done.
    rewrite !elem_of_cons. naive_solver.
  Qed.
  Lemma zip_fst_NoDup {A B} (l : list A) (k : list B) : NoDup l → NoDup (zip l k).*1.
  Proof.
    revert k. induction l as [|y l IH]; intros [|z k]; simpl; try constructor.
    - apply NoDup_cons in H as [Hy Hl]. intros Hz. apply Hy. by eapply zip_fst_sub.
    - apply NoDup_cons in H as [Hy Hl]. by apply IH.
  Qed.
  Lemma zip_snd_NoDup {A B} (l : list A) (k : list B) : NoDup k → NoDup (zip l k).*2.
  Proof.
    revert k. induction l as [|y l IH]; intros [|z k]; simpl; try constructor.
    - apply NoDup_cons in H as [Hy Hl]. intros Hz. apply Hy. by eapply zip_snd_sub.
    - apply NoDup_cons in H as [Hy Hl]. by apply IH.
  Qed.

  (** merge_graphs on two graphs with the same tokenization and disjoint ids *)
  Lemma merge_graphs_ok g og r :
    NInv g → NInv og →
    NoDup (g_tokens g) → NoDup (g_tokens og) →
    (∀ t, t ∈ g_tokens g → t ∉ nodes og ∧ nid_truthy t = true) →
    g_root g ∈ nodes g → g_root og ∈ nodes og → g_root og ∉ nodes g → g_root og ∉ g_tokens og →
    (∀ u k, edge_attrs og u (g_root og) k = None) →
    merge_graphs g og r →
    (∃ e, r = (g, Some e) ∧ create_token_mapping og g = Err e) ∨
    (∃ g', r = (g', None) ∧ create_token_mapping og g = Ok (zip (g_tokens og) (g_tokens g)) ∧
      merge_result (mapped (zip (g_tokens og) (g_tokens g))) g og g').
  Proof.
    intros H Ho Nd Ndo Hfresh Hr Hor Horg Hort Hin Hm.
    set (m := zip (g_tokens og) (g_tokens g)).
    assert (Hmap : ∀ m', create_token_mapping og g = Ok m' →
      m' = m ∧ mapping_ok m og ∧ ∀ x, ¬ (x ∈ m.*1 ∧ x ∈ m.*2)).
    { intros m' Hm'. unfold create_token_mapping in Hm'.
      apply token_mapping_Ok in Hm' as (Hlen & -> & Htok).
      rewrite foldl_dset_zip; [|done|done|intros ? _; apply not_elem_of_nil]. simpl. fold m.
      assert (Hin1 : ∀ o, o ∈ m.*1 → o ∈ nodes og).
      { intros o Hx. apply elem_of_list_lookup in Hx as [i Hi]. rewrite list_lookup_fmap in Hi.
        destruct (m !! i) as [[o' t']|] eqn:Em; [|done]. injection Hi as ->.
        apply lookup_zip_with_Some in Em as (o' & t0 & [= -> ->] & Hoi & Hti).
        destruct (Htok i o' t0 Hoi Hti) as (t & Ht & _). unfold get_token in Ht.
        apply node_mem. destruct (node_attrs og o'); [by eexists|done]. }
      assert (Hdis : ∀ x, ¬ (x ∈ m.*1 ∧ x ∈ m.*2)).
      { intros x [Hx1 Hx2]. apply zip_snd_sub in Hx2. by apply (proj1 (Hfresh x Hx2)), Hin1. }
      split; [done|]. split; [|done]. constructor.
      - by apply zip_fst_NoDup.
      - by apply zip_snd_NoDup.
      - done.
      - intros n Hn Hn'. apply zip_snd_sub in Hn. by destruct (Hfresh n Hn).
      - intros o n Hon ->. apply (Hdis n). split; apply elem_of_list_fmap; by exists (n, n).
      - intros o n Hon Hf. assert (Hn : n ∈ m.*2) by (apply elem_of_list_fmap; by exists (o, n)).
        apply zip_snd_sub in Hn. destruct (Hfresh n Hn) as [_ Ht]. congruence. }
    destruct Hm as [og' e Hre|og' Hre].
    - left. exists e. split; [done|]. inversion Hre as [e' He|m' og'' e' Hc Hrl|]; subst; [done|].
      destruct (Hmap _ Hc) as (-> & Mok & Hdis).
      destruct (relabel_inplace_iso og m _ Ho Mok Hrl) as [(g0 & [= -> [=]] & _)|([= -> ->] & Hov & _)].
      destruct Hov as (x & Hx1 & Hx2). by destruct (Hdis x).
    - right. inversion Hre as [| |m' og'' vals Hc Hrl Hv]; subst.
      destruct (Hmap _ Hc) as (-> & Mok & Hdis).
      destruct (relabel_inplace_iso og m _ Ho Mok Hrl) as [(g0 & [= <-] & HN & HD & HI)|([=] & _)].
      assert (Hog' : ∃ og', og' = match vals with [] => og'' | _ :: _ => set_tokens vals og'' end) by eauto.
      destruct Hog' as (og1 & Heq1). rewrite <-Heq1.
      assert (Hsame : g_node og1 = g_node og'' ∧ g_succ og1 = g_succ og'' ∧ g_pred og1 = g_pred og'' ∧
         g_ns og1 = g_ns og'' ∧ g_root og1 = g_root og'' ∧ g_name og1 = g_name og'' ∧
         g_sentences og1 = g_sentences og'' ∧ (vals = [] → g_tokens og1 = g_tokens og'')).
      { rewrite Heq1. by destruct vals. }
      destruct Hsame as (S1 & S2 & S3 & S4 & S5 & S6 & S7 & S8).
      assert (HN1 : NInv og1) by (by apply (NInv_ext og'')).
      assert (HI1 : iso (mapped m) og og1).
      { destruct HI as [I1 I2 I3 I4 I5]. unfold node_attrs, edge_attrs, keydict_of, nodes in *.
        constructor; unfold node_attrs, edge_attrs, keydict_of, nodes; rewrite ?S1, ?S2; done. }
      destruct HD as (D1 & D2 & D3 & D4 & D5 & D6).
      assert (Hmr : mapped m (g_root og) = g_root og).
      { unfold mapped. destruct (dget (g_root og) m) as [x|] eqn:Ex; [|done].
        destruct Hort. apply (zip_fst_sub _ (g_tokens g)). apply dget_is_Some. by eexists. }
      assert (Hr1 : g_root og1 = g_root og) by congruence.
      assert (Hor1 : g_root og1 ∈ nodes og1).
      { apply node_mem in Hor as [a Ha]. destruct (iso_node _ _ _ HI1 _ _ Ha) as (a' & Ha' & _).
        apply node_mem. rewrite Hr1, <-Hmr. by eexists. }
      destruct (merge_renamed_ok g og1 H HN1 Hr Hor1) as (g' & -> & HN' & HM).
      + by rewrite Hr1.
      + intros u k. rewrite Hr1. destruct (edge_attrs og1 u (g_root og) k) as [a|] eqn:Ee; [|done].
        destruct (iso_edge_inv _ _ _ HI1 _ _ _ _ Ee) as (u0 & v0 & a0 & -> & Hv0 & Ha0).
        assert (v0 = g_root og) as ->.
        { apply (iso_inj _ _ _ HI1); [|done|congruence].
          by destruct (succ_nodes _ _ _ (proj1 (proj1 Ho)) (edge_succ _ _ _ _ _ Ha0)). }
        by rewrite Hin in Ha0.
      + exists g'. split_and!; [done|done|]. apply (merged_iso _ _ _ og1); try done; try congruence.
        intros Ht. rewrite S8; [done|]. unfold m in Hv. rewrite Ht in Hv.
        assert (zip (g_tokens og) ([] : list nid) = []) as Hz by (by destruct (g_tokens og)).
        rewrite Hz in Hv. by apply Permutation_nil_r in Hv.
  Qed.
End mergeall.
