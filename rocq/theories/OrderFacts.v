(** * OrderFacts: the tokens of a tree without gaps come in text order *)
From Verif Require Import PyBase DocGraph Relabel SpecGraph DocGraphFacts StrNum Query SpecQuery Text Tree SpecTree
  SpanFacts SelectFacts BfsFacts TreeFacts TravFacts.

Section order.
  Context (g : graph) (root : nid) (toks : list nid) (es : list (nid * nid)).
  Context (HT : bfs_tree (dom g) root es) (HL : left_to_right g toks es).
  Context (H1 : one_parent g) (Hac : acyclic (dom g)).
  Context (Hgap : ∀ n, rtc (dom g) root n → no_gaps g toks root n).
  Context (Hleaf : ∀ t x, t ∈ toks → ¬ dom g t x) (Hnd : NoDup toks).
  Context (Hcov : ∀ n, tc (dom g) root n → ∃ t, t ∈ toks ∧ rtc (dom g) n t).

  Lemma dom_E u v : rtc (dom g) root u → dom g u v → (u, v) ∈ es.
  Proof.
    intros Hu Huv. assert (Hv : rtc (dom g) root v) by (eapply rtc_r; [exact Hu|done]).
    apply (bt_all _ _ _ HT) in Hv. apply elem_of_cons in Hv as [->|Hv].
    - exfalso. apply (Hac root). eapply tc_rtc_l; [done|by apply tc_once].
    - apply elem_of_list_fmap in Hv as ([u' v'] & -> & He). simpl in *.
      pose proof (bt_edge _ _ _ HT _ _ He) as (k' & a' & He' & Ht'). destruct Huv as (k & a & He2 & Ht).
      destruct (H1 _ _ _ _ _ _ _ He2 Ht He' Ht') as [-> _]. done.
  Qed.
  Lemma below_E u v : rtc (dom g) root u → rtc (dom g) u v ↔ rtc (E es) u v.
  Proof.
    intros Hu. split.
    - intros H. induction H as [x|x y z Hxy Hyz IH]; [apply rtc_refl|].
      eapply rtc_l; [by apply dom_E|]. apply IH. by eapply rtc_r.
    - apply rtc_subrel. intros x y Hxy. by apply (bt_edge _ _ _ HT).
  Qed.
  Lemma apart n c d x : rtc (dom g) root n → dom g n c → dom g n d → c ≠ d → rtc (dom g) c x → rtc (dom g) d x → False.
  Proof.
    intros Hn Hc Hd Hne Hcx Hdx. assert (Hc' : rtc (dom g) root c) by (eapply rtc_r; [exact Hn|done]).
    assert (Hd' : rtc (dom g) root d) by (eapply rtc_r; [exact Hn|done]).
    apply below_E in Hcx; [|done]. apply below_E in Hdx; [|done].
    assert (G : ∀ c d, dom g n c → dom g n d → c ≠ d → rtc (E es) c d → False).
    { intros c0 d0 Hc0 Hd0 Hne0 Hr. apply rtc_inv_r in Hr as [->|(w & Hw & Hwd)]; [done|].
      assert (w = n) as ->. { eapply (E_unique (dom g) root es HT); [exact Hwd|]. by apply dom_E. }
      apply (E_acyclic (dom g) root es HT n). eapply tc_rtc_r; [|exact Hw]. apply tc_once. by apply dom_E. }
    destruct (comparable' (dom g) root es HT c d x Hcx Hdx) as [H|H]; [by apply (G c d)|by apply (G d c)].
  Qed.
  Lemma first_exists c t : rtc (dom g) root c → tree_of es c t → (∃ x, x ∈ toks ∧ rtc (dom g) c x) → ∃ i, first_token_of g toks c i.
  Proof.
    intros Hc Ht (x & Hx & Hcx).
    assert (Hiff : ∀ y, y ∈ preorder t ↔ rtc (dom g) c y).
    { intros y. rewrite below_E by done. by eapply tree_elem. }
    destruct (list_find (λ y, y ∈ preorder t) toks) as [[i y]|] eqn:Ef.
    - apply list_find_Some in Ef as (Hy & Hyt & Hmin). exists i. split.
      + exists y. split; [done|]. by apply Hiff.
      + intros j z Hz Hcz. destruct (le_lt_dec i j) as [Hle|Hlt]; [done|]. exfalso.
        apply (Hmin j z Hz Hlt). by apply Hiff.
    - exfalso. apply list_find_None in Ef. rewrite Forall_forall in Ef. apply (Ef x Hx). by apply Hiff.
  Qed.
  Lemma sib_before n c d : before_in ((filter (λ e, e.1 = n) es).*2) c d →
    ∃ i j, i < j ∧ es !! i = Some (n, c) ∧ es !! j = Some (n, d).
  Proof.
    intros Hb. apply lookup_before. eapply before_sublist; [apply (sublist_filter (λ e : nid * nid, e.1 = n))|].
    apply lookup_before in Hb as (i & j & Hij & Hi & Hj).
    rewrite list_lookup_fmap in Hi, Hj.
    destruct (filter _ es !! i) as [[n1 c1]|] eqn:E1; [|done]. destruct (filter _ es !! j) as [[n2 d2]|] eqn:E2; [|done].
    simpl in Hi, Hj. injection Hi as ->. injection Hj as ->.
    pose proof (elem_of_list_lookup_2 _ _ _ E1) as [Hn1 _]%elem_of_list_filter.
    pose proof (elem_of_list_lookup_2 _ _ _ E2) as [Hn2 _]%elem_of_list_filter. simpl in *. subst.
    by eapply before_lookup.
  Qed.
  Lemma cross n c d tc td x y p q : rtc (dom g) root n → before_in ((filter (λ e, e.1 = n) es).*2) c d → c ≠ d →
    tree_of es c tc → tree_of es d td → x ∈ preorder tc → y ∈ preorder td →
    toks !! p = Some x → toks !! q = Some y → p < q.
  Proof.
    intros Hn Hb Hne Htc Htd Hx Hy Hp Hq. destruct (sib_before n c d Hb) as (i & j & Hij & Hi & Hj).
    assert (Hnc : dom g n c) by (apply (bt_edge _ _ _ HT); by eapply elem_of_list_lookup_2).
    assert (Hndd : dom g n d) by (apply (bt_edge _ _ _ HT); by eapply elem_of_list_lookup_2).
    assert (Hc : rtc (dom g) root c) by (eapply rtc_r; [exact Hn|done]). assert (Hd : rtc (dom g) root d) by (eapply rtc_r; [exact Hn|done]).
    assert (Hcx : rtc (dom g) c x) by (apply below_E; [done|]; by eapply tree_elem).
    assert (Hdy : rtc (dom g) d y) by (apply below_E; [done|]; by eapply tree_elem).
    destruct (first_exists c tc Hc Htc) as [a Ha]; [exists x; split; [by eapply elem_of_list_lookup_2|done]|].
    destruct (first_exists d td Hd Htd) as [b Hb']; [exists y; split; [by eapply elem_of_list_lookup_2|done]|].
    pose proof (HL i j n c d a b Hij Hi Hj Ha Hb') as Hab.
    destruct Ha as [(u & Hu & Hcu) Ha]. destruct Hb' as [(v & Hv & Hdv) Hb'].
    pose proof (Ha p x Hp Hcx). pose proof (Hb' q y Hq Hdy).
    assert (a ≠ b). { intros ->. assert (u = v) as -> by congruence. by eapply (apart n c d v). }
    destruct (le_lt_dec q p) as [Hqp|]; [|done]. exfalso.
    assert (b ≠ p). { intros ->. assert (v = x) as -> by congruence. by eapply (apart n c d x). }
    assert (rtc (dom g) c v).
    { apply (Hgap c Hc a b p u v x); [lia|done|done|done|done|done|]. by etrans. }
    by eapply (apart n c d v).
  Qed.
  Lemma tree_text_order t : ∀ n, rtc (dom g) root n → tree_of es n t → text_order toks (preorder t).
  Proof.
    induction t as [a ts IH] using rose_ind'. intros n Hn Ht. pose proof Ht as (ts' & [= -> <-] & Hts)%tree_of_inv.
    intros i j x y p q Hij Hi Hj Hp Hq. rewrite preorder_Rose in Hi, Hj. destruct j as [|j]; [lia|]. simpl in Hj.
    destruct i as [|i].
    { simpl in Hi. injection Hi as <-. exfalso. apply elem_of_list_lookup_2 in Hj.
      apply elem_concat in Hj as (l & _ & Hl). apply elem_of_list_fmap in Hl as (t & _ & [k Hk]%elem_of_list_lookup).
      destruct (Forall2_lookup_r _ _ _ _ _ Hts Hk) as (c & Hc & _). apply elem_of_list_lookup_2, elem_kids in Hc.
      apply (Hleaf n c); [by eapply elem_of_list_lookup_2|]. by apply (bt_edge _ _ _ HT). }
    simpl in Hi. assert (Hlt : i < j) by lia. clear Hij.
    assert (Hkn : NoDup ((filter (λ e, e.1 = n) es).*2)).
    { eapply NoDup_sub; [apply (sublist_fmap snd), sublist_filter|]. pose proof (bt_once _ _ _ HT) as [_ H]%NoDup_cons. exact H. }
    assert (G : ∀ cs0 cs ts, (filter (λ e, e.1 = n) es).*2 = cs0 ++ cs → Forall2 (tree_of es) cs ts →
      Forall (λ t, ∀ n, rtc (dom g) root n → tree_of es n t → text_order toks (preorder t)) ts →
      ∀ i j, i < j → concat (preorder <$> ts) !! i = Some x → concat (preorder <$> ts) !! j = Some y → p < q).
    2: { by apply (G [] _ ts eq_refl Hts IH i j). }
    clear ts IH Ht Hts i j Hi Hj Hlt. intros cs0 cs ts E HF. revert cs0 E.
    induction HF as [|c t cs ts Hc HF IHF]; intros cs0 E HI i j Hij Hi Hj; [done|].
    inversion HI as [|? ? HIt HIts]; subst. cbn [fmap list_fmap concat] in Hi, Hj.
    assert (Hdc : dom g n c). { apply (bt_edge _ _ _ HT), elem_kids. rewrite E. apply elem_of_app. right. left. }
    apply lookup_app_Some in Hj as [Hj|[Hlj Hj]].
    - rewrite lookup_app_l in Hi by (apply lookup_lt_Some in Hj; lia).
      eapply (HIt c); [eapply rtc_r; [exact Hn|done]|done|exact Hij|done|done|done|done].
    - apply lookup_app_Some in Hi as [Hi|[Hli Hi]].
      + apply elem_of_list_lookup_2 in Hi, Hj. apply elem_concat in Hj as (l & Hy & Hl).
        apply elem_of_list_fmap in Hl as (t' & -> & [k Hk]%elem_of_list_lookup).
        destruct (Forall2_lookup_r _ _ _ _ _ HF Hk) as (d & Hd & Hdt).
        pose proof (take_drop_middle _ _ _ Hd) as Ecs.
        assert (Hb : before_in ((filter (λ e, e.1 = n) es).*2) c d).
        { exists cs0, (take k cs), (drop (S k) cs). by rewrite E, Ecs. }
        apply (cross n c d t t' x y p q); try done. intros ->. rewrite E in Hkn.
        apply NoDup_app in Hkn as (_ & _ & Hkn). apply NoDup_cons in Hkn as [Hkn _]. apply Hkn. by eapply elem_of_list_lookup_2.
      + apply (IHF (cs0 ++ [c])) with (i := i - length (preorder t)) (j := j - length (preorder t)); [|done|lia|done|done].
        by rewrite E, <-(assoc_L (++)).
  Qed.
End order.
