(** * MergingFacts: merging several documents (proofs) *)
From Verif Require Import PyBase DocGraph Relabel SpecGraph DocGraphFacts Effects AllHist MergeFacts MergeAll Witness Merging SpecMerging.

Lemma aligned_other g og m : m ∉ g_tokens og → aligned g og m = m.
Proof. intros H. unfold aligned, mapped. destruct (dget m _) as [x|] eqn:E; [|done]. exfalso. apply H. apply (zip_fst_sub _ (g_tokens g)). apply dget_is_Some. by eexists. Qed.
Lemma dget_zip (l k : list nid) i o t : NoDup l → l !! i = Some o → k !! i = Some t → dget o (zip l k) = Some t.
Proof.
  revert k i. induction l as [|a l IH]; intros [|b k] [|i] HN Hl Hk; try done.
  - injection Hl as ->. injection Hk as ->. cbn. by rewrite decide_True by reflexivity.
  - apply NoDup_cons in HN as [Ha HN]. cbn [zip zip_with dget]. destruct (decide (o = a)) as [->|]; [|by eapply IH]. exfalso. apply Ha. by eapply elem_of_list_lookup_2.
Qed.
Lemma said_len g ts : says g ts → length (g_tokens g) = length ts.
Proof. apply Forall2_length. Qed.
Lemma said_node g ts t : says g ts → t ∈ g_tokens g → t ∈ nodes g.
Proof.
  intros H Ht. apply elem_of_list_lookup in Ht as [i Hi]. destruct (Forall2_lookup_l _ _ _ _ _ H Hi) as (v & _ & Hv). apply node_mem. unfold get_token in Hv. destruct (node_attrs g t); [by eexists|done].
Qed.
Lemma aligned_token g og ts i o : says g ts → says og ts → NoDup (g_tokens og) → g_tokens og !! i = Some o → ∃ t, g_tokens g !! i = Some t ∧ aligned g og o = t.
Proof.
  intros Hg Ho HN Hi. destruct (lookup_lt_is_Some_2 (g_tokens g) i) as [t Ht]. { rewrite (said_len _ _ Hg), <-(said_len _ _ Ho). by eapply lookup_lt_Some. }
  exists t. split; [exact Ht|]. unfold aligned, mapped. by rewrite (dget_zip _ _ i o t HN Hi Ht).
Qed.
Lemma other_token g og ts i t : says g ts → says og ts → g_tokens g !! i = Some t → ∃ o, g_tokens og !! i = Some o.
Proof. intros Hg Ho Hi. apply lookup_lt_is_Some_2. rewrite (said_len _ _ Ho), <-(said_len _ _ Hg). by eapply lookup_lt_Some. Qed.
Lemma same_text_maps g og ts e : says g ts → says og ts → create_token_mapping og g ≠ Err e.
Proof.
  intros Hg Ho H. apply token_mapping_err in H as [[-> H]|[(-> & i & o & n & t & t' & Hoi & Hni & Et & Et' & Hne)|[-> [(o & Hi & E)|(o & Hi & E)]]]].
  - rewrite (said_len _ _ Hg), (said_len _ _ Ho) in H. lia.
  - destruct (Forall2_lookup_l _ _ _ _ _ Hg Hni) as (v & Hv & E1). destruct (Forall2_lookup_l _ _ _ _ _ Ho Hoi) as (v' & Hv' & E2). congruence.
  - apply elem_of_list_lookup in Hi as [i Hi]. destruct (Forall2_lookup_l _ _ _ _ _ Ho Hi) as (v & Hv & E1). congruence.
  - apply elem_of_list_lookup in Hi as [i Hi]. destruct (Forall2_lookup_l _ _ _ _ _ Hg Hi) as (v & Hv & E1). congruence.
Qed.

Section one.
  Context (ts : list pyval) (g og : graph) (ogs : list graph) (H : layers_of_text ts g (og :: ogs)).
  Lemma o_says : says g ts ∧ says og ts.
  Proof using H. pose proof (lt_text _ _ _ _ H) as T. apply Forall_cons in T as [? T]. by apply Forall_cons in T as [? ?]. Qed.
  Lemma o_nodup : NoDup (g_tokens g) ∧ NoDup (g_tokens og).
  Proof using H. pose proof (lt_once _ _ _ _ H) as T. apply Forall_cons in T as [? T]. by apply Forall_cons in T as [? ?]. Qed.
  Lemma o_built : reachable (λ o, no_bare_layers o ∧ no_empty_tuple o) g ∧ reachable (λ o, no_bare_layers o ∧ no_empty_tuple o) og.
  Proof using H. pose proof (lt_built _ _ _ _ H) as T. apply Forall_cons in T as [? T]. by apply Forall_cons in T as [? ?]. Qed.
  Lemma o_root : rooted og.
  Proof using H. pose proof (lt_root _ _ _ _ H) as T. by apply Forall_cons in T as [? ?]. Qed.
  Lemma o_apart n : n ∈ nodes g → n ∈ nodes og → False.
  Proof using H. intros H1 H2. pose proof (lt_apart _ _ _ _ H 0 1 g og n eq_refl eq_refl H1 H2). done. Qed.
  Lemma o_map n : n ∈ nodes og → (n ∈ g_tokens og ∧ aligned g og n ∈ g_tokens g) ∨ (n ∉ g_tokens og ∧ aligned g og n = n).
  Proof using H.
    intros Hn. destruct (decide (n ∈ g_tokens og)) as [Ht|Ht]; [left|right; split; [exact Ht|by apply aligned_other]]. split; [exact Ht|].
    apply elem_of_list_lookup in Ht as [i Hi]. destruct (aligned_token g og ts i n (proj1 o_says) (proj2 o_says) (proj2 o_nodup) Hi) as (t & Ht & ->). by eapply elem_of_list_lookup_2.
  Qed.
  Lemma o_merge r : merge_graphs g og r → ∃ g1, r = (g1, None) ∧ merge_result (aligned g og) g og g1.
  Proof using H.
    destruct o_says as [Sg So], o_nodup as [Ng No], o_built as [Rg Ro], o_root as (O1 & O2 & O3). intros Hm.
    assert (HF : ∀ t, t ∈ g_tokens g → t ∉ nodes og ∧ nid_truthy t = true).
    { intros t Ht. split; [|exact (proj1 (List.Forall_forall _ _) (lt_truthy _ _ _ _ H) t (proj1 (elem_of_list_In _ _) Ht))]. intros Hx. eapply o_apart; [|exact Hx]. by eapply said_node. }
    assert (HR : g_root og ∉ nodes g) by (intros Hx; by eapply o_apart).
    destruct (merge_graphs_ok g og r (reach_NInv _ Rg) (reach_NInv _ Ro) Ng No HF (lt_main _ _ _ _ H) O1 HR O2 O3 Hm) as [(e & _ & E)|(g1 & -> & _ & M)]; [by destruct (same_text_maps g og ts e Sg So)|by exists g1].
  Qed.
  Lemma o_exists : ∃ r, merge_graphs g og r.
  Proof using H.
    destruct o_says as [Sg So], o_nodup as [Ng No]. exists (merge_exec g og). apply merge_exec_ok. intros m Hm. apply token_mapping_Ok in Hm as (Hl & -> & _). rewrite foldl_dset_zip; [|done|done|intros ? _; apply not_elem_of_nil]. cbn [app].
    apply Forall_forall. intros x Hx1 Hx2. apply zip_fst_sub in Hx1. apply zip_snd_sub in Hx2. apply (o_apart x); by eapply said_node.
  Qed.

  Context (g1 : graph) (Hmg : merge_graphs g og (g1, None)) (M : merge_result (aligned g og) g og g1).
  Lemma n_tokens : g_tokens g1 = g_tokens g.
  Proof using H M.
    destruct o_says as [Sg So]. rewrite (mr_tokens _ _ _ _ M). destruct (g_tokens g) as [|t l] eqn:E; [|done]. apply said_len in Sg, So. rewrite E in Sg. destruct (g_tokens og); [done|]. cbn in *. lia.
  Qed.
  Lemma n_nodes n : n ∈ nodes g1 → n ∈ nodes g ∨ n ∈ nodes og.
  Proof using H M.
    intros [Hn|(m & Hm & _ & ->)]%(mr_nodes _ _ _ _ M); [by left|]. destruct (o_map m Hm) as [[_ Ht]|[_ ->]]; [left|by right]. eapply said_node; [apply o_says|exact Ht].
  Qed.
  (** tokens *)
  Lemma n_token i t : g_tokens g !! i = Some t → ∃ o a b a', g_tokens og !! i = Some o ∧ node_attrs og o = Some a ∧ node_attrs g t = Some b ∧ node_attrs g1 t = Some a' ∧
    (∀ x, has_layer a' x ↔ has_layer a x ∨ has_layer b x) ∧ (∀ key, key ≠ "layers" → key ≠ g_ns g +:+ ":token" → dget key a' = match dget key a with Some v => Some v | None => dget key b end) ∧
    dget (g_ns g +:+ ":token") a' = dget (g_ns g +:+ ":token") b.
  Proof using H M.
    intros Ht. destruct o_says as [Sg So]. destruct (other_token g og ts i t Sg So Ht) as (o & Hi). destruct (aligned_token g og ts i o Sg So (proj2 o_nodup) Hi) as (t' & Ht' & Ea). rewrite Ht in Ht'. injection Ht' as <-.
    assert (Hto : o ∈ g_tokens og) by (by eapply elem_of_list_lookup_2). assert (Htg : t ∈ g_tokens g) by (by eapply elem_of_list_lookup_2).
    destruct (proj1 (node_mem og o) (said_node _ _ _ So Hto)) as [a Ha]. destruct (proj1 (node_mem g t) (said_node _ _ _ Sg Htg)) as [b Hb].
    destruct (mr_other _ _ _ _ M o a) as (a' & Ha' & HL & HV & HT); [|exact Ha|]. { intros ->. by apply (proj1 (proj2 o_root)). }
    rewrite Ea in *. rewrite Hb in *. exists o, a, b, a'. split; [exact Hi|]. split; [exact Ha|]. split; [reflexivity|]. split; [exact Ha'|]. split; [|split; [exact HV|]].
    - intros x. rewrite HL. unfold ohas_layer. naive_solver.
    - rewrite HT. cbn [oget]. destruct (Forall2_lookup_l _ _ _ _ _ Sg Ht) as (v & Hv & E1). destruct (Forall2_lookup_l _ _ _ _ _ So Hi) as (v' & Hv' & E2). rewrite Hv in Hv'. injection Hv' as <-.
      assert (E3 : dget (g_ns g +:+ ":token") b = Some v) by (unfold get_token in E1; rewrite Hb in E1; destruct (dget _ b); [by injection E1 as ->|done]). rewrite E3. destruct (dget (g_ns g +:+ ":token") a) as [w|] eqn:E4; [|reflexivity].
      pose proof (lt_ns _ _ _ _ H) as T. apply Forall_cons in T as [T _]. specialize (T o a w Hto Ha E4). congruence.
  Qed.
  Lemma n_text n : n ∈ g_tokens g → get_token g1 n = get_token g n.
  Proof using H M.
    intros Hn. apply elem_of_list_lookup in Hn as [i Hi]. destruct (n_token i n Hi) as (o & a & b & a' & _ & _ & Hb & Ha' & _ & _ & E). unfold get_token. by rewrite Hb, Ha', (mr_ns _ _ _ _ M), E.
  Qed.
  Lemma n_layers : layers_of_text ts g1 ogs.
  Proof using H M Hmg.
    destruct o_says as [Sg So], o_nodup as [Ng No], o_built as [Rg Ro].
    split.
    - apply Forall_cons. split; [|pose proof (lt_built _ _ _ _ H) as T; apply Forall_cons in T as [_ T]; by apply Forall_cons in T as [_ T]]. exact (R_merge _ g og (g1, None) Rg Ro Hmg).
    - apply Forall_cons. split; [|pose proof (lt_text _ _ _ _ H) as T; apply Forall_cons in T as [_ T]; by apply Forall_cons in T as [_ T]]. unfold says. rewrite n_tokens.
      apply Forall2_same_length_lookup_2; [by eapply said_len|]. intros i n t Hn Ht. rewrite n_text by (by eapply elem_of_list_lookup_2). destruct (Forall2_lookup_l _ _ _ _ _ Sg Hn) as (v & Hv & E1). congruence.
    - apply Forall_cons. split; [by rewrite n_tokens|pose proof (lt_once _ _ _ _ H) as T; apply Forall_cons in T as [_ T]; by apply Forall_cons in T as [_ T]].
    - rewrite n_tokens. exact (lt_truthy _ _ _ _ H).
    - rewrite (mr_root _ _ _ _ M). apply (mr_nodes _ _ _ _ M). left. exact (lt_main _ _ _ _ H).
    - pose proof (lt_root _ _ _ _ H) as T. by apply Forall_cons in T as [_ T].
    - pose proof (lt_apart _ _ _ _ H) as T. intros [|i] [|j] d d' n Hd Hd' Hn Hn'; cbn in Hd, Hd'.
      + done.
      + injection Hd as <-. destruct (n_nodes n Hn) as [Hx|Hx]; [by specialize (T 0 (S (S j)) g d' n eq_refl Hd' Hx Hn')|by specialize (T 1 (S (S j)) og d' n eq_refl Hd' Hx Hn')].
      + injection Hd' as <-. destruct (n_nodes n Hn') as [Hx|Hx]; [by specialize (T (S (S i)) 0 d g n Hd eq_refl Hn Hx)|by specialize (T (S (S i)) 1 d og n Hd eq_refl Hn Hx)].
      + specialize (T (S (S i)) (S (S j)) d d' n Hd Hd' Hn Hn'). congruence.
    - rewrite (mr_ns _ _ _ _ M). pose proof (lt_ns _ _ _ _ H) as T. by apply Forall_cons in T as [_ T].
  Qed.
End one.
