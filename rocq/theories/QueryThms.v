(** * QueryThms: proofs of the query properties from the lemmas of SpanFacts,
    OffsetFacts, ChainFacts and SelectFacts *)
From Verif Require Import PyBase DocGraph Relabel SpecGraph DocGraphFacts History Effects
  RelabelFacts MergeFacts AllHist MergeAll GraphThms StrNum Query SpecQuery NatSort SpanFacts
  OffsetFacts ChainFacts SelectFacts.

Section thms.
  Implicit Types g : graph.
  Lemma token_is_inj g t s s' : token_is g t s → token_is g t s' → s = s'.
  Proof. intros (a & Ha & Hs) (a' & Ha' & Hs'). congruence. Qed.
  Lemma text_tokens_inj g ss ss' : text_tokens g ss → text_tokens g ss' → ss = ss'.
  Proof.
    unfold text_tokens. intros H. revert ss'. induction H as [|t s l ss Ht HF IH]; intros ss' H'.
    - by apply Forall2_nil_inv_l in H'.
    - apply Forall2_cons_inv_l in H' as (s' & ss'' & Hs' & HF' & ->).
      f_equal; [by eapply token_is_inj|by apply IH].
  Qed.
  Lemma current_state g ns ss : text_tokens g ss → no_offsets g ns ∨ current_offsets g ns → off_state g ns ss.
  Proof.
    intros HT [?|(ss' & HT' & HF)]; [by left|]. right. by rewrite (text_tokens_inj g ss ss').
  Qed.

  Lemma offsets_thm g ns ss : NoDup (g_tokens g) → text_tokens g ss →
    ∃ g', add_offsets g ns = (g', None) ∧ same_but_offsets ns g g' ∧
      (∀ k, get_text k g' None = Ok (str (joined ss))) ∧
      ∀ i t s, g_tokens g !! i = Some t → ss !! i = Some s →
        ∃ p, offset_attrs g' ns t p ∧ text_at (joined ss) p.1 p.2 s ∧
          (i = 0 → p.1 = 0%Z) ∧
          (∀ t', g_tokens g !! S i = Some t' → ∃ p', offset_attrs g' ns t' p' ∧ p'.1 = (p.2 + 1)%Z) ∧
          (S i = length (g_tokens g) → p.2 = Z.of_nat (length (joined ss))).
  Proof.
    intros Hnd HT. destruct (add_offsets_ok g ns ss Hnd HT) as (g' & He & U & HF & _).
    assert (Htk : g_tokens g' = g_tokens g) by apply U. rewrite Htk in HF.
    exists g'. split; [done|]. split; [by apply off_upd_spec|]. split.
    { intros k. simpl. apply tokens2text_is. by eapply off_upd_text. }
    intros i t s Hi Hs. destruct (Forall2_lookup_l _ _ _ _ _ HF Hi) as (p & Hp & Hop).
    exists p. split; [done|]. split_and!.
    - by apply (wo_text ss [] i).
    - intros ->. destruct ss as [|s0 ss]; [done|]. simpl in Hp. by injection Hp as <-.
    - intros t' Ht'. destruct (Forall2_lookup_l _ _ _ _ _ HF Ht') as (p' & Hp' & Hop').
      exists p'. split; [done|]. by eapply wo_next.
    - intros Hlen. rewrite (wo_last 0 ss p); [lia|]. rewrite last_lookup, <-Hp. f_equal.
      rewrite <-(Forall2_length _ _ _ HF). lia.
  Qed.
  Lemma get_offsets_thm g ns ss t : NoDup (g_tokens g) → text_tokens g ss →
    no_offsets g ns ∨ current_offsets g ns → t ∈ g_tokens g →
    ∃ g' p, (∀ k, 2 ≤ k → get_offsets k g t ns = (g', Ok p) ∧ get_offsets k g' t ns = (g', Ok p)) ∧
      same_but_offsets ns g g' ∧ current_offsets g' ns ∧
      ∃ g1, add_offsets g ns = (g1, None) ∧ offset_attrs g1 ns t p.
  Proof.
    intros Hnd HT HS%(current_state g ns ss HT) [i Hi]%elem_of_list_lookup.
    destruct (pos_of_total g ss t HT) as (p & i' & Hi' & Hp); [by eapply elem_of_list_lookup_2|].
    assert (i' = i) as -> by by eapply NoDup_lookup.
    destruct (get_offsets_any g ns ss t i p 0 Hnd HT HS Hi Hp) as (g' & _ & U & HF).
    assert (Htk : g_tokens g' = g_tokens g) by apply U.
    destruct (add_offsets_ok g ns ss Hnd HT) as (g1 & He1 & U1 & HF1 & _).
    assert (Htk1 : g_tokens g1 = g_tokens g) by apply U1.
    assert (Hg1 : offset_attrs g1 ns t p).
    { rewrite Htk1 in HF1. by eapply (Forall2_lookup_lr _ _ _ _ _ _ HF1). }
    destruct HS as [HN|HC].
    - destruct (get_offsets_missing g ns ss t i p 0 Hnd HT HN Hi Hp) as (g2 & E2 & U2 & HF2).
      assert (Htk2 : g_tokens g2 = g_tokens g) by apply U2.
      exists g2, p. split.
      + intros [|[|k]] Hk; [lia|lia|]. split.
        * destruct (get_offsets_missing g ns ss t i p k Hnd HT HN Hi Hp) as (g3 & E3 & _).
          assert (g3 = g2) as ->; [|done].
          assert (Hx : ∀ k, (get_offsets (S (S k)) g t ns).1 = (add_offsets g ns).1); [|].
          { intros k'. cbn [get_offsets]. destruct (lookup_token_is _ _ _ _ HT Hi) as [s Hs].
            rewrite (token_istoken _ _ _ Hs). simpl.
            assert (E : stored_offsets g t ns = Err KeyError).
            { unfold stored_offsets. destruct Hs as (a & Ha & _). rewrite Ha. unfold on_key.
              by rewrite (proj1 (HN _ _ Ha)). }
            rewrite E, He1.
            pose proof (get_offsets_current g1 ns ss t i p k') as Hc. cbn [get_offsets] in Hc.
            rewrite Hc; [done|by eapply off_upd_text|done|by rewrite Htk1|done]. }
          pose proof (Hx k) as Ha. pose proof (Hx 0) as Hb. rewrite E3 in Ha. rewrite E2 in Hb.
          simpl in Ha, Hb. congruence.
        * apply (get_offsets_current g2 ns ss t i); [by eapply off_upd_text|done|by rewrite Htk2|done].
      + split; [by apply off_upd_spec|]. split; [|by exists g1].
        exists ss. split; [by eapply off_upd_text|done].
    - exists g, p. split.
      + intros [|[|k]] Hk; [lia|lia|]. by rewrite (get_offsets_current g ns ss t i p).
      + split; [apply off_upd_spec, off_upd_refl|]. split; [by exists ss|by exists g1].
  Qed.
  Lemma all_offsets_thm g ns : current_offsets g ns →
    ∃ r, get_all_offsets g ns = Ok r ∧ (λ x, x.1.1) <$> r = g_tokens g ∧
      ∀ t p, (t, p.1, p.2) ∈ r → offset_attrs g ns t p.
  Proof.
    intros (ss & HT & HF). unfold get_all_offsets, text_tokens in *.
    revert ss HT HF. generalize 0%Z as st. generalize (g_tokens g). intros toks. induction toks as [|t toks IH]; intros st ss HT HF.
    - exists []. split; [done|]. split; [done|]. intros t p Hp. by apply elem_of_nil in Hp.
    - apply Forall2_cons_inv_l in HT as (s & ss' & Hs & HT & ->). simpl in HF.
      apply Forall2_cons_inv_l in HF as (p & ps & Hp & HF & [= <- <-]).
      destruct (IH _ _ HT HF) as (r & Hr & Hrt & Hro). cbn [rmap].
      assert (E1 : ∃ v, get_token g t = Ok v).
      { destruct Hs as (a & Ha & Ht). exists (VStr s). unfold get_token. by rewrite Ha, Ht. }
      destruct E1 as [v ->]. cbn [rbind]. apply stored_offsets_is in Hp. rewrite Hp. cbn [rbind].
      rewrite Hr. cbn [rbind]. eexists. split; [done|]. split; [simpl; by f_equal|].
      intros t' p' [E|Hin]%elem_of_cons; [|by apply Hro]. injection E as -> E1 E2.
      apply stored_offsets_is. rewrite Hp. destruct p'. simpl in *. by subst.
  Qed.
  Lemma all_offsets_missing g ns ss : text_tokens g ss → no_offsets g ns → g_tokens g ≠ [] →
    get_all_offsets g ns = Err KeyError.
  Proof.
    unfold get_all_offsets, text_tokens. intros HT HN Hne. destruct (g_tokens g) as [|t toks]; [done|].
    apply Forall2_cons_inv_l in HT as (s & ss' & (a & Ha & Hs) & HT & ->). cbn [rmap]. unfold get_token.
    rewrite Ha, Hs. simpl. unfold stored_offsets. rewrite Ha. unfold on_key. rewrite (proj1 (HN _ _ Ha)). done.
  Qed.

  Lemma span_sub g k n span : Consistent g → (∀ t, is_token g t → t ∈ g_tokens g) →
    get_span k g n = Ok span → span ⊆ g_tokens g.
  Proof. intros C HL Hs t Ht. apply HL. by apply (get_span_elem g C k n span Hs t). Qed.
  Lemma span_offsets_thm g n ss t0 : Consistent g → typed g → acyclic (covers g) → n ∈ nodes g →
    NoDup (g_tokens g) → text_tokens g ss → no_offsets g (g_ns g) ∨ current_offsets g (g_ns g) →
    (∀ t, is_token g t → t ∈ g_tokens g) → is_token g t0 → below g n t0 →
    ∀ k, length (nodes g) < k →
    ∃ g' on off, get_span_offsets k g n = (g', Ok (on, off)) ∧ same_but_offsets (g_ns g) g g' ∧
      current_offsets g' (g_ns g) ∧
      (∃ t p, is_token g t ∧ below g n t ∧ offset_attrs g' (g_ns g) t p ∧ p.1 = on) ∧
      (∃ t p, is_token g t ∧ below g n t ∧ offset_attrs g' (g_ns g) t p ∧ p.2 = off) ∧
      (∀ t p, is_token g t → below g n t → offset_attrs g' (g_ns g) t p → (on ≤ p.1 ∧ p.2 ≤ off)%Z).
  Proof.
    intros C T Hac Hn Hnd HT HS%(current_state _ _ ss HT) HL Ht0 Hb0 k Hk.
    destruct (get_span_total g n C T Hac Hn) as [span Hspan]. specialize (Hspan k Hk).
    pose proof (get_span_elem g C k n span Hspan) as Hel.
    destruct (get_span_offsets_ok k g n ss span Hnd HT HS Hspan) as
      (g' & i & j & pi & pj & He & U & HF & Hi & Hj & Hij & (ti & Hti & Hsi) & (tj & Htj & Hsj) & Hall).
    { intros ->. pose proof (proj2 (Hel t0) (conj Ht0 Hb0)) as Hx. by apply elem_of_nil in Hx. }
    { by eapply span_sub. }
    exists g', pi.1, pj.2. split; [done|]. split; [by apply off_upd_spec|]. split.
    { exists ss. split; [by eapply off_upd_text|done]. }
    assert (Htk : g_tokens g' = g_tokens g) by apply U. rewrite Htk in HF. split_and!.
    - exists ti, pi. apply Hel in Hsi as [? ?]. split_and!; try done. by eapply (Forall2_lookup_lr _ _ _ _ _ _ HF).
    - exists tj, pj. apply Hel in Hsj as [? ?]. split_and!; try done. by eapply (Forall2_lookup_lr _ _ _ _ _ _ HF).
    - intros t p Ht Hb Hp. pose proof (proj2 (Hel t) (conj Ht Hb)) as Hin.
      pose proof (HL t Ht) as Htin. apply elem_of_list_lookup in Htin as [m Hm].
      destruct (Hall m t Hm Hin) as [Him Hmj].
      destruct (Forall2_lookup_l _ _ _ _ _ HF Hm) as (q & Hq & Hoq).
      assert (q = p) as ->.
      { apply stored_offsets_is in Hoq, Hp. congruence. }
      pose proof (wo_le _ _ _ _ Hq). pose proof (wo_le _ _ _ _ Hi). pose proof (wo_le _ _ _ _ Hj). split.
      + destruct (decide (i = m)) as [->|]; [rewrite Hi in Hq; injection Hq as ->; lia|].
        assert (pi.2 < p.1)%Z by (eapply (wo_lt 0 ss i m); [lia|done|done]). lia.
      + destruct (decide (m = j)) as [->|]; [rewrite Hj in Hq; injection Hq as ->; lia|].
        assert (p.2 < pj.1)%Z by (eapply (wo_lt 0 ss m j); [lia|done|done]). lia.
  Qed.
  Lemma span_offsets_empty_thm g n : Consistent g → typed g → acyclic (covers g) → n ∈ nodes g →
    (∀ t, is_token g t → ¬ below g n t) →
    ∀ k, length (nodes g) < k → get_span_offsets k g n = (g, Err ValueError).
  Proof.
    intros C T Hac Hn Hno k Hk. destruct (get_span_total g n C T Hac Hn) as [span Hspan]. specialize (Hspan k Hk).
    apply get_span_offsets_empty. rewrite Hspan. f_equal. destruct span as [|t span]; [done|]. exfalso.
    destruct (proj1 (get_span_elem g C k n _ Hspan t)) as [? ?]; [left|]. by apply (Hno t).
  Qed.
  Lemma continuous_thm g n ss t0 : Consistent g → typed g → acyclic (covers g) → n ∈ nodes g →
    NoDup (g_tokens g) → text_tokens g ss → no_offsets g (g_ns g) ∨ current_offsets g (g_ns g) →
    (∀ t, is_token g t → t ∈ g_tokens g) → is_token g t0 → below g n t0 →
    ∀ k, length (nodes g) < k →
    ∃ g' b, is_continuous k g n = (g', Ok b) ∧ same_but_offsets (g_ns g) g g' ∧
      (b = true ↔ ∀ i m j ti tm tj, i ≤ m ≤ j → g_tokens g !! i = Some ti → g_tokens g !! m = Some tm →
         g_tokens g !! j = Some tj → below g n ti → below g n tj → below g n tm).
  Proof.
    intros C T Hac Hn Hnd HT HS%(current_state _ _ ss HT) HL Ht0 Hb0 k Hk.
    destruct (get_span_total g n C T Hac Hn) as [span Hspan]. specialize (Hspan k Hk).
    pose proof (get_span_elem g C k n span Hspan) as Hel.
    destruct (is_continuous_ok k g n ss span Hnd HT HS Hspan) as (g' & b & He & U & Hb).
    { intros ->. pose proof (proj2 (Hel t0) (conj Ht0 Hb0)) as Hx. by apply elem_of_nil in Hx. }
    { by eapply span_sub. }
    exists g', b. split; [done|]. split; [by apply off_upd_spec|]. rewrite Hb.
    assert (Htok : ∀ i t, g_tokens g !! i = Some t → is_token g t).
    { intros i t Hi. destruct (lookup_token_is _ _ _ _ HT Hi) as (s & a & Ha & Hs). exists a. eauto. }
    split; intros H i m j ti tm tj Hm Hi Htm Hj H1 H2.
    - apply (Hel tm). apply (H i m j ti tm tj); try done; apply Hel; eauto.
    - apply Hel. split; [by eapply Htok|]. apply (H i m j ti tm tj); try done; by apply Hel.
  Qed.

  Lemma R_points g layer es rel : Consistent g → select_edges_by g layer (Some points_to) = Ok es →
    (∀ u v k a, (u, v, k, a) ∈ es ↔ edge_attrs g u v k = Some a ∧ edge_ok a layer (Some points_to)) →
    rel_dict_of es rel → ∀ u v, R rel u v ↔ points g layer u v.
  Proof.
    intros C _ Hes (_ & _ & Hrel) u v. unfold R, points. rewrite Hrel. setoid_rewrite Hes. unfold edge_ok.
    split; intros (k & a & H); exists k, a; destruct layer; naive_solver.
  Qed.
  Lemma acyclic_ext {A} (R1 R2 : A → A → Prop) : (∀ x y, R1 x y ↔ R2 x y) → acyclic R2 → acyclic R1.
  Proof.
    intros E H x Hx. apply (H x). assert (Hi : ∀ a b, tc R1 a b → tc R2 a b); [|by apply Hi].
    induction 1 as [a b Hab|a b c Hab _ IH]; [apply tc_once; by apply E|]. eapply tc_l; [by apply E|done].
  Qed.
  Lemma linked_ext {A} (R1 R2 : A → A → Prop) c : (∀ x y, R1 x y ↔ R2 x y) → linked R1 c ↔ linked R2 c.
  Proof.
    intros E. induction c as [|x c IH]; [done|]. destruct c as [|y c]; [done|].
    change (R1 x y ∧ linked R1 (y :: c) ↔ R2 x y ∧ linked R2 (y :: c)). by rewrite E, IH.
  Qed.
  Lemma maximal_ext {A} (R1 R2 : A → A → Prop) c : (∀ x y, R1 x y ↔ R2 x y) → maximal_chain R1 c ↔ maximal_chain R2 c.
  Proof. intros E. unfold maximal_chain. rewrite (linked_ext R1 R2 c E). by setoid_rewrite E. Qed.
  Lemma points_ok_lit : ∀ t, Some points_to = Some t → plain_str t.
  Proof.
    intros t [= <-] c Hc. assert (H : Forall (λ c, c ∉ ["'"%char; "\"%char; "010"%char; "013"%char]) (chs points_to)).
    { apply (bool_decide_unpack _). vm_compute. exact I. }
    rewrite Forall_forall in H. by apply H.
  Qed.
  Lemma chains_thm g layer : Consistent g → Layered g → typed g → (∀ l, layer = Some l → plain_str l) →
    acyclic (points g layer) →
    ∃ bound, ∀ fuel r, bound < fuel → get_pointing_chains fuel g layer r →
      ∃ cs, r = Ok cs ∧ NoDup cs ∧ (∀ c, c ∈ cs ↔ maximal_chain (points g layer) c) ∧
        (∀ u v, points g layer u v → ∃ c, c ∈ cs ∧ u ∈ c ∧ v ∈ c).
  Proof.
    intros C L T Hp Hac.
    destruct (select_edges_by_ok g layer (Some points_to) C L (λ _, T) Hp points_ok_lit) as (es & Hes & _ & Hel).
    exists (length (nodes g)). intros fuel r Hf H. inversion H as [e He|es' rel Hes' Hrel]; subst; [congruence|].
    rewrite Hes in Hes'. injection Hes' as <-.
    pose proof (R_points g layer es rel C Hes Hel Hrel) as HR. destruct Hrel as (Hk & Hv & Hr).
    assert (HacR : acyclic (R rel)) by by eapply acyclic_ext.
    assert (Hlen : length (dkeys rel) ≤ length (nodes g)).
    { apply submseteq_length, NoDup_submseteq; [done|]. intros s Hs.
      destruct (key_R rel Hv s Hs) as [t Ht]. apply HR in Ht as (k & a & He & _). by eapply edge_node_l. }
    destruct (chains_ok rel Hk Hv HacR fuel) as (cs & Hcs & Hnd & Hc); [lia|].
    exists cs. split; [done|]. split; [done|]. split.
    { intros c. rewrite Hc. by apply maximal_ext. }
    intros u v Huv. apply HR in Huv. pose proof (R_key rel u v Huv) as Hu.
    assert (∃ c, from rel u c ∧ v ∈ c) as (c & Hfr & Hvc).
    { destruct (decide (v ∈ dkeys rel)) as [Hvk|Hvn].
      - destruct (chain_forward rel Hv HacR v Hvk) as [c Hfr].
        exists (u :: c). split; [by eapply from_cons|]. destruct Hfr as (_ & Hh & _).
        destruct c as [|x c]; [done|]. simpl in Hh. injection Hh as ->. right. left.
      - exists [u; v]. split; [|right; left]. split_and!; [simpl; lia|done|done|].
        intros x [= <-] y Hy. by apply Hvn, (R_key rel v y). }
    destruct (chain_backward rel HacR u c Hfr) as (c' & Hm & Hsub).
    exists c'. split; [by apply Hc|]. split; [|by apply Hsub]. apply Hsub.
    destruct Hfr as (_ & Hh & _). destruct c as [|x c]; [done|]. simpl in Hh. injection Hh as ->. left.
  Qed.
End thms.
