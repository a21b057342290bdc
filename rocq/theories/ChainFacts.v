(** * ChainFacts: get_pointing_chains *)
From Verif Require Import PyBase DocGraph Relabel SpecGraph DocGraphFacts History Effects
  RelabelFacts MergeFacts AllHist MergeAll GraphThms StrNum Query SpecQuery NatSort SpanFacts.

Section chains.
  Context (rel : dict nid (list nid)).
  Context (Hkeys : NoDup (dkeys rel)).
  Context (Hvals : ∀ s ts, (s, ts) ∈ rel → NoDup ts ∧ ts ≠ []).
  Definition R (s t : nid) : Prop := t ∈ default [] (dget s rel).
  Context (Hac : acyclic R).

  Lemma R_key s t : R s t → s ∈ dkeys rel.
  Proof. unfold R. destruct (dget s rel) eqn:E; [|by intros ?%elem_of_nil]. intros _. apply dget_is_Some. by eexists. Qed.
  Lemma key_R s : s ∈ dkeys rel → ∃ t, R s t.
  Proof.
    intros [ts Hts]%dget_is_Some. destruct (Hvals s ts) as [_ Hne]; [by apply dget_Some_elem|].
    destruct ts as [|t ts]; [done|]. exists t. unfold R. rewrite Hts. left.
  Qed.
  (** a chain starting in s that cannot be extended at its end *)
  Definition from (s : nid) (c : list nid) : Prop :=
    2 ≤ length c ∧ head c = Some s ∧ linked R c ∧ ∀ x, last c = Some x → ∀ y, ¬ R x y.
  Lemma from_cons s t d : R s t → from t d → from s (s :: d).
  Proof.
    intros Hst (Hl & Hh & Hk & Hla). destruct d as [|x d]; [done|]. simpl in Hh. injection Hh as ->.
    split_and!; [simpl in *; lia|done|done|]. intros x Hx. apply Hla. by rewrite last_cons_cons in Hx.
  Qed.
  Lemma from_inv s c : from s c → ∃ t, R s t ∧
    ((t ∉ dkeys rel ∧ c = [s; t]) ∨ (t ∈ dkeys rel ∧ ∃ d, c = s :: d ∧ from t d)).
  Proof.
    intros (Hl & Hh & Hk & Hla). destruct c as [|s' [|t d]]; simpl in *; try lia. injection Hh as ->.
    destruct Hk as [Hst Hk]. exists t. split; [done|]. destruct d as [|u d].
    - left. split; [|done]. intros [u Hu]%key_R. by apply (Hla t eq_refl u).
    - right. split; [eapply R_key, Hk|]. exists (t :: u :: d). split; [done|].
      split_and!; [simpl; lia|done|done|]. intros x Hx. apply Hla. by rewrite last_cons_cons.
  Qed.
  Lemma walk_chain_S k s cs : walk_chain (S k) rel s = Ok cs ↔
    ∃ rs, Forall2 (λ t r, if dmem t rel then ∃ tails, walk_chain k rel t = Ok tails ∧ r = (λ d, s :: d) <$> tails
                          else r = [[s; t]]) (default [] (dget s rel)) rs ∧ cs = concat rs.
  Proof.
    cbn [walk_chain]. rewrite rconcat_Ok.
    assert (He : ∀ t r, (if dmem t rel then
        let! tails := walk_chain k rel t in Ok ((λ tail, s :: tail) <$> tails) else Ok [[s; t]]) = Ok r ↔
       (if dmem t rel then ∃ tails, walk_chain k rel t = Ok tails ∧ r = (λ d, s :: d) <$> tails
                          else r = [[s; t]])).
    { intros t r. destruct (dmem t rel); [|naive_solver]. rewrite rbind_Ok. naive_solver. }
    split; intros (rs & HF & ->); exists rs; (split; [|done]); eapply Forall2_impl; try done; intros; by apply He.
  Qed.
  Lemma walk_chain_elem k : ∀ s cs, s ∈ dkeys rel → walk_chain k rel s = Ok cs → ∀ c, c ∈ cs ↔ from s c.
  Proof.
    induction k as [|k IH]; [done|]. intros s cs Hs (rs & HF & ->)%walk_chain_S c.
    rewrite elem_concat. split.
    - intros (r & Hc & Hr). apply elem_of_list_lookup in Hr as [i Hi].
      destruct (Forall2_lookup_r _ _ _ _ _ HF Hi) as (t & Ht & Hr). apply elem_of_list_lookup_2 in Ht.
      destruct (dmem t rel) eqn:Em.
      + destruct Hr as (tails & Hw & ->). apply elem_of_list_fmap in Hc as (d & -> & Hd).
        apply dmem_spec in Em. apply (IH t tails Em Hw) in Hd. by eapply from_cons.
      + subst. apply elem_of_list_singleton in Hc as ->. split_and!; [simpl; lia|done|done|].
        intros x [= <-] y Hy. apply dmem_false in Em. by apply Em, (R_key t y).
    - intros (t & Hst & Hcase)%from_inv. pose proof Hst as Hi. unfold R in Hi.
      apply elem_of_list_lookup in Hi as [i Hi].
      destruct (Forall2_lookup_l _ _ _ _ _ HF Hi) as (r & Hr & HrF). apply elem_of_list_lookup_2 in Hr.
      exists r. split; [|done]. destruct Hcase as [[Hn ->]|[Hk (d & -> & Hd)]].
      + apply dmem_false in Hn. rewrite Hn in HrF. subst. left.
      + pose proof Hk as Hm. apply dmem_spec in Hm. rewrite Hm in HrF. destruct HrF as (tails & Hw & ->).
        apply elem_of_list_fmap. exists d. split; [done|]. by apply (IH t tails).
  Qed.
  Lemma walk_chain_NoDup k : ∀ s cs, s ∈ dkeys rel → walk_chain k rel s = Ok cs → NoDup cs.
  Proof.
    induction k as [|k IH]; [done|]. intros s cs Hs (rs & HF & ->)%walk_chain_S.
    assert (Hnd : NoDup (default [] (dget s rel))).
    { destruct (dget s rel) as [ts|] eqn:E; [|apply NoDup_nil_2]. apply dget_Some_elem in E.
      by destruct (Hvals _ _ E). }
    assert (H2 : ∀ ts rs, NoDup ts → Forall2 (λ t r, if dmem t rel
         then ∃ tails, walk_chain k rel t = Ok tails ∧ r = (λ d, s :: d) <$> tails
         else r = [[s; t]]) ts rs →
       NoDup (concat rs) ∧ ∀ c, c ∈ concat rs → ∃ t d, t ∈ ts ∧ c = s :: d ∧ head d = Some t).
    { clear rs HF Hnd. intros ts rs Hnd HF. induction HF as [|t r ts rs Hr HF IHF].
      - split; [apply NoDup_nil_2|]. intros c Hc. by apply elem_of_nil in Hc.
      - apply NoDup_cons in Hnd as [Hni Hnd]. destruct (IHF Hnd) as [I1 I2].
        assert (Hr' : NoDup r ∧ ∀ c, c ∈ r → ∃ d, c = s :: d ∧ head d = Some t).
        { destruct (dmem t rel) eqn:Em.
          - destruct Hr as (tails & Hw & ->). apply dmem_spec in Em. split.
            + apply NoDup_fmap_2; [intros ? ?; congruence|]. by eapply IH.
            + intros c (d & -> & Hd)%elem_of_list_fmap. exists d. split; [done|].
              apply (walk_chain_elem k t tails Em Hw) in Hd. apply Hd.
          - subst. split; [apply NoDup_singleton|]. intros c ->%elem_of_list_singleton. by exists [t]. }
        destruct Hr' as [Hr1 Hr2]. simpl. split.
        + apply NoDup_app. split; [done|]. split; [|done]. intros c Hc1 Hc2.
          destruct (Hr2 c Hc1) as (d & -> & Hd). destruct (I2 _ Hc2) as (t' & d' & Ht' & [= <-] & Hd').
          rewrite Hd in Hd'. by injection Hd' as <-.
        + intros c [Hc|Hc]%elem_of_app.
          * destruct (Hr2 c Hc) as (d & -> & Hd). exists t, d. split; [left|done].
          * destruct (I2 c Hc) as (t' & d & ? & ? & ?). exists t', d. split; [by right|done]. }
    by apply (H2 _ rs Hnd).
  Qed.
  Lemma walk_chain_total s k : length (dkeys rel) < k → s ∈ dkeys rel → ∃ cs, walk_chain k rel s = Ok cs.
  Proof.
    revert k s. apply (acyclic_fuel R (dkeys rel) (λ k s, s ∈ dkeys rel → ∃ cs, walk_chain k rel s = Ok cs) Hac).
    - intros x y. apply R_key.
    - intros k s IH Hs.
      assert (HF : ∀ t, t ∈ default [] (dget s rel) → ∃ r, if dmem t rel
         then ∃ tails, walk_chain k rel t = Ok tails ∧ r = (λ d, s :: d) <$> tails
         else r = [[s; t]]).
      { intros t Ht. destruct (dmem t rel) eqn:Em; [|eauto]. apply dmem_spec in Em.
        destruct (IH t Ht Em) as [tails Hw]. eauto. }
      assert (∃ rs, Forall2 (λ t r, if dmem t rel
         then ∃ tails, walk_chain k rel t = Ok tails ∧ r = (λ d, s :: d) <$> tails
         else r = [[s; t]]) (default [] (dget s rel)) rs) as [rs Hrs].
      { revert HF. generalize (default [] (dget s rel)). intros ts. induction ts as [|t ts IHt]; intros HF; [by exists []|].
        destruct (HF t) as [r Hr]; [left|]. destruct IHt as [rs Hrs]; [intros; apply HF; by right|].
        exists (r :: rs). by constructor. }
      exists (concat rs). apply walk_chain_S. eauto.
  Qed.
  Lemma walk_chain_nonempty k s cs : s ∈ dkeys rel → walk_chain k rel s = Ok cs → cs ≠ [].
  Proof.
    revert s cs. induction k as [|k IH]; [done|]. intros s cs Hs (rs & HF & ->)%walk_chain_S.
    destruct (key_R s Hs) as [t Ht]. unfold R in Ht. destruct (default [] (dget s rel)) as [|t0 ts]; [by apply elem_of_nil in Ht|].
    apply Forall2_cons_inv_l in HF as (r & rs' & Hr & _ & ->). simpl. destruct (dmem t0 rel) eqn:Em.
    - destruct Hr as (tails & Hw & ->). apply dmem_spec in Em. specialize (IH _ _ Em Hw). by destruct tails.
    - by subst.
  Qed.

  (** the filter *)
  Lemma unique_chains_Ok : ∀ all before starts,
    Forall2 (λ s cl, chain_start cl = Ok s) starts all →
    ∃ r, unique_chains before all = Ok r ∧
      ∀ c, c ∈ r ↔ ∃ i s cl, all !! i = Some cl ∧ starts !! i = Some s ∧ c ∈ cl ∧
         (∀ l d, l ∈ before → d ∈ l → s ∉ d) ∧
         (∀ j l d, j ≠ i → all !! j = Some l → d ∈ l → s ∉ d).
  Proof.
    intros all. induction all as [|cl all IH]; intros before starts HF.
    - exists []. split; [done|]. intros c. rewrite elem_of_nil. split; [done|]. by intros (i & ? & ? & ? & _).
    - apply Forall2_cons_inv_r in HF as (s & starts' & Hs & HF & ->).
      destruct (IH (before ++ [cl]) starts' HF) as (r & Hr & HrE). cbn [unique_chains]. rewrite Hs. simpl. rewrite Hr. simpl.
      eexists. split; [done|]. intros c.
      assert (Hex : existsb (λ l, existsb (λ c, bool_decide (s ∈ c)) l) (before ++ all) = true ↔
                    ∃ l d, l ∈ before ++ all ∧ d ∈ l ∧ s ∈ d).
      { rewrite existsb_exists. setoid_rewrite existsb_exists. setoid_rewrite <-elem_of_list_In.
        setoid_rewrite bool_decide_eq_true. naive_solver. }
      assert (Hrest : c ∈ r ↔ ∃ i s0 cl0, all !! i = Some cl0 ∧ starts' !! i = Some s0 ∧ c ∈ cl0 ∧
         (∀ l d, l ∈ before → d ∈ l → s0 ∉ d) ∧
         (∀ j l d, j ≠ S i → (cl :: all) !! j = Some l → d ∈ l → s0 ∉ d)).
      { rewrite HrE. split; intros (i & s0 & cl0 & H1 & H2 & H3 & H4 & H5); exists i, s0, cl0; split_and!; try done.
        - intros l d Hl. apply H4. apply elem_of_app. by left.
        - intros [|j] l d Hj Hl Hd; simpl in Hl.
          + injection Hl as <-. apply (H4 cl d); [|done]. apply elem_of_app. right. left.
          + apply (H5 j l d); [congruence|done|done].
        - intros l d [Hl| ->%elem_of_list_singleton]%elem_of_app Hd; [by apply (H4 l)|]. by apply (H5 0 cl d).
        - intros j l d Hj Hl. apply (H5 (S j) l d); [congruence|done]. }
      destruct (existsb _ _) eqn:E.
      + destruct (proj1 Hex eq_refl) as (l & d & Hl & Hd & Hsd). rewrite Hrest. split.
        * intros (i & s0 & cl0 & H1 & H2 & H3). by exists (S i), s0, cl0.
        * intros ([|i] & s0 & cl0 & H1 & H2 & H3 & H4 & H5); simpl in *.
          -- injection H1 as <-. injection H2 as <-. exfalso. apply elem_of_app in Hl as [Hl|Hl].
             ++ by apply (H4 l d).
             ++ apply elem_of_list_lookup in Hl as [j Hj]. by apply (H5 (S j) l d).
          -- by exists i, s0, cl0.
      + rewrite elem_of_app, Hrest. split.
        * intros [Hc|(i & s0 & cl0 & H1 & H2 & H3)]; [|by exists (S i), s0, cl0].
          exists 0, s, cl. split_and!; try done.
          -- intros l d Hl Hd Hsd. assert (false = true); [|done]. apply Hex.
             exists l, d. split_and!; try done. apply elem_of_app. by left.
          -- intros [|j] l d Hj Hl Hd Hsd; [done|]. simpl in Hl. assert (false = true); [|done]. apply Hex.
             exists l, d. split_and!; try done. apply elem_of_app. right. by eapply elem_of_list_lookup_2.
        * intros ([|i] & s0 & cl0 & H1 & H2 & H3 & H4 & H5); simpl in *.
          -- injection H1 as <-. by left.
          -- right. by exists i, s0, cl0.
  Qed.
  Lemma unique_chains_NoDup : ∀ all before starts r, NoDup starts →
    Forall2 (λ s cl, chain_start cl = Ok s ∧ NoDup cl ∧ ∀ c, c ∈ cl → head c = Some s) starts all →
    unique_chains before all = Ok r → NoDup r ∧ ∀ c, c ∈ r → ∃ s, head c = Some s ∧ s ∈ starts.
  Proof.
    intros all. induction all as [|cl all IH]; intros before starts r Hnd HF.
    - intros [= <-]. split; [apply NoDup_nil_2|]. intros c Hc. by apply elem_of_nil in Hc.
    - apply Forall2_cons_inv_r in HF as (s & starts' & (Hs & Hcl & Hh) & HF & ->).
      apply NoDup_cons in Hnd as [Hni Hnd]. cbn [unique_chains]. rewrite Hs. simpl.
      intros (r' & Hr & [= <-])%rbind_Ok. destruct (IH _ _ _ Hnd HF Hr) as [I1 I2].
      destruct (existsb _ _).
      + split; [done|]. intros c (s' & ? & ?)%I2. exists s'. split; [done|by right].
      + split.
        * apply NoDup_app. split; [done|]. split; [|done]. intros c Hc (s' & Hs' & Hin)%I2.
          rewrite (Hh c Hc) in Hs'. injection Hs' as <-. done.
        * intros c [Hc|Hc]%elem_of_app.
          -- exists s. split; [by apply Hh|left].
          -- destruct (I2 c Hc) as (s' & ? & ?). exists s'. split; [done|by right].
  Qed.

  Lemma linked_pred c : ∀ x i, linked R c → c !! S i = Some x → ∃ y, R y x.
  Proof.
    induction c as [|a c IH]; intros x i Hl Hi; [done|]. destruct c as [|b c]; [done|]. destruct Hl as [Hab Hl].
    destruct i as [|i]; [|by eapply (IH x i)]. simpl in Hi. injection Hi as ->. eauto.
  Qed.
  Theorem chains_ok k : length (dkeys rel) < k →
    ∃ r, chains_of k rel = Ok r ∧ NoDup r ∧ ∀ c, c ∈ r ↔ maximal_chain R c.
  Proof.
    intros Hk. unfold chains_of.
    assert (∃ all, rmap (walk_chain k rel) (dkeys rel) = Ok all) as [all Hall].
    { assert (HF : Forall (λ s, ∃ cs, walk_chain k rel s = Ok cs) (dkeys rel)).
      { apply Forall_forall. intros s Hs. by apply walk_chain_total. }
      setoid_rewrite rmap_Ok. clear -HF. induction HF as [|s ss [cs Hcs] HF [all IH]]; [by exists []|].
      exists (cs :: all). by constructor. }
    rewrite Hall. simpl. apply rmap_Ok in Hall as HF.
    assert (HF' : Forall2 (λ s cl, s ∈ dkeys rel ∧ walk_chain k rel s = Ok cl) (dkeys rel) all).
    { apply Forall2_same_length_lookup. split; [by eapply Forall2_length|]. intros i s cl Hs Hcl.
      split; [by eapply elem_of_list_lookup_2|]. by eapply (Forall2_lookup_lr _ _ _ _ _ _ HF). }
    assert (Hst : ∀ s cl, s ∈ dkeys rel ∧ walk_chain k rel s = Ok cl →
       chain_start cl = Ok s ∧ NoDup cl ∧ ∀ c, c ∈ cl → head c = Some s).
    { intros s cl [Hs Hw]. pose proof (walk_chain_elem k s cl Hs Hw) as He. split_and!.
      - pose proof (walk_chain_nonempty k s cl Hs Hw). destruct cl as [|c cl]; [done|].
        destruct (proj1 (He c)) as (Hl & Hh & _); [left|]. destruct c as [|x c]; [done|].
        simpl in Hh. injection Hh as ->. done.
      - by eapply walk_chain_NoDup.
      - intros c Hc. by apply He in Hc as (_ & ? & _). }
    destruct (unique_chains_Ok all [] (dkeys rel)) as (r & Hr & Hre).
    { eapply Forall2_impl; [exact HF'|]. intros s cl H. by apply Hst. }
    exists r. split; [done|]. split.
    { eapply unique_chains_NoDup; [exact Hkeys| |exact Hr]. eapply Forall2_impl; [exact HF'|]. apply Hst. }
    intros c. rewrite Hre. split.
    - intros (i & s & cl & Hi & Hs & Hc & _ & Hoth).
      destruct (Forall2_lookup_lr _ _ _ _ _ _ HF' Hs Hi) as [Hsk Hw].
      apply (walk_chain_elem k s cl Hsk Hw) in Hc as Hfr. destruct Hfr as (Hl & Hh & Hli & Hla).
      split_and!; try done. intros x Hx y Hy. rewrite Hh in Hx. injection Hx as <-.
      pose proof (R_key y s Hy) as Hyk. apply elem_of_list_lookup in Hyk as [j Hj].
      destruct (Forall2_lookup_l _ _ _ _ _ HF' Hj) as (cy & Hcy & Hyk & Hwy).
      assert (j ≠ i).
      { intros ->. rewrite Hs in Hj. injection Hj as <-. apply (Hac s). by apply tc_once. }
      apply (Hoth j cy (y :: c)); try done.
      + apply (walk_chain_elem k y cy Hyk Hwy). by eapply from_cons.
      + destruct c as [|s' c]; [done|]. simpl in Hh. injection Hh as ->. right. left.
    - intros (Hl & Hli & Hhd & Hla). destruct c as [|s c]; [simpl in Hl; lia|].
      destruct c as [|t c]; [simpl in Hl; lia|]. assert (Hst' : R s t) by apply Hli.
      pose proof (R_key s t Hst') as Hsk. pose proof Hsk as Hsk'. apply elem_of_list_lookup in Hsk' as [i Hi].
      destruct (Forall2_lookup_l _ _ _ _ _ HF' Hi) as (cl & Hcl & _ & Hw).
      exists i, s, cl. split; [done|]. split; [done|]. split.
      { apply (walk_chain_elem k s cl Hsk Hw). split_and!; try done. }
      split. { intros l d Hin. by apply elem_of_nil in Hin. }
      intros j l d Hji Hl' Hd Hsd.
      destruct (Forall2_lookup_r _ _ _ _ _ HF' Hl') as (y & Hy & Hyk & Hwy).
      apply (walk_chain_elem k y l Hyk Hwy) in Hd as (_ & Hh & Hld & _).
      apply elem_of_list_lookup in Hsd as [[|m] Hm].
      + destruct d as [|y' d]; [done|]. simpl in Hh, Hm. injection Hh as ->. injection Hm as ->.
        apply Hji. by eapply NoDup_lookup.
      + destruct (linked_pred d s m Hld Hm) as [z Hz]. by apply (Hhd s eq_refl z).
  Qed.
  (** every participant is in some maximal chain *)
  Lemma chain_forward s : s ∈ dkeys rel → ∃ c, from s c.
  Proof.
    intros Hs. destruct (walk_chain_total s (S (length (dkeys rel)))) as [cs Hcs]; [lia|done|].
    pose proof (walk_chain_nonempty _ _ _ Hs Hcs). destruct cs as [|c cs]; [done|].
    exists c. apply (walk_chain_elem _ _ _ Hs Hcs). left.
  Qed.
  Lemma chain_backward s c : from s c → ∃ c', maximal_chain R c' ∧ ∀ x, x ∈ c → x ∈ c'.
  Proof.
    revert c. set (L := concat (snd <$> rel) ++ dkeys rel).
    apply (acyclic_fuel (flip R) L (λ k s, ∀ c, from s c → ∃ c', maximal_chain R c' ∧ ∀ x, x ∈ c → x ∈ c'))
      with (k := S (length L)); [| | |lia].
    - intros x Hx. apply (Hac x). clear -Hx.
      assert (H : ∀ a b, tc (flip R) a b → tc R b a).
      { intros a b H. induction H as [a b H|a b c H H' IH]; [by apply tc_once|]. eapply tc_r; [exact IH|exact H]. }
      by apply H.
    - intros x y Hyx. unfold L. apply elem_of_app. left. apply elem_concat.
      unfold flip, R in Hyx. destruct (dget y rel) as [ts|] eqn:E; [|by apply elem_of_nil in Hyx].
      exists ts. split; [done|]. apply elem_of_list_fmap. exists (y, ts). split; [done|]. by apply dget_Some_elem.
    - intros k x IH c Hc.
      destruct (decide (Exists (λ y, x ∈ default [] (dget y rel)) (dkeys rel))) as [Hex|Hno].
      + apply Exists_exists in Hex as (y & _ & Hy). destruct (IH y Hy (y :: c)) as (c' & H1 & H2); [by eapply from_cons|].
        exists c'. split; [done|]. intros z Hz. apply H2. by right.
      + exists c. split; [|done]. destruct Hc as (H1 & H2 & H3 & H4). split_and!; try done.
        intros z Hz y Hy. rewrite H2 in Hz. injection Hz as <-. apply Hno, Exists_exists. exists y.
        split; [by eapply R_key|done].
  Qed.
End chains.
