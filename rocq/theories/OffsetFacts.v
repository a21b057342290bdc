(** * OffsetFacts: add_offsets, get_offsets, get_span_offsets, is_continuous *)
From Verif Require Import PyBase DocGraph Relabel SpecGraph DocGraphFacts History Effects
  RelabelFacts MergeFacts AllHist MergeAll GraphThms StrNum Query SpecQuery NatSort SpanFacts.

(** ** Strings *)
Lemma append_nil_r s : s +:+ "" = s.
Proof. apply chs_inj. rewrite chs_app. apply app_nil_r. Qed.
Lemma app_suffix_ne s t (x y : string) :
  last (chs x) ≠ last (chs y) → chs x ≠ [] → chs y ≠ [] → s +:+ x ≠ t +:+ y.
Proof.
  intros Hl Hx Hy Heq. apply (f_equal chs) in Heq. rewrite !chs_app in Heq.
  apply (f_equal last) in Heq. rewrite !last_app in Heq.
  destruct (last (chs x)) as [c|] eqn:E1; [|by apply last_None in E1].
  destruct (last (chs y)) as [d|] eqn:E2; [|by apply last_None in E2]. congruence.
Qed.
Lemma on_ne_tok ns ns' : on_key ns ≠ ns' +:+ ":token".
Proof. apply app_suffix_ne; done. Qed.
Lemma off_ne_tok ns ns' : off_key ns ≠ ns' +:+ ":token".
Proof. apply app_suffix_ne; done. Qed.
Lemma on_ne_off ns : on_key ns ≠ off_key ns.
Proof.
  unfold on_key, off_key. intros H. apply (f_equal chs) in H. rewrite !chs_app in H.
  by apply app_inv_head in H.
Qed.

(** ** Word offsets *)
Section words.
  Local Open Scope Z_scope.
  Lemma word_offsets_length s ss : length (word_offsets s ss) = length ss.
  Proof. revert s. induction ss; intros; simpl; auto. Qed.
  Lemma wo_le s ss m p : word_offsets s ss !! m = Some p → s ≤ p.1 ∧ p.1 ≤ p.2.
  Proof.
    revert s m. induction ss as [|x ss IH]; intros s m; simpl; [done|].
    destruct m as [|m]; simpl.
    - intros [= <-]. simpl. lia.
    - intros H%IH. lia.
  Qed.
  Lemma wo_lt s ss m m' p q : (m < m')%nat → word_offsets s ss !! m = Some p →
    word_offsets s ss !! m' = Some q → p.2 < q.1.
  Proof.
    revert s m m'. induction ss as [|x ss IH]; intros s m m'; simpl; [done|].
    destruct m as [|m], m' as [|m']; simpl; try lia.
    - intros _ [= <-] H%wo_le. simpl. lia.
    - intros Hm Hp Hq. eapply (IH _ m m'); [lia|done|done].
  Qed.
  Lemma wo_next s ss m p q : word_offsets s ss !! m = Some p →
    word_offsets s ss !! (S m) = Some q → q.1 = p.2 + 1.
  Proof.
    revert s m. induction ss as [|x ss IH]; intros s m; simpl; [done|].
    destruct m as [|m]; simpl.
    - intros [= <-]. simpl. destruct ss; simpl; [done|]. by intros [= <-].
    - apply IH.
  Qed.
  Lemma wo_cover s ss i j p q x : word_offsets s ss !! i = Some p → word_offsets s ss !! j = Some q →
    p.1 ≤ x → x ≤ q.2 → ∃ m r, (i ≤ m)%nat ∧ (m ≤ j)%nat ∧ word_offsets s ss !! m = Some r ∧ r.1 ≤ x ≤ r.2.
  Proof.
    intros Hi Hj H1 H2.
    assert (Hij : (i ≤ j)%nat).
    { destruct (decide (i ≤ j)%nat) as [|Hn]; [done|]. exfalso.
      assert (q.2 < p.1) by (eapply (wo_lt s ss j i); [lia|done|done]). lia. }
    remember (j - i)%nat as d eqn:Hd. revert i p Hi H1 Hij Hd. induction d as [|d IH]; intros i p Hi H1 Hij Hd.
    - assert (i = j) as -> by lia. exists j, q. rewrite Hi in Hj. injection Hj as ->. split_and!; try done; lia.
    - destruct (decide (x ≤ p.2)) as [Hx|Hx].
      + exists i, p. split_and!; try done; lia.
      + destruct (lookup_lt_is_Some_2 (word_offsets s ss) (S i)) as [r Hr].
        { apply lookup_lt_Some in Hj. lia. }
        pose proof (wo_next _ _ _ _ _ Hi Hr).
        destruct (IH (S i) r) as (m & r' & ? & ? & ? & ?); [done|lia|lia|lia|].
        exists m, r'. split_and!; try done; lia.
  Qed.
  Lemma joined_cons s ss : joined (s :: ss) = match ss with [] => chs s | _ => chs s ++ " "%char :: joined ss end.
  Proof. by destruct ss. Qed.
  (** the offsets address the joined text *)
  Lemma wo_text ss pre m p w : word_offsets (Z.of_nat (length pre)) ss !! m = Some p → ss !! m = Some w →
    text_at (pre ++ joined ss) p.1 p.2 w.
  Proof.
    revert pre m. induction ss as [|s ss IH]; intros pre m Hp Hw; [done|].
    destruct m as [|m]; simpl in Hp, Hw.
    - injection Hp as <-. injection Hw as ->. unfold text_at. rewrite joined_cons.
      exists pre. destruct ss as [|s' ss].
      + exists []. rewrite app_nil_r. split; [done|]. rewrite app_length, <-slen. simpl. lia.
      + eexists. split; [done|]. rewrite app_length, <-slen. simpl. lia.
    - assert (ss ≠ []) as Hne by by destruct ss.
      rewrite joined_cons. destruct ss as [|s' ss']; [done|].
      specialize (IH (pre ++ chs s ++ [" "%char]) m).
      assert (E : Z.of_nat (length (pre ++ chs s ++ [" "%char])) =
                  Z.of_nat (length pre) + Z.of_nat (String.length s) + 1).
      { rewrite !app_length, <-slen. simpl. lia. }
      rewrite E in IH. specialize (IH Hp Hw). rewrite <-!(assoc_L (++)) in IH. exact IH.
  Qed.
  Lemma wo_last s ss p : last (word_offsets s ss) = Some p → p.2 = s + Z.of_nat (length (joined ss)).
  Proof.
    revert s. induction ss as [|x ss IH]; intros s; [done|]. rewrite joined_cons. destruct ss as [|y ss].
    - simpl. intros [= <-]. simpl. by rewrite slen.
    - intros H. cbn [word_offsets] in H. rewrite last_cons in H.
      specialize (IH (s + Z.of_nat (String.length x) + 1)). cbn [word_offsets] in IH.
      rewrite IH; [|by destruct (last _) as [z|] eqn:E; [|rewrite last_cons in E; destruct (last _)]].
      rewrite app_length. cbn [length]. rewrite slen. lia.
  Qed.
  Lemma join_sp_joined ss : chs (join_sp ss) = joined ss.
  Proof.
    induction ss as [|s ss IH]; [done|]. rewrite joined_cons. destruct ss as [|s' ss]; [done|].
    change (join_sp (s :: s' :: ss)) with (s +:+ " " +:+ join_sp (s' :: ss)).
    rewrite !chs_app, IH. done.
  Qed.
End words.

(** ** add_offsets *)
Section offsets.
  Implicit Types g : graph.
  Lemma token_str_is g t s : token_str g t = Ok s ↔ token_is g t s.
  Proof.
    unfold token_str, get_token, token_is. destruct (node_attrs g t) as [a|]; simpl; [|naive_solver].
    destruct (dget (g_ns g +:+ ":token") a) as [v|] eqn:E; simpl.
    - split.
      + destruct v; try done. intros [= ->]. eauto.
      + intros (a' & [= <-] & Hv). rewrite E in Hv. by injection Hv as ->.
    - split; [done|]. intros (a' & [= <-] & Hv). congruence.
  Qed.
  Lemma tokens2text_is g l ss : Forall2 (token_is g) l ss → tokens2text g l = Ok (str (joined ss)).
  Proof.
    intros HF. unfold tokens2text.
    assert (E : rmap (token_str g) l = Ok ss).
    { apply rmap_Ok. eapply Forall2_impl; [done|]. intros t s. apply token_str_is. }
    rewrite E. simpl. f_equal. by rewrite <-join_sp_joined, str_chs.
  Qed.
  (** only offset attributes change *)
  Definition off_upd (ns : string) g g' : Prop :=
    g_succ g' = g_succ g ∧ g_pred g' = g_pred g ∧ same_doc g g' ∧ nodes g' = nodes g ∧
    ∀ n a, node_attrs g n = Some a → ∃ a', node_attrs g' n = Some a' ∧
      ∀ key, key ≠ on_key ns → key ≠ off_key ns → dget key a' = dget key a.
  Lemma off_upd_refl ns g : off_upd ns g g.
  Proof. split_and!; try done. eauto. Qed.
  Lemma off_upd_trans ns g1 g2 g3 : off_upd ns g1 g2 → off_upd ns g2 g3 → off_upd ns g1 g3.
  Proof.
    intros (A1 & A2 & A3 & A4 & A5) (B1 & B2 & B3 & B4 & B5). split_and!; try congruence.
    - unfold same_doc in *. destruct_and!. split_and!; congruence.
    - intros n a (a' & Ha & H)%A5. destruct (B5 _ _ Ha) as (a'' & Ha'' & H'). exists a''. split; [done|].
      intros key H1 H2. rewrite H', H; done.
  Qed.
  Lemma off_upd_spec ns g g' : off_upd ns g g' → same_but_offsets ns g g'.
  Proof.
    intros (A1 & A2 & A3 & A4 & A5). split; try done. unfold edges. by rewrite A1.
  Qed.
  Lemma off_upd_token ns g g' t s : off_upd ns g g' → token_is g t s → token_is g' t s.
  Proof.
    intros (_ & _ & (_ & Hns & _) & _ & A) (a & Ha & Ht). destruct (A _ _ Ha) as (a' & Ha' & H).
    exists a'. split; [done|]. rewrite H, Hns; [done| |].
    - rewrite Hns. intros E. symmetry in E. by apply on_ne_tok in E.
    - rewrite Hns. intros E. symmetry in E. by apply off_ne_tok in E.
  Qed.
  Lemma off_upd_istoken ns g g' n : off_upd ns g g' → istoken g' n = istoken g n.
  Proof.
    intros (_ & _ & (_ & Hns & _) & Hn & A). unfold istoken.
    destruct (node_attrs g n) as [a|] eqn:E.
    - destruct (A _ _ E) as (a' & -> & H). unfold dmem. rewrite Hns, H; [done| |].
      + intros E'. symmetry in E'. by apply on_ne_tok in E'.
      + intros E'. symmetry in E'. by apply off_ne_tok in E'.
    - assert (node_attrs g' n = None) as ->; [|done]. apply node_nmem. rewrite Hn. by apply node_nmem.
  Qed.
  Lemma off_upd_span ns g g' k n : off_upd ns g g' → get_span k g' n = get_span k g n.
  Proof.
    intros H. revert n. induction k as [|k IH]; intros n; [done|]. cbn [get_span].
    rewrite (off_upd_istoken _ _ _ _ H). destruct (istoken g n) as [b|e]; [|done]. simpl.
    assert (E : out_edges g' n = out_edges g n) by (unfold out_edges; by rewrite (proj1 H)).
    rewrite E. f_equal. generalize (out_edges g n). intros l. clear E. induction l as [|e l IHl]; [done|].
    cbn [rconcat]. rewrite IHl. f_equal. case_decide; [done|].
    destruct (dget "edge_type" e.2) as [ty|]; simpl; [|done]. case_decide; [done|]. apply IH.
  Qed.
  Lemma off_upd_text ns g g' ss : off_upd ns g g' → text_tokens g ss → text_tokens g' ss.
  Proof.
    intros H HF. unfold text_tokens. destruct H as (A1 & A2 & A3 & A4 & A5) eqn:E; clear E.
    assert (Ht : g_tokens g' = g_tokens g) by apply A3. rewrite Ht.
    eapply Forall2_impl; [exact HF|]. intros t s. apply (off_upd_token ns g g'). by split_and!.
  Qed.

  Lemma add_offsets_loop_ok ns toks : ∀ g ss on,
    NoDup toks → Forall2 (token_is g) toks ss →
    ∃ g', add_offsets_loop ns toks on g = (g', None) ∧ off_upd ns g g' ∧
      Forall2 (offset_attrs g' ns) toks (word_offsets on ss) ∧
      (∀ n, n ∉ toks → node_attrs g' n = node_attrs g n).
  Proof.
    induction toks as [|t toks IH]; intros g ss on Hnd HF.
    - apply Forall2_nil_inv_l in HF as ->. exists g. split_and!; try done; try apply off_upd_refl. constructor.
    - apply Forall2_cons_inv_l in HF as (s & ss' & Hs & HF & ->). apply NoDup_cons in Hnd as [Hni Hnd].
      cbn [add_offsets_loop]. pose proof Hs as Hs'. apply token_str_is in Hs' as ->.
      destruct Hs as (a & Ha & Hta). rewrite Ha. simpl default.
      set (off := (on + Z.of_nat (String.length s))%Z).
      set (a1 := dset (off_key ns) (VInt off) (dset (on_key ns) (VInt on) a)).
      set (g1 := set_node (dset t a1 (g_node g)) g).
      assert (Hn1 : ∀ n, node_attrs g1 n = if decide (n = t) then Some a1 else node_attrs g n).
      { intros n. unfold g1, node_attrs. simpl. apply dget_dset. }
      assert (U : off_upd ns g g1).
      { split_and!; try done.
        - unfold g1, nodes. simpl. rewrite dkeys_dset. rewrite decide_True; [done|].
          apply dget_is_Some. by exists a.
        - intros n b Hb. rewrite Hn1. destruct (decide (n = t)) as [->|Hne]; [|eauto].
          exists a1. split; [done|]. intros key H1 H2. unfold a1. rewrite !dget_dset_ne by done.
          rewrite Ha in Hb. by injection Hb as ->. }
      destruct (IH g1 ss' (off + 1)%Z Hnd) as (g' & He & U' & Hoff & Hrest).
      { eapply Forall2_impl; [exact HF|]. intros x y. by apply (off_upd_token ns g g1). }
      exists g'. split; [done|]. split; [by eapply off_upd_trans|]. split.
      + constructor; [|exact Hoff]. exists a1. rewrite Hrest by done. rewrite Hn1, decide_True by done.
        split; [done|]. unfold a1. simpl. split.
        * rewrite dget_dset_ne by apply on_ne_off. apply dget_dset_eq.
        * apply dget_dset_eq.
      + intros n [Hne Hn]%not_elem_of_cons. rewrite Hrest by done. rewrite Hn1. by rewrite decide_False.
  Qed.
  Lemma add_offsets_ok g ns ss : NoDup (g_tokens g) → text_tokens g ss →
    ∃ g', add_offsets g ns = (g', None) ∧ off_upd ns g g' ∧
      Forall2 (offset_attrs g' ns) (g_tokens g') (word_offsets 0 ss) ∧
      (∀ n, n ∉ g_tokens g → node_attrs g' n = node_attrs g n).
  Proof.
    intros Hnd HF. destruct (add_offsets_loop_ok ns (g_tokens g) g ss 0 Hnd HF) as (g' & ? & U & ? & ?).
    exists g'. split_and!; try done. assert (g_tokens g' = g_tokens g) as -> by apply U. done.
  Qed.
  Lemma stored_offsets_is g ns t p : stored_offsets g t ns = Ok p ↔ offset_attrs g ns t p.
  Proof.
    unfold stored_offsets, offset_attrs, on_key, off_key. destruct (node_attrs g t) as [a|]; simpl; [|naive_solver].
    destruct (dget (ns +:+ ":onset") a) as [x|] eqn:E1; simpl; [|naive_solver congruence].
    destruct (dget (ns +:+ ":offset") a) as [y|] eqn:E2; simpl; [|naive_solver congruence].
    split.
    - destruct x, y; simpl; try done. intros [= <-]. exists a. done.
    - intros (a' & [= <-] & H1 & H2). rewrite E1 in H1. rewrite E2 in H2. injection H1 as ->. injection H2 as ->.
      simpl. by destruct p.
  Qed.
  Lemma lookup_token_is g ss t i : text_tokens g ss → g_tokens g !! i = Some t → ∃ s, token_is g t s.
  Proof. intros HF Hi. destruct (Forall2_lookup_l _ _ _ _ _ HF Hi) as (s & _ & ?). eauto. Qed.
  Lemma token_istoken g t s : token_is g t s → istoken g t = Ok true.
  Proof. intros (a & Ha & Ht). unfold istoken. rewrite Ha. unfold dmem. by rewrite Ht. Qed.

  Lemma get_offsets_current g ns ss t i p k : text_tokens g ss →
    Forall2 (offset_attrs g ns) (g_tokens g) (word_offsets 0 ss) →
    g_tokens g !! i = Some t → word_offsets 0 ss !! i = Some p →
    get_offsets (S k) g t ns = (g, Ok p).
  Proof.
    intros HT HF Hi Hp. destruct (lookup_token_is _ _ _ _ HT Hi) as [s Hs].
    cbn [get_offsets]. rewrite (token_istoken _ _ _ Hs). simpl.
    assert (E : stored_offsets g t ns = Ok p).
    { apply stored_offsets_is. by eapply (Forall2_lookup_lr _ _ _ _ _ _ HF). }
    by rewrite E.
  Qed.
  Lemma get_offsets_missing g ns ss t i p k : NoDup (g_tokens g) → text_tokens g ss → no_offsets g ns →
    g_tokens g !! i = Some t → word_offsets 0 ss !! i = Some p →
    ∃ g', get_offsets (S (S k)) g t ns = (g', Ok p) ∧ off_upd ns g g' ∧
      Forall2 (offset_attrs g' ns) (g_tokens g') (word_offsets 0 ss).
  Proof.
    intros Hnd HT HN Hi Hp. destruct (lookup_token_is _ _ _ _ HT Hi) as [s Hs].
    destruct (add_offsets_ok g ns ss Hnd HT) as (g' & He & U & HF & _).
    exists g'. split; [|done]. remember (S k) as k' eqn:Hk. cbn [get_offsets]. rewrite (token_istoken _ _ _ Hs). simpl.
    assert (E : stored_offsets g t ns = Err KeyError).
    { unfold stored_offsets. destruct Hs as (a & Ha & _). rewrite Ha. unfold on_key.
      by rewrite (proj1 (HN _ _ Ha)). }
    rewrite E, He. subst k'. apply (get_offsets_current g' ns ss t i); try done.
    - by eapply off_upd_text.
    - assert (g_tokens g' = g_tokens g) as -> by apply U. done.
  Qed.
  (** either state of the offsets *)
  Definition off_state g ns ss : Prop :=
    no_offsets g ns ∨ Forall2 (offset_attrs g ns) (g_tokens g) (word_offsets 0 ss).
  Lemma get_offsets_any g ns ss t i p k : NoDup (g_tokens g) → text_tokens g ss → off_state g ns ss →
    g_tokens g !! i = Some t → word_offsets 0 ss !! i = Some p →
    ∃ g', get_offsets (S (S k)) g t ns = (g', Ok p) ∧ off_upd ns g g' ∧
      Forall2 (offset_attrs g' ns) (g_tokens g') (word_offsets 0 ss).
  Proof.
    intros Hnd HT [HN|HF] Hi Hp.
    - by apply (get_offsets_missing g ns ss t i p k).
    - exists g. split; [by apply (get_offsets_current g ns ss t i p)|]. split; [apply off_upd_refl|done].
  Qed.
  Lemma get_offsets_no_token g ns t k : istoken g t = Ok false →
    get_offsets (S k) g t ns = (g, Err AssertionError).
  Proof. intros H. cbn [get_offsets]. by rewrite H. Qed.
  (** a token node without offsets that is not listed in tokens: no end *)
  Lemma get_offsets_unlisted ns t : ∀ k g ss, NoDup (g_tokens g) → text_tokens g ss →
    t ∉ g_tokens g →
    (node_attrs g t = None ∨ istoken g t = Ok true ∧ stored_offsets g t ns = Err KeyError) →
    (get_offsets k g t ns).2 = Err OutOfFuel.
  Proof.
    intros k. induction k as [|k IH]; intros g ss Hnd HT Hni Hs; [done|]. cbn [get_offsets].
    assert (E : (let! b := istoken g t in if b then stored_offsets g t ns else Err AssertionError)
                = Err KeyError).
    { destruct Hs as [Hs|[Ht Hs]].
      - unfold istoken. by rewrite Hs.
      - rewrite Ht. done. }
    rewrite E. destruct (add_offsets_ok g ns ss Hnd HT) as (g' & -> & U & _ & Hrest).
    assert (Htk : g_tokens g' = g_tokens g) by apply U.
    apply (IH g' ss); rewrite ?Htk; try done.
    - by eapply off_upd_text.
    - unfold stored_offsets. rewrite (Hrest t Hni), (off_upd_istoken _ _ _ t U). exact Hs.
  Qed.

  (** ** Offsets of several tokens *)
  Definition pos_of g (ss : list string) (t : nid) (p : Z * Z) : Prop :=
    ∃ i, g_tokens g !! i = Some t ∧ word_offsets 0 ss !! i = Some p.
  Lemma pos_of_total g ss t : text_tokens g ss → t ∈ g_tokens g → ∃ p, pos_of g ss t p.
  Proof.
    intros HT [i Hi]%elem_of_list_lookup.
    destruct (lookup_lt_is_Some_2 (word_offsets 0 ss) i) as [p Hp].
    { rewrite word_offsets_length, <-(Forall2_length _ _ _ HT). by eapply lookup_lt_Some. }
    exists p, i. done.
  Qed.
  Lemma offsets_of_ok ns ss : ∀ l g, NoDup (g_tokens g) → text_tokens g ss → off_state g ns ss →
    l ⊆ g_tokens g →
    ∃ g' ps, offsets_of g ns l = (g', Ok ps) ∧ off_upd ns g g' ∧ Forall2 (pos_of g ss) l ps ∧
      (l ≠ [] → Forall2 (offset_attrs g' ns) (g_tokens g') (word_offsets 0 ss)) ∧ (l = [] → g' = g).
  Proof.
    induction l as [|t l IH]; intros g Hnd HT HS Hl.
    - exists g, []. split_and!; try done; try apply off_upd_refl.
    - destruct (pos_of_total g ss t HT) as (p & i & Hi & Hp); [by apply Hl; left|].
      destruct (get_offsets_any g ns ss t i p 1 Hnd HT HS Hi Hp) as (g1 & He & U & HF).
      assert (Htk : g_tokens g1 = g_tokens g) by apply U.
      destruct (IH g1) as (g2 & ps & He2 & U2 & HF2 & HF3 & HF4).
      { by rewrite Htk. } { by eapply off_upd_text. } { by right. }
      { rewrite Htk. intros x Hx. apply Hl. by right. }
      cbn [offsets_of]. rewrite He, He2. exists g2, (p :: ps). split; [done|].
      split; [by eapply off_upd_trans|]. split; [|split; [|done]].
      + constructor; [by exists i|]. eapply Forall2_impl; [exact HF2|]. intros x q (j & Hj & Hq).
        exists j. by rewrite <-Htk.
      + intros _. destruct l as [|x l]; [|by apply HF3]. by rewrite (HF4 eq_refl).
  Qed.

  (** minimum of the onsets and maximum of the offsets *)
  Lemma min_first (l : list (Z * Z)) p :
    let m := foldr (λ q m, Z.min q.1 m) p.1 l in
    (∃ q, q ∈ p :: l ∧ m = q.1) ∧ ∀ q, q ∈ p :: l → (m ≤ q.1)%Z.
  Proof.
    induction l as [|q l [(x & Hx & IH1) IH2]]; simpl.
    - split; [exists p; split; [left|done]|]. intros q ->%elem_of_list_singleton. lia.
    - split.
      + destruct (Z.le_gt_cases q.1 (foldr (λ q m, Z.min q.1 m) p.1 l)).
        * exists q. split; [right; left|lia].
        * exists x. split; [|lia]. apply elem_of_cons in Hx as [->|Hx]; [left|by right; right].
      + intros y Hy. assert (y = q ∨ y ∈ p :: l) as [->|Hy'].
        { apply elem_of_cons in Hy as [->|Hy]; [right; left|].
          apply elem_of_cons in Hy as [->|Hy]; [by left|right; by right]. }
        * lia.
        * specialize (IH2 _ Hy'). lia.
  Qed.
  Lemma max_last (l : list (Z * Z)) p :
    let m := foldr (λ q m, Z.max q.2 m) p.2 l in
    (∃ q, q ∈ p :: l ∧ m = q.2) ∧ ∀ q, q ∈ p :: l → (q.2 ≤ m)%Z.
  Proof.
    induction l as [|q l [(x & Hx & IH1) IH2]]; simpl.
    - split; [exists p; split; [left|done]|]. intros q ->%elem_of_list_singleton. lia.
    - split.
      + destruct (Z.le_gt_cases q.2 (foldr (λ q m, Z.max q.2 m) p.2 l)).
        * exists x. split; [|lia]. apply elem_of_cons in Hx as [->|Hx]; [left|by right; right].
        * exists q. split; [right; left|lia].
      + intros y Hy. assert (y = q ∨ y ∈ p :: l) as [->|Hy'].
        { apply elem_of_cons in Hy as [->|Hy]; [right; left|].
          apply elem_of_cons in Hy as [->|Hy]; [by left|right; by right]. }
        * lia.
        * specialize (IH2 _ Hy'). lia.
  Qed.

  (** the result of get_span_offsets: onset of the first and offset of the last
      token of the span *)
  Lemma get_span_offsets_ok k g n ss span :
    NoDup (g_tokens g) → text_tokens g ss → off_state g (g_ns g) ss →
    get_span k g n = Ok span → span ≠ [] → span ⊆ g_tokens g →
    ∃ g' i j pi pj, get_span_offsets k g n = (g', Ok (pi.1, pj.2)) ∧
      off_upd (g_ns g) g g' ∧ Forall2 (offset_attrs g' (g_ns g)) (g_tokens g') (word_offsets 0 ss) ∧
      word_offsets 0 ss !! i = Some pi ∧ word_offsets 0 ss !! j = Some pj ∧ i ≤ j ∧
      (∃ t, g_tokens g !! i = Some t ∧ t ∈ span) ∧ (∃ t, g_tokens g !! j = Some t ∧ t ∈ span) ∧
      (∀ m t, g_tokens g !! m = Some t → t ∈ span → i ≤ m ≤ j).
  Proof.
    intros Hnd HT HS Hsp Hne Hsub. unfold get_span_offsets. rewrite Hsp.
    destruct (offsets_of_ok (g_ns g) ss span g Hnd HT HS Hsub) as (g' & ps & He & U & HF & Hcur & _).
    rewrite He. destruct ps as [|p ps].
    { by apply Forall2_nil_inv_r in HF. }
    destruct (min_first ps p) as [(q1 & Hq1 & Hm1) Hm2].
    destruct (max_last ps p) as [(q2 & Hq2 & Hx1) Hx2].
    assert (Hlook : ∀ q, q ∈ p :: ps → ∃ t m, t ∈ span ∧ g_tokens g !! m = Some t ∧ word_offsets 0 ss !! m = Some q).
    { intros q [x Hx]%elem_of_list_lookup. destruct (Forall2_lookup_r _ _ _ _ _ HF Hx) as (t & Ht & m & ? & ?).
      exists t, m. split_and!; try done. by eapply elem_of_list_lookup_2. }
    destruct (Hlook q1 Hq1) as (t1 & i & Ht1 & Hi & Hwi).
    destruct (Hlook q2 Hq2) as (t2 & j & Ht2 & Hj & Hwj).
    exists g', i, j, q1, q2.
    assert (Hall : ∀ m t, g_tokens g !! m = Some t → t ∈ span → i ≤ m ≤ j).
    { intros m t Hm Ht. apply elem_of_list_lookup in Ht as [x Hx].
      destruct (Forall2_lookup_l _ _ _ _ _ HF Hx) as (q & Hq & m' & Hm' & Hwm).
      assert (m' = m) as -> by by eapply NoDup_lookup. apply elem_of_list_lookup_2 in Hq.
      specialize (Hm2 q Hq). specialize (Hx2 q Hq). split.
      - destruct (decide (i ≤ m)) as [|Hn]; [done|]. exfalso.
        assert (q.2 < q1.1)%Z by (eapply (wo_lt 0 ss m i); [lia|done|done]).
        pose proof (wo_le _ _ _ _ Hwm). lia.
      - destruct (decide (m ≤ j)) as [|Hn]; [done|]. exfalso.
        assert (q2.2 < q.1)%Z by (eapply (wo_lt 0 ss j m); [lia|done|done]).
        pose proof (wo_le _ _ _ _ Hwm). lia. }
    split; [by rewrite Hm1, Hx1|]. split; [done|]. split; [by apply Hcur|]. split; [done|]. split; [done|].
    split; [by apply (Hall j t2)|]. split; [eauto|]. split; [eauto|]. done.
  Qed.
  Lemma get_span_offsets_empty k g n : get_span k g n = Ok [] → get_span_offsets k g n = (g, Err ValueError).
  Proof. intros H. unfold get_span_offsets. by rewrite H. Qed.

  Lemma elem_xrange x a b : x ∈ xrange a b ↔ (a ≤ x < b)%Z.
  Proof.
    unfold xrange. rewrite elem_of_list_fmap. split.
    - intros (i & -> & Hi%elem_of_seq). lia.
    - intros H. exists (Z.to_nat (x - a)). split; [lia|]. apply elem_of_seq. lia.
  Qed.
  Lemma is_continuous_ok k g n ss span :
    NoDup (g_tokens g) → text_tokens g ss → off_state g (g_ns g) ss →
    get_span k g n = Ok span → span ≠ [] → span ⊆ g_tokens g →
    ∃ g' b, is_continuous k g n = (g', Ok b) ∧ off_upd (g_ns g) g g' ∧
      (b = true ↔ ∀ i m j ti tm tj, i ≤ m ≤ j → g_tokens g !! i = Some ti → g_tokens g !! m = Some tm →
         g_tokens g !! j = Some tj → ti ∈ span → tj ∈ span → tm ∈ span).
  Proof.
    intros Hnd HT HS Hsp Hne Hsub.
    destruct (get_span_offsets_ok k g n ss span Hnd HT HS Hsp Hne Hsub)
      as (g1 & i & j & pi & pj & He & U & HF & Hi & Hj & Hij & (ti & Hti & Hspi) & (tj & Htj & Hspj) & Hall).
    unfold is_continuous. rewrite He.
    assert (Htk : g_tokens g1 = g_tokens g) by apply U.
    assert (Hns : g_ns g1 = g_ns g) by apply U.
    rewrite (off_upd_span _ _ _ k n U), Hsp, Hns.
    destruct (offsets_of_ok (g_ns g) ss span g1) as (g2 & ps & He2 & U2 & HF2 & _).
    { by rewrite Htk. } { by eapply off_upd_text. } { by right. } { by rewrite Htk. }
    rewrite He2. eexists g2, _. split; [done|]. split; [by eapply off_upd_trans|].
    assert (Hcov : ∀ x, x ∈ (p ← ps; xrange p.1 (p.2 + 1)) ↔
      ∃ m t p, g_tokens g !! m = Some t ∧ t ∈ span ∧ word_offsets 0 ss !! m = Some p ∧ (p.1 ≤ x ≤ p.2)%Z).
    { intros x. rewrite elem_of_list_bind. split.
      - intros (p & Hx%elem_xrange & Hp). apply elem_of_list_lookup in Hp as [y Hy].
        destruct (Forall2_lookup_r _ _ _ _ _ HF2 Hy) as (t & Ht & m & Hm & Hwm). rewrite Htk in Hm.
        exists m, t, p. split_and!; try done; try lia. by eapply elem_of_list_lookup_2.
      - intros (m & t & p & Hm & Ht & Hp & Hx). apply elem_of_list_lookup in Ht as [y Hy].
        destruct (Forall2_lookup_l _ _ _ _ _ HF2 Hy) as (q & Hq & m' & Hm' & Hwm). rewrite Htk in Hm'.
        assert (m' = m) as -> by by eapply NoDup_lookup. rewrite Hp in Hwm. injection Hwm as <-.
        exists p. split; [|by eapply elem_of_list_lookup_2]. apply elem_xrange. lia. }
    rewrite forallb_forall. setoid_rewrite <-elem_of_list_In.
    split.
    - intros H i' m j' ti' tm tj' Hm Hti' Htm Htj' Hi' Hj'.
      pose proof (Hall _ _ Hti' Hi'). pose proof (Hall _ _ Htj' Hj').
      destruct (lookup_lt_is_Some_2 (word_offsets 0 ss) m) as [pm Hpm].
      { apply lookup_lt_Some in Hj. lia. }
      pose proof (wo_le _ _ _ _ Hpm) as Hle.
      assert (Hin : pm.1 ∈ xrange pi.1 (pj.2 + 1)).
      { apply elem_xrange. split.
        - destruct (decide (i = m)) as [->|]; [rewrite Hi in Hpm; injection Hpm as ->; lia|].
          assert (pi.2 < pm.1)%Z by (eapply (wo_lt 0 ss i m); [lia|done|done]).
          pose proof (wo_le _ _ _ _ Hi). lia.
        - destruct (decide (m = j)) as [->|]; [rewrite Hj in Hpm; injection Hpm as ->; lia|].
          assert (pm.2 < pj.1)%Z by (eapply (wo_lt 0 ss m j); [lia|done|done]).
          pose proof (wo_le _ _ _ _ Hj). lia. }
      specialize (H _ Hin). apply bool_decide_eq_true, Hcov in H as (m' & t' & p' & Hm' & Ht' & Hp' & Hx).
      destruct (decide (m' = m)) as [->|Hne'].
      + rewrite Htm in Hm'. by injection Hm' as ->.
      + exfalso. destruct (decide (m' < m)).
        * assert (p'.2 < pm.1)%Z by (eapply (wo_lt 0 ss m' m); [lia|done|done]). lia.
        * assert (pm.2 < p'.1)%Z by (eapply (wo_lt 0 ss m m'); [lia|done|done]). lia.
    - intros H x Hx%elem_xrange. apply bool_decide_eq_true, Hcov.
      destruct (wo_cover 0 ss i j pi pj x Hi Hj) as (m & r & Him & Hmj & Hm & Hxr); [lia|lia|].
      destruct (lookup_lt_is_Some_2 (g_tokens g) m) as [t Ht].
      { rewrite (Forall2_length _ _ _ HT), <-(word_offsets_length 0 ss). by eapply lookup_lt_Some. }
      exists m, t, r. split_and!; try done; try lia. by apply (H i m j ti t tj).
  Qed.
End offsets.
