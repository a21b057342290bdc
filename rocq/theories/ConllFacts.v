(** * ConllFacts: the CoNLL writer *)
From Verif Require Import PyBase DocGraph Relabel SpecGraph DocGraphFacts History Effects AllHist StrNum Query SpecQuery SelectFacts SpanFacts LabelFacts Text TextFacts DisText Brackets BracketFacts Brat BratFacts QueryThms NatSort Conll SpecConll.

Lemma dappend_None {V} m k (v : V) d : dget m (dappend k v d) = None ↔ dget m d = None ∧ m ≠ k.
Proof. unfold dappend. rewrite dget_dset. destruct (decide (m = k)); [split; [done|by intros []]|tauto]. Qed.
Lemma chain_fold chain (c : nat) : NoDup chain → ∀ d m,
  default [] (dget m (foldl (λ d m, dappend m c d) d chain)) = default [] (dget m d) ++ (if decide (m ∈ chain) then [c] else []) ∧
  (dget m (foldl (λ d m, dappend m c d) d chain) = None ↔ dget m d = None ∧ m ∉ chain).
Proof.
  induction 1 as [|x chain Hx HD IH]; intros d m; cbn [foldl].
  - rewrite decide_False by apply not_elem_of_nil. rewrite app_nil_r. split; [done|]. split; [|by intros []]. intros H. split; [done|apply not_elem_of_nil].
  - destruct (IH (dappend x c d) m) as [H1 H2]. split.
    + rewrite H1, dget_dappend, <-app_assoc. f_equal. destruct (decide (m = x)) as [->|Hm].
      * rewrite (decide_False (P := x ∈ chain)) by done. rewrite decide_True by left. done.
      * cbn [app]. destruct (decide (m ∈ chain)) as [Hi|Hi]; [by rewrite decide_True by (by right)|]. rewrite decide_False; [done|]. by intros [->|?]%elem_of_cons.
    + rewrite H2, dappend_None, elem_of_cons. tauto.
Qed.
Lemma conll_chains_ok chains : Forall NoDup chains → ∀ c d m,
  (∃ extra, default [] (dget m (conll_chains chains c d)) = default [] (dget m d) ++ extra ∧ NoDup extra ∧
    ∀ k, k ∈ extra ↔ ∃ i chain, k = c + i ∧ chains !! i = Some chain ∧ m ∈ chain) ∧
  (dget m (conll_chains chains c d) = None ↔ dget m d = None ∧ m ∉ concat chains).
Proof.
  induction 1 as [|chain chains HN HF IH]; intros c d m; cbn [conll_chains concat].
  - split.
    + exists []. rewrite app_nil_r. split_and!; [done|constructor|]. intros k. split; [by intros ?%elem_of_nil|]. intros (i & ch & _ & E & _). done.
    + split; [|by intros []]. intros H. split; [done|apply not_elem_of_nil].
  - destruct (IH (S c) (foldl (λ d m, dappend m c d) d chain) m) as [(extra & E & HD & HE) HNone]. destruct (chain_fold chain c HN d m) as [E1 E2]. split.
    + exists ((if decide (m ∈ chain) then [c] else []) ++ extra). rewrite E, E1, <-app_assoc. split; [done|]. split.
      * apply NoDup_app. split_and!; [destruct (decide (m ∈ chain)); [apply NoDup_singleton|constructor]| |done].
        intros k Hk (i & ch & -> & _)%HE. destruct (decide (m ∈ chain)); [apply elem_of_list_singleton in Hk; lia|by apply elem_of_nil in Hk].
      * intros k. rewrite elem_of_app, HE. split.
        -- intros [Hk|(i & ch & -> & Hi & Hm)].
           ++ destruct (decide (m ∈ chain)) as [Hm|Hm]; [|by apply elem_of_nil in Hk]. apply elem_of_list_singleton in Hk as ->. exists 0, chain. split_and!; [lia|done..].
           ++ exists (S i), ch. split_and!; [lia|done..].
        -- intros ([|i] & ch & -> & Hi & Hm).
           ++ injection Hi as ->. left. rewrite decide_True by done. apply elem_of_list_singleton. lia.
           ++ right. exists i, ch. split_and!; [lia|done..].
    + rewrite HNone, E2, elem_of_app. tauto.
Qed.

(** the set of markables of a token *)
Lemma dget_dadd t t' m d : default [] (dget t' (dadd t m d)) = (if decide (t' = t) then (let l := default [] (dget t d) in if decide (m ∈ l) then l else l ++ [m]) else default [] (dget t' d)).
Proof. unfold dadd. rewrite dget_dset. by destruct (decide (t' = t)). Qed.
Definition set_ok (d : dict nid (list nid)) : Prop := ∀ t, (∀ l, dget t d = Some l → l ≠ []) ∧ NoDup (default [] (dget t d)).
Lemma dadd_ok t m d : set_ok d → set_ok (dadd t m d) ∧ ∀ t' m', m' ∈ default [] (dget t' (dadd t m d)) ↔ m' ∈ default [] (dget t' d) ∨ (t' = t ∧ m' = m).
Proof.
  intros H. split.
  - intros t'. rewrite dget_dadd. unfold dadd. rewrite dget_dset. destruct (H t') as [H1 H2], (H t) as [H3 H4]. destruct (decide (t' = t)) as [->|Ht]; [|done]. split.
    + intros l [= <-]. destruct (decide (m ∈ default [] (dget t d))) as [Hm|Hm]; [|by destruct (default [] (dget t d))]. intros Hl. rewrite Hl in Hm. by apply elem_of_nil in Hm.
    + cbn. destruct (decide (m ∈ default [] (dget t d))) as [Hm|Hm]; [done|]. apply NoDup_app. split_and!; [done| |apply NoDup_singleton]. by intros x Hx ->%elem_of_list_singleton.
  - intros t' m'. rewrite dget_dadd. destruct (decide (t' = t)) as [->|Ht]; [|split; [by left|by intros [?|[? ?]]]]. cbn.
    destruct (decide (m ∈ default [] (dget t d))) as [Hm|Hm]; [|rewrite elem_of_app, elem_of_list_singleton]; [|tauto]. split; [by left|by intros [?|[_ ->]]].
Qed.
Lemma span_fold span m : ∀ d, set_ok d → set_ok (foldl (λ d t, dadd t m d) d span) ∧
  ∀ t' m', m' ∈ default [] (dget t' (foldl (λ d t, dadd t m d) d span)) ↔ m' ∈ default [] (dget t' d) ∨ (t' ∈ span ∧ m' = m).
Proof.
  induction span as [|t span IH]; intros d Hd; cbn [foldl].
  - split; [done|]. intros t' m'. split; [by left|]. intros [?|[?%elem_of_nil _]]; done.
  - destruct (dadd_ok t m d Hd) as [H1 H2]. destruct (IH _ H1) as [H3 H4]. split; [done|]. intros t' m'. rewrite H4, H2, elem_of_cons. tauto.
Qed.

Lemma filter_in {A} (P Q : A → Prop) `{!∀ x, Decision (P x)} `{!∀ x, Decision (Q x)} (l : list A) : (∀ x, x ∈ l → P x ↔ Q x) → filter P l = filter Q l.
Proof.
  induction l as [|x l IH]; intros HI; [done|]. rewrite !filter_cons. rewrite IH by (intros y Hy; apply HI; by right).
  pose proof (HI x (elem_of_list_here _ _)). destruct (decide (P x)), (decide (Q x)); tauto || done.
Qed.
Section mapper.
  Context (fuel : nat) (g : graph) (sp : nid → list nid).
  (** the numbers of the markables without chain *)
  Lemma conll_markables_ok ms : NoDup ms → Forall (λ m, get_span fuel g m = Ok (sp m)) ms → ∀ sid d, set_ok (cm_t2m d) →
    ∃ d', conll_markables fuel g ms sid d = Ok d' ∧ set_ok (cm_t2m d') ∧
      (∀ t m, m ∈ default [] (dget t (cm_t2m d')) ↔ m ∈ default [] (dget t (cm_t2m d)) ∨ (m ∈ ms ∧ t ∈ sp m)) ∧
      (∀ m, dget m (cm_m2t d') = if decide (m ∈ ms) then Some (sp m) else dget m (cm_m2t d)) ∧
      (∀ m x, dget m (cm_m2c d) = Some x → dget m (cm_m2c d') = Some x) ∧
      (∀ m, dget m (cm_m2c d) = None → m ∈ ms → ∃ i, filter (λ m, dget m (cm_m2c d) = None) ms !! i = Some m ∧ dget m (cm_m2c d') = Some [sid + i]).
  Proof.
    induction 1 as [|m ms Hm HD IH]; intros HF sid d Hd; cbn [conll_markables].
    - exists d. split_and!; try done.
      + intros t m. split; [by left|]. intros [?|[?%elem_of_nil _]]; done.
      + intros m _ Hm. by apply elem_of_nil in Hm.
    - apply Forall_cons in HF as [E HF]. rewrite E. cbn [rbind]. destruct (span_fold (sp m) m (cm_t2m d) Hd) as [S1 S2].
      assert (HT : ∀ t m', (m' ∈ default [] (dget t (cm_t2m d)) ∨ t ∈ sp m ∧ m' = m) ∨ (m' ∈ ms ∧ t ∈ sp m') ↔ m' ∈ default [] (dget t (cm_t2m d)) ∨ (m' ∈ m :: ms ∧ t ∈ sp m')).
      { intros t m'. rewrite elem_of_cons. split; [intros [[?|[? ->]]|[? ?]]|intros [?|[[->|?] ?]]]; tauto. }
      assert (HM : ∀ m', (if decide (m' ∈ ms) then Some (sp m') else dget m' (dset m (sp m) (cm_m2t d))) = if decide (m' ∈ m :: ms) then Some (sp m') else dget m' (cm_m2t d)).
      { intros m'. rewrite dget_dset. destruct (decide (m' ∈ ms)) as [Hi|Hi]; [by rewrite decide_True by (by right)|]. destruct (decide (m' = m)) as [->|Hne]; [by rewrite decide_True by left|].
        rewrite decide_False; [done|]. by intros [?|?]%elem_of_cons. }
      destruct (dget m (cm_m2c d)) as [x|] eqn:Ec.
      + destruct (IH HF sid (ConllMaps (foldl (λ d t, dadd t m d) (cm_t2m d) (sp m)) (dset m (sp m) (cm_m2t d)) (cm_m2c d)) S1) as (d' & E1 & E2 & E3 & E4 & E5 & E6). cbn [cm_t2m cm_m2t cm_m2c] in *.
        exists d'. split_and!; try done.
        * intros t m'. rewrite E3, S2. apply HT.
        * intros m'. rewrite E4. apply HM.
        * intros m' Hn [->|Hi]%elem_of_cons; [congruence|]. destruct (E6 m' Hn Hi) as (i & H1 & H2). exists i. split; [|done]. rewrite filter_cons, decide_False by congruence. done.
      + destruct (IH HF (S sid) (ConllMaps (foldl (λ d t, dadd t m d) (cm_t2m d) (sp m)) (dset m (sp m) (cm_m2t d)) (dset m [sid] (cm_m2c d))) S1) as (d' & E1 & E2 & E3 & E4 & E5 & E6). cbn [cm_t2m cm_m2t cm_m2c] in *.
        exists d'. split_and!; try done.
        * intros t m'. rewrite E3, S2. apply HT.
        * intros m'. rewrite E4. apply HM.
        * intros m' x Hx. apply E5. rewrite dget_dset. destruct (decide (m' = m)) as [->|]; [congruence|done].
        * intros m' Hn Hi. rewrite filter_cons, decide_True by done. apply elem_of_cons in Hi as [->|Hi].
          -- exists 0. split; [done|]. rewrite Nat.add_0_r. apply E5. by rewrite dget_dset, decide_True by done.
          -- assert (Hne : m' ≠ m) by (intros ->; by apply Hm). destruct (E6 m') as (i & H1 & H2); [by rewrite dget_dset, decide_False by done|done|].
             exists (S i). split; [|by rewrite Nat.add_succ_r]. cbn [lookup list_lookup]. rewrite <-H1. f_equal. apply filter_in.
             intros y Hy. rewrite dget_dset. rewrite decide_False; [done|]. by intros ->.
  Qed.
End mapper.
Section output.
  Context (fuel : nat) (g : graph) (sp : nid → list nid) (chains : list (list nid)) (ms : list nid) (ml : string).
  Context (HC : Forall NoDup chains) (HM : select_nodes_by_layer g (LOne ml) = Ok ms) (HN : NoDup ms).
  Context (HS : Forall (λ m, get_span fuel g m = Ok (sp m)) ms).
  Record mapped (d : conll_maps) : Prop := {
    mp_set : set_ok (cm_t2m d);
    mp_t2m : ∀ t m, m ∈ default [] (dget t (cm_t2m d)) ↔ m ∈ ms ∧ t ∈ sp m;
    mp_m2t : ∀ m, m ∈ ms → dget m (cm_m2t d) = Some (sp m);
    mp_nums : ∀ m, m ∈ ms → NoDup (default [] (dget m (cm_m2c d))) ∧ ∀ c, c ∈ default [] (dget m (cm_m2c d)) ↔ in_chain_no chains ms m c }.
  Lemma conll_mapper_ok : ∃ d, conll_mapper fuel g ml chains = Ok d ∧ mapped d.
  Proof.
    unfold conll_mapper. rewrite HM. cbn [rbind].
    destruct (conll_markables_ok fuel g sp ms HN HS (length chains) (ConllMaps [] [] (conll_chains chains 0 []))) as (d & E1 & E2 & E3 & E4 & E5 & E6).
    { intros t. split; [done|constructor]. }
    cbn [cm_t2m cm_m2t cm_m2c] in *. exists d. split; [done|]. split.
    - done.
    - intros t m. rewrite E3. cbn. rewrite elem_of_nil. tauto.
    - intros m Hm. by rewrite E4, decide_True.
    - intros m Hm. destruct (conll_chains_ok chains HC 0 [] m) as [(extra & Ex & HD & HE) HNo]. cbn [dget from_option app] in Ex.
      destruct (dget m (conll_chains chains 0 [])) as [x|] eqn:Em.
      + rewrite (E5 m x Em). cbn in Ex |- *. subst x. split; [done|]. intros c. rewrite HE. unfold in_chain_no. split.
        * intros (i & ch & -> & H). left. by exists ch.
        * intros [(ch & H)|(i & Hi & _)]; [by exists c, ch|]. exfalso. apply elem_of_list_lookup_2, elem_of_list_filter in Hi as [Hno _].
          assert (Some extra = None); [|done]. apply HNo. by split.
      + destruct (E6 m Em Hm) as (i & Hi & E). rewrite E. cbn. split; [apply NoDup_singleton|]. intros c. rewrite elem_of_list_singleton. unfold in_chain_no.
        assert (Hno : m ∉ concat chains) by (by apply HNo).
        assert (EF : filter (λ m, dget m (conll_chains chains 0 []) = None) ms = filter (λ m, m ∉ concat chains) ms).
        { apply filter_in. intros y _. destruct (conll_chains_ok chains HC 0 [] y) as [_ ->]. cbn. tauto. }
        rewrite EF in Hi. split.
        * intros ->. right. by exists i.
        * intros [(ch & H & Hx)|(j & Hj & ->)].
          -- exfalso. apply Hno. apply elem_concat. exists ch. split; [done|]. by eapply elem_of_list_lookup_2.
          -- f_equal. eapply NoDup_lookup; [|exact Hj|exact Hi]. by apply NoDup_filter.
  Qed.

  Context (HSN : Forall (λ m, NoDup (sp m)) ms).
  Lemma list_index_ok t l : t ∈ l → ∃ i, list_index t l = Ok i ∧ l !! i = Some t.
  Proof.
    induction l as [|x l IH]; intros Ht; [by apply elem_of_nil in Ht|]. cbn [list_index]. destruct (decide (t = x)) as [->|Hne]; [by exists 0|].
    apply elem_of_cons in Ht as [?|Ht]; [done|]. destruct (IH Ht) as (i & -> & Hi). exists (S i). done.
  Qed.
  Lemma gen_coref_str_ok d t m c : mapped d → m ∈ ms → t ∈ sp m → gen_coref_str d t m c = Ok (coref_entry (sp m) t c).
  Proof.
    intros Hd Hm Ht. unfold gen_coref_str. rewrite (mp_m2t d Hd m Hm). change (default [] (Some (sp m))) with (sp m). destruct (list_index_ok t (sp m) Ht) as (i & -> & Hi). cbn [rbind].
    assert (HND : NoDup (sp m)) by (rewrite Forall_forall in HSN; by apply HSN). f_equal. unfold coref_entry.
    assert (H0 : i = 0 ↔ head (sp m) = Some t).
    { destruct (sp m) as [|x l]; [done|]. split; [intros ->; done|]. intros [= ->]. eapply NoDup_lookup; [exact HND|exact Hi|done]. }
    assert (H1 : Z.of_nat i = (Z.of_nat (length (sp m)) - 1)%Z ↔ last (sp m) = Some t).
    { rewrite last_lookup. pose proof (lookup_lt_Some _ _ _ Hi). split; [intros H2; rewrite <-Hi; f_equal; lia|]. intros H2. pose proof (NoDup_lookup _ _ _ _ HND Hi H2). lia. }
    f_equal; [|f_equal].
    - destruct (decide (i = 0)) as [p|p], (decide (head (sp m) = Some t)) as [q|q]; tauto || done.
    - destruct (decide (Z.of_nat i = _)) as [p|p], (decide (last (sp m) = Some t)) as [q|q]; tauto || done.
  Qed.
  Lemma join_bars l : join_with (chs "|") l = bars l.
  Proof. induction l as [|s [|s' l] IH]; [done..|]. cbn [join_with bars] in *. by rewrite IH. Qed.
  Lemma coref_column_ok order d t : (∀ l, order l ≡ₚ l) → mapped d → ∃ col, coref_column order d t = Ok (Brat.tab :: col) ∧ column chains ms sp t col.
  Proof.
    intros HO Hd. unfold coref_column, column. pose proof (mp_t2m d Hd t) as HT. destruct (mp_set d Hd t) as [Hne HND].
    destruct (dget t (cm_t2m d)) as [l|] eqn:El; cbn [from_option] in HT, HND.
    - pose (ps := concat ((λ m, (λ c, (m, c)) <$> default [] (dget m (cm_m2c d))) <$> order l)).
      assert (Hl : ∀ m, m ∈ order l ↔ m ∈ ms ∧ t ∈ sp m) by (intros m; by rewrite HO).
      assert (Hps : ∀ m c, (m, c) ∈ ps ↔ m ∈ order l ∧ c ∈ default [] (dget m (cm_m2c d))).
      { intros m c. unfold ps. rewrite elem_concat. split.
        - intros (k & Hk & (m' & -> & Hm')%elem_of_list_fmap). apply elem_of_list_fmap in Hk as (c' & [= -> ->] & Hc). done.
        - intros [H1 H2]. eexists. split; [|apply elem_of_list_fmap; exists m; split; [reflexivity|done]]. apply elem_of_list_fmap. by exists c. }
      assert (ER : rconcat (λ m, rmap (gen_coref_str d t m) (default [] (dget m (cm_m2c d)))) (order l) = Ok ((λ p, coref_entry (sp p.1) t p.2) <$> ps)).
      { unfold ps. assert (HA : ∀ m, m ∈ order l → m ∈ ms ∧ t ∈ sp m) by (intros m; apply Hl). clear -HA HSN Hd. revert HA. generalize (order l). intros k. induction k as [|m k IH]; intros HA; [done|].
        cbn [rconcat]. rewrite !fmap_cons. cbn [concat]. rewrite fmap_app. destruct (HA m) as [Hm Ht]; [left|].
        assert (E : rmap (gen_coref_str d t m) (default [] (dget m (cm_m2c d))) = Ok ((λ p : nid * nat, coref_entry (sp p.1) t p.2) <$> ((λ c, (m, c)) <$> default [] (dget m (cm_m2c d))))).
        { clear -Hm Ht HSN Hd. induction (default [] (dget m (cm_m2c d))) as [|c cs IH]; [done|]. cbn [rmap]. rewrite gen_coref_str_ok by done. cbn [rbind]. rewrite IH. done. }
        rewrite E. cbn [rbind]. rewrite IH; [done|]. intros m' Hm'. apply HA. by right. }
      rewrite ER. cbn [rbind]. rewrite join_bars. eexists. split; [reflexivity|]. exists ps. split_and!.
      + unfold ps. assert (HNO : NoDup (order l)) by (by rewrite HO). assert (HA : ∀ m, m ∈ order l → m ∈ ms) by (intros m Hm; by apply Hl). clear -HNO HA Hd.
        induction HNO as [|m k Hm HNO IH]; [constructor|]. rewrite fmap_cons. cbn [concat]. apply NoDup_app. split_and!.
        * apply NoDup_fmap_2; [by intros ? ? [= ->]|]. apply (mp_nums d Hd). apply HA. left.
        * intros p (c & -> & _)%elem_of_list_fmap (q & Hq & (m' & -> & Hm')%elem_of_list_fmap)%elem_concat. apply elem_of_list_fmap in Hq as (c' & [= <- <-] & _). done.
        * apply IH. intros m' Hm'. apply HA. by right.
      + intros m c. rewrite Hps, Hl. split; [intros [[H1 H2] H3]|intros (H1 & H2 & H3)]; (split_and!; [done..|]); by apply (mp_nums d Hd).
      + rewrite decide_False; [done|]. intros Hn. specialize (Hne l eq_refl). destruct l as [|m l]; [done|].
        destruct (proj1 (HT m)) as [Hm Ht]; [left|]. assert (∃ c, in_chain_no chains ms m c) as [c Hc].
        { destruct (decide (m ∈ concat chains)) as [Hi|Hi].
          - apply elem_concat in Hi as (ch & Hmc & (c & Hc)%elem_of_list_lookup). exists c. left. by exists ch.
          - assert (m ∈ filter (λ m, m ∉ concat chains) ms) as (i & Hi')%elem_of_list_lookup by (by apply elem_of_list_filter). exists (length chains + i). right. by exists i. }
        assert (Hin : (m, c) ∈ ps). { apply Hps. split; [by apply Hl|by apply (mp_nums d Hd)]. } rewrite Hn in Hin. by apply elem_of_nil in Hin.
    - exists ["_"%char]. split; [done|]. exists []. split_and!; [constructor| |done]. intros m c. split; [by intros ?%elem_of_nil|]. intros (H1 & H2 & _). pose proof (proj2 (HT m) (conj H1 H2)) as Hx. by apply elem_of_nil in Hx.
  Qed.
  Lemma conll_row_ok order d i t w : (∀ l, order l ≡ₚ l) → mapped d → token_is g t w → ∃ col, conll_row order g d i t = Ok (row i w col) ∧ column chains ms sp t col.
  Proof.
    intros HO Hd (a & Ha & Hw). destruct (coref_column_ok order d t HO Hd) as (col & E & HC'). exists col. split; [|done]. unfold conll_row. rewrite E. cbn [rbind].
    unfold conll_word, get_token. rewrite Ha. cbn [of_option rbind]. rewrite Hw. cbn [of_option rbind]. done.
  Qed.
  Lemma conll_rows_ok order d ts ws : (∀ l, order l ≡ₚ l) → mapped d → Forall2 (token_is g) ts ws → ∀ i,
    ∃ cols, conll_rows order g d ts (S i) = Ok (concat (imap (λ k p, row (S (i + k)) p.1 p.2) (zip ws cols)) ++ [newline]) ∧ Forall2 (column chains ms sp) ts cols.
  Proof.
    intros HO Hd HF. induction HF as [|t w ts ws Ht HF IH]; intros i; cbn [conll_rows].
    - exists []. split; [done|constructor].
    - destruct (conll_row_ok order d (S i) t w HO Hd Ht) as (col & -> & Hcol). destruct (IH (S i)) as (cols & -> & Hcols). cbn [rbind]. exists (col :: cols). split; [|by constructor].
      cbn [zip_with imap concat]. rewrite <-app_assoc. do 2 f_equal; [by rewrite Nat.add_0_r|]. do 2 f_equal. apply imap_ext. intros k x _. cbn. by rewrite Nat.add_succ_r.
  Qed.
  Lemma conll_doc_ok order toks_of d sents words : (∀ l, order l ≡ₚ l) → mapped d → Forall2 (λ s ts, toks_of s = Ok ts) (g_sentences g) sents → Forall2 (Forall2 (token_is g)) sents words →
    ∃ cols, conll_doc order g toks_of d = Ok (conll_file words cols) ∧ Forall2 (Forall2 (column chains ms sp)) sents cols.
  Proof.
    intros HO Hd HS1 HW. unfold conll_doc, conll_file.
    assert (H : ∃ cols, rconcat (λ s, let! ts := toks_of s in conll_rows order g d ts 1) (g_sentences g) = Ok (concat (zip_with sentence words cols)) ∧ Forall2 (Forall2 (column chains ms sp)) sents cols).
    { clear -HO Hd HS1 HW HSN. revert words HW. induction HS1 as [|s ts ss sents Hs HS1 IH]; intros words HW; inversion HW as [|? ws ? words' Hw HW']; subst; cbn [rconcat].
      - exists []. split; [done|constructor].
      - rewrite Hs. cbn [rbind]. destruct (conll_rows_ok order d ts ws HO Hd Hw 0) as (c & -> & Hc). destruct (IH _ HW') as (cols & -> & Hcols). cbn [rbind]. exists (c :: cols). split; [done|by constructor]. }
    destruct H as (cols & -> & Hcols). exists cols. split; [done|done].
  Qed.
End output.

(** ** Balance *)
Lemma number_free k x : is_digit x = false → x ≠ "-"%char → x ∉ number k.
Proof. apply str_Z_free. Qed.
Lemma number_inj j k : number j = number k → j = k.
Proof. intros H%(f_equal str). unfold number in H. rewrite !str_chs in H. apply str_Z_inj in H. lia. Qed.
Lemma number_ne k : number k ≠ [].
Proof.
  intros H. unfold number, str_Z in H. destruct (Z.of_nat k) eqn:E; [by apply str_N_nonempty in H|by apply str_N_nonempty in H|lia].
Qed.
Lemma opens_entry c s t c' : opens c (coref_entry s t c') ↔ c' = c ∧ head s = Some t.
Proof.
  assert (HL : ∀ k, "("%char ∉ number k) by (intros k; by apply number_free). assert (HR : ∀ k, ")"%char ∉ number k) by (intros k; by apply number_free).
  assert (HF : ∀ k x y, number k ++ x = "("%char :: y → False).
  { intros k x y H. destruct (number k) as [|z l] eqn:E; [by apply (number_ne k)|]. cbn in H. injection H as -> _. apply (HL k). rewrite E. left. }
  unfold opens, coref_entry. split.
  - intros H. destruct (decide (head s = Some t)) as [Hh|Hh].
    + assert (number c' ++ (if decide (last s = Some t) then chs ")" else []) = number c ∨ number c' ++ (if decide (last s = Some t) then chs ")" else []) = number c ++ chs ")") as H'.
      { destruct H as [H|H]; [left|right]; exact (f_equal tail H). }
      split; [|done]. apply number_inj. destruct (decide (last s = Some t)).
      * destruct H' as [H'|H']; [|by apply app_inj_tail in H' as [? _]]. exfalso. apply (HR c). rewrite <-H'. apply elem_of_app. right. left.
      * rewrite app_nil_r in H'. destruct H' as [H'|H']; [done|]. exfalso. apply (HR c'). rewrite H'. apply elem_of_app. right. left.
    + exfalso. cbn [app] in H. destruct H as [H|H]; by apply HF in H.
  - intros [-> Hh]. rewrite decide_True by done. destruct (decide (last s = Some t)); [by right|left]. by rewrite app_nil_r.
Qed.
Lemma closes_entry c s t c' : closes c (coref_entry s t c') ↔ c' = c ∧ last s = Some t.
Proof.
  assert (HL : ∀ k, "("%char ∉ number k) by (intros k; by apply number_free). assert (HR : ∀ k, ")"%char ∉ number k) by (intros k; by apply number_free).
  assert (HF : ∀ k x y, number k ++ x = "("%char :: y → False).
  { intros k x y H. destruct (number k) as [|z l] eqn:E; [by apply (number_ne k)|]. cbn in H. injection H as -> _. apply (HL k). rewrite E. left. }
  unfold closes, coref_entry. split.
  - intros H. assert (HX : ∃ o, (o = [] ∨ o = chs "(") ∧ (if decide (head s = Some t) then chs "(" else []) ++ number c' ++ (if decide (last s = Some t) then chs ")" else []) = (o ++ number c) ++ chs ")").
    { destruct H as [H|H]; [exists []; by split; [left|]|exists (chs "("); split; [by right|]]. by rewrite H, <-(app_assoc (chs "(")). }
    destruct HX as (o & Ho & HX). destruct (decide (last s = Some t)) as [Hl|Hl].
    + rewrite (app_assoc _ (number c')) in HX. apply app_inj_tail in HX as [HX _]. split; [|done]. apply number_inj. destruct (decide (head s = Some t)), Ho as [-> | ->]; cbn [app] in HX.
      * symmetry in HX. apply (f_equal (λ x, x ++ [])) in HX. by apply HF in HX.
      * exact (f_equal tail HX).
      * done.
      * apply (f_equal (λ x, x ++ [])) in HX. by apply HF in HX.
    + exfalso. rewrite app_nil_r in HX. apply (HR c'). assert (Hin : ")"%char ∈ (if decide (head s = Some t) then chs "(" else []) ++ number c') by (rewrite HX; apply elem_of_app; right; left).
      apply elem_of_app in Hin as [Hin|Hin]; [|done]. destruct (decide (head s = Some t)); [by apply elem_of_list_singleton in Hin|by apply elem_of_nil in Hin].
  - intros [-> Hh]. rewrite (decide_True (P := last s = Some t)) by done. destruct (decide (head s = Some t)); [by right|by left].
Qed.
Lemma entry_no_bar s t c : "|"%char ∉ coref_entry s t c.
Proof.
  unfold coref_entry. intros [H|[H|H]%elem_of_app]%elem_of_app.
  - destruct (decide (head s = Some t)); [by apply elem_of_list_singleton in H|by apply elem_of_nil in H].
  - by apply number_free in H.
  - destruct (decide (last s = Some t)); [by apply elem_of_list_singleton in H|by apply elem_of_nil in H].
Qed.
Lemma split_bars l : l ≠ [] → Forall (λ w, "|"%char ∉ w) l → split_char "|"%char (bars l) = l.
Proof.
  intros Hne HF. induction HF as [|w ws Hw HF IH]; [done|]. destruct ws as [|w' ws]; [by apply split_char_no|].
  cbn [bars]. rewrite split_char_app by done. f_equal. by apply IH.
Qed.
Lemma filter_fmap_length {A B} (f : A → B) (P : B → Prop) (Q : A → Prop) `{!∀ x, Decision (P x)} `{!∀ x, Decision (Q x)} (l : list A) :
  (∀ x, P (f x) ↔ Q x) → length (filter P (f <$> l)) = length (filter Q l).
Proof.
  intros HPQ. induction l as [|x l IH]; [done|]. rewrite fmap_cons, !filter_cons. specialize (HPQ x). destruct (decide (P (f x))), (decide (Q x)); try tauto. cbn [length]. by rewrite IH.
Qed.

Definition hit {A} (f : A → option nid) (T : list nid) (x : A) : bool := match f x with Some t => bool_decide (t ∈ T) | None => false end.
Lemma hit_true {A} (f : A → option nid) T x : hit f T x = true ↔ ∃ t, f x = Some t ∧ t ∈ T.
Proof.
  unfold hit. destruct (f x) as [t|]; [rewrite bool_decide_eq_true|]; split; [by exists t|by intros (? & [= <-] & ?)|done|by intros (? & ? & _)].
Qed.
Lemma sum_hits {A} (f : A → option nid) (l : list A) T : NoDup T → sum_list_with (λ t, length (filter (λ x, f x = Some t) l)) T = length (filter (λ x, hit f T x = true) l).
Proof.
  induction 1 as [|t T Ht HD IH]; cbn [sum_list_with].
  - clear. induction l as [|x l IH]; [done|]. rewrite filter_cons, decide_False; [done|]. rewrite hit_true. intros (? & _ & ?%elem_of_nil). done.
  - rewrite IH. clear IH HD. induction l as [|x l IHl]; [done|]. rewrite !filter_cons.
    destruct (decide (f x = Some t)) as [E|E], (decide (hit f T x = true)) as [H1|H1], (decide (hit f (t :: T) x = true)) as [H2|H2]; cbn [length]; rewrite hit_true in H1, H2; try lia; exfalso.
    + destruct H1 as (t' & H1 & H1'). apply Ht. congruence.
    + apply H2. exists t. split; [done|left].
    + apply H2. exists t. split; [done|left].
    + destruct H1 as (t' & ? & ?). apply H2. exists t'. split; [done|by right].
    + destruct H2 as (t' & ? & [->|?]%elem_of_cons); [done|]. apply H1. by exists t'.
Qed.

Section balance.
  Context (chains : list (list nid)) (ms : list nid) (sp : nid → list nid) (P : list (nid * nat)).
  Context (HP : NoDup P) (HPe : ∀ m c, (m, c) ∈ P ↔ m ∈ ms ∧ in_chain_no chains ms m c).
  Definition at_head (c : nat) (p : nid * nat) : option nid := if decide (p.2 = c) then head (sp p.1) else None.
  Definition at_last (c : nat) (p : nid * nat) : option nid := if decide (p.2 = c) then last (sp p.1) else None.
  Lemma at_head_iff c p t : at_head c p = Some t ↔ p.2 = c ∧ head (sp p.1) = Some t.
  Proof. unfold at_head. destruct (decide (p.2 = c)); tauto || (split; [done|by intros []]). Qed.
  Lemma at_last_iff c p t : at_last c p = Some t ↔ p.2 = c ∧ last (sp p.1) = Some t.
  Proof. unfold at_last. destruct (decide (p.2 = c)); tauto || (split; [done|by intros []]). Qed.
  Lemma opened_column c t col : column chains ms sp t col → opened c col = length (filter (λ p, at_head c p = Some t) P).
  Proof.
    intros (ps & HD & He & ->). unfold opened. assert (E : filter (λ p, at_head c p = Some t) ps ≡ₚ filter (λ p, at_head c p = Some t) P).
    { apply NoDup_Permutation; [by apply NoDup_filter..|]. intros [m k]. rewrite !elem_of_list_filter, He, HPe, at_head_iff. cbn. split; [tauto|]. intros ((? & Hh) & ? & ?). split_and!; try done. by apply head_Some_elem_of. }
    rewrite <-E. destruct (decide (ps = [])) as [->|Hne].
    - rewrite split_char_no by (intros H%elem_of_list_singleton; done). rewrite filter_cons, decide_False; [done|]. intros [H|H]; done.
    - rewrite split_bars; [|by intros ?%fmap_nil_inv|apply Forall_fmap, Forall_forall; intros; apply entry_no_bar]. apply filter_fmap_length.
      intros p. by rewrite opens_entry, at_head_iff.
  Qed.
  Lemma closed_column c t col : column chains ms sp t col → closed c col = length (filter (λ p, at_last c p = Some t) P).
  Proof.
    intros (ps & HD & He & ->). unfold closed. assert (E : filter (λ p, at_last c p = Some t) ps ≡ₚ filter (λ p, at_last c p = Some t) P).
    { apply NoDup_Permutation; [by apply NoDup_filter..|]. intros [m k]. rewrite !elem_of_list_filter, He, HPe, at_last_iff. cbn. split; [tauto|]. intros ((? & Hh) & ? & ?). split_and!; try done. by apply last_Some_elem_of. }
    rewrite <-E. destruct (decide (ps = [])) as [->|Hne].
    - rewrite split_char_no by (intros H%elem_of_list_singleton; done). rewrite filter_cons, decide_False; [done|]. intros [H|H]; [|done].
      apply (number_free c "_"%char); [done..|]. pose proof (number_ne c). destruct (number c) as [|x l]; [done|]. cbn in H. injection H as -> _. left.
    - rewrite split_bars; [|by intros ?%fmap_nil_inv|apply Forall_fmap, Forall_forall; intros; apply entry_no_bar]. apply filter_fmap_length.
      intros p. by rewrite closes_entry, at_last_iff.
  Qed.
  Lemma total_opened c T C : NoDup T → Forall2 (column chains ms sp) T C → total (opened c) C = length (filter (λ p, hit (at_head c) T p = true) P).
  Proof.
    intros HT HF. rewrite <-sum_hits by done. unfold total. clear HT. induction HF as [|t col T C Ht HF IH]; [done|]. cbn [sum_list_with]. by rewrite IH, (opened_column c t col).
  Qed.
  Lemma total_closed c T C : NoDup T → Forall2 (column chains ms sp) T C → total (closed c) C = length (filter (λ p, hit (at_last c) T p = true) P).
  Proof.
    intros HT HF. rewrite <-sum_hits by done. unfold total. clear HT. induction HF as [|t col T C Ht HF IH]; [done|]. cbn [sum_list_with]. by rewrite IH, (closed_column c t col).
  Qed.
End balance.
Lemma pairs_exist chains ms : NoDup ms → ∃ P : list (nid * nat), NoDup P ∧ ∀ m c, (m, c) ∈ P ↔ m ∈ ms ∧ in_chain_no chains ms m c.
Proof.
  intros HN. pose (a := concat (imap (λ c chain, (λ m, (m, c)) <$> filter (λ m, m ∈ chain) ms) chains)). pose (b := imap (λ i m, (m, length chains + i)) (filter (λ m, m ∉ concat chains) ms)).
  assert (Ha : ∀ m c, (m, c) ∈ a ↔ m ∈ ms ∧ ∃ chain, chains !! c = Some chain ∧ m ∈ chain).
  { intros m c. unfold a. rewrite elem_concat. split.
    - intros (l & Hl & (i & chain & -> & Hi)%elem_of_lookup_imap_1). apply elem_of_list_fmap in Hl as (m' & [= -> ->] & [? ?]%elem_of_list_filter). split; [done|]. by exists chain.
    - intros (Hm & chain & Hc & Hmc). eexists. split; [|eapply elem_of_lookup_imap_2; exact Hc]. apply elem_of_list_fmap. exists m. split; [done|]. by apply elem_of_list_filter. }
  assert (Hb : ∀ m c, (m, c) ∈ b ↔ ∃ i, filter (λ m, m ∉ concat chains) ms !! i = Some m ∧ c = length chains + i).
  { intros m c. unfold b. split.
    - intros (i & m' & [= -> ->] & Hi)%elem_of_lookup_imap_1. by exists i.
    - intros (i & Hi & ->). exact (elem_of_lookup_imap_2 (λ i m, (m, length chains + i)) _ m i Hi). }
  exists (a ++ b). split.
  - apply NoDup_app. split_and!.
    + unfold a. clear -HN. generalize chains. intros cs. assert (HX : ∀ k, NoDup (concat (imap (λ c chain, (λ m, (m, k + c)) <$> filter (λ m, m ∈ chain) ms) cs))); [|apply (HX 0)]. induction cs as [|ch cs IH]; intros k; [constructor|]. cbn [imap concat]. apply NoDup_app. split_and!.
      * apply NoDup_fmap_2; [by intros ? ? [= ->]|by apply NoDup_filter].
      * intros p (m & -> & _)%elem_of_list_fmap (l & Hl & (i & ch' & -> & _)%elem_of_lookup_imap_1)%elem_concat. apply elem_of_list_fmap in Hl as (m' & [= _ E] & _). unfold compose in E. lia.
      * assert (E : imap ((λ c chain, (λ m, (m, k + c)) <$> filter (λ m, m ∈ chain) ms) ∘ S) cs = imap (λ c chain, (λ m, (m, S k + c)) <$> filter (λ m, m ∈ chain) ms) cs); [|rewrite E; apply IH].
        apply imap_ext. intros i x _. unfold compose. apply list_fmap_ext. intros _ m _. f_equal. lia.
    + intros [m c] (_ & ch & Hc & _)%Ha (i & _ & ->)%Hb. apply lookup_lt_Some in Hc. lia.
    + unfold b. assert (HF : NoDup (filter (λ m, m ∉ concat chains) ms)) by (by apply NoDup_filter). clear -HF. generalize (length chains). induction HF as [|m l Hm HF IH]; intros n; [constructor|].
      cbn [imap]. constructor.
      * intros (i & m' & [= _ E] & _)%elem_of_lookup_imap_1. lia.
      * assert (E : imap ((λ i m, (m, n + i)) ∘ S) l = imap (λ i m, (m, S n + i)) l); [|rewrite E; apply IH]. apply imap_ext. intros i x _. unfold compose. f_equal. lia.
  - intros m c. rewrite elem_of_app, Ha, Hb. unfold in_chain_no. split; [intros [[? ?]|(i & Hi & ->)]|intros [? [?|(i & ? & ?)]]]; [tauto| |tauto|].
    + split; [|right; by exists i]. apply elem_of_list_lookup_2, elem_of_list_filter in Hi as [_ ?]. done.
    + right. by exists i.
Qed.
Lemma Forall2_take' {A B} (R : A → B → Prop) l k n : Forall2 R l k → Forall2 R (take n l) (take n k).
Proof. apply Forall2_take. Qed.
Lemma balanced_columns chains ms sp T C : NoDup ms → NoDup T → Forall2 (column chains ms sp) T C →
  (∀ m t, m ∈ ms → t ∈ sp m → t ∈ T) → ∀ c, total (opened c) C = total (closed c) C.
Proof.
  intros HN HT HF HI c. destruct (pairs_exist chains ms HN) as (P & HP & HPe). rewrite (total_opened chains ms sp P HP HPe c T C HT HF), (total_closed chains ms sp P HP HPe c T C HT HF).
  f_equal. apply filter_in. intros [m k] [Hm _]%HPe. rewrite !hit_true. split.
  - intros (t & [Hk Ht]%at_head_iff & _). cbn in *. destruct (last (sp m)) as [t'|] eqn:E; [|apply last_None in E; rewrite E in Ht; done]. exists t'. split; [by apply at_last_iff|]. apply (HI m t' Hm). by apply last_Some_elem_of.
  - intros (t & [Hk Ht]%at_last_iff & _). cbn in *. destruct (head (sp m)) as [t'|] eqn:E; [|apply head_None in E; rewrite E in Ht; done]. exists t'. split; [by apply at_head_iff|]. apply (HI m t' Hm). by apply head_Some_elem_of.
Qed.
Lemma prefix_columns chains ms sp T C : NoDup ms → NoDup T → Forall2 (column chains ms sp) T C →
  (∀ m t, m ∈ ms → last (sp m) = Some t → ∃ i j t', i ≤ j ∧ head (sp m) = Some t' ∧ T !! i = Some t' ∧ T !! j = Some t) →
  ∀ c n, total (closed c) (take n C) ≤ total (opened c) (take n C).
Proof.
  intros HN HT HF HI c n. destruct (pairs_exist chains ms HN) as (P & HP & HPe).
  assert (HT' : NoDup (take n T)) by (eapply NoDup_sub; [apply sublist_take|exact HT]). apply (Forall2_take _ _ _ n) in HF.
  rewrite (total_opened chains ms sp P HP HPe c _ _ HT' HF), (total_closed chains ms sp P HP HPe c _ _ HT' HF).
  assert (HX : ∀ p, p ∈ P → hit (at_last sp c) (take n T) p = true → hit (at_head sp c) (take n T) p = true).
  { intros [m k] [Hm _]%HPe. rewrite !hit_true. intros (t & [Hk Ht]%at_last_iff & Hin). cbn in *. destruct (HI m t Hm Ht) as (i & j & t' & Hij & Hh & Hi & Hj).
    exists t'. split; [by apply at_head_iff|]. apply elem_of_list_lookup in Hin as (j' & Hj'). apply lookup_take_Some in Hj' as [Hj' Hlt]. assert (j' = j) as -> by (exact (NoDup_lookup _ _ _ _ HT Hj' Hj)).
    apply elem_of_list_lookup. exists i. apply lookup_take_Some. split; [done|lia]. }
  clear -HX. induction P as [|p P IH]; [done|]. rewrite !filter_cons. specialize (IH (λ q Hq, HX q (elem_of_list_further _ _ _ Hq))). specialize (HX p (elem_of_list_here _ _)).
  destruct (decide (hit (at_last sp c) (take n T) p = true)), (decide (hit (at_head sp c) (take n T) p = true)); cbn [length]; try lia. tauto.
Qed.

(** ** Reading the file *)
Lemma split_lines c (ls : list chars) e : Forall (λ l, c ∉ l) ls → split_char c (concat ((λ l, l ++ [c]) <$> ls) ++ e) = ls ++ split_char c e.
Proof.
  induction 1 as [|l ls Hl HF IH]; [done|]. rewrite fmap_cons. cbn [concat]. rewrite <-!app_assoc. cbn [app]. rewrite split_char_app by done. cbn [app]. f_equal. apply IH.
Qed.
Definition row_cells (i : nat) (w : string) (col : chars) : list chars := number i :: chs w :: replicate 12 (chs "_") ++ [col].
Definition row_line (i : nat) (w : string) (col : chars) : chars := number i ++ [tab] ++ chs w ++ concat (replicate 12 (tab :: chs "_")) ++ [tab] ++ col.
Lemma row_is_line i w col : row i w col = row_line i w col ++ [newline].
Proof. unfold row, row_line. by rewrite <-!app_assoc. Qed.
Lemma row_line_cells i w col : tab ∉ chs w → tab ∉ col → split_char tab (row_line i w col) = row_cells i w col.
Proof.
  intros Hw Hc. unfold row_line, row_cells. assert (Hu : tab ∉ chs "_") by (intros H%elem_of_list_singleton; done).
  cbn [app]. rewrite split_char_app by (by apply number_free). f_equal. assert (HX : ∀ n a, tab ∉ a → split_char tab (a ++ concat (replicate n (tab :: chs "_")) ++ tab :: col) = a :: replicate n (chs "_") ++ [col]).
  { induction n as [|n IH]; intros a Ha; cbn [replicate concat app].
    - rewrite split_char_app by done. by rewrite split_char_no.
    - rewrite split_char_app by done. f_equal. change (concat (replicate n [tab; "_"%char])) with (concat (replicate n (tab :: chs "_"))). exact (IH (chs "_") Hu). }
  exact (HX 12 (chs w) Hw).
Qed.
Definition sent_lines (ws : list string) (cols : list chars) : list chars := imap (λ i p, row_line (S i) p.1 p.2) (zip ws cols) ++ [[]].
Lemma sentence_lines ws cols : sentence ws cols = concat ((λ l, l ++ [newline]) <$> sent_lines ws cols).
Proof.
  unfold sentence, sent_lines. rewrite fmap_app, concat_app. f_equal.
  assert (HX : ∀ (f : nat → nat) l, concat (imap (λ i (p : string * chars), row (f i) p.1 p.2) l) = concat ((λ l, l ++ [newline]) <$> imap (λ i p, row_line (f i) p.1 p.2) l)); [|apply HX].
  intros f l. revert f. induction l as [|p l IH]; intros f; [done|].
  cbn [imap concat]. rewrite fmap_cons. cbn [concat]. f_equal; [apply row_is_line|]. apply (IH (f ∘ S)).
Qed.
Definition file_lines (words : list (list string)) (cols : list (list chars)) : list chars := chs "#begin document (__); __" :: concat (zip_with sent_lines words cols).
Lemma file_is_lines words cols : conll_file words cols = concat ((λ l, l ++ [newline]) <$> file_lines words cols) ++ chs "#end document".
Proof.
  assert (HX : concat (zip_with sentence words cols) = concat ((λ l, l ++ [newline]) <$> concat (zip_with sent_lines words cols))).
  { revert cols. induction words as [|ws words IH]; intros [|cs cols]; cbn [zip_with]; try done. cbn [concat]. rewrite fmap_app, concat_app. by rewrite IH, sentence_lines. }
  unfold conll_file, file_lines. rewrite fmap_cons. cbn [concat]. rewrite HX. rewrite <-(app_assoc (chs "#begin document (__); __" ++ [newline])). by rewrite <-(app_assoc (chs "#begin document (__); __")).
Qed.
Definition cell_free (s : chars) : Prop := tab ∉ s ∧ newline ∉ s.
Lemma row_line_nl i w col : newline ∉ chs w → newline ∉ col → newline ∉ row_line i w col.
Proof.
  intros Hw Hc. unfold row_line. rewrite !elem_of_app. intros [H|[H|[H|[H|[H|H]]]]]; try done.
  - by apply number_free in H.
  - by apply elem_of_list_singleton in H.
  - apply elem_concat in H as (l & Hl & [-> _]%elem_of_replicate). apply elem_of_cons in Hl as [?|Hl]; [done|]. by apply elem_of_list_singleton in Hl.
  - by apply elem_of_list_singleton in H.
Qed.
Lemma imap_zip_lookup ws cols i (p : string * chars) : zip ws cols !! i = Some p → ws !! i = Some p.1 ∧ cols !! i = Some p.2.
Proof. rewrite lookup_zip_with_Some. by intros (x & y & -> & ? & ?). Qed.
Section reading.
  Lemma sent_rows ws cols : Forall one_field ws → Forall cell_free cols →
    filter (λ f, 1 < length f) (split_char tab <$> sent_lines ws cols) = imap (λ i p, row_cells (S i) p.1 p.2) (zip ws cols).
  Proof.
    intros HW HC. unfold sent_lines. rewrite fmap_app, filter_app, app_nil_r.
    assert (HX : ∀ f : nat → nat, filter (λ f, 1 < length f) (split_char tab <$> imap (λ i (p : string * chars), row_line (f i) p.1 p.2) (zip ws cols)) = imap (λ i p, row_cells (f i) p.1 p.2) (zip ws cols)); [|apply HX].
    revert cols HC. induction HW as [|w ws [Hw _] HW IH]; intros cols HC f; [done|].
    destruct HC as [|c cols [Hc _] HC]; [done|]. cbn [zip_with imap]. rewrite fmap_cons, filter_cons. cbn [fst snd]. rewrite row_line_cells by done. rewrite decide_True by (cbn; lia). f_equal. apply (IH cols HC (f ∘ S)).
  Qed.
  Lemma sent_nl ws cols : Forall one_field ws → Forall cell_free cols → Forall (λ l, newline ∉ l) (sent_lines ws cols).
  Proof.
    intros HW HC. unfold sent_lines. apply Forall_app_2; [|constructor; [apply not_elem_of_nil|constructor]]. apply Forall_forall. intros l (i & p & -> & [H1 H2]%imap_zip_lookup)%elem_of_lookup_imap_1.
    apply row_line_nl; [by apply (Forall_lookup_1 _ _ _ _ HW H1)|by apply (Forall_lookup_1 _ _ _ _ HC H2)].
  Qed.
  Lemma file_rows words cols : Forall (Forall one_field) words → Forall (Forall cell_free) cols →
    rows_of (conll_file words cols) = concat (zip_with (λ ws cs, imap (λ i p, row_cells (S i) p.1 p.2) (zip ws cs)) words cols).
  Proof.
    intros HW HC. unfold rows_of. rewrite file_is_lines.
    assert (HL : Forall (λ l, newline ∉ l) (file_lines words cols)).
    { unfold file_lines. apply List.Forall_cons; [apply (bool_decide_unpack _); vm_compute; exact I|]. clear -HW HC. revert cols HC. induction HW as [|ws words Hw HW IH]; intros cols HC; [constructor|].
      destruct HC as [|cs cols Hc HC]; [constructor|]. cbn [zip_with concat]. apply Forall_app_2; [by apply sent_nl|by apply IH]. }
    rewrite split_lines by done. rewrite fmap_app, filter_app. change (filter (λ f, 1 < length f) (split_char tab <$> split_char newline (chs "#end document"))) with (@nil (list chars)).
    rewrite app_nil_r. unfold file_lines. rewrite fmap_cons, filter_cons. rewrite decide_False by (vm_compute; lia). clear HL.
    revert cols HC. induction HW as [|ws words Hw HW IH]; intros cols HC; [done|]. destruct HC as [|cs cols Hc HC]; [done|].
    cbn [zip_with concat]. rewrite fmap_app, filter_app. rewrite sent_rows by done. f_equal. by apply IH.
  Qed.
  Lemma omap_imap {A B C} (f : nat → A → B) (h : B → option C) (k : A → C) l : (∀ i x, h (f i x) = Some (k x)) → omap h (imap f l) = k <$> l.
  Proof. intros H. revert f H. induction l as [|x l IH]; intros f H; [done|]. cbn [imap omap list_omap]. rewrite H. rewrite fmap_cons. f_equal. apply (IH (f ∘ S)). intros i y. apply (H (S i)). Qed.
  Lemma omap_rows (words : list (list string)) cols {C} (h : list chars → option C) (q : string * chars → C) : (∀ i p, h (row_cells i p.1 p.2) = Some (q p)) →
    omap h (concat (zip_with (λ ws cs, imap (λ i p, row_cells (S i) p.1 p.2) (zip ws cs)) words cols)) = concat (zip_with (λ ws cs, q <$> zip ws cs) words cols).
  Proof.
    intros H. revert cols. induction words as [|ws words IH]; intros [|cs cols]; try done. cbn [zip_with concat]. rewrite omap_app. rewrite IH. f_equal. apply omap_imap. intros. apply H.
  Qed.
  Lemma file_fields words cols : Forall (Forall one_field) words → Forall (Forall cell_free) cols → Forall2 (λ ws cs, length ws = length cs) words cols →
    field 1 (conll_file words cols) = chs <$> concat words ∧ field 14 (conll_file words cols) = concat cols.
  Proof.
    intros HW HC HL. unfold field. rewrite file_rows by done. rewrite (omap_rows words cols _ (λ p, chs p.1)) by done. rewrite (omap_rows words cols _ snd) by done.
    clear -HL. induction HL as [|ws cs words cols Hl HL [IH1 IH2]]; [done|]. cbn [zip_with concat]. rewrite fmap_app, IH1, IH2. split; f_equal.
    - change ((λ p : string * chars, chs p.1) <$> zip ws cs) with ((chs ∘ fst) <$> zip ws cs). rewrite list_fmap_compose. by rewrite fst_zip by lia.
    - by rewrite snd_zip by lia.
  Qed.
End reading.
Lemma column_free chains ms sp t col : column chains ms sp t col → cell_free col.
Proof.
  intros (ps & _ & _ & ->). destruct (decide (ps = [])) as [|_]; [split; (intros H%elem_of_list_singleton; done)|].
  assert (HE : ∀ x s c, is_digit x = false → x ≠ "-"%char → x ≠ "("%char → x ≠ ")"%char → x ∉ coref_entry s t c).
  { intros x s c H1 H2 H3 H4. unfold coref_entry. intros [H|[H|H]%elem_of_app]%elem_of_app.
    - destruct (decide (head s = Some t)); [by apply elem_of_list_singleton in H|by apply elem_of_nil in H].
    - by apply number_free in H.
    - destruct (decide (last s = Some t)); [by apply elem_of_list_singleton in H|by apply elem_of_nil in H]. }
  assert (HB : ∀ x l, x ≠ "|"%char → Forall (λ e : chars, x ∉ e) l → x ∉ bars l).
  { intros x l Hx. induction 1 as [|e l He HF IH]; [apply not_elem_of_nil|]. destruct l as [|e' l]; [done|]. cbn [bars]. intros [?|[?|?]%elem_of_cons]%elem_of_app; done. }
  split; (apply HB; [done|]; apply Forall_fmap, Forall_forall; intros p _; by apply HE).
Qed.
(** chains of an acyclic relation have no repetition *)
Lemma linked_tc {A} (R : A → A → Prop) x l : linked R (x :: l) → ∀ y, y ∈ l → tc R x y.
Proof.
  revert x. induction l as [|z l IH]; intros x HL y Hy; [by apply elem_of_nil in Hy|]. destruct HL as [H1 H2]. apply elem_of_cons in Hy as [->|Hy]; [by apply tc_once|].
  eapply tc_l; [exact H1|]. by apply IH.
Qed.
Lemma linked_NoDup {A} (R : A → A → Prop) l : acyclic R → linked R l → NoDup l.
Proof.
  intros HA. induction l as [|x l IH]; intros HL; [constructor|]. constructor.
  - intros Hx. by apply (HA x), (linked_tc R x l).
  - apply IH. destruct l as [|y l]; [done|]. by destruct HL.
Qed.

Lemma conll_main g clayer mlayer toks_of sents words order : exportable g clayer mlayer toks_of sents words → (∀ l, order l ≡ₚ l) →
  ∃ bound, ∀ fuel r, bound < fuel → write_conll fuel g clayer mlayer toks_of order r →
  ∃ chains ms span cols, lists_chains g clayer chains ∧ lists_markables g (markable_layer g mlayer) ms ∧ spans_of g ms span ∧
    r = Ok (conll_file words cols) ∧ Forall2 (Forall2 (column chains ms span)) sents cols.
Proof.
  intros [HR HT HPl HPo HCo HOn HSe HWo] HO. pose proof (reach_consistent _ _ HR) as C. destruct (reach_GInv _ HR) as [_ L].
  destruct (chains_thm g clayer C L HT HPl HPo) as (b & Hb). exists (b + length (nodes g)). intros fuel r Hlt HW.
  destruct (nodes_by_layer_ok g (LOne (markable_layer g mlayer)) C L) as (ms & Ems & Hsub & Hms).
  assert (HND : NoDup ms) by (eapply NoDup_sub; [exact Hsub|apply C]).
  assert (HCh : ∀ r', get_pointing_chains fuel g clayer r' → ∃ chains, r' = Ok chains ∧ lists_chains g clayer chains).
  { intros r' Hr'. destruct (Hb fuel r') as (cs & -> & H1 & H2 & _); [lia|done|]. exists cs. split; [done|]. by split. }
  destruct HW as [e He|chains Hch]; [destruct (HCh _ He) as (? & [=] & _)|]. destruct (HCh _ Hch) as (? & [= <-] & HLC).
  pose (span := λ m, match get_span fuel g m with Ok l => l | Err _ => [] end).
  assert (HSp : Forall (λ m, get_span fuel g m = Ok (span m)) ms).
  { apply Forall_forall. intros m (a & Ha & _)%Hms. destruct (get_span_total g m C HT HCo) as (l & Hl); [apply node_mem; by eexists|]. unfold span. rewrite (Hl fuel) by lia. done. }
  assert (HSN : Forall (λ m, NoDup (span m)) ms).
  { apply Forall_forall. intros m Hm. pose proof Hm as (a & Ha & Hl)%Hms. apply (HOn fuel m a (span m) Ha Hl). rewrite Forall_forall in HSp. by apply HSp. }
  assert (HCN : Forall NoDup chains).
  { apply Forall_forall. intros c Hc. destruct HLC as [_ HLC]. apply HLC in Hc as (_ & Hl & _). exact (linked_NoDup _ _ HPo Hl). }
  destruct (conll_mapper_ok fuel g span chains ms (markable_layer g mlayer) HCN Ems HND HSp) as (d & Ed & Hd).
  destruct (conll_doc_ok g span chains ms HSN order toks_of d sents words HO Hd HSe HWo) as (cols & Ec & Hcols).
  exists chains, ms, span, cols. split; [done|]. split; [split; [done|exact Hms]|]. split.
  - intros m Hm. rewrite Forall_forall in HSp, HSN. specialize (HSp m Hm). specialize (HSN m Hm). split; [exact (get_span_elem g C _ m _ HSp)|].
    intros i j x y Hij Hx Hy. split; [|exact (get_span_sorted _ _ _ _ HSp i j x y Hij Hx Hy)]. intros ->. pose proof (NoDup_lookup _ _ _ _ HSN Hx Hy). lia.
  - split; [|done]. assert (El : conll_mlayer g mlayer = markable_layer g mlayer) by (by destruct mlayer). rewrite El, Ed. cbn [rbind]. exact Ec.
Qed.
