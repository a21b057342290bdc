(** * ExbTrip: what is there after export and import *)
From Verif Require Import PyBase DocGraph Relabel StrNum Query Text Rst Nltk Parsers Anaphora Conano Decour Ptb Convert Tiger Exb.
From Verif Require Import SpecGraph DocGraphFacts History Effects RelabelFacts GraphThms SpecImport ImportFacts PtbFacts TextFacts OffsetFacts GeoffFacts DecourFacts AnaphoraFacts TigerFacts TigerTree BuiltFrom ViewFacts SpecQuery SpanFacts SpecUrml UrmlFacts UrmlDoc LatexRead Rs3Facts SpecExb SpecExbWrite ExbRead ExbDoc ExbSpan ExbWrite ExbBack.

(** ** The marks of a point *)
Lemma dget_rev (L : dict string pyval) K v : dget K (rev L) = Some v → (K, v) ∈ L.
Proof. intros H%dget_Some_elem. rewrite <-elem_of_reverse. unfold reverse. by rewrite rev_append_rev, app_nil_r. Qed.
Lemma dget_rev_some (L : dict string pyval) K v : (K, v) ∈ L → is_Some (dget K (rev L)).
Proof.
  intros H. destruct (dget K (rev L)) as [w|] eqn:E; [by eexists|]. exfalso. apply dget_None in E. apply E. unfold dkeys. apply elem_of_list_fmap. exists (K, v). split; [done|]. rewrite <-elem_of_reverse in H. unfold reverse in H. by rewrite rev_append_rev, app_nil_r in H.
Qed.
Lemma point_get ns M n K v : dget K (point_info ns M n).2 = Some v → (n, (K, v)) ∈ M.
Proof. cbn [point_info snd]. intros H%dget_rev. apply elem_of_list_fmap in H as ([m p] & E & Hm). cbn in E. subst p. apply elem_of_list_filter in Hm as [Hm1 Hm]. cbn in Hm1. by subst m. Qed.
Lemma point_some ns M n K v : (n, (K, v)) ∈ M → is_Some (dget K (point_info ns M n).2).
Proof. intros H. cbn [point_info snd]. apply (dget_rev_some _ K v). apply elem_of_list_fmap. exists (n, (K, v)). split; [done|]. by apply elem_of_list_filter. Qed.
Lemma mark_elem ns ts n K v : (n, (K, v)) ∈ ts ≫= marks_of ns "tok" ↔ ∃ t e, t ∈ ts ∧ e ∈ ti_events t ∧ n = NStr (ev_start e) ∧
  ((is_word_tier "tok" t ∧ K = ns +:+ ":token" ∧ v = text_value e) ∨ (is_mark_tier "tok" t ∧ K = ns +:+ ":" +:+ ti_category t ∧ v = VStr (default "" (ev_text e)))).
Proof.
  rewrite elem_of_list_bind. split.
  - intros (t & H & Ht). exists t. unfold marks_of in H. destruct (decide (is_word_tier "tok" t)) as [Hw|Hw].
    + apply elem_of_list_fmap in H as (e & E & He). injection E as -> -> ->. exists e. naive_solver.
    + destruct (decide (is_mark_tier "tok" t)) as [Hm|Hm]; [|by apply elem_of_nil in H]. apply elem_of_list_fmap in H as (e & E & He). injection E as -> -> ->. exists e. naive_solver.
  - intros (t & e & Ht & He & -> & [(H1 & -> & ->)|(H1 & -> & ->)]); exists t; (split; [|done]); unfold marks_of.
    + rewrite decide_True by done. apply elem_of_list_fmap. by exists e.
    + rewrite decide_False by (destruct H1 as [H1 _]; exact H1). rewrite decide_True by done. apply elem_of_list_fmap. by exists e.
Qed.
Lemma key_cat ns a b : ns +:+ ":" +:+ a = ns +:+ ":" +:+ b → a = b.
Proof. intros H. by do 2 apply append_inj_l in H. Qed.
Section Trip.
  Context (fuel : nat) (g : graph) (redundant : bool) (chains : list (list nid)) (d : exb) (HX : exported_as fuel g redundant chains d) (HW : no_other_words g redundant).
  Context (filename : string) (name : option string) (ns : string).
  Local Notation n := (length (g_tokens g)).
  Local Notation D := (parsed d).
  Local Notation M := (ex_tiers D ≫= marks_of ns "tok").
  Let HM : made n D := back_made fuel g redundant chains d HX HW.
  Theorem trip_read : ∃ g', read_exb filename name ns "tok" None D = (g', None) ∧ result_is filename name ns "tok" None D g'.
  Proof. apply document_ok; [by eapply made_distinct|by eapply made_formed]. Qed.
  Context (g' : graph) (HR : read_exb filename name ns "tok" None D = (g', None)).
  Lemma trip_result : result_is filename name ns "tok" None D g'.
  Proof. destruct trip_read as (g1 & E1 & R1). rewrite HR in E1. by injection E1 as <-. Qed.
  Lemma trip_nodes : node_set g' (exb_nodes ns "tok" (ex_tiers D) D).
  Proof. rewrite <-(made_read D). eapply result_nodes; [by eapply made_distinct|apply trip_result]. Qed.
  Lemma trip_ns : g_ns g' = ns.
  Proof. apply (xs_ns _ _ _ _ _ _ _ trip_result). Qed.
  Lemma trip_inv : GInv g'.
  Proof. exact (v_inv _ _ _ (xs_view _ _ _ _ _ _ _ trip_result)). Qed.
  Lemma trip_edges : has_edges g' (exb_edges ns "tok" (ex_tiers D)).
  Proof. pose proof (v_edges _ _ _ (xs_view _ _ _ _ _ _ _ trip_result)) as H. by rewrite (made_read D) in H. Qed.
  Lemma trip_distinct : exb_distinct ns "tok" (ex_tiers D) D.
  Proof. rewrite <-(made_read D). by eapply made_distinct. Qed.
  Lemma trip_inside : exb_inside "tok" (ex_tiers D) D.
  Proof. rewrite <-(made_read D). by eapply made_inside. Qed.
  Lemma trip_timeline : timeline D = (λ i, NStr (tick i)) <$> seq 0 (S n).
  Proof. apply timeline_ticks, (md_timeline _ _ HM). Qed.
  Lemma trip_tokens : g_tokens g' = (λ i, NStr (tick i)) <$> seq 0 (S n).
  Proof. rewrite <-trip_timeline. apply (xs_tokens _ _ _ _ _ _ _ trip_result). Qed.
  Lemma trip_attr i K : i ≤ n → K ≠ "layers" → attr_of g' (NStr (tick i)) K = dget K (point_info ns M (NStr (tick i))).2.
  Proof.
    intros Hi HK. destruct (point_attr ns "tok" (ex_tiers D) D g' trip_nodes (NStr (tick i)) K) as (a & Ha & Hk); [by apply (elem_ticks D n i (md_timeline _ _ HM))|done|]. unfold attr_of. by rewrite Ha.
  Qed.
  (** who writes K at the i-th point *)
  Lemma mark_of i K v : (NStr (tick i), (K, v)) ∈ M ↔
    ∃ t e, t ∈ ex_tiers d ∧ e ∈ ti_events t ∧ ev_start e = tick i ∧
      ((ti_category t = "tok" ∧ K = ns +:+ ":token" ∧ v = text_value (pevent e)) ∨ (is_mark_tier "tok" (ptier t) ∧ K = ns +:+ ":" +:+ ti_category t ∧ v = VStr (default "" (ev_text e)))).
  Proof.
    assert (HD : ∀ e, default "" (ev_text (pevent e)) = default "" (ev_text e)) by (intros e; cbn; unfold ptext; by destruct (ev_text e) as [[|? ?]|]).
    rewrite mark_elem, parsed_tiers. split.
    - intros (t & e & Ht & He & Hn & H). apply elem_of_list_fmap in Ht as (t0 & -> & Ht). cbn [ptier ti_events] in He. apply elem_of_list_fmap in He as (e0 & -> & He). exists t0, e0. apply nstr_inj in Hn. rewrite HD in H. split; [done|]. split; [done|]. split; [done|]. exact H.
    - intros (t & e & Ht & He & Hn & H). exists (ptier t), (pevent e). split; [by apply elem_of_list_fmap_1|]. split; [by apply elem_of_list_fmap_1|]. split; [by rewrite <-Hn|]. rewrite HD. exact H.
  Qed.
  Lemma cat_names t : t ∈ ex_tiers d → ti_category t = "tok" ∨ ti_category t = "token" → ∃ ss, text_tokens g ss ∧ t = words_tier ss.
  Proof.
    intros Ht Hc. destruct (tiers_kind fuel g redundant chains d HX t Ht) as [ss H ->|k c es Hk -> H|l c es Hk -> H|i c es ch -> H]; [by exists ss|..]; cbn [nth_tier ti_category] in Hc.
    - exfalso. apply (HW k); [by left|]. destruct Hc as [->| ->]; [left|right; left].
    - exfalso. apply (HW l); [by right|]. destruct Hc as [->| ->]; [left|right; left].
    - by destruct Hc.
  Qed.
  Lemma words_unique ss ss' : text_tokens g ss → text_tokens g ss' → ss = ss'.
  Proof. unfold text_tokens. intros H. revert ss'. induction H as [|x s l ss (a & A1 & A2) HF IH]; intros ss' H1; inversion H1 as [|? s' ? ss'' (b & B1 & B2) HF']; subst; [done|]. f_equal; [congruence|]. by apply IH. Qed.
  Lemma tok_key : ns +:+ ":token" = ns +:+ ":" +:+ "token".
  Proof. done. Qed.
  (** the word at the i-th point *)
  Lemma word_mark ss i v : text_tokens g ss → (NStr (tick i), (ns +:+ ":token", v)) ∈ M ↔ ∃ s, ss !! i = Some s ∧ v = (if decide (s = "") then VNone else VStr s).
  Proof.
    intros Hss. rewrite mark_of. assert (HV : ∀ i s, text_value (pevent (at_points i (S i) s)) = (if decide (s = "") then VNone else VStr s)). { intros j s. unfold text_value, pevent, ptext, at_points. cbn [ev_text]. by destruct s. }
    split.
    - intros (t & e & Ht & He & Hs & H). destruct (cat_names t Ht) as (ss' & Hss' & ->).
      { destruct H as [(H & _ & _)|(_ & H & _)]; [by left|]. right. rewrite tok_key in H. by apply key_cat in H. }
      rewrite (words_unique ss' ss) in He, H by done. cbn [words_tier nth_tier ti_events] in He. apply elem_of_lookup_imap in He as (j & s & -> & Hj). cbn [at_points ev_start] in Hs. apply tick_inj in Hs as ->. exists s. split; [done|].
      destruct H as [(_ & _ & ->)|([H _] & _ & _)]; [apply HV|]. by exfalso.
    - intros (s & Hi & ->). exists (words_tier ss), (at_points i (S i) s). split; [by eapply kind_words|]. split; [cbn; apply elem_of_lookup_imap; by exists i, s|]. split; [done|]. left. split; [done|]. split; [done|]. by rewrite HV.
  Qed.
  Theorem trip_words ss i s : text_tokens g ss → ss !! i = Some s → get_token g' (NStr (tick i)) = Ok (if decide (s = "") then VNone else VStr s).
  Proof.
    intros Hss Hi. assert (Hin : i ≤ n). { pose proof (Forall2_length _ _ _ Hss). apply lookup_lt_Some in Hi. lia. }
    pose proof (trip_attr i (ns +:+ ":token") Hin ltac:(apply key_layers)) as HA. assert (HS : is_Some (dget (ns +:+ ":token") (point_info ns M (NStr (tick i))).2)). { eapply point_some. apply (word_mark ss i _ Hss). by exists s. }
    destruct HS as [v Hv]. rewrite Hv in HA. apply point_get, (word_mark ss i v Hss) in Hv as (s' & Hs' & ->). assert (s' = s) as -> by congruence. unfold get_token. unfold attr_of in HA. rewrite trip_ns. destruct (node_attrs g' _) as [a|]; [|done]. by rewrite HA.
  Qed.
  Theorem trip_last : get_token g' (NStr (tick n)) = Err KeyError.
  Proof.
    pose proof HX as (ss & _ & _ & _ & _ & _ & Hss & _). pose proof (trip_attr n (ns +:+ ":token") ltac:(lia) ltac:(apply key_layers)) as HA. destruct (dget (ns +:+ ":token") (point_info ns M (NStr (tick n))).2) as [v|] eqn:Ev.
    - exfalso. apply point_get, (word_mark ss n v Hss) in Ev as (s & Hs & _). apply lookup_lt_Some in Hs. pose proof (Forall2_length _ _ _ Hss). lia.
    - unfold get_token. unfold attr_of in HA. rewrite trip_ns. destruct (node_attrs g' _) as [a|]; [by rewrite HA|done].
  Qed.
  Theorem trip_text f : ∃ e, get_text f g' None = Err e.
  Proof.
    unfold get_text, tokens2text. destruct (rmap (token_str g') (g_tokens g')) as [ss|e] eqn:E; [|by eexists]. exfalso. apply rmap_Ok in E. assert (Hin : NStr (tick n) ∈ g_tokens g') by (rewrite trip_tokens; apply elem_of_list_fmap; exists n; split; [done|]; apply elem_of_seq; lia).
    apply elem_of_list_lookup in Hin as [i Hi]. destruct (Forall2_lookup_l _ _ _ _ _ E Hi) as (s & _ & Hs). unfold token_str in Hs. by rewrite trip_last in Hs.
  Qed.
  (** ** Attributes *)
  Lemma attr_single k es : attr_events g k es → Forall single (pevent <$> es).
  Proof. intros (ps & -> & _). apply Forall_forall. intros e He. apply elem_of_list_fmap in He as (e0 & -> & He). apply elem_of_list_fmap in He as (p & -> & _). cbn. by apply tick_single. Qed.
  Theorem trip_attribute k i s : exported_attribute g k → alone g redundant k → ¬ exported_layer g redundant k → i < n →
    attr_of g' (NStr (tick i)) (ns +:+ ":" +:+ last_part k) = Some (VStr s) ↔ token_value g k i (VStr s).
  Proof.
    intros Hk [HA1 HA2] HL Hi. rewrite trip_attr by (try lia; apply tok_key_layers). assert (Hnt : last_part k ∉ ["tok"; "token"]) by (apply HW; by left). rewrite !not_elem_of_cons in Hnt. destruct Hnt as (N1 & N2 & _).
    assert (HQ : ∀ v, (NStr (tick i), (ns +:+ ":" +:+ last_part k, v)) ∈ M ↔ ∃ s, v = VStr s ∧ token_value g k i (VStr s)).
    { intros v. rewrite mark_of. split.
      - intros (t & e & Ht & He & Hs & [(_ & H & _)|(Hm & H & ->)]); [rewrite tok_key in H; by apply key_cat in H|]. apply key_cat in H.
        destruct (tiers_kind fuel g redundant chains d HX t Ht) as [ss H' ->|k' c es Hk' -> H'|l c es Hl -> H'|j c es ch -> H']; cbn [words_tier nth_tier ti_category ti_events] in *.
        + by exfalso.
        + rewrite (HA1 k') in H' by (try done; by left). destruct H' as (ps & -> & _ & HP). apply elem_of_list_fmap in He as ([j x] & -> & Hp). cbn [at_points ev_start fst snd ev_text] in *. apply tick_inj in Hs as ->. exists x. split; [done|]. by apply HP.
        + exfalso. apply HL. rewrite <-(HA1 l); [done|by right|done].
        + by exfalso.
      - intros (x & -> & Hx). destruct (kind_attr fuel g redundant chains d HX k Hk) as (c & es & Ht & H'). exists (nth_tier c (last_part k) k es), (at_points i (S i) x). pose proof (attr_single k es H') as HS. destruct H' as (ps & -> & _ & HP). split; [exact Ht|]. split.
        + cbn. apply elem_of_list_fmap. exists (i, x). split; [done|]. by apply HP.
        + split; [done|]. right. split; [|done]. split; [done|exact HS]. }
    split.
    - intros H%point_get. apply HQ in H as (x & [= <-] & Hx). done.
    - intros H. destruct (point_some ns M (NStr (tick i)) (ns +:+ ":" +:+ last_part k) (VStr s)) as [v Hv]; [apply HQ; by exists s|]. rewrite Hv. apply point_get, HQ in Hv as (x & -> & (n1 & a1 & A1 & A2 & A3)). destruct H as (n2 & a2 & B1 & B2 & B3). congruence.
  Qed.
  (** ** Layers *)
  Lemma layer_row l es m i j s : layer_events fuel g l es → ohas_layer (node_attrs g m) l → token_extent fuel g m i j → label_is g m s → NoDup (g_tokens g) → at_points i (S j) s ∈ es.
  Proof.
    intros (L & _ & HL & _ & HF) Hm Hx Hs HD. assert (Hin : m ∈ filter (λ n, get_span fuel g n ≠ Ok []) L). { apply elem_of_list_filter. split; [|by apply HL]. destruct Hx as (l0 & a & b & H1 & H2 & _). rewrite H1. intros [= ->]. done. }
    apply elem_of_list_lookup in Hin as [k Hk]. destruct (Forall2_lookup_l _ _ _ _ _ HF Hk) as (e & He & i' & j' & s' & Hx' & Hs' & ->). apply elem_of_list_lookup_2 in He. destruct Hx as (l1 & a1 & b1 & A1 & A2 & A3 & A4 & A5), Hx' as (l2 & a2 & b2 & B1 & B2 & B3 & B4 & B5).
    assert (l2 = l1) as -> by congruence. assert (a2 = a1) as -> by congruence. assert (b2 = b1) as -> by congruence. destruct Hs as (a & C1 & C2), Hs' as (a' & C1' & C2'). assert (s' = s) as -> by congruence.
    rewrite (NoDup_lookup _ _ _ _ HD A4 B4), (NoDup_lookup _ _ _ _ HD A5 B5). done.
  Qed.
  Lemma row_layer l es e : layer_events fuel g l es → e ∈ es → ∃ m i j s, ohas_layer (node_attrs g m) l ∧ token_extent fuel g m i j ∧ label_is g m s ∧ e = at_points i (S j) s.
  Proof.
    intros (L & _ & HL & _ & HF) He. apply elem_of_list_lookup in He as [k Hk]. destruct (Forall2_lookup_r _ _ _ _ _ HF Hk) as (m & Hm & i & j & s & H1 & H2 & H3). apply elem_of_list_lookup_2, elem_of_list_filter in Hm as [_ Hm]. exists m, i, j, s. split; [by apply HL|]. by split.
  Qed.
  Lemma has_word_tick i : i < n → has_word ns "tok" (ex_tiers D) D (NStr (tick i)).
  Proof.
    intros Hi. pose proof HX as (ss & _ & _ & _ & _ & _ & Hss & _). pose proof (Forall2_length _ _ _ Hss) as HL. destruct (lookup_lt_is_Some_2 ss i) as [s Hs]; [lia|]. split; [apply (elem_ticks D n i (md_timeline _ _ HM)); lia|]. unfold word_at. eapply point_some. apply (word_mark ss i _ Hss). by exists s.
  Qed.
  Theorem trip_span l m0 i0 j0 m i j s f : NoDup (g_tokens g) → exported_layer g redundant l →
    ohas_layer (node_attrs g m0) l → token_extent fuel g m0 i0 j0 → i0 ≠ j0 → (∃ s0, label_is g m0 s0) →
    ohas_layer (node_attrs g m) l → token_extent fuel g m i j → label_is g m s → 2 ≤ f →
    ∃ m' a, node_attrs g' m' = Some a ∧ has_layer a (ns +:+ ":span") ∧ dget "label" a = Some (VStr s) ∧ get_span f g' m' = Ok (from_to i (S j)).
  Proof.
    intros HD Hl H1 H2 H3 (s0 & H4) H5 H6 H7 Hf. destruct (kind_layer fuel g redundant chains d HX l Hl) as (c & es & Ht & HE). set (t := ptier (nth_tier c (last_part l) l es)). assert (Ht' : t ∈ ex_tiers D) by (rewrite parsed_tiers; by apply elem_of_list_fmap_1).
    assert (HS : is_span_tier "tok" t). { assert (Hnt : last_part l ∉ ["tok"; "token"]) by (apply HW; by right). rewrite !not_elem_of_cons in Hnt. split; [apply Hnt|]. intros HF. rewrite Forall_forall in HF. assert (Hsg : single (pevent (at_points i0 (S j0) s0))) by (apply HF; change (ti_events t) with (pevent <$> es); apply elem_of_list_fmap_1; exact (layer_row l es m0 i0 j0 s0 HE H1 H2 H4 HD)). apply (tick_single i0 (S j0) (ptext (Some s0))) in Hsg. lia. }
    pose proof (layer_row l es m i j s HE H5 H6 H7 HD) as He. apply (elem_of_list_fmap_1 pevent) in He. apply elem_of_list_lookup in He as [k Hk]. change (pevent <$> es) with (ti_events t) in Hk.
    pose proof (span_exact ns "tok" (ex_tiers D) D g' trip_inv trip_nodes trip_edges trip_ns trip_distinct trip_inside (f - 2) t k _ _ _ Ht' HS Hk (tick_extent _ _ _) ltac:(lia)) as Hsp. replace (S (S (f - 2))) with f in Hsp by lia.
    destruct trip_nodes as [_ HN]. rewrite Forall_forall in HN. destruct (HN (span_info ns t (k, pevent (at_points i (S j) s)))) as (a & A1 & A2 & A3).
    { eapply span_node_in; [exact Ht'|exact HS|]. unfold tier_nodes. right. apply elem_of_list_fmap_1. apply imap_pair_elem. exact Hk. }
    exists (span_name t k), a. split; [exact A1|]. split; [apply A2; cbn; right; left|]. split.
    - rewrite A3 by done. cbn [span_info snd dget]. rewrite decide_False by (intros E; by apply (label_ne ns "annotation")). rewrite decide_True by done. f_equal. f_equal. cbn. unfold ptext. by destruct s.
    - rewrite Hsp. f_equal. assert (HPt : points (pevent (at_points i (S j) s)) = point <$> xrange (Z.of_nat i) (Z.of_nat (S j))) by (unfold points; change (extent (pevent (at_points i (S j) s))) with (extent (Ev (tick i) (tick (S j)) (ptext (Some s)))); by rewrite tick_extent). rewrite HPt. assert (HJ : j < n) by (destruct H6 as (l1 & a1 & b1 & _ & _ & _ & _ & H6); by apply lookup_lt_Some in H6).
      assert (HP : point <$> xrange (Z.of_nat i) (Z.of_nat (S j)) = from_to i (S j)).
      { unfold from_to, xrange. rewrite <-list_fmap_compose. replace (Z.to_nat (Z.of_nat (S j) - Z.of_nat i)) with (S j - i) by lia. apply list_eq. intros x. rewrite !list_lookup_fmap. destruct (decide (x < S j - i)) as [Hx|Hx].
        - rewrite !lookup_seq_lt by done. cbn. unfold point, tick. do 4 f_equal. lia.
        - rewrite !lookup_seq_ge by lia. done. }
      rewrite HP. apply filter_all, Forall_forall. intros x Hx. unfold from_to in Hx. apply elem_of_list_fmap in Hx as (y & -> & Hy). apply elem_of_seq in Hy. apply has_word_tick. lia.
  Qed.
  Theorem trip_marks l i : NoDup (g_tokens g) → exported_layer g redundant l → alone g redundant l → ¬ exported_attribute g l → i < n →
    (∀ m i j, ohas_layer (node_attrs g m) l → token_extent fuel g m i j → i = j) →
    (∀ v, attr_of g' (NStr (tick i)) (ns +:+ ":" +:+ last_part l) = Some v → ∃ m s, ohas_layer (node_attrs g m) l ∧ token_extent fuel g m i i ∧ label_is g m s ∧ v = VStr s) ∧
    (∀ m s, ohas_layer (node_attrs g m) l → token_extent fuel g m i i → label_is g m s → is_Some (attr_of g' (NStr (tick i)) (ns +:+ ":" +:+ last_part l))).
  Proof.
    intros HD Hl [HA1 HA2] HL Hi H1. rewrite trip_attr by (try lia; apply tok_key_layers). assert (Hnt : last_part l ∉ ["tok"; "token"]) by (apply HW; by right). rewrite !not_elem_of_cons in Hnt. destruct Hnt as (N1 & N2 & _). split.
    - intros v H%point_get. apply mark_of in H as (t & e & Ht & He & Hs & [(_ & H & _)|(Hm & H & ->)]); [rewrite tok_key in H; by apply key_cat in H|]. apply key_cat in H.
      destruct (tiers_kind fuel g redundant chains d HX t Ht) as [ss H' ->|k' c es Hk' -> H'|l' c es Hl' -> H'|j c es ch -> H']; cbn [words_tier nth_tier ti_category ti_events] in *.
      + by exfalso.
      + exfalso. apply HL. rewrite <-(HA1 k'); [done|by left|done].
      + rewrite (HA1 l') in H' by (try done; by right). destruct (row_layer l es e H' He) as (m & i' & j & s & A1 & A2 & A3 & ->). cbn [at_points ev_start ev_text] in *. apply tick_inj in Hs as ->. pose proof (H1 m i j A1 A2) as <-. exists m, s. split; [done|]. by split.
      + by exfalso.
    - intros m s A1 A2 A3. destruct (kind_layer fuel g redundant chains d HX l Hl) as (c & es & Ht & HE). apply (point_some _ _ _ _ (VStr s)). apply mark_of. exists (nth_tier c (last_part l) l es), (at_points i (S i) s). split; [exact Ht|]. split; [by eapply layer_row|]. split; [done|]. right. split; [|done]. split; [done|].
      apply Forall_forall. intros e He. cbn in He. apply elem_of_list_fmap in He as (e0 & -> & He). destruct (row_layer l es e0 HE He) as (m' & i' & j' & s' & B1 & B2 & _ & ->). rewrite (H1 m' i' j' B1 B2). cbn. by apply tick_single.
  Qed.
End Trip.
