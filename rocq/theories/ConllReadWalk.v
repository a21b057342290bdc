(** * ConllReadWalk: spans and chains of heads in the graph of a CoNLL file *)
From stdpp Require Import sorting.
From Verif Require Import PyBase DocGraph Relabel StrNum NatSort Query Text Rst Nltk SpecGraph DocGraphFacts Effects RelabelFacts GraphThms SpecQuery SpanFacts SpecParse SpecImport ImportFacts SpecDecour DecourFacts SpecConll ConllRead SpecConllRead ConllReadText ConllReadFacts ConllReadSpan BracketFacts OutlineSpan SpecBrackets ConvertFacts SelectFacts.

(** ** Order of token ids *)
Lemma sent_prefix i : no_digit_end (sent_id i +:+ "_t").
Proof. intros c. rewrite chs_app. change (chs "_t") with ["_"%char; "t"%char]. rewrite (last_app_cons _ [_] _) || rewrite last_app. cbn. by intros [= <-]. Qed.
Lemma tok_lt i (a b : Z) : (0 ≤ a < b)%Z → nat_cmp (tok_id i (str_Z a)) (tok_id i (str_Z b)) = Lt.
Proof.
  intros H. unfold tok_id. assert (E : ∀ z, sent_id i +:+ "_t" +:+ str_Z z = (sent_id i +:+ "_t") +:+ str_Z z).
  { intros z. apply chs_inj. by rewrite !chs_app, app_assoc. }
  rewrite !E. apply token_id_lt; [apply sent_prefix|done].
Qed.
Lemma tok_lt_sent i j a b : i < j → nat_cmp (tok_id i a) (tok_id j b) = Lt.
Proof.
  intros H. unfold tok_id. assert (E : ∀ i s, sent_id i +:+ "_t" +:+ s = str (["s"%char] ++ chs (str_N (N.of_nat i)) ++ chs ("_t" +:+ s))).
  { intros k s. apply chs_inj. rewrite chs_str. unfold sent_id. rewrite !chs_app. assert (Ek : str_Z (Z.of_nat k) = str_N (N.of_nat k)) by (by destruct k). rewrite Ek. done. }
  rewrite !E. rewrite nat_cmp_number; [apply N.compare_lt_iff; lia| | | |lia].
  - intros c [= <-]. reflexivity.
  - rewrite chs_app. intros c [= <-]. reflexivity.
  - rewrite chs_app. intros c [= <-]. reflexivity.
Qed.
Lemma StronglySorted_app' {A} (R : A → A → Prop) l1 l2 : StronglySorted R l1 → StronglySorted R l2 → (∀ x y, x ∈ l1 → y ∈ l2 → R x y) → StronglySorted R (l1 ++ l2).
Proof.
  induction 1 as [|x l1 H IH HF]; intros H2 Hc; [done|]. cbn. constructor; [apply IH; [done|]; intros a b Ha; apply Hc; by right|]. apply Forall_app. split; [done|]. apply Forall_forall. intros y Hy. apply Hc; [left|done].
Qed.
Lemma StronglySorted_sublist {A} (R : A → A → Prop) l1 l2 : sublist l1 l2 → StronglySorted R l2 → StronglySorted R l1.
Proof.
  induction 1 as [|x l1 l2 Hs IH|x l1 l2 Hs IH]; intros H; [constructor|..].
  - apply StronglySorted_inv in H as [H HF]. constructor; [by apply IH|]. rewrite Forall_forall in HF |- *. intros y Hy. apply HF. by eapply sublist_submseteq, elem_of_submseteq in Hs.
  - apply StronglySorted_inv in H as [H _]. by apply IH.
Qed.
Lemma sublist_map {A B} (f : A → B) l1 l2 : sublist l1 l2 → sublist (f <$> l1) (f <$> l2).
Proof. induction 1; rewrite ?fmap_cons; by constructor. Qed.
Lemma numbered_sorted i ws : numbered_words ws → StronglySorted id_before (tok_ids i ws).
Proof.
  intros H. assert (HG : ∀ n, (∀ j w, ws !! j = Some w → w_id w = str_Z (Z.of_nat (S (n + j)))) → StronglySorted id_before (tok_ids i ws)); [|by apply (HG 0)].
  clear H. unfold tok_ids. induction ws as [|w ws IH]; intros n H; [constructor|]. rewrite fmap_cons. constructor.
  - apply (IH (S n)). intros j v Hj. rewrite (H (S j) v Hj). f_equal. lia.
  - apply Forall_forall. intros y Hy. apply elem_of_list_fmap in Hy as (v & -> & Hv). apply elem_of_list_lookup in Hv as (j & Hj). right. rewrite (H (S j) v Hj), (H 0 w eq_refl). apply tok_lt. lia.
Qed.
Lemma numbered_not_zero ws w : numbered_words ws → w ∈ ws → w_id w ≠ "0".
Proof. intros H (j & Hj)%elem_of_list_lookup E. rewrite (H j w Hj) in E. change "0" with (str_Z 0) in E. apply str_Z_inj in E. lia. Qed.
Lemma conll_tokens_sorted wss : Forall numbered_words wss → StronglySorted id_before (concat (conll_tokens wss)).
Proof.
  unfold conll_tokens. intros H. assert (HG : ∀ n, StronglySorted id_before (concat (imap (λ i l, (λ w, tok_id (S (n + i)) (w_id w)) <$> l) wss))); [|by apply (HG 0)].
  induction H as [|ws wss Hw H IH]; intros n; [constructor|]. cbn [imap concat]. apply StronglySorted_app'.
  - apply (numbered_sorted (S (n + 0)) ws Hw).
  - specialize (IH (S n)). rewrite (imap_ext _ (λ i l, (λ w, tok_id (S (S n + i)) (w_id w)) <$> l)); [exact IH|]. intros k l _. cbn. replace (n + S k) with (S (n + k)) by lia. done.
  - intros x y Hx Hy. right. apply elem_of_list_fmap in Hx as (w & -> & _). apply elem_concat in Hy as (l & Hy & Hl). apply elem_of_lookup_imap in Hl as (k & l' & -> & _). apply elem_of_list_fmap in Hy as (v & -> & _). apply tok_lt_sent. cbn. lia.
Qed.

Lemma zero_no_colon : no_colon "0".
Proof. unfold no_colon. apply (bool_decide_unpack _). vm_compute. exact I. Qed.
Section walk.
  Context (name ns : string) (wss : list (list word)) (g : graph) (HR : finished name ns wss g) (HP : Forall plain_words wss) (HI : Forall (Forall (λ w, no_colon (w_id w))) wss).
  Context (HC : Forall no_cycle wss).
  Lemma no_colon_id i ws w : wss !! i = Some ws → w ∈ ws → no_colon (w_id w).
  Proof. intros Hi Hw. rewrite Forall_forall in HI. specialize (HI ws (elem_of_list_lookup_2 _ _ _ Hi)). rewrite Forall_forall in HI. by apply HI. Qed.
  Lemma plain_at i ws : wss !! i = Some ws → plain_words ws.
  Proof. intros Hi. rewrite Forall_forall in HP. exact (HP ws (elem_of_list_lookup_2 _ _ _ Hi)). Qed.
  Lemma head_in i ws w : wss !! i = Some ws → w ∈ ws → head_node (S i) (w_head w) ∈ nodes g.
  Proof.
    intros Hi Hw. unfold head_node. destruct (decide _) as [|H0].
    - refine (node_in name ns wss g HR (NStr (sent_id (S i)), _, _) _). apply conll_node_cases. right. exists i, ws. split; [done|left].
    - destruct (decide (w_head w ∈ w_id <$> ws)) as [Hin|Hin].
      + apply elem_of_list_fmap in Hin as (v & -> & Hv). refine (node_in name ns wss g HR (token_node ns (S i) v) _). apply conll_node_cases. right. exists i, ws. split; [done|]. unfold sentence_nodes. right. apply elem_of_app. left. exact (elem_of_list_fmap_1 (token_node ns (S i)) ws v Hv).
      + refine (node_in name ns wss g HR (tok_id (S i) (w_head w), _, _) (lost_in ns wss i ws _ Hi _)). unfold lost_heads. apply elem_of_remove_dups, elem_of_list_filter. split; [done|]. exact (elem_of_list_fmap_1 w_head ws w Hw).
  Qed.
  Lemma word_in i ws w : wss !! i = Some ws → w ∈ ws → tok_id (S i) (w_id w) ∈ nodes g.
  Proof.
    intros Hi Hv. refine (node_in name ns wss g HR (token_node ns (S i) w) _). apply conll_node_cases. right. exists i, ws. split; [done|]. unfold sentence_nodes. right. apply elem_of_app. left. exact (elem_of_list_fmap_1 (token_node ns (S i)) ws w Hv).
  Qed.
  Lemma sent_in i ws : wss !! i = Some ws → NStr (sent_id (S i)) ∈ nodes g.
  Proof. intros Hi. refine (node_in name ns wss g HR (NStr (sent_id (S i)), _, _) _). apply conll_node_cases. right. exists i, ws. split; [done|left]. Qed.
  (** the span of a head *)
  Lemma head_span i ws h l : wss !! i = Some ws → numbered_words ws → no_colon h → head_node (S i) h ∈ nodes g →
    sublist l ws → (∀ w, w ∈ ws → w ∈ l ↔ governed ws h w ∨ w_id w = h) →
    ∀ k, length (nodes g) < k → get_span k g (head_node (S i) h) = Ok (tok_ids (S i) l).
  Proof.
    intros Hi HN Hh Hin Hs Hl k Hk. destruct (span_of name ns wss g HR HP HI HC _ Hin) as (sp & Hsp & ND & HS & Hel). rewrite (Hsp k Hk). f_equal.
    assert (Hsub : sublist (tok_ids (S i) l) (tok_ids (S i) ws)) by (exact (sublist_map _ l ws Hs)).
    destruct (plain_at i ws Hi) as [NDw _].
    apply same_sorted; [by apply sorted_strongly|eapply StronglySorted_sublist; [exact Hsub|by apply numbered_sorted]|].
    apply NoDup_Permutation; [done|eapply SelectFacts.NoDup_sub; [exact Hsub|by apply tok_ids_NoDup]|].
    intros t. rewrite Hel, (doc_below name ns wss g HR HP HI HC i ws h t Hi Hh). split.
    - intros [Ht [->|(w & Hg & ->)]].
      + unfold head_node in Ht |- *. destruct (decide (h = "0")) as [E0|H0]; [by apply (sent_not_token name ns wss g HR i ws Hi) in Ht|].
        destruct (decide (h ∈ w_id <$> ws)) as [Hw|Hw].
        * apply elem_of_list_fmap in Hw as (w & -> & Hw). unfold tok_ids. refine (elem_of_list_fmap_1 (λ w, tok_id (S i) (w_id w)) l w _). apply Hl; [done|by right].
        * exfalso. unfold head_node in Hin. rewrite decide_False in Hin by done. rewrite (doc_nodes name ns wss g HR) in Hin. apply elem_of_list_fmap in Hin as (x & Ex & Hx). apply conll_node_cases in Hx as [Hx|(j & ws' & Hj & Hx)].
          -- apply (tok_base ns (S i) h Hh). rewrite Ex. exact (elem_of_list_fmap_1 (λ x : node_info, x.1.1) _ _ Hx).
          -- unfold sentence_nodes in Hx. apply elem_of_cons in Hx as [->|Hx]; [by apply tok_sent in Ex|]. apply elem_of_app in Hx as [Hx|Hx].
             ++ apply elem_of_list_fmap in Hx as (v & -> & Hv). cbn in Ex. apply tok_id_inj in Ex as [Ej ->]. injection Ej as <-. rewrite Hi in Hj. injection Hj as <-. apply Hw. exact (elem_of_list_fmap_1 w_id ws v Hv).
             ++ apply elem_of_list_fmap in Hx as (h' & -> & Hh'). cbn in Ex. apply tok_id_inj in Ex as [Ej ->]. injection Ej as <-. rewrite Hi in Hj. injection Hj as <-. by apply (lost_not_token name ns wss g HR i ws h' Hi Hh').
      + assert (Hw : w ∈ ws) by (by destruct Hg). unfold tok_ids. refine (elem_of_list_fmap_1 (λ w, tok_id (S i) (w_id w)) l w _). apply Hl; [done|by left].
    - intros Ht. apply elem_of_list_fmap in Ht as (w & -> & Hw). assert (Hws : w ∈ ws) by (by eapply sublist_submseteq, elem_of_submseteq in Hs).
      split; [by eapply tok_is_token|]. apply Hl in Hw as [Hg|E]; [right; by exists w|left|done]. unfold head_node. rewrite decide_False; [by rewrite E|]. rewrite <-E. by apply (numbered_not_zero ws).
  Qed.
  (** all words *)
  Lemma below_root t : below g (conll_root ns) t ↔ t = conll_root ns ∨ ∃ i ws, wss !! i = Some ws ∧ below g (NStr (sent_id (S i))) t.
  Proof.
    split.
    - intros Hb. apply rtc_inv in Hb as [<-|(y & Hc & Hb)]; [by left|]. right. apply (covers_arc name ns wss g HR) in Hc as [_ (e & He & E1 & E2)]. apply conll_edge_cases in He as (i & ws & Hi & He). unfold sentence_edges in He.
      apply elem_of_cons in He as [->|He]; [cbn in E2; subst y; by exists i, ws|]. apply elem_of_list_fmap in He as (w & -> & Hw). exfalso. cbn in E1. destruct (plain_at i ws Hi) as [_ Hh]. rewrite Forall_forall in Hh.
      by apply (head_not_root ns (S i) (w_head w) (Hh w Hw)).
    - intros [->|(i & ws & Hi & Hb)]; [apply rtc_refl|]. eapply rtc_l; [|exact Hb]. apply (covers_arc name ns wss g HR). split; [eapply arc_ne; [exact HP|exact HC|exact (arc_root_sent ns wss i ws Hi)]|exact (arc_root_sent ns wss i ws Hi)].
  Qed.
  Lemma root_span : Forall numbered_words wss → Forall (λ ws, Forall (governed ws "0") ws) wss →
    ∀ k, length (nodes g) < k → get_span k g (conll_root ns) = Ok (concat (conll_tokens wss)).
  Proof.
    intros HN HG k Hk. assert (Hin : conll_root ns ∈ nodes g) by (rewrite (doc_nodes name ns wss g HR); apply root_in).
    destruct (span_of name ns wss g HR HP HI HC _ Hin) as (sp & Hsp & ND & HS & Hel). rewrite (Hsp k Hk). f_equal.
    apply same_sorted; [by apply sorted_strongly|by apply conll_tokens_sorted|].
    apply NoDup_Permutation; [done| |].
    - assert (HSt := conll_tokens_sorted wss HN). pose proof (targets_NoDup ns wss HP) as NDt. clear -NDt.
      induction wss as [|ws prev IH] using rev_ind; [constructor|]. rewrite targets_snoc in NDt. unfold conll_tokens. rewrite imap_app, concat_app. cbn [imap concat]. rewrite app_nil_r. rewrite Nat.add_0_r.
      apply NoDup_app in NDt as (N1 & N2 & N3). apply NoDup_cons in N3 as [_ N3]. apply NoDup_app. split; [by apply IH|]. split; [|exact N3].
      intros x Hx Hy. apply (N2 x); [|right; exact Hy]. apply elem_concat in Hx as (l & Hx & Hl). apply elem_of_lookup_imap in Hl as (i & ws' & -> & Hi). apply elem_of_list_fmap in Hx as (w & -> & Hw).
      apply elem_of_list_fmap. exists (dependency ns (S i) w). split; [done|]. apply conll_edge_cases. exists i, ws'. split; [done|]. unfold sentence_edges. right. exact (elem_of_list_fmap_1 (dependency ns (S i)) ws' w Hw).
    - intros t. rewrite Hel, below_root. split.
      + intros [Ht [->|(i & ws & Hi & Hb)]].
        * exfalso. destruct Ht as (a & Ha & v & Hv). assert (Hx : (conll_root ns, [ns], []) ∈ conll_nodes ns wss) by (apply conll_node_cases; left; unfold decour_base; apply elem_of_app; right; left).
          by apply (plain_not_token name ns wss g HR _ Hx eq_refl); exists a; split; [done|exists v].
        * change (NStr (sent_id (S i))) with (head_node (S i) "0") in Hb. apply (doc_below name ns wss g HR HP HI HC i ws "0" t Hi) in Hb; [|exact zero_no_colon].
          destruct Hb as [->|(w & Hg & ->)]; [by apply (sent_not_token name ns wss g HR i ws Hi) in Ht|]. assert (Hw : w ∈ ws) by (by destruct Hg).
          apply elem_concat. eexists. split; [|apply elem_of_lookup_imap; exists i, ws; by split]. exact (elem_of_list_fmap_1 (λ w, tok_id (S i) (w_id w)) ws w Hw).
      + intros Ht. apply elem_concat in Ht as (l & Ht & Hl). apply elem_of_lookup_imap in Hl as (i & ws & -> & Hi). apply elem_of_list_fmap in Ht as (w & -> & Hw). split; [by eapply tok_is_token|].
        right. exists i, ws. split; [done|]. change (NStr (sent_id (S i))) with (head_node (S i) "0"). apply (doc_below name ns wss g HR HP HI HC i ws "0" _ Hi); [exact zero_no_colon|].
        right. exists w. split; [|done]. rewrite Forall_forall in HG. specialize (HG ws (elem_of_list_lookup_2 _ _ _ Hi)). rewrite Forall_forall in HG. by apply HG.
  Qed.
  (** chains of heads *)
  Lemma in_edge i ws w : wss !! i = Some ws → w ∈ ws → ∃ k a, in_edges g (tok_id (S i) (w_id w)) = [(head_node (S i) (w_head w), tok_id (S i) (w_id w), k, a)].
  Proof.
    intros Hi Hw. destruct (doc_GInv name ns wss g HR) as [C _]. assert (Hx : dependency ns (S i) w ∈ conll_edges ns wss).
    { apply conll_edge_cases. exists i, ws. split; [done|]. unfold sentence_edges. right. exact (elem_of_list_fmap_1 (dependency ns (S i)) ws w Hw). }
    destruct (of_edge name ns wss g HR _ Hx) as (k & a & E & _). cbn [dependency fst snd] in E. exists k, a.
    pose proof (NoDup_in g (tok_id (S i) (w_id w)) C) as ND. assert (Hin : (head_node (S i) (w_head w), tok_id (S i) (w_id w), k, a) ∈ in_edges g (tok_id (S i) (w_id w))) by (by apply elem_in_edges).
    assert (Hall : ∀ x, x ∈ in_edges g (tok_id (S i) (w_id w)) → x = (head_node (S i) (w_head w), tok_id (S i) (w_id w), k, a)).
    { intros [[[u v] k'] a'] [-> E']%elem_in_edges; [|done]. destruct (doc_unique name ns wss g HR HP _ _ _ _ _ _ _ E E') as [<- <-]. rewrite E in E'. by injection E' as <-. }
    revert ND Hin Hall. generalize (in_edges g (tok_id (S i) (w_id w))) as L. intros L ND Hin Hall. destruct L as [|x [|y L]]; [by apply elem_of_nil in Hin| |].
    - rewrite (Hall x); [done|left].
    - exfalso. apply NoDup_cons in ND as [Hn _]. apply Hn. rewrite (Hall x), (Hall y); [left|right; left|left].
  Qed.
  Definition value_at (attr : string) (n : nid) : list pyval :=
    match node_attrs g n with Some a => match dget attr a with Some v => if truthy v then [v] else [] | None => [] end | None => [] end.
  Lemma up_step k i ws w attr : wss !! i = Some ws → w ∈ ws → ∃ b, (b = true ↔ is_token g (head_node (S i) (w_head w))) ∧
    traverse_up (S k) g (tok_id (S i) (w_id w)) attr = let! rest := (if b : bool then traverse_up k g (head_node (S i) (w_head w)) attr else Ok []) in Ok (value_at attr (head_node (S i) (w_head w)) ++ rest).
  Proof.
    intros Hi Hw. destruct (in_edge i ws w Hi Hw) as (kk & a & E). pose proof (head_in i ws w Hi Hw) as Hin. destruct (istoken_total g _ Hin) as (b & Hb). exists b. split; [by apply istoken_Ok in Hb as [_ ?]|].
    cbn [traverse_up]. rewrite E. cbn [head of_option rbind fst snd]. unfold value_at. apply node_mem in Hin as (at_ & Ha). rewrite Ha. cbn [of_option rbind]. rewrite Hb. reflexivity.
  Qed.
  Lemma head_end i ws w : wss !! i = Some ws → w ∈ ws → (w_head w = "0" ∨ w_head w ∉ w_id <$> ws) → ¬ is_token g (head_node (S i) (w_head w)).
  Proof.
    intros Hi Hw Hh. unfold head_node. destruct (decide _) as [|H0]; [by apply (sent_not_token name ns wss g HR i ws)|]. destruct Hh as [?|Hh]; [done|].
    apply (lost_not_token name ns wss g HR i ws); [done|]. unfold lost_heads. apply elem_of_remove_dups, elem_of_list_filter. split; [done|]. exact (elem_of_list_fmap_1 w_head ws w Hw).
  Qed.
  Lemma heads_up i ws w l h attr : wss !! i = Some ws → heads ws w l h → w ∈ ws → ∀ k, length l < k →
    traverse_up k g (tok_id (S i) (w_id w)) attr = Ok (concat (value_at attr <$> tok_ids (S i) l) ++ value_at attr (head_node (S i) h)).
  Proof.
    intros Hi HH. induction HH as [w Hh|w v l h Hv E H0 HH IH]; intros Hw k Hk; destruct k as [|k]; [cbn in Hk; lia| |cbn in Hk; lia|].
    - destruct (up_step k i ws w attr Hi Hw) as (b & Hb & ->). destruct b; [exfalso; by apply (head_end i ws w Hi Hw Hh), Hb|]. cbn [rbind]. by rewrite app_nil_r.
    - destruct (up_step k i ws w attr Hi Hw) as (b & Hb & ->). assert (E' : head_node (S i) (w_head w) = tok_id (S i) (w_id v)) by (unfold head_node; rewrite decide_False by done; by rewrite E). rewrite E' in Hb |- *.
      destruct b; [|assert (is_token g (tok_id (S i) (w_id v))) as Ht%Hb by (by eapply tok_is_token); done]. rewrite (IH Hv) by (cbn in Hk; lia). cbn [rbind]. unfold tok_ids. rewrite fmap_cons. change (value_at attr <$> tok_id (S i) (w_id v) :: ?x) with (value_at attr (tok_id (S i) (w_id v)) :: (value_at attr <$> x)). cbn [concat]. by rewrite app_assoc.
  Qed.
  Lemma value_of i ws w c : wss !! i = Some ws → w ∈ ws → ":"%char ∉ chs c → c ∉ ["sent_pos"; "word_pos"; "label"; "layers"] →
    value_at c (tok_id (S i) (w_id w)) = match dget c (w_values w) with Some v => if decide (v = "") then [] else [VStr v] | None => [] end.
  Proof.
    intros Hi Hw Hc Hs. unfold value_at. assert (Hin : token_node ns (S i) w ∈ conll_nodes ns wss).
    { apply conll_node_cases. right. exists i, ws. split; [done|]. unfold sentence_nodes. right. apply elem_of_app. left. exact (elem_of_list_fmap_1 (token_node ns (S i)) ws w Hw). }
    destruct (doc_node name ns wss g HR _ Hin) as (a & Ha & _ & Hk). cbn [token_node fst snd] in Ha, Hk. rewrite Ha. rewrite !not_elem_of_cons in Hs. destruct Hs as (S1 & S2 & S3 & S4 & _). rewrite Hk by done.
    unfold token_attrs. rewrite dget_app. cbn [dget]. rewrite decide_False by done. rewrite dget_app. destruct (dget c (reverse _)) as [v|] eqn:E.
    { exfalso. apply dget_Some_elem in E. rewrite elem_of_reverse in E. apply elem_of_list_fmap in E as ([k v'] & [= -> _] & _). apply Hc. apply colon_key. }
    rewrite dget_app. cbn [dget]. rewrite !decide_False; [|intros ->; apply Hc; exact (colon_key ns "token")|done|done].
    generalize (w_values w) as d. induction d as [|[k v] d IH]; [done|]. rewrite fmap_cons. cbn [dget fst snd]. destruct (decide (c = k)); [|exact IH]. cbn [truthy]. destruct (String.eqb_spec v "") as [->|]; cbn; [done|]. by rewrite decide_False.
  Qed.
  Lemma value_end i ws w c : wss !! i = Some ws → w ∈ ws → (w_head w = "0" ∨ w_head w ∉ w_id <$> ws) → c ∉ ["tokens"; "layers"] → value_at c (head_node (S i) (w_head w)) = [].
  Proof.
    intros Hi Hw Hh Hs. rewrite !not_elem_of_cons in Hs. destruct Hs as (S1 & S2 & _). unfold value_at, head_node. destruct (decide _) as [|H0].
    - assert (Hx : (NStr (sent_id (S i)), [ns; ns +:+ ":sentence"], [("tokens", VObj (S i))]) ∈ conll_nodes ns wss) by (apply conll_node_cases; right; exists i, ws; split; [done|left]).
      destruct (doc_node name ns wss g HR _ Hx) as (a & Ha & _ & Hk). cbn [fst snd] in Ha, Hk. rewrite Ha, Hk by done. cbn [dget]. by rewrite decide_False.
    - destruct Hh as [?|Hh]; [done|]. assert (Hl : w_head w ∈ lost_heads ws). { unfold lost_heads. apply elem_of_remove_dups, elem_of_list_filter. split; [done|]. exact (elem_of_list_fmap_1 w_head ws w Hw). }
      destruct (doc_node name ns wss g HR _ (lost_in ns wss i ws _ Hi Hl)) as (a & Ha & _ & Hk). cbn [fst snd] in Ha, Hk. by rewrite Ha, Hk by done.
  Qed.
  Lemma heads_last ws w l h : heads ws w l h → w ∈ ws → ∃ v, v ∈ ws ∧ w_head v = h ∧ (w_head v = "0" ∨ w_head v ∉ w_id <$> ws).
  Proof. induction 1 as [w Hh|w v l h Hv E H0 HH IH]; intros Hw; [by exists w|by apply IH]. Qed.
  Lemma heads_in ws w l h : heads ws w l h → Forall (λ v, v ∈ ws) l.
  Proof. induction 1; [by apply List.Forall_nil|by apply List.Forall_cons]. Qed.
  Lemma columns_up i ws w l h c : wss !! i = Some ws → w ∈ ws → heads ws w l h → ":"%char ∉ chs c → c ∉ ["sent_pos"; "word_pos"; "label"; "layers"; "tokens"] → ∀ k, length l < k →
    traverse_up k g (tok_id (S i) (w_id w)) c = Ok (column_values c l).
  Proof.
    intros Hi Hw HH Hc Hs k Hk. rewrite !not_elem_of_cons in Hs. destruct Hs as (S1 & S2 & S3 & S4 & S5 & _). rewrite (heads_up i ws w l h c Hi HH Hw k Hk). f_equal.
    destruct (heads_last ws w l h HH Hw) as (v & Hv & <- & Hh). rewrite (value_end i ws v c Hi Hv Hh) by (rewrite !not_elem_of_cons; repeat split; try done; apply not_elem_of_nil). rewrite app_nil_r.
    pose proof (heads_in ws w l _ HH) as HF. clear -HF Hi Hc S1 S2 S3 S4 S5 HR. induction HF as [|x l Hx HF IH]; [done|]. unfold tok_ids. rewrite fmap_cons. change (value_at c <$> tok_id (S i) (w_id x) :: ?y) with (value_at c (tok_id (S i) (w_id x)) :: (value_at c <$> y)). cbn [concat].
    change ((λ w0 : word, tok_id (S i) (w_id w0)) <$> l) with (tok_ids (S i) l). rewrite IH. rewrite (value_of i ws x c Hi Hx Hc) by (rewrite !not_elem_of_cons; repeat split; try done; apply not_elem_of_nil). unfold column_values. cbn [omap list_omap]. by destruct (dget c (w_values x)) as [v|]; [destruct (decide (v = ""))|].
  Qed.
  (** cycles *)
  Lemma governed_trans ws h a b : governed ws (w_id a) b → w_id a ≠ "0" → governed ws h a → governed ws h b.
  Proof. intros Hb H0 Ha. assert (Haw : a ∈ ws) by (by destruct Ha). induction Hb as [w Hw E|w v Hw Hv E Hn _ IH]; [eapply G_up; [done|exact Haw|done|congruence|done]|eapply G_up; [exact Hw|exact Hv|exact E|exact Hn|exact IH]]. Qed.
  Lemma cycle_diverges i ws attr k : wss !! i = Some ws → ∀ w, governed ws (w_id w) w → w_id w ≠ "0" → traverse_up k g (tok_id (S i) (w_id w)) attr = Err OutOfFuel.
  Proof.
    intros Hi. induction k as [|k IH]; intros w HG H0; [done|]. assert (Hw : w ∈ ws) by (by destruct HG). destruct (up_step k i ws w attr Hi Hw) as (b & Hb & ->).
    assert (∃ v, v ∈ ws ∧ w_head w = w_id v ∧ w_id v ≠ "0" ∧ governed ws (w_id v) v) as (v & Hv & E & Hv0 & HGv).
    { assert (HG' := HG). inversion HG' as [w' Hw' E Ew|w' v Hw' Hv E Hn HGv Ew]; subst w'; [exists w; split; [exact Hw|]; split; [exact E|]; split; [exact H0|exact HG]|]. exists v. split; [done|]. split; [done|]. split; [congruence|]. eapply governed_trans; [exact HGv|done|]. by apply G_here. }
    assert (E' : head_node (S i) (w_head w) = tok_id (S i) (w_id v)) by (unfold head_node; rewrite decide_False by congruence; by rewrite E). rewrite E' in Hb |- *.
    destruct b; [|assert (is_token g (tok_id (S i) (w_id v))) as Ht%Hb by (by eapply tok_is_token); done]. rewrite (IH v HGv Hv0). done.
  Qed.
  (** texts *)
  Lemma word_token i ws w : wss !! i = Some ws → w ∈ ws → "token" ∉ (w_feats w).*1 → token_is g (tok_id (S i) (w_id w)) (w_form w).
  Proof.
    intros Hi Hw Hf. assert (Hin : token_node ns (S i) w ∈ conll_nodes ns wss).
    { apply conll_node_cases. right. exists i, ws. split; [done|]. unfold sentence_nodes. right. apply elem_of_app. left. exact (elem_of_list_fmap_1 (token_node ns (S i)) ws w Hw). }
    destruct (doc_node name ns wss g HR _ Hin) as (a & Ha & _ & Hk). cbn [token_node fst snd] in Ha, Hk. exists a. split; [exact Ha|]. rewrite (fi_ns _ _ _ _ HR).
    assert (HN : ∀ c, ":"%char ∉ chs c → ns +:+ ":token" ≠ c) by (intros c Hc E; apply Hc; rewrite <-E; exact (colon_key ns "token")).
    rewrite Hk by (apply HN; apply (bool_decide_unpack _); vm_compute; exact I). unfold token_attrs. rewrite dget_app. cbn [dget]. rewrite decide_False by (apply HN; apply (bool_decide_unpack _); vm_compute; exact I).
    rewrite dget_app. destruct (dget _ (reverse _)) as [v|] eqn:E.
    { exfalso. apply dget_Some_elem in E. rewrite elem_of_reverse in E. apply elem_of_list_fmap in E as ([k v'] & E & Hkv). injection E as E _. cbn [fst] in E. apply Hf. assert (k = "token") as ->.
      { change ":token" with (":" +:+ "token") in E. apply (f_equal chs) in E. rewrite !chs_app in E. apply app_inv_head in E. injection E as E. symmetry in E. exact (chs_inj k "token" E). }
      exact (elem_of_list_fmap_1 fst _ _ Hkv). }
    rewrite dget_app. cbn [dget]. rewrite decide_False by (apply HN; apply (bool_decide_unpack _); vm_compute; exact I). rewrite decide_False by (apply HN; apply (bool_decide_unpack _); vm_compute; exact I). by rewrite decide_True.
  Qed.
  Lemma doc_text : Forall (Forall (λ w, "token" ∉ (w_feats w).*1)) wss → Forall2 (Forall2 (token_is g)) (conll_tokens wss) ((λ ws : list word, w_form <$> ws) <$> wss).
  Proof.
    intros HF. apply Forall2_same_length_lookup_2; [unfold conll_tokens; by rewrite imap_length, fmap_length|]. intros i ts fs Ht Hs. unfold conll_tokens in Ht. rewrite list_lookup_imap in Ht. rewrite list_lookup_fmap in Hs.
    destruct (wss !! i) as [ws|] eqn:Hi; [|done]. cbn in Ht, Hs. injection Ht as <-. injection Hs as <-. apply Forall2_fmap_2. apply Forall_Forall2_diag, Forall_forall. intros w Hw. apply (word_token i ws w Hi Hw).
    rewrite Forall_forall in HF. specialize (HF ws (elem_of_list_lookup_2 _ _ _ Hi)). rewrite Forall_forall in HF. by apply HF.
  Qed.
  Lemma doc_sentence i ws : wss !! i = Some ws → sentence_tokens (g, conll_tokens wss) (NStr (sent_id (S i))) = Ok (tok_ids (S i) ws).
  Proof.
    intros Hi. assert (Hx : (NStr (sent_id (S i)), [ns; ns +:+ ":sentence"], [("tokens", VObj (S i))]) ∈ conll_nodes ns wss) by (apply conll_node_cases; right; exists i, ws; split; [done|left]).
    destruct (doc_node name ns wss g HR _ Hx) as (a & Ha & _ & Hk). cbn [fst snd] in Ha, Hk. unfold sentence_tokens. cbn [fst snd]. rewrite Ha. cbn [of_option rbind]. rewrite Hk by done. cbn [dget]. rewrite decide_True by done. cbn [of_option rbind].
    replace (S i - 1) with i by lia. unfold conll_tokens. rewrite list_lookup_imap, Hi. done.
  Qed.
End walk.
Lemma words_no_colon o doc wss : words_of_doc o doc wss → Forall (Forall (λ w, no_colon (w_id w))) wss.
Proof.
  unfold words_of_doc. induction 1 as [|ls ws doc wss H _ IH]; [by apply List.Forall_nil|]. apply List.Forall_cons; [|done]. clear -H. revert H. generalize (rows ls) as rs. intros rs. induction 1 as [|vs w rs ws H _ IH]; [by apply List.Forall_nil|]. apply List.Forall_cons; [|done].
  destruct H as (_ & H & _). by eapply integer_no_colon.
Qed.
