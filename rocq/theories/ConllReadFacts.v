(** * ConllReadFacts: the graph of a CoNLL file *)
From Verif Require Import PyBase DocGraph Relabel StrNum Query Text TextFacts Rst Nltk NltkFacts SpecGraph GraphThms SpecQuery SpecParse ParseFacts Anaphora Conano SpecImport ImportFacts SpecDecour DecourFacts GeoffFacts SpecConll ConllFacts ConllRead SpecConllRead ConllReadText.

(** ** Nodes in any order *)
Definition grown (g : graph) (L : list node_info) (E : list edge_info) : Prop := ∃ N, L ≡ₚ N ∧ built g N E.
Lemma ids_perm L N : L ≡ₚ N → ids L ≡ₚ ids N.
Proof. apply fmap_Permutation. Qed.
Lemma grown_perm g L L' E : L ≡ₚ L' → grown g L E → grown g L' E.
Proof. intros HP (N & H1 & H2). exists N. split; [by rewrite <-HP|done]. Qed.
Lemma grown_same g L L' E : Forall2 same_info L L' → grown g L E → grown g L' E.
Proof.
  intros HS (N & H1 & H2). assert (∃ N', L' ≡ₚ N' ∧ Forall2 same_info N N') as (N' & H3 & H4).
  { clear H2. revert L' HS. induction H1 as [|x L N _ IH|x y L|L N N1 _ IH1 _ IH2]; intros L' HS.
    - exists []. by apply Forall2_nil_inv_l in HS as ->.
    - apply Forall2_cons_inv_l in HS as (x' & L1 & Hx & HL & ->). destruct (IH _ HL) as (N' & H1 & H2). exists (x' :: N'). split; [by rewrite H1|by constructor].
    - apply Forall2_cons_inv_l in HS as (x' & L1 & Hx & HL & ->). apply Forall2_cons_inv_l in HL as (y' & L2 & Hy & HL & ->). exists (y' :: x' :: L2). split; [apply Permutation_swap|]. constructor; [exact Hy|]. constructor; [exact Hx|exact HL].
    - destruct (IH1 _ HS) as (N' & HP & HN). destruct (IH2 _ HN) as (N2 & HP' & HN'). exists N2. split; [by rewrite HP|done]. }
  exists N'. split; [done|]. by eapply built_same.
Qed.
Lemma grown_ids g L E : grown g L E → nodes g ≡ₚ ids L.
Proof. intros (N & HP & HB). destruct (b_nodes _ _ _ HB) as [HN _]. rewrite HN. symmetry. by apply ids_perm. Qed.
Lemma grown_ext g g' L E : g_node g' = g_node g → g_succ g' = g_succ g → g_pred g' = g_pred g → grown g L E → grown g' L E.
Proof. intros ??? (N & H1 & H2). exists N. split; [done|]. by eapply built_ext. Qed.
Lemma grown_new g L E n layers ad attr l : grown g L E → n ∉ ids L → asked_layers (g_ns g) layers l →
  ∃ g', add_node g n layers ad attr = (g', None) ∧ grown g' (L ++ [(n, l, given_attrs ad attr)]) E ∧ same_doc g g'.
Proof.
  intros (N & HP & HB) Hn Ha. destruct (built_node g N E n layers ad attr l HB Ha) as (g' & H1 & H2 & H3). exists g'. split; [done|]. split; [|done].
  rewrite note_new in H2 by (by rewrite <-(ids_perm _ _ HP)). eexists. split; [|exact H2]. by rewrite HP.
Qed.
Lemma grown_old g L E n l0 a0 layers ad attr l : grown g ((n, l0, a0) :: L) E → asked_layers (g_ns g) layers l →
  ∃ g', add_node g n layers ad attr = (g', None) ∧ grown g' ((n, l0 ++ l, dupdate a0 (given_attrs ad attr)) :: L) E ∧ same_doc g g'.
Proof.
  intros (N & HP & HB) Ha. destruct (built_node g N E n layers ad attr l HB Ha) as (g' & H1 & H2 & H3). exists g'. split; [done|]. split; [|done].
  eexists. split; [|exact H2]. assert (ND : NoDup (ids ((n, l0, a0) :: L))) by (rewrite (ids_perm _ _ HP); by eapply built_NoDup).
  unfold note. rewrite decide_True by (rewrite <-(ids_perm _ _ HP); left). rewrite <-HP. rewrite fmap_cons. cbn [fst]. rewrite decide_True by done. f_equiv.
  change (ids ((n, l0, a0) :: L)) with (n :: ids L) in ND. apply NoDup_cons in ND as [Hn _]. clear -Hn. induction L as [|x L IH]; [done|]. rewrite fmap_cons.
  rewrite decide_False by (intros <-; apply Hn; left). f_equiv. apply IH. intros H. apply Hn. by right.
Qed.
Lemma grown_edge g L E u v layers ad attr l : grown g L E → u ∈ ids L → v ∈ ids L → asked_layers (g_ns g) layers l →
  ∃ g', add_edge g u v layers None ad attr = (g', None) ∧ grown g' L (E ++ [(u, v, l, given_attrs ad attr)]) ∧ same_doc g g'.
Proof.
  intros (N & HP & HB) Hu Hv Ha. rewrite (ids_perm _ _ HP) in Hu, Hv. destruct (built_edge_in g N E u v layers ad attr l HB Hu Hv Ha) as (g' & H1 & H2 & H3).
  exists g'. split; [done|]. split; [|done]. by exists N.
Qed.

(** ** Ids *)
Lemma sent_id_free i c : c ∉ ["s"; "-"]%char → is_digit c = false → c ∉ chs (sent_id i).
Proof.
  intros Hc Hd. unfold sent_id. rewrite chs_app. intros [H|H]%elem_of_app; [apply Hc; apply elem_of_list_singleton in H as ->; left|].
  revert H. apply str_Z_free; [done|]. intros ->. apply Hc. right. left.
Qed.
Lemma sent_id_inj i j : sent_id i = sent_id j → i = j.
Proof. intros H%(f_equal chs). unfold sent_id in H. rewrite !chs_app in H. apply app_inv_head in H. by apply ConllFacts.number_inj. Qed.
Lemma tok_id_inj i j w v : tok_id i w = tok_id j v → i = j ∧ w = v.
Proof.
  intros H%nstr_inj. apply (f_equal chs) in H. rewrite !chs_app in H. change (chs "_t") with ["_"%char; "t"%char] in H. cbn [app] in H.
  apply cut in H as [H1 H2]; [|apply sent_id_free; [apply (bool_decide_unpack _); vm_compute; exact I|done]..].
  injection H2 as H2. split; [apply sent_id_inj|]; by apply chs_inj.
Qed.
Lemma tok_sent i j w : tok_id i w ≠ NStr (sent_id j).
Proof.
  intros H%nstr_inj. apply (f_equal chs) in H. rewrite !chs_app in H. assert (H' : "_"%char ∈ chs (sent_id j)) by (rewrite <-H; apply elem_of_app; right; left).
  revert H'. apply sent_id_free; [apply (bool_decide_unpack _); vm_compute; exact I|done].
Qed.
Lemma base_colon ns n : n ∈ ids (decour_base ns) → ∃ s, n = NStr s ∧ ":"%char ∈ chs s.
Proof.
  intros H. assert (Hr : ∀ s, ":"%char ∈ chs (s +:+ ":root_node")) by (intros s; rewrite chs_app; apply elem_of_app; right; left).
  unfold decour_base in H. rewrite ids_app in H. apply elem_of_app in H as [H|H].
  - destruct (decide _); [by apply elem_of_nil in H|]. apply elem_of_list_singleton in H. subst. exists "discoursegraph:root_node". split; [done|]. apply (Hr "discoursegraph").
  - apply elem_of_list_singleton in H. subst. eexists. split; [reflexivity|]. apply Hr.
Qed.
Lemma tok_base ns i w : no_colon w → tok_id i w ∉ ids (decour_base ns).
Proof.
  intros Hw (s & E & Hs)%base_colon. apply nstr_inj in E. subst s. rewrite !chs_app in Hs. apply elem_of_app in Hs as [Hs|Hs].
  - revert Hs. apply sent_id_free; [apply (bool_decide_unpack _); vm_compute; exact I|done].
  - apply elem_of_app in Hs as [Hs|Hs]; [|done]. revert Hs. apply (bool_decide_unpack _). vm_compute. exact I.
Qed.
Lemma sent_base ns i : NStr (sent_id i) ∉ ids (decour_base ns).
Proof. intros (s & E & Hs)%base_colon. apply nstr_inj in E. subst s. revert Hs. apply sent_id_free; [apply (bool_decide_unpack _); vm_compute; exact I|done]. Qed.
(** integers have no colons *)
Lemma lstrip_elem c s : c ∈ s → Rst.is_space c = false → c ∈ lstrip s.
Proof.
  induction s as [|x s IH]; intros H Hc; [done|]. cbn [lstrip]. destruct (Rst.is_space x) eqn:E; [|done]. apply IH; [|done]. apply elem_of_cons in H as [->|H]; [congruence|done].
Qed.
Lemma strip_elem c s : c ∈ s → Rst.is_space c = false → c ∈ strip s.
Proof. intros H Hc. unfold strip. rewrite elem_of_reverse. apply lstrip_elem; [|done]. rewrite elem_of_reverse. by apply lstrip_elem. Qed.
Lemma py_int_free s z c : py_int s = Ok z → is_digit c = false → c ∉ ["-"; "+"]%char → c ∉ s.
Proof.
  intros H Hc Hs Hin. assert (HD : ∀ (d : chars) y, (if decide (d = []) then Err ValueError else if all_digits_b d then Ok (Z.of_N (dec_val d)) else Err ValueError) = Ok y → c ∉ d).
  { intros d y. destruct (decide _); [done|]. destruct (all_digits_b d) eqn:E; [|done]. intros _ Hd. unfold all_digits_b in E. rewrite forallb_forall in E.
    apply elem_of_list_In, E in Hd. congruence. }
  assert (HS : c = "-"%char ∨ c = "+"%char → False) by (rewrite elem_of_cons, elem_of_list_singleton in Hs; tauto).
  unfold py_int in H. destruct s as [|x s]; [by apply elem_of_nil in Hin|].
  destruct (decide (x = "-"%char)) as [->|Hm]; [|destruct (decide (x = "+"%char)) as [->|Hp]].
  - apply rbind_Ok in H as (y & H & _). apply HD in H. apply elem_of_cons in Hin as [Hin|Hin]; [apply HS; by left|done].
  - apply HD in H. apply elem_of_cons in Hin as [Hin|Hin]; [apply HS; by right|done].
  - apply (HD (x :: s) z); [|done]. rewrite <-H. clear -Hm Hp. destruct x as [[] [] [] [] [] [] [] []]; try reflexivity; done.
Qed.
Lemma integer_no_colon s z : is_integer (chs s) z → no_colon s.
Proof.
  intros H Hin. apply is_integer_int in H. unfold int_of in H. eapply py_int_free; [exact H|..|apply strip_elem; [exact Hin|done]]; [done|]. apply (bool_decide_unpack _). vm_compute. exact I.
Qed.
Definition words_plain (ws : list word) : Prop := Forall (λ w, no_colon (w_id w) ∧ no_colon (w_head w)) ws.

Lemma conll_nodes_snoc ns prev ws : conll_nodes ns (prev ++ [ws]) = conll_nodes ns prev ++ sentence_nodes ns (S (length prev)) ws.
Proof. unfold conll_nodes. rewrite imap_app, concat_app, app_assoc. cbn. by rewrite app_nil_r, Nat.add_0_r. Qed.
Lemma conll_edges_snoc ns prev ws : conll_edges ns (prev ++ [ws]) = conll_edges ns prev ++ sentence_edges ns (S (length prev)) ws.
Proof. unfold conll_edges. rewrite imap_app, concat_app. cbn. by rewrite app_nil_r, Nat.add_0_r. Qed.
Definition tok_ids (i : nat) (ws : list word) : list nid := (λ w, tok_id i (w_id w)) <$> ws.
Lemma conll_tokens_snoc prev ws : conll_tokens (prev ++ [ws]) = conll_tokens prev ++ [tok_ids (S (length prev)) ws].
Proof. unfold conll_tokens. rewrite imap_app. cbn. by rewrite Nat.add_0_r. Qed.
Lemma conll_nodes_ids ns prev n : n ∈ ids (conll_nodes ns prev) →
  n ∈ ids (decour_base ns) ∨ ∃ j, j ≤ length prev ∧ (n = NStr (sent_id j) ∨ ∃ w, n = tok_id j w).
Proof.
  induction prev as [|ws prev IH] using rev_ind; [unfold conll_nodes; cbn; rewrite app_nil_r; by left|].
  rewrite conll_nodes_snoc, ids_app, app_length. cbn [length]. intros [H|H]%elem_of_app.
  - destruct (IH H) as [?|(j & Hj & ?)]; [by left|]. right. exists j. split; [lia|done].
  - right. exists (S (length prev)). split; [lia|]. unfold ids, sentence_nodes in H. rewrite fmap_cons, fmap_app, <-!list_fmap_compose in H. apply elem_of_cons in H as [H|H]; [by left|]. right.
    apply elem_of_app in H as [H|H]; apply elem_of_list_fmap in H as (x & -> & _); by eexists.
Qed.

Lemma perm_move {A} (l t m : list A) s x : l ++ s :: t ++ x :: m ≡ₚ x :: l ++ s :: t ++ m.
Proof. transitivity ((l ++ s :: t) ++ x :: m); [by rewrite <-app_assoc|]. rewrite <-Permutation_middle. by rewrite <-app_assoc. Qed.
Lemma perm_last {A} (l t m : list A) s x : x :: l ++ s :: t ++ m ≡ₚ l ++ s :: (t ++ [x]) ++ m.
Proof. rewrite <-app_assoc. symmetry. apply perm_move. Qed.
Section read.
  Context (o : conll_options) (name ns : string) (HO : options_ok o).
  Definition miss_nodes (i : nat) (miss : list string) : list node_info := (λ h, (tok_id i h, [ns], [])) <$> miss.
  Definition sent_node (i : nat) : node_info := (NStr (sent_id i), [ns; ns +:+ ":sentence"], [("tokens", VObj i)]).
  Definition partial (i : nat) (ws : list word) (miss : list string) : list node_info := sent_node i :: (token_node ns i <$> ws) ++ miss_nodes i miss.
  Record reading (prev : list (list word)) (ws : list word) (miss : list string) (g : graph) : Prop := {
    rd_name : g_name g = name;
    rd_ns : g_ns g = ns;
    rd_root : g_root g = conll_root ns;
    rd_sents : g_sentences g = (λ i, NStr (sent_id (S i))) <$> seq 0 (S (length prev));
    rd_toks : g_tokens g = concat (conll_tokens (prev ++ [ws]));
    rd_nodup : NoDup miss;
    rd_miss : ∀ h, h ∈ miss ↔ h ∈ w_head <$> ws ∧ h ≠ "0" ∧ h ∉ w_id <$> ws;
    rd_grown : grown g (conll_nodes ns prev ++ partial (S (length prev)) ws miss) (conll_edges ns prev ++ sentence_edges ns (S (length prev)) ws) }.
  Lemma tok_fresh prev w : no_colon w → tok_id (S (length prev)) w ∉ ids (conll_nodes ns prev).
  Proof.
    intros Hw [H|(j & Hj & [H|(v & H)])]%conll_nodes_ids; [by apply tok_base in H|by apply tok_sent in H|]. apply tok_id_inj in H as [H _]. lia.
  Qed.
  Lemma ids_partial i ws miss : ids (partial i ws miss) = NStr (sent_id i) :: tok_ids i ws ++ (tok_id i <$> miss).
  Proof. unfold ids, partial. rewrite fmap_cons, fmap_app. unfold miss_nodes. rewrite <-!list_fmap_compose. done. Qed.
  Lemma tok_in i ws w : tok_id i w ∈ tok_ids i ws ↔ w ∈ w_id <$> ws.
  Proof.
    unfold tok_ids. rewrite !elem_of_list_fmap. split; intros (x & E & Hx); exists x; (split; [|done]); [by apply tok_id_inj in E as [_ ?]|by rewrite E].
  Qed.
  Lemma tok_in_miss i (l : list string) w : tok_id i w ∈ tok_id i <$> l ↔ w ∈ l.
  Proof. rewrite elem_of_list_fmap. split; [intros (x & E & Hx); by apply tok_id_inj in E as [_ ->]|]. intros H. by exists w. Qed.
  Lemma tok_partial i ws miss w : tok_id i w ∈ ids (partial i ws miss) ↔ w ∈ w_id <$> ws ∨ w ∈ miss.
  Proof.
    rewrite ids_partial, elem_of_cons, elem_of_app, tok_in, tok_in_miss. split; [|tauto]. intros [H|H]; [by apply tok_sent in H|done].
  Qed.
  Lemma token_info i vs w d : word_of o vs w → (∀ key, dget key d = dget key (raw_attrs ns w)) →
    ∀ l a, (∀ z, z ∈ l ↔ z ∈ [ns; ns +:+ ":token"]) → (∀ key, dget key a = dget key (given_attrs (Some d) [("sent_pos", VInt (Z.of_nat i))])) →
    same_info (tok_id i (w_id w), l, a) (token_node ns i w).
  Proof.
    intros _ Hd l a Hl Hk. split; [done|]. split; [exact Hl|]. intros key. cbn [snd token_node]. rewrite Hk. unfold given_attrs, token_attrs. change (default [] (Some d)) with d.
    rewrite dget_dupdate, dget_app. destruct (dget key [_]); [done|]. apply Hd.
  Qed.
  (** the token of a row *)
  Lemma add_token_ok prev ws miss g vs w ts : reading prev ws miss g → word_of o vs w → w_id w ∉ w_id <$> ws → no_colon (w_id w) →
    ∃ g' miss', conll_add_token o (S (length prev)) (sent_id (S (length prev))) (w_values w) (g, ts) = ((g', ts ++ [tok_id (S (length prev)) (w_id w)]), None) ∧
      g_name g' = name ∧ g_ns g' = ns ∧ g_root g' = conll_root ns ∧ g_sentences g' = g_sentences g ∧ g_tokens g' = g_tokens g ++ [tok_id (S (length prev)) (w_id w)] ∧
      NoDup miss' ∧ (∀ h, h ∈ miss' ↔ h ∈ miss ∧ h ≠ w_id w) ∧
      grown g' (conll_nodes ns prev ++ partial (S (length prev)) (ws ++ [w]) miss') (conll_edges ns prev ++ sentence_edges ns (S (length prev)) ws).
  Proof.
    intros HR Hw Hnew Hcol. set (i := S (length prev)). destruct (feats_ok o ns vs w HO Hw) as (d & Ed & Hd).
    pose proof Hw as (Hi & _ & _ & _ & _ & _ & Hv). rewrite value_dget in Hi by apply NoDup_columns. rewrite <-Hv in Hi.
    assert (Hadd : ∃ g1 miss', add_node g (tok_id i (w_id w)) (VSet [g_ns g; g_ns g +:+ ":token"]) (Some d) [("sent_pos", VInt (Z.of_nat i))] = (g1, None) ∧ same_doc g g1 ∧
      NoDup miss' ∧ (∀ h, h ∈ miss' ↔ h ∈ miss ∧ h ≠ w_id w) ∧
      grown g1 (conll_nodes ns prev ++ partial i (ws ++ [w]) miss') (conll_edges ns prev ++ sentence_edges ns i ws)).
    { pose proof (rd_grown _ _ _ _ HR) as HG. fold i in HG. rewrite (rd_ns _ _ _ _ HR).
      assert (Ha : asked_layers (g_ns g) (VSet [ns; ns +:+ ":token"]) [ns; ns +:+ ":token"]) by (by left).
      destruct (decide (w_id w ∈ miss)) as [Hm|Hm].
      - apply elem_of_Permutation in Hm as (miss' & HP). pose proof (rd_nodup _ _ _ _ HR) as ND. rewrite HP in ND. apply NoDup_cons in ND as [Hnot ND].
        assert (HG' : grown g ((tok_id i (w_id w), [ns], []) :: (conll_nodes ns prev ++ partial i ws miss')) (conll_edges ns prev ++ sentence_edges ns i ws)).
        { eapply grown_perm; [|exact HG]. unfold partial, miss_nodes. rewrite HP, fmap_cons. apply perm_move. }
        destruct (grown_old g _ _ _ _ _ _ (Some d) [("sent_pos", VInt (Z.of_nat i))] _ HG' Ha) as (g1 & E1 & HG1 & HD). exists g1, miss'. split; [done|]. split; [done|]. split; [done|]. split.
        + intros h. rewrite HP, elem_of_cons. split; [intros Hh; split; [by right|by intros ->]|]. intros [[->|?] ?]; done.
        + eapply grown_perm; [|eapply grown_same; [|exact HG1]]; [|apply List.Forall2_cons; [|apply reflexivity]].
          2:{ eapply (token_info i vs w); [done|exact Hd|intros z; cbn [app]; rewrite !elem_of_cons; tauto|]. intros key. rewrite dget_dupdate. by destruct (dget key _). }
          unfold partial. rewrite fmap_app. apply perm_last.
      - assert (Hf : tok_id i (w_id w) ∉ ids (conll_nodes ns prev ++ partial i ws miss)); [|destruct (grown_new g _ _ (tok_id i (w_id w)) _ (Some d) [("sent_pos", VInt (Z.of_nat i))] _ HG Hf Ha) as (g1 & E1 & HG1 & HD)].
        { rewrite ids_app. intros [H|H]%elem_of_app; [by apply tok_fresh in H|]. apply tok_partial in H as [?|?]; done. }
        exists g1, miss. split; [done|]. split; [done|]. split; [apply (rd_nodup _ _ _ _ HR)|]. split.
        + intros h. split; [|tauto]. intros Hh. split; [done|]. by intros ->.
        + eapply grown_perm; [|eapply grown_same; [|exact HG1]]; [|apply Forall2_app; [apply reflexivity|apply List.Forall2_cons; [|constructor]]].
          2:{ by eapply (token_info i vs w). }
          unfold partial. rewrite fmap_app. rewrite Permutation_app_comm. apply perm_last. }
    destruct Hadd as (g1 & miss' & E1 & (D1 & D2 & D3 & D4 & D5 & _) & ND & HM & HG).
    exists (set_tokens (g_tokens g1 ++ [tok_id i (w_id w)]) g1), miss'. split.
    - unfold conll_add_token. rewrite Hi. cbn [of_option rbind]. rewrite (rd_ns _ _ _ _ HR) in E1 |- *. rewrite Ed. cbn [rbind]. change (NStr (conll_token_id (sent_id i) (w_id w))) with (tok_id i (w_id w)). fold i. by rewrite E1.
    - cbn [g_name g_ns g_root g_sentences g_tokens set_tokens]. rewrite D1, D2, D3, D4, D5. split_and!; try done; [apply (rd_name _ _ _ _ HR)|apply (rd_ns _ _ _ _ HR)|apply (rd_root _ _ _ _ HR)|]. eapply grown_ext; [..|exact HG]; done.
  Qed.

  (** the dependency of a row *)
  Lemma add_dependency_ok prev ws w vs (miss0 miss : list string) g : word_of o vs w → w_id w ∉ w_id <$> ws → no_colon (w_head w) →
    (∀ h, h ∈ miss0 ↔ h ∈ w_head <$> ws ∧ h ≠ "0" ∧ h ∉ w_id <$> ws) → NoDup miss → (∀ h, h ∈ miss ↔ h ∈ miss0 ∧ h ≠ w_id w) →
    g_name g = name → g_ns g = ns → g_root g = conll_root ns →
    g_sentences g = (λ i, NStr (sent_id (S i))) <$> seq 0 (S (length prev)) → g_tokens g = concat (conll_tokens (prev ++ [ws ++ [w]])) →
    grown g (conll_nodes ns prev ++ partial (S (length prev)) (ws ++ [w]) miss) (conll_edges ns prev ++ sentence_edges ns (S (length prev)) ws) →
    ∃ g' miss', conll_add_dependency o (sent_id (S (length prev))) (w_values w) g = (g', None) ∧ reading prev (ws ++ [w]) miss' g'.
  Proof.
    intros Hw Hnew Hcol HM0 ND HM E1 E2 E3 E4 E5 HG. set (i := S (length prev)) in *. pose proof Hw as (Hi & _ & _ & Hh & Hd & _ & Hv).
    rewrite value_dget in Hi, Hh, Hd by apply NoDup_columns. rewrite <-Hv in Hi, Hh, Hd.
    unfold conll_add_dependency. rewrite Hh, Hd, Hi. cbn [of_option rbind]. cbv zeta.
    change (NStr (if decide (w_head w = "0") then sent_id i else conll_token_id (sent_id i) (w_head w))) with (NStr (if decide (w_head w = "0") then sent_id i else sent_id i +:+ "_t" +:+ w_head w)).
    assert (Es : NStr (if decide (w_head w = "0") then sent_id i else sent_id i +:+ "_t" +:+ w_head w) = head_node i (w_head w)) by (unfold head_node, tok_id; by destruct (decide _)). rewrite Es. clear Es.
    assert (Hstep : ∃ g1 miss', (if decide (w_head w = "0" ∨ head_node i (w_head w) ∈ nodes g) then (g, None) else add_node g (head_node i (w_head w)) (VSet [g_ns g]) None []) = (g1, None) ∧ same_doc g g1 ∧
      NoDup miss' ∧ (∀ h, h ∈ miss' ↔ h ∈ w_head <$> (ws ++ [w]) ∧ h ≠ "0" ∧ h ∉ w_id <$> (ws ++ [w])) ∧ head_node i (w_head w) ∈ ids (partial i (ws ++ [w]) miss') ∧
      grown g1 (conll_nodes ns prev ++ partial i (ws ++ [w]) miss') (conll_edges ns prev ++ sentence_edges ns i ws)).
    { assert (Hmem : ∀ h, h ∈ miss ↔ h ∈ w_head <$> ws ∧ h ≠ "0" ∧ h ∉ w_id <$> (ws ++ [w])).
      { intros h. rewrite HM, HM0, fmap_app, elem_of_app. cbn [fmap list_fmap]. rewrite elem_of_list_singleton. tauto. }
      assert (Hex : ∀ h, h ∈ w_head <$> (ws ++ [w]) ↔ h ∈ w_head <$> ws ∨ h = w_head w).
      { intros h. rewrite fmap_app, elem_of_app. cbn [fmap list_fmap]. by rewrite elem_of_list_singleton. }
      assert (Hnodes : w_head w ≠ "0" → head_node i (w_head w) ∈ nodes g ↔ w_head w ∈ w_id <$> (ws ++ [w]) ∨ w_head w ∈ miss).
      { intros H0. unfold head_node. rewrite decide_False by done. rewrite (grown_ids _ _ _ HG), ids_app, elem_of_app, tok_partial. split; [|tauto]. intros [H|H]; [by apply tok_fresh in H|done]. }
      destruct (decide (w_head w = "0")) as [E0|H0].
      - exists g, miss. rewrite decide_True by (by left). split_and!; try done.
        + intros h. rewrite Hmem, Hex. split; [tauto|]. intros ([H|H] & ? & ?); [done|congruence].
        + rewrite ids_partial. unfold head_node. rewrite decide_True by done. left.
      - destruct (decide (head_node i (w_head w) ∈ nodes g)) as [Hin|Hin].
        + exists g, miss. rewrite decide_True by (by right). split_and!; try done.
          * intros h. rewrite Hmem, Hex. split; [tauto|]. intros ([H|H] & ? & ?); [done|]. subst h. apply (proj1 (Hnodes H0)) in Hin as [?|Hin]; [done|]. by apply Hmem in Hin.
          * apply (proj1 (Hnodes H0)) in Hin. unfold head_node. rewrite decide_False by done. by apply tok_partial.
        + rewrite decide_False by tauto. rewrite E2.
          destruct (grown_new g _ _ (head_node i (w_head w)) (VSet [ns]) None [] [ns] HG) as (g1 & Ea & HG1 & HD).
          * intros H. apply Hin. by rewrite (grown_ids _ _ _ HG).
          * by left.
          * rewrite Hnodes in Hin by done. exists g1, (miss ++ [w_head w]). split; [done|]. split; [done|]. split_and!.
            -- apply NoDup_app. split; [done|]. split; [|apply NoDup_singleton]. intros x Hx ->%elem_of_list_singleton. tauto.
            -- intros h. rewrite elem_of_app, elem_of_list_singleton, Hmem, Hex. split; [|tauto]. intros [?| ->]; tauto.
            -- unfold head_node. rewrite decide_False by done. apply tok_partial. right. apply elem_of_app. right. left.
            -- eapply grown_perm; [|exact HG1]. unfold partial, miss_nodes. rewrite (fmap_app _ miss), <-app_assoc. cbn [app]. rewrite <-app_assoc. unfold head_node. rewrite decide_False by done. done. }
    destruct Hstep as (g1 & miss' & Eg & (D1 & D2 & D3 & D4 & D5 & _) & ND' & HM' & Hsrc & HG1). rewrite Eg.
    destruct (grown_edge g1 _ _ (head_node i (w_head w)) (tok_id i (w_id w)) (VSet [g_ns g1; g_ns g1 +:+ ":dependency"]) None [("relation_type", VStr (w_rel w)); ("label", VStr (w_rel w)); ("edge_type", VStr dominates)] [g_ns g1; g_ns g1 +:+ ":dependency"] HG1) as (g2 & Ee & HG2 & (F1 & F2 & F3 & F4 & F5 & _)).
    - rewrite ids_app. apply elem_of_app. by right.
    - rewrite ids_app. apply elem_of_app. right. apply tok_partial. left. rewrite fmap_app. apply elem_of_app. right. left.
    - by left.
    - change (NStr (conll_token_id (sent_id i) (w_id w))) with (tok_id i (w_id w)). rewrite Ee. exists g2, miss'. split; [done|]. split; try congruence; try done.
      { rewrite F5, D5. exact E4. }
      fold i. rewrite D2, E2 in HG2. unfold sentence_edges in HG2 |- *. rewrite fmap_app, app_comm_cons, app_assoc. exact HG2.
  Qed.
  Lemma line_step prev ws miss g vs w : reading prev ws miss g → line_ok (co_format o) (LRow vs) → word_of o vs w → w_id w ∉ w_id <$> ws → no_colon (w_head w) →
    ∃ g' miss', conll_line o (S (length prev)) (sent_id (S (length prev))) (line_text (LRow vs)) (g, tok_ids (S (length prev)) ws) = ((g', tok_ids (S (length prev)) (ws ++ [w])), None) ∧ reading prev (ws ++ [w]) miss' g'.
  Proof.
    intros HR HL Hw Hnew Hcol. pose proof Hw as (_ & Hz & _ & _ & _ & _ & Hv).
    destruct (add_token_ok prev ws miss g vs w (tok_ids (S (length prev)) ws) HR Hw Hnew (integer_no_colon _ _ Hz)) as (g1 & m1 & E1 & A1 & A2 & A3 & A4 & A5 & A6 & A7 & A8).
    destruct (add_dependency_ok prev ws w vs miss m1 g1 Hw Hnew Hcol (rd_miss _ _ _ _ HR) A6 A7 A1 A2 A3) as (g2 & m2 & E2 & HR2).
    - rewrite A4. apply (rd_sents _ _ _ _ HR).
    - rewrite A5, (rd_toks _ _ _ _ HR), !conll_tokens_snoc, !concat_app. cbn [concat]. rewrite !app_nil_r. unfold tok_ids. rewrite fmap_app, app_assoc. done.
    - exact A8.
    - exists g2, m2. split; [|done]. unfold conll_line. rewrite (parse_line_ok _ _ (oo_format _ HO) HL). cbn [rbind]. rewrite <-Hv, E1. cbv zeta. rewrite E2. cbn [fst snd]. unfold tok_ids. by rewrite fmap_app.
  Qed.
  Lemma lines_step prev ls : ∀ ws ws' miss g, reading prev ws miss g → Forall (line_ok (co_format o)) ls → Forall2 (word_of o) (rows ls) ws' →
    NoDup (w_id <$> (ws ++ ws')) → Forall (λ w, no_colon (w_head w)) ws' →
    ∃ g' miss', loop (conll_line o (S (length prev)) (sent_id (S (length prev)))) (line_text <$> ls) (g, tok_ids (S (length prev)) ws) = ((g', tok_ids (S (length prev)) (ws ++ ws')), None) ∧ reading prev (ws ++ ws') miss' g'.
  Proof.
    induction ls as [|l ls IH]; intros ws ws' miss g HR HF HW ND HC.
    - apply Forall2_nil_inv_l in HW as ->. rewrite app_nil_r. by exists g, miss.
    - apply Forall_cons in HF as [Hl HF]. rewrite fmap_cons. cbn [loop]. destruct l as [c|vs].
      + assert (E : conll_line o (S (length prev)) (sent_id (S (length prev))) (line_text (LComment c)) (g, tok_ids (S (length prev)) ws) = ((g, tok_ids (S (length prev)) ws), None)) by reflexivity.
        rewrite E. by apply (IH ws ws' miss).
      + change (rows (LRow vs :: ls)) with (vs :: rows ls) in HW. apply Forall2_cons_inv_l in HW as (w & ws1 & Hw & HW & ->). apply Forall_cons in HC as [Hc HC].
        assert (Hnew : w_id w ∉ w_id <$> ws).
        { rewrite fmap_app in ND. apply NoDup_app in ND as (_ & H & _). intros Hin. apply (H _ Hin). left. }
        destruct (line_step prev ws miss g vs w HR Hl Hw Hnew Hc) as (g1 & m1 & E1 & HR1). rewrite E1.
        assert (Ea : ws ++ w :: ws1 = (ws ++ [w]) ++ ws1) by (by rewrite <-app_assoc). rewrite Ea in ND |- *. by apply (IH _ _ m1 g1).
  Qed.

  (** the start of a sentence *)
  Record finished (prev : list (list word)) (g : graph) : Prop := {
    fi_name : g_name g = name;
    fi_ns : g_ns g = ns;
    fi_root : g_root g = conll_root ns;
    fi_sents : g_sentences g = (λ i, NStr (sent_id (S i))) <$> seq 0 (length prev);
    fi_toks : g_tokens g = concat (conll_tokens prev);
    fi_grown : grown g (conll_nodes ns prev) (conll_edges ns prev) }.
  Lemma root_in prev : conll_root ns ∈ ids (conll_nodes ns prev).
  Proof. unfold conll_nodes, decour_base. rewrite !ids_app. apply elem_of_app. left. apply elem_of_app. right. left. Qed.
  Lemma sentence_start prev g : finished prev g → ∃ g', conll_sentence_node (S (length prev)) g = (g', None) ∧ reading prev [] [] g'.
  Proof.
    intros HR. set (i := S (length prev)). unfold conll_sentence_node. fold (sent_id i). cbv zeta. rewrite (fi_ns _ _ HR).
    destruct (grown_new g _ _ (NStr (sent_id i)) (VSet [ns; ns +:+ ":sentence"]) None [("tokens", VObj i)] [ns; ns +:+ ":sentence"] (fi_grown _ _ HR)) as (g1 & E1 & HG1 & (D1 & D2 & D3 & D4 & D5 & _)).
    { intros [H|(j & Hj & [H|(v & H)])]%conll_nodes_ids; [by apply sent_base in H| |by symmetry in H; apply tok_sent in H]. apply nstr_inj, sent_id_inj in H. unfold i in H. lia. }
    { by left. }
    rewrite E1. rewrite D2, (fi_ns _ _ HR), D3, (fi_root _ _ HR).
    destruct (grown_edge g1 _ _ (conll_root ns) (NStr (sent_id i)) (VSet [ns; ns +:+ ":sentence"]) None [("edge_type", VStr dominates)] [ns; ns +:+ ":sentence"] HG1) as (g2 & E2 & HG2 & (F1 & F2 & F3 & F4 & F5 & _)).
    { rewrite ids_app. apply elem_of_app. left. apply root_in. }
    { rewrite ids_app. apply elem_of_app. right. left. }
    { by left. }
    rewrite E2. eexists. split; [reflexivity|]. split; cbn [g_name g_ns g_root g_sentences g_tokens set_sentences].
    - rewrite F1, D1. apply (fi_name _ _ HR).
    - rewrite F2, D2. apply (fi_ns _ _ HR).
    - rewrite F3, D3. apply (fi_root _ _ HR).
    - rewrite F5, D5, (fi_sents _ _ HR). rewrite seq_S, fmap_app. done.
    - rewrite F4, D4, (fi_toks _ _ HR), conll_tokens_snoc, concat_app. cbn. by rewrite app_nil_r.
    - constructor.
    - intros h. cbn. rewrite elem_of_nil. tauto.
    - eapply grown_ext; [..|exact HG2]; done.
  Qed.
  Lemma sentence_end prev ws miss g : reading prev ws miss g → finished (prev ++ [ws]) g.
  Proof.
    intros HR. split; [apply (rd_name _ _ _ _ HR)|apply (rd_ns _ _ _ _ HR)|apply (rd_root _ _ _ _ HR)| |apply (rd_toks _ _ _ _ HR)|].
    - rewrite app_length, Nat.add_1_r. apply (rd_sents _ _ _ _ HR).
    - rewrite conll_nodes_snoc, conll_edges_snoc. eapply grown_perm; [|apply (rd_grown _ _ _ _ HR)]. f_equiv. unfold partial, sentence_nodes. f_equiv. f_equiv. unfold miss_nodes.
      apply fmap_Permutation. apply NoDup_Permutation; [apply (rd_nodup _ _ _ _ HR)|apply NoDup_remove_dups|]. intros h. unfold lost_heads. rewrite elem_of_remove_dups, elem_of_list_filter, (rd_miss _ _ _ _ HR). tauto.
  Qed.
  Lemma sentences_ok doc : ∀ prev wss g, finished prev g → Forall (λ ls, Forall (line_ok (co_format o)) ls ∧ split_char nl (sentence_text ls) = line_text <$> ls) doc → words_of_doc o doc wss →
    Forall plain_words wss →
    ∃ g', conll_sentences o (S (length prev)) (sentence_text <$> doc) (g, conll_tokens prev) = ((g', conll_tokens (prev ++ wss)), None) ∧ finished (prev ++ wss) g'.
  Proof.
    induction doc as [|ls doc IH]; intros prev wss g HR HF HW HP.
    - apply Forall2_nil_inv_l in HW as ->. rewrite app_nil_r. by exists g.
    - apply Forall2_cons_inv_l in HW as (ws & wss' & Hw & HW & ->). apply Forall_cons in HF as [[Hls Hsp] HF]. apply Forall_cons in HP as [[ND HC] HP].
      rewrite fmap_cons. cbn [conll_sentences fst snd]. destruct (sentence_start prev g HR) as (g1 & E1 & HR1). rewrite E1. fold (sent_id (S (length prev))). rewrite Hsp.
      destruct (lines_step prev ls [] ws [] g1 HR1 Hls Hw ND HC) as (g2 & m2 & E2 & HR2). change (tok_ids (S (length prev)) []) with (@nil nid) in E2. rewrite E2. cbn [app].
      apply sentence_end in HR2. cbn [app] in HR2. destruct (IH (prev ++ [ws]) wss' g2 HR2 HF HW HP) as (g3 & E3 & HR3).
      rewrite app_length, Nat.add_1_r, conll_tokens_snoc in E3. rewrite <-app_assoc in E3, HR3. cbn [app] in E3, HR3. by exists g3.
  Qed.
  Lemma conll_start : ∃ g, add_node (set_document name ns (conll_root ns) (init_graph "" "discoursegraph" None)) (conll_root ns) (VSet [ns]) None [] = (g, None) ∧ finished [] g.
  Proof.
    set (g0 := set_document name ns (conll_root ns) (init_graph "" "discoursegraph" None)).
    assert (HB0 : built g0 [(NStr "discoursegraph:root_node", ["discoursegraph"], [])] []) by (eapply built_ext; [..|apply (built_init "" "discoursegraph")]; done).
    destruct (built_node g0 _ _ (conll_root ns) (VSet [ns]) None [] [ns] HB0) as (g1 & E1 & HB1 & (Hn & Hns & Hr & Ht & Hs & _)); [by left|].
    exists g1. split; [done|]. split; [by rewrite Hn|by rewrite Hns|by rewrite Hr|by rewrite Hs|by rewrite Ht|].
    exists (decour_base ns). split; [unfold conll_nodes; cbn; by rewrite app_nil_r|]. 
    eapply built_same; [exact HB1|]. unfold note, decour_base, decour_root, conll_root. change (ids [(NStr "discoursegraph:root_node", ["discoursegraph"], [])]) with [NStr "discoursegraph:root_node"].
    destruct (decide (ns = "discoursegraph")) as [->|Hne].
    - rewrite decide_True by left. cbn [fmap list_fmap]. constructor; [|constructor]. rewrite decide_True by done. split; [done|]. cbn. split; [|done]. intros z. rewrite !elem_of_cons, elem_of_nil. tauto.
    - rewrite decide_False. { constructor; [done|]. constructor; [|constructor]. done. }
      intros H%elem_of_list_singleton. apply nstr_inj in H. apply Hne. apply (f_equal chs) in H. rewrite chs_app in H. change (chs "discoursegraph:root_node") with (chs "discoursegraph" ++ chs ":root_node") in H.
      apply app_inj_2 in H as [H _]; [|done]. by apply chs_inj.
  Qed.
  Lemma read_ok doc wss text : readable (co_format o) doc → written doc text → words_of_doc o doc wss → Forall plain_words wss →
    ∃ g, read_conll name ns o false text = ((g, conll_tokens wss), None) ∧ finished wss g.
  Proof.
    intros HR HT HW HP. destruct (read_text _ _ _ HR HT) as [E1 E2]. destruct conll_start as (g0 & E0 & HR0).
    assert (HF : Forall (λ ls, Forall (line_ok (co_format o)) ls ∧ split_char nl (sentence_text ls) = line_text <$> ls) doc).
    { destruct HR as [HF _]. rewrite Forall_forall in HF, E2 |- *. intros ls Hls. split; [by apply HF|by apply E2]. }
    destruct (sentences_ok doc [] wss g0 HR0 HF HW HP) as (g & E & HRg). cbn [app length] in E, HRg. exists g. split; [|done].
    unfold read_conll. fold (conll_root ns). cbv zeta. rewrite E0, (decide_True _ _ (oo_format _ HO)), E1. change (@nil (list nid)) with (conll_tokens []). by rewrite E.
  Qed.

  (** ** Any file *)
  Definition weak (g : graph) : Prop := (∃ N E, built g N E) ∧ g_ns g = ns.
  Lemma weak_node g n l ad attr : weak g → l ≠ [] → ∃ g', add_node g n (VSet l) ad attr = (g', None) ∧ weak g'.
  Proof.
    intros [(N & E & HB) Hns] Hl. destruct (built_node g N E n (VSet l) ad attr l HB) as (g' & H1 & H2 & H3); [by left|]. exists g'. split; [done|]. split; [by eexists _, _|]. destruct H3 as (_ & -> & _). done.
  Qed.
  Lemma weak_edge g u v l ad attr : weak g → l ≠ [] → ∃ g', add_edge g u v (VSet l) None ad attr = (g', None) ∧ weak g'.
  Proof.
    intros [(N & E & HB) Hns] Hl. destruct (built_edge g N E u v (VSet l) ad attr l HB) as (g' & H1 & H2 & H3); [by left|]. exists g'. split; [done|]. split; [by eexists _, _|]. destruct H3 as (_ & -> & _). done.
  Qed.
  Lemma weak_ext g g' : g_node g' = g_node g → g_succ g' = g_succ g → g_pred g' = g_pred g → g_ns g' = g_ns g → weak g → weak g'.
  Proof. intros ???? [(N & E & HB) Hns]. split; [|congruence]. exists N, E. by eapply built_ext. Qed.
  Lemma weak_line i l s : weak s.1 → line_ok (co_format o) l → ∃ s', conll_line o i (sent_id i) (line_text l) s = (s', None) ∧ weak s'.1.
  Proof.
    intros HG Hl. unfold conll_line. rewrite (parse_line_ok _ _ (oo_format _ HO) Hl). destruct l as [c|vs]; [by exists s|]. 
    destruct (word_total o vs HO Hl) as (w & Hw). destruct (feats_ok o ns vs w HO Hw) as (d & Ed & _). pose proof Hw as (Hi & _ & _ & Hh & Hd & _ & Hv).
    rewrite value_dget in Hi, Hh, Hd by apply NoDup_columns. rewrite <-Hv in Hi, Hh, Hd |- *. destruct s as [g ts]. cbn [fst] in HG.
    unfold conll_add_token. rewrite Hi. cbn [of_option rbind]. rewrite (proj2 HG), Ed. cbn [rbind].
    destruct (weak_node g (NStr (conll_token_id (sent_id i) (w_id w))) [ns; ns +:+ ":token"] (Some d) [("sent_pos", VInt (Z.of_nat i))] HG) as (g1 & E1 & HG1); [done|]. rewrite E1. cbv zeta.
    set (g2 := set_tokens _ g1). assert (HG2 : weak g2) by (by apply (weak_ext g1)). clearbody g2.
    unfold conll_add_dependency. rewrite Hh, Hd, Hi. cbn [of_option rbind]. cbv zeta. generalize (NStr (if decide (w_head w = "0") then sent_id i else conll_token_id (sent_id i) (w_head w))) as src. intros src.
    assert (∃ g3, (if decide (w_head w = "0" ∨ src ∈ nodes g2) then (g2, None) else add_node g2 src (VSet [g_ns g2]) None []) = (g3, None) ∧ weak g3) as (g3 & E3 & HG3).
    { destruct (decide _); [exists g2; split; [reflexivity|exact HG2]|]. rewrite (proj2 HG2). apply weak_node; [exact HG2|discriminate]. }
    rewrite E3. destruct (weak_edge g3 src (NStr (conll_token_id (sent_id i) (w_id w))) [g_ns g3; g_ns g3 +:+ ":dependency"] None [("relation_type", VStr (w_rel w)); ("label", VStr (w_rel w)); ("edge_type", VStr dominates)] HG3) as (g4 & E4 & HG4); [done|].
    rewrite E4. eexists. split; [reflexivity|done].
  Qed.
  Definition to_line (l : chars) : line := match l with "#"%char :: c => LComment c | _ => LRow (split_char Brat.tab l) end.
  Lemma to_line_row l : head l ≠ Some "#"%char → to_line l = LRow (split_char Brat.tab l).
  Proof. intros H. unfold to_line. destruct l as [|c s]; [done|]. destruct c as [[] [] [] [] [] [] [] []]; try reflexivity. by destruct H. Qed.
  Lemma to_line_text l : line_text (to_line l) = l.
  Proof.
    destruct (decide (head l = Some "#"%char)) as [H|H]; [destruct l as [|c l]; [done|]; by injection H as ->|].
    rewrite to_line_row by done. cbn [line_text]. symmetry. by apply (split_inv Brat.tab l _ eq_refl).
  Qed.
  Definition conll_errors : list exc := [TypeError; ValueError].
  Lemma line_cases i l s : nl ∉ l → line_ok (co_format o) (to_line l) ∨ ∃ s' e, conll_line o i (sent_id i) l s = (s', Some e) ∧ e ∈ conll_errors.
  Proof.
    intros Hnl. destruct (decide (head l = Some "#"%char)) as [Hh|Hh].
    { left. destruct l as [|c l]; [done|]. injection Hh as ->. cbn. intros H. apply Hnl. by right. }
    rewrite to_line_row by done. pose proof (oo_format _ HO) as Hf. 
    assert (Ep : conll_parse_line (co_format o) l = let fields := if decide (co_format o = "2009") then take 14 (split_char Brat.tab l) else split_char Brat.tab l in
      if decide (length fields = length (conll_columns (co_format o))) then Ok (Some (conll_row_dict (co_format o) fields)) else Err TypeError).
    { unfold conll_parse_line. destruct l as [|c s']; [done|]. destruct c as [[] [] [] [] [] [] [] []]; try reflexivity. by destruct Hh. }
    cbv zeta in Ep. set (vs := split_char Brat.tab l) in *. destruct (split_inv Brat.tab l vs eq_refl) as (Hne & HFt & Hj). 
    assert (HF : Forall (λ v, tab ∉ v ∧ newline ∉ v) vs).
    { assert (HN : Forall (λ v, newline ∉ v) vs).
      { apply Forall_forall. intros v Hv Hin. apply Hnl. rewrite Hj. clear -Hv Hin. revert Hv. induction vs as [|x vs IH]; intros Hv; [by apply elem_of_nil in Hv|].
        destruct vs as [|y vs]; [apply elem_of_list_singleton in Hv as ->; done|]. rewrite joined_two. apply elem_of_app. apply elem_of_cons in Hv as [->|Hv]; [by left|]. right. cbn [app]. right. by apply IH. }
      rewrite Forall_forall in HFt, HN |- *. intros v Hv. split; [by apply HFt|by apply HN]. }
    assert (Hlen : (if decide (co_format o = "2010") then length vs = length (columns (co_format o)) else length (columns (co_format o)) ≤ length vs) ∨ conll_line o i (sent_id i) l s = (s, Some TypeError)).
    { unfold conll_line. rewrite Ep. rewrite (columns_model _ Hf). clear -Hf. rewrite !elem_of_cons, elem_of_nil in Hf. destruct Hf as [-> | [-> | []]].
      - change (length (columns "2009")) with 14. destruct (decide ("2009" = "2010")); [done|]. destruct (decide ("2009" = "2009")); [|done]. rewrite take_length. destruct (decide (14 `min` length vs = 14)); [left; lia|by right].
      - destruct (decide ("2010" = "2010")); [|done]. destruct (decide ("2010" = "2009")); [done|]. destruct (decide (length vs = _)); [by left|by right]. }
    destruct Hlen as [Hlen|Hlen]; [|right; exists s, TypeError; split; [done|left]].
    assert (Hlen' : length (columns (co_format o)) ≤ length vs) by (destruct (decide _) in Hlen; lia).
    destruct (columns (co_format o)) as [|c0 cs] eqn:Ec; [pose proof (columns_length (co_format o)) as H; rewrite Ec in H; cbn in H; lia|].
    assert (c0 = "word_id") as ->. { unfold columns in Ec. by injection Ec. }
    destruct vs as [|v vs'] eqn:Evs; [done|]. 
    destruct (int_of v) as [z|e] eqn:Ez.
    - left. split; [done|]. split; [exact (eq_ind l (λ x, head x ≠ Some "#"%char) Hh _ Hj)|]. split; [by rewrite Ec|]. exists (str v), z. split; [exists 0; rewrite Ec, chs_str; done|]. apply is_integer_int. by rewrite chs_str.
    - right. exists s, e. split.
      + unfold conll_line. 
        assert (Ed : conll_parse_line (co_format o) l = Ok (Some (zip (columns (co_format o)) (str <$> (v :: vs'))))).
        { rewrite Ep. unfold conll_row_dict. rewrite (columns_model _ Hf). rewrite <-Ec in Hlen, Hlen'. clear -Hlen Hlen' Hf. rewrite !elem_of_cons, elem_of_nil in Hf. destruct Hf as [E | [E | []]]; rewrite E in *.
          - destruct (decide ("2009" = "2009")); [|done]. change (length (columns "2009")) with 14 in *. rewrite decide_True by (rewrite take_length; lia). rewrite fmap_take. by rewrite (zip_take (columns "2009")).
          - destruct (decide ("2010" = "2009")); [done|]. destruct (decide ("2010" = "2010")); [|done]. by rewrite decide_True. }
        rewrite Ed, Ec. rewrite fmap_cons. cbn [zip zip_with]. unfold conll_add_token. cbn [dget]. destruct (decide ("word_id" = "word_id")); [|done]. cbn [of_option rbind]. unfold conll_feats.
        assert (Et : ∃ t, dget "token" (("word_id", str v) :: zip cs (str <$> vs')) = Some t).
        { unfold columns in Ec. injection Ec as <-. destruct vs' as [|t vs']; [cbn in Hlen'; lia|]. by exists (str t). }
        destruct Et as (t & Et). change (zip_with pair cs (str <$> vs')) with (zip cs (str <$> vs')) in *. rewrite Et. cbn [dget]. destruct (decide ("word_id" = "word_id")); [|done]. cbn [of_option rbind]. rewrite chs_str, Ez. cbn [rbind]. by destruct s.
      + assert (He : e = ValueError). { unfold int_of, py_int in Ez. cbv zeta in Ez. clear -Ez. 
          assert (HD : ∀ (d : chars) e', (if decide (d = []) then Err ValueError else if all_digits_b d then Ok (Z.of_N (dec_val d)) else Err ValueError) = Err e' → e' = ValueError).
          { intros d e' H. destruct (decide (d = [])) in H; [by injection H|]. destruct (all_digits_b d) in H; [done|by injection H]. }
          destruct (strip v) as [|x s] eqn:Es; [by apply (HD []) in Ez|].
          destruct (decide (x = "-"%char)) as [->|Hm]; [|destruct (decide (x = "+"%char)) as [->|Hp]].
          - destruct (decide (s = [])) in Ez; [by injection Ez|]. destruct (all_digits_b s) in Ez; [done|by injection Ez].
          - by apply HD in Ez.
          - apply (HD (x :: s)). rewrite <-Ez. clear -Hm Hp. destruct x as [[] [] [] [] [] [] [] []]; try reflexivity; done. }
        subst e. right. left.
  Qed.
  Definition good_line (l : chars) : Prop := line_ok (co_format o) (to_line l).
  Lemma lines_good i ls : ∀ s, weak s.1 → Forall good_line ls → ∃ s', loop (conll_line o i (sent_id i)) ls s = (s', None) ∧ weak s'.1.
  Proof.
    induction ls as [|l ls IH]; intros s HG HF; [by exists s|]. apply Forall_cons in HF as [Hl HF]. cbn [loop].
    destruct (weak_line i _ s HG Hl) as (s1 & E1 & HG1). rewrite to_line_text in E1. rewrite E1. by apply IH.
  Qed.
  Lemma lines_cases i ls : ∀ s, weak s.1 → Forall (λ l, nl ∉ l) ls → Forall good_line ls ∨ ∃ s' e, loop (conll_line o i (sent_id i)) ls s = (s', Some e) ∧ e ∈ conll_errors.
  Proof.
    induction ls as [|l ls IH]; intros s HG HF; [left; constructor|]. apply Forall_cons in HF as [Hl HF]. cbn [loop].
    destruct (line_cases i l s Hl) as [Hok|(s1 & e & E1 & He)]; [|right; exists s1, e; by rewrite E1].
    destruct (weak_line i _ s HG Hok) as (s1 & E1 & HG1). rewrite to_line_text in E1. rewrite E1.
    destruct (IH s1 HG1 HF) as [HF'|?]; [left; by constructor|by right].
  Qed.
  Definition good_sentence (p : chars) : Prop := Forall good_line (split_char nl p).
  Lemma weak_sentence i g : weak g → ∃ g', conll_sentence_node i g = (g', None) ∧ weak g'.
  Proof.
    intros HG. unfold conll_sentence_node. cbv zeta. destruct (weak_node g (NStr ("s" +:+ str_Z (Z.of_nat i))) [g_ns g; g_ns g +:+ ":sentence"] None [("tokens", VObj i)] HG) as (g1 & E1 & HG1); [done|]. rewrite E1.
    destruct (weak_edge g1 (g_root g1) (NStr ("s" +:+ str_Z (Z.of_nat i))) [g_ns g1; g_ns g1 +:+ ":sentence"] None [("edge_type", VStr dominates)] HG1) as (g2 & E2 & HG2); [done|]. rewrite E2.
    eexists. split; [reflexivity|]. by apply (weak_ext g2).
  Qed.
  Lemma sentences_good ps : ∀ i s, weak s.1 → Forall good_sentence ps → ∃ s', conll_sentences o i ps s = (s', None) ∧ weak s'.1.
  Proof.
    induction ps as [|p ps IH]; intros i s HG HF; [by exists s|]. apply Forall_cons in HF as [Hp HF]. cbn [conll_sentences].
    destruct (weak_sentence i s.1 HG) as (g1 & E1 & HG1). rewrite E1. fold (sent_id i).
    destruct (lines_good i (split_char nl p) (g1, []) HG1 Hp) as ([g2 ts] & E2 & HG2). rewrite E2. by apply IH.
  Qed.
  Lemma sentences_cases ps : ∀ i s, weak s.1 → Forall good_sentence ps ∨ ∃ s' e, conll_sentences o i ps s = (s', Some e) ∧ e ∈ conll_errors.
  Proof.
    induction ps as [|p ps IH]; intros i s HG; [left; constructor|]. cbn [conll_sentences].
    destruct (weak_sentence i s.1 HG) as (g1 & E1 & HG1). rewrite E1. fold (sent_id i).
    destruct (lines_cases i (split_char nl p) (g1, []) HG1) as [Hp|(s' & e & E2 & He)]; [apply (split_inv nl p _ eq_refl)| |right; rewrite E2; destruct s' as [g2 ts]; by eexists _, e].
    destruct (lines_good i (split_char nl p) (g1, []) HG1 Hp) as ([g2 ts] & E2 & HG2). rewrite E2.
    destruct (IH (S i) (g2, s.2 ++ [ts]) HG2) as [HF|?]; [left; by constructor|by right].
  Qed.
  Lemma finished_weak prev g : finished prev g → weak g.
  Proof. intros HR. destruct (fi_grown _ _ HR) as (N & _ & HB). split; [by eexists _, _|apply (fi_ns _ _ HR)]. Qed.
  Lemma to_line_ok l : line_ok (co_format o) l → to_line (line_text l) = l.
  Proof.
    intros Hl. destruct l as [c|vs]; [done|]. pose proof (line_ok_length _ _ Hl) as Hlen. pose proof (columns_length (co_format o)). destruct Hl as (HF & Hh & _). cbn [line_text]. rewrite to_line_row by done. f_equal.
    apply split_joined; [intros ->; cbn in Hlen; lia|]. eapply Forall_impl; [exact HF|]. by intros v [? _].
  Qed.
  Lemma read_good text : (∃ doc, readable (co_format o) doc ∧ written doc text) → ∃ s, read_conll name ns o false text = (s, None).
  Proof.
    intros (doc & HR & HT). destruct (read_text _ _ _ HR HT) as [E1 E2]. destruct conll_start as (g0 & E0 & HR0).
    destruct (sentences_good (sentence_text <$> doc) 1 (g0, [])) as ([g ls] & E & _); [by eapply finished_weak| |].
    - apply Forall_fmap. destruct HR as [HF _]. rewrite Forall_forall in HF, E2 |- *. intros ls Hls. unfold compose, good_sentence. rewrite (E2 ls Hls). apply Forall_fmap.
      destruct (HF ls Hls) as [_ HL]. eapply Forall_impl; [exact HL|]. intros l Hl. unfold compose, good_line. by rewrite to_line_ok.
    - unfold read_conll. fold (conll_root ns). cbv zeta. rewrite E0, (decide_True _ _ (oo_format _ HO)), E1, E. by eexists.
  Qed.
  Lemma paragraphs_joined s : joined [newline; newline] (split_paragraphs s) = s ∧ split_paragraphs s ≠ [].
  Proof.
    remember (length s) as n eqn:En. revert s En. induction (lt_wf n) as [n _ IH]. intros s ->. destruct s as [|c [|d s]]; [done|done|]. rewrite split_two. destruct (decide _) as [[-> ->]|Hn].
    - destruct (IH (length s) ltac:(cbn; lia) s eq_refl) as [E1 E2]. split; [|done]. destruct (split_paragraphs s) as [|p ps]; [done|]. rewrite joined_two, E1. done.
    - destruct (IH (length (d :: s)) ltac:(cbn; lia) (d :: s) eq_refl) as [E1 E2]. destruct (split_paragraphs (d :: s)) as [|p ps]; [done|]. split; [|done].
      destruct ps as [|q ps]; [cbn in E1 |- *; by rewrite E1|]. rewrite joined_two in *. cbn [app]. by rewrite <-E1.
  Qed.
  Lemma read_bad text precedence : (∀ doc, readable (co_format o) doc → ¬ written doc text) → ∃ s e, read_conll name ns o precedence text = (s, Some e) ∧ e ∈ conll_errors.
  Proof.
    intros HN. destruct conll_start as (g0 & E0 & HR0). unfold read_conll. fold (conll_root ns). cbv zeta. rewrite E0, (decide_True _ _ (oo_format _ HO)).
    destruct (sentences_cases (split_paragraphs (strip text)) 1 (g0, []) (finished_weak _ _ HR0)) as [HF|(s & e & E & He)]; [|rewrite E; destruct s as [g1 l1]; by exists (g1, l1), e].
    exfalso. set (ps := split_paragraphs (strip text)) in *. set (doc := (λ p, to_line <$> split_char nl p) <$> ps).
    assert (Ed : sentence_text <$> doc = ps).
    { unfold doc. rewrite <-list_fmap_compose. rewrite <-(list_fmap_id ps) at 2. apply list_fmap_ext. intros i p _. unfold compose, sentence_text. rewrite <-list_fmap_compose.
      transitivity (joined [newline] (id <$> split_char nl p)); [f_equal; apply list_fmap_ext; intros j l _; apply to_line_text|]. rewrite list_fmap_id. symmetry. apply (split_inv nl p _ eq_refl). }
    destruct (paragraphs_joined (strip text)) as [Ej Hne]. destruct (strip_split text) as (pre & post & H1 & H2 & H3 & H4).
    assert (Hgood : Forall (λ p, ∃ l ls, split_char nl p = l :: ls ∧ l ≠ []) ps).
    { eapply Forall_impl; [exact HF|]. intros p Hp. unfold good_sentence in Hp. destruct (split_inv nl p _ eq_refl) as (Hn & _). destruct (split_char nl p) as [|l ls]; [done|]. exists l, ls. split; [done|].
      apply Forall_cons in Hp as [Hl _]. apply line_text_ok in Hl as [Hl _]. by rewrite to_line_text in Hl. }
    apply (HN doc).
    - split.
      + unfold doc. apply Forall_fmap. eapply Forall_impl; [exact HF|]. intros p Hp. unfold compose. split; [|by apply Forall_fmap]. destruct (split_inv nl p _ eq_refl) as (Hn & _). by destruct (split_char nl p).
      + rewrite Ed. unfold ps. rewrite Ej. destruct H4 as [H4|H4]; [|done]. exfalso. unfold ps in Hgood. rewrite H4 in Hgood. cbn in Hgood. apply Forall_cons in Hgood as [(l & ls & E & Hl) _]. injection E as <- _. done.
    - exists pre, post. split; [done|]. split; [done|]. rewrite Ed. unfold ps. by rewrite Ej.
  Qed.
End read.
