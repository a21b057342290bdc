(** * TigerSent: one sentence *)
From Verif Require Import PyBase DocGraph Relabel StrNum Query Text Rst Nltk Parsers Anaphora Conano Decour Ptb Convert Tiger.
From Verif Require Import SpecGraph SpecConvert DocGraphFacts History Effects RelabelFacts MergeFacts AllHist MergeAll GraphThms SpecImport ImportFacts PtbFacts AnaphoraFacts ConanoFacts ConvertFacts TextFacts SpecTiger TigerFacts TigerWalk.

Definition bare_graph (name ns : string) (root : nid) : graph := mkGraph name ns root [] [] [] [] [] [].
Lemma removed_root' ns : remove_node (init_graph "" ns None) (g_root (init_graph "" ns None)) = (bare_graph "" ns (NStr (ns +:+ ":root_node")), None).
Proof.
  unfold init_graph, add_node. cbn. unfold remove_node. cbn. rewrite !decide_True by done. cbn [foldl dkeys fmap list_fmap dget ddel]. rewrite !decide_True by done. reflexivity.
Qed.
Lemma built_bare name ns root : built (bare_graph name ns root) [] [].
Proof. eapply built_ext; [..|exact built_empty]; done. Qed.
Lemma alone_degree g N E n : built g N E → node_degree g n = 0 ↔ alone E n.
Proof.
  intros HB. rewrite degree_ok by apply HB. unfold degree, alone. destruct (b_edges _ _ _ HB) as (es & HP & HE).
  assert (H : Forall (λ e : nid * nid * nid * attrs, e.1.1.1 ≠ n ∧ e.1.1.2 ≠ n) (edges g) ↔ Forall (λ e : edge_info, e.1.1.1 ≠ n ∧ e.1.1.2 ≠ n) E).
  { rewrite HP. clear HP HB. induction HE as [|e x es E (H1 & H2 & _) _ IH]; [by split|]. rewrite !Forall_cons, IH, H1, H2. done. }
  rewrite <-H. rewrite Forall_forall. split.
  - intros HD [[[u v] k] a] Hin. cbn. split; intros ->.
    + assert (HL : length (filter (λ e : nid * nid * nid * attrs, e.1.1.1 = n) (edges g)) = 0) by lia.
      apply nil_length_inv in HL. assert (HI : (n, v, k, a) ∈ filter (λ e : nid * nid * nid * attrs, e.1.1.1 = n) (edges g)) by (by apply elem_of_list_filter).
      rewrite HL in HI. by apply elem_of_nil in HI.
    + assert (HL : length (filter (λ e : nid * nid * nid * attrs, e.1.1.2 = n) (edges g)) = 0) by lia.
      apply nil_length_inv in HL. assert (HI : (u, n, k, a) ∈ filter (λ e : nid * nid * nid * attrs, e.1.1.2 = n) (edges g)) by (by apply elem_of_list_filter).
      rewrite HL in HI. by apply elem_of_nil in HI.
  - intros HF. assert (Hz : ∀ P : nid * nid * nid * attrs → Prop, ∀ `{!∀ x, Decision (P x)}, (∀ e, e ∈ edges g → ¬ P e) → length (filter P (edges g)) = 0).
    { intros P ? HP'. replace (filter P (edges g)) with ([] : list (nid * nid * nid * attrs)); [done|]. symmetry. apply elem_of_nil_inv. intros e [He Hin]%elem_of_list_filter. by apply (HP' e). }
    rewrite !Hz; [done|..]; intros e Hin; naive_solver.
Qed.
Lemma unconnected_ok g N E : built g N E →
  unconnected_nodes g = if decide (1 < length (ids N)) then filter (alone E) (ids N) else [].
Proof.
  intros HB. unfold unconnected_nodes. assert (HN : nodes g = ids N) by apply (b_nodes _ _ _ HB). rewrite HN.
  destruct (decide _) as [H|H].
  - apply list_filter_iff. intros n. rewrite (alone_degree _ _ _ n HB). tauto.
  - apply elem_of_nil_inv. intros n [[_ ?] _]%elem_of_list_filter. done.
Qed.
Lemma attach_ok ns M us : ∀ g E, g_ns g = ns → built g (described ns M) E → g_root g ∈ who <$> M → Forall (λ n, n ∈ who <$> M) us →
  ∃ g', loop tiger_attach us g = (g', None) ∧ same_doc g g' ∧ built g' (described ns M) (E ++ (attached ns (g_root g) <$> us)).
Proof.
  induction us as [|u us IH]; intros g E Hns HB Hr Hu.
  - exists g. cbn. rewrite app_nil_r. split; [done|]. split; [apply same_doc_refl|done].
  - apply Forall_cons in Hu as [Hu Hus]. cbn [loop]. unfold tiger_attach at 1. rewrite Hns.
    destruct (edge_ok g ns M E (g_root g) u [ns; ns +:+ ":sentence"; ns +:+ ":unconnected"] None [("edge_type", VStr dominates)] HB Hr Hu) as (g1 & E1 & D1 & B1); [done|].
    rewrite E1. specialize (B1 [("edge_type", VStr dominates)] (λ k, eq_refl)).
    assert (HR : g_root g1 = g_root g) by (destruct D1; naive_solver).
    destruct (IH g1 _ (eq_trans (sd_ns _ _ D1) Hns) B1) as (g2 & E2 & D2 & B2); [by rewrite HR|done|].
    exists g2. split; [done|]. split; [by eapply same_doc_trans|]. rewrite HR, <-app_assoc in B2. exact B2.
Qed.
(** ** The whole sentence *)
Lemma last_label_Some es l : is_Some (last_label es l) ↔ es ≠ [] ∨ is_Some l.
Proof. destruct es as [|e es]; cbn; [naive_solver|]. split; [by left|]. intros _. by eexists. Qed.
Lemma labelled_ok ps : (∀ pre n post, ps = pre ++ n :: post → secedges_in n ≠ [] → (p ← pre ++ [n]; edges_in p) ≠ []) → labelled None ps.
Proof.
  assert (G : ∀ ps l, (∀ pre n post, ps = pre ++ n :: post → secedges_in n ≠ [] → is_Some l ∨ (p ← pre ++ [n]; edges_in p) ≠ []) → labelled l ps).
  { clear. induction ps as [|n ps IH]; intros l H; [done|]. split.
    - intros Hs. apply last_label_Some. destruct (H [] n ps eq_refl Hs) as [Hl|Hl]; [by right|]. left. cbn in Hl. by rewrite app_nil_r in Hl.
    - apply IH. intros pre m post -> Hs. rewrite last_label_Some. destruct (H (n :: pre) m post eq_refl Hs) as [Hl|Hl]; [left; by right|].
      rewrite <-app_comm_cons, bind_cons in Hl. destruct (edges_in n) eqn:En; [right; exact Hl|left; left; done]. }
  intros H. apply G. intros pre n post E Hs. right. by eapply H.
Qed.
Lemma toks_token_mentions ns ts : toks_of (t ← ts; token_mentions ns t) = node_of "id" <$> ts.
Proof.
  induction ts as [|t ts IH]; [done|]. rewrite bind_cons, toks_app, IH. unfold token_mentions.
  change (toks_of ((node_of "id" t, AToken, token_feats ns t) :: targets (secedges_in t))) with (node_of "id" t :: toks_of (targets (secedges_in t))). by rewrite toks_targets.
Qed.
Lemma based_token_mentions ns ts : based (t ← ts; token_mentions ns t).
Proof.
  induction ts as [|t ts IH]; [constructor|]. rewrite bind_cons. apply Forall_app. split; [|done]. apply List.Forall_cons; [done|apply based_targets].
Qed.
Lemma toks_phrase_mentions ns ts : toks_of (t ← ts; phrase_mentions ns t) = [].
Proof.
  induction ts as [|t ts IH]; [done|]. rewrite bind_cons, toks_app, IH. unfold phrase_mentions.
  change (toks_of ((node_of "id" t, APhrase, phrase_feats ns t) :: targets (edges_in t ++ secedges_in t))) with (toks_of (targets (edges_in t ++ secedges_in t))). by rewrite toks_targets.
Qed.
Lemma dget_fold_attrs k l (a : attrs) : dget k (foldl (λ a (m : mention), dupdate a m.2) a l) =
  match last (omap (λ m : mention, dget k m.2) l) with Some v => Some v | None => dget k a end.
Proof.
  revert a. induction l as [|m l IH] using rev_ind; intros a; [done|]. rewrite foldl_app, omap_app, last_app. cbn. rewrite dget_dupdate.
  destruct (dget k m.2); cbn; [done|]. apply IH.
Qed.
Lemma attrs_given_Some n M k : is_Some (dget k (attrs_given n M)) ↔ ∃ m, m ∈ M ∧ who m = n ∧ is_Some (dget k m.2).
Proof.
  unfold attrs_given. rewrite dget_fold_attrs. cbn [dget]. split.
  - intros (v & H). destruct (last _) eqn:E; [|done]. apply last_Some_elem_of in E. apply elem_of_list_omap in E as (m & [Hw Hm]%elem_of_list_filter & Hv). exists m. split; [done|]. split; [done|]. by eexists.
  - intros (m & Hm & Hw & v & Hv). destruct (last _) eqn:E; [by eexists|]. apply last_None in E.
    assert (Hin : v ∈ omap (λ m : mention, dget k m.2) (about n M)). { apply elem_of_list_omap. exists m. split; [by apply elem_of_list_filter|done]. }
    rewrite E in Hin. by apply elem_of_nil in Hin.
Qed.
Lemma root_token i ns x n : no_token_att x → is_Some (dget (ns +:+ ":token") (attrs_given n (base_mentions i ns x))) ↔ n ∈ token_ids x.
Proof.
  intros HT. rewrite attrs_given_Some. unfold base_mentions, token_ids. rewrite elem_of_list_fmap. split.
  - intros (m & Hm & <- & Hk). rewrite elem_of_cons, elem_of_app, elem_of_cons in Hm. destruct Hm as [->|[Hm|[->|Hm]]].
    + by destruct Hk.
    + apply elem_of_list_bind in Hm as (t & Hm & Ht). unfold token_mentions, targets in Hm. rewrite elem_of_cons, elem_of_list_fmap in Hm. destruct Hm as [->|(e & -> & He)]; [by exists t|by destruct Hk].
    + destruct Hk as (v & Hk). cbn in Hk. destruct (decide _) as [E|E]; [|done]. exfalso. revert E. apply not_eq_sym. nc.
    + apply elem_of_list_bind in Hm as (t & Hm & Ht). unfold phrase_mentions, targets in Hm. rewrite elem_of_cons, elem_of_list_fmap in Hm. destruct Hm as [->|(e & -> & He)]; [|by destruct Hk].
      destruct Hk as (v & Hk). cbn in Hk. destruct (decide _) as [E|E]; [exfalso; revert E; apply not_eq_sym; nc|].
      change (ns +:+ ":token") with (ns +:+ ":" +:+ "token") in Hk. rewrite dget_in_ns in Hk. destruct (dget "token" (x_attrib t)) eqn:Et; [|done]. destruct (HT t Ht). by eexists.
  - intros (t & -> & Ht). exists (node_of "id" t, AToken, token_feats ns t). split.
    + apply elem_of_cons. right. apply elem_of_app. left. apply elem_of_list_bind. exists t. split; [left|done].
    + split; [done|]. cbn. destruct (decide _); [by eexists|]. rewrite decide_True by done. by eexists.
Qed.
Lemma good_tokens x : well_formed x → complete x → Forall good_token (tokens_in x).
Proof.
  intros HW HC. apply Forall_forall. intros t Ht. destruct (k_tokens _ HC t Ht) as (H1 & H2 & H3). split; [done|]. split; [done|]. split.
  - apply HW. apply elem_of_app. by left.
  - apply Forall_forall. intros e He. split; [by apply H3|]. apply HW. apply elem_of_app. right. apply elem_of_app. right. apply elem_of_list_bind. exists t. split; apply elem_of_app; [by right|by left].
Qed.
Lemma good_phrases x : well_formed x → complete x → Forall good_phrase (phrases_in x).
Proof.
  intros HW HC. apply Forall_forall. intros t Ht. destruct (k_phrases _ HC t Ht) as (H1 & H2 & H3 & H4). split; [done|]. split; [done|].
  assert (HE : ∀ e, e ∈ edges_in t ++ secedges_in t → NoDup (dkeys (x_attrib e))).
  { intros e He. apply HW. apply elem_of_app. right. apply elem_of_app. right. apply elem_of_list_bind. exists t. split; [done|]. apply elem_of_app. by right. }
  split; [apply HW; apply elem_of_app; right; apply elem_of_app; by left|]. split; apply Forall_forall; intros e He.
  - destruct (H3 e He). split; [done|]. split; [done|]. apply HE, elem_of_app. by left.
  - split; [by apply H4|]. apply HE, elem_of_app. by right.
Qed.
Lemma sentence_ok i ns x : well_formed x → complete x → no_token_att x →
  ∃ g, tiger_sentence i ns x = ((g, nat_sorted (token_ids x)), None) ∧
    built g (described ns (mentions i ns x)) (sentence_edges i ns x) ∧
    g_name g = att "id" x ∧ g_ns g = ns ∧ g_root g = final_root ns x ∧ g_tokens g = nat_sorted (token_ids x) ∧ g_sentences g = [].
Proof.
  intros HW HC HT. unfold tiger_sentence. rewrite removed_root'. destruct (k_root _ HC) as (y & Hy & Hr).
  assert (EF : x_find "graph" x = Some y) by (unfold x_find; by rewrite findall_elements). rewrite EF. cbn [of_option rbind]. rewrite (x_get_ok _ _ Hr).
  assert (ER : NStr (att "root" y) = sentence_root x) by (unfold sentence_root; by rewrite Hy).
  rewrite ER. set (g0 := set_name _ _).
  assert (B0 : built g0 (described ns []) []) by (eapply built_ext; [..|exact (built_bare "" ns (NStr (ns +:+ ":root_node")))]; done).
  unfold tiger_sentence2graph. change (g_ns g0) with ns. change (g_root g0) with (sentence_root x).
  destruct (add_mention g0 ns [] [] (sentence_root x) TheRoot None [] B0) as (g1 & E1 & D1 & B1); [left; left|].
  cbn [role_layers] in E1. rewrite E1. specialize (B1 [] (λ k, eq_refl)). cbn [app] in B1.
  rewrite x_path_elements. fold (tokens_in x).
  destruct (tokens_ok ns (tokens_in x) (good_tokens x HW HC) g1 _ _ [] (sd_ns _ _ D1) B1) as (g2 & E2 & D2 & B2). rewrite E2. cbn [app] in *. fold (token_ids x) in *.
  assert (R2 : g_root g2 = sentence_root x) by (destruct D1 as (_ & _ & HH1 & _), D2 as (_ & _ & HH2 & _); rewrite HH2, HH1; done).
  rewrite R2. 
  set (M2 := (sentence_root x, TheRoot, []) :: (t ← tokens_in x; token_mentions ns t)) in *.
  assert (Hin2 : sentence_root x ∈ who <$> M2) by left.
  destruct (built_update g2 _ _ (sentence_root x) [("tokens", VObj i)] B2) as (g3 & E3 & B3 & D3); [by apply in_described|done|].
  rewrite E3.
  assert (B3' : built g3 (described ns (M2 ++ [(sentence_root x, TheRoot, [("tokens", VObj i)])])) (t ← tokens_in x; token_edges ns t)).
  { eapply built_same; [|exact (described_snoc ns M2 (sentence_root x) TheRoot [("tokens", VObj i)])]. eapply built_same; [exact B3|].
    rewrite decide_True by done. rewrite decide_True by left. unfold note. rewrite !decide_True by (by apply in_described).
    apply Forall2_fmap, Forall_Forall2_diag, Forall_forall. intros [[n l] a] Hn. cbn. destruct (decide (n = sentence_root x)) as [->|]; [|done].
    split; [done|]. split; [|done]. cbn. intros z. rewrite app_nil_r, elem_of_app. split; [by left|]. intros [?|Hz]; [done|].
    unfold described in Hn. apply elem_of_list_fmap in Hn as (n' & [= <- -> ->] & _). unfold layers_given, M2, about. rewrite filter_cons_True by done. cbn [head]. apply elem_of_app. by left. }
  clear B3. set (M3 := M2 ++ [(sentence_root x, TheRoot, [("tokens", VObj i)])]) in *.
  assert (N3 : g_ns (set_tokens (nat_sorted (token_ids x)) g3) = ns). { cbn. by rewrite (sd_ns _ _ D3), (sd_ns _ _ D2), (sd_ns _ _ D1). }
  destruct (phrases_ok ns (token_ids x) (phrases_in x) (good_phrases x HW HC) (set_tokens (nat_sorted (token_ids x)) g3) M3 (t ← tokens_in x; token_edges ns t) None N3) as (g4 & l4 & E4 & D4 & B4).
  { by apply built_tokens. }
  { unfold M3, M2. apply Forall_app. split; [|by apply Forall_singleton]. apply List.Forall_cons; [done|]. apply based_token_mentions. }
  { unfold M3, M2. rewrite toks_app. change (toks_of ((sentence_root x, TheRoot, []) :: ?l)) with (toks_of l).
    transitivity (toks_of (t ← tokens_in x; token_mentions ns t) ++ []); [done|]. by rewrite app_nil_r, toks_token_mentions. }
  { apply labelled_ok, (k_label _ HC). }
  change (lab_of None) with (None : option (option pyval)) in E4. rewrite x_path_elements. fold (phrases_in x). rewrite E4. cbn [fst snd].
  assert (EM : M3 ++ (n ← phrases_in x; phrase_mentions ns n) = base_mentions i ns x).
  { unfold M3, M2, base_mentions. cbn [app]. f_equal. by rewrite <-app_assoc. }
  rewrite EM in B4. change ((t ← tokens_in x; token_edges ns t) ++ phrases_edges ns (token_ids x) (default "" None) (phrases_in x)) with (annotated_edges ns x) in B4.
  assert (D04 : g_name g4 = att "id" x ∧ g_ns g4 = ns ∧ g_root g4 = sentence_root x ∧ g_tokens g4 = nat_sorted (token_ids x) ∧ g_sentences g4 = []).
  { destruct D1 as (A1 & A2 & A3 & A4 & A5 & A6), D2 as (C1 & C2 & C3 & C4 & C5 & C6), D3 as (F1 & F2 & F3 & F4 & F5 & F6), D4 as (G1 & G2 & G3 & G4 & G5 & G6).
    cbn [g_name g_ns g_root g_tokens g_sentences set_tokens] in *. rewrite G1, F1, C1, A1, G2, F2, C2, A2, G3, F3, C3, A3, G4, G5, F5, C5, A5. done. }
  clear E1 E2 E3 E4 D1 D2 D3 D4 B1 B2 B3' B0 g0 g1 g2 g3 M2 M3 Hin2 R2 N3 EM l4. destruct D04 as (P1 & P2 & P3 & P4 & P5).
  unfold tiger_repair. rewrite (unconnected_ok _ _ _ B4), ids_described.
  set (us := if decide _ then _ else _). change us with (unattached i ns x). clear us.
  assert (Hroot : sentence_root x ∈ who <$> base_mentions i ns x) by left.
  assert (Hd : (sentence_root x, layers_given ns (sentence_root x) (base_mentions i ns x), attrs_given (sentence_root x) (base_mentions i ns x)) ∈ described ns (base_mentions i ns x)).
  { unfold described. apply (elem_of_list_fmap_1 (λ n, (n, layers_given ns n (base_mentions i ns x), attrs_given n (base_mentions i ns x))) _ (sentence_root x)). by apply elem_distinct. }
  destruct (built_node_attrs _ _ _ _ _ _ B4 Hd) as (b & Hb & HL & HK).
  unfold istoken. rewrite P3, Hb, P2.
  assert (Hus : Forall (λ n, n ∈ who <$> base_mentions i ns x) (unattached i ns x)).
  { apply Forall_forall. intros n. unfold unattached. destruct (decide _); [|intros Hx; destruct (not_elem_of_nil n Hx)]. intros [_ H]%elem_of_list_filter. exact (proj1 (elem_distinct _ _) H). }
  assert (Htok : dmem (ns +:+ ":token") b = bool_decide (sentence_root x ∈ token_ids x)).
  { unfold dmem. rewrite HK by (apply not_eq_sym; nc). pose proof (root_token i ns x (sentence_root x) HT) as HRT.
    destruct (dget (ns +:+ ":token") _) as [v|]; symmetry; [apply bool_decide_eq_true_2, HRT; by eexists|]. apply bool_decide_eq_false_2. intros H. apply HRT in H. by destruct H. }
  rewrite Htok. unfold final_root, mentions, sentence_edges, final_root. destruct (decide (sentence_root x ∈ token_ids x)) as [H|H].
  - rewrite bool_decide_eq_true_2 by done. set (g5 := set_root _ _).
    assert (B5 : built g5 (described ns (base_mentions i ns x)) (annotated_edges ns x)) by (eapply built_ext; [..|exact B4]; done).
    destruct (add_mention g5 ns _ _ (g_root g5) TheVirtualRoot None [] B5) as (g6 & E6 & D6 & B6); [left; rewrite !elem_of_cons; tauto|].
    cbn [role_layers] in E6. rewrite E6. specialize (B6 [] (λ k, eq_refl)).
    assert (R6 : g_root g6 = NStr (ns +:+ ":VROOT")) by (destruct D6 as (_ & _ & -> & _); done).
    assert (N6 : g_ns g6 = ns) by (by rewrite (sd_ns _ _ D6)).
    destruct (attach_ok ns _ (unattached i ns x) g6 _ N6 B6) as (g7 & E7 & D7 & B7).
    { rewrite R6, fmap_app. apply elem_of_app. right. left. }
    { eapply Forall_impl; [exact Hus|]. intros n Hn. rewrite fmap_app. apply elem_of_app. by left. }
    rewrite E7. cbn [fst snd]. exists g7. split; [done|]. rewrite R6 in B7. split; [exact B7|].
    destruct D6 as (A1 & A2 & A3 & A4 & A5 & A6), D7 as (C1 & C2 & C3 & C4 & C5 & C6). cbn in *. repeat split; congruence.
  - rewrite bool_decide_eq_false_2 by done.
    destruct (attach_ok ns _ (unattached i ns x) g4 _ P2 B4) as (g7 & E7 & D7 & B7); [by rewrite P3|done|].
    rewrite E7. cbn [fst snd]. exists g7. split; [done|]. rewrite P3 in B7. rewrite app_nil_r. split; [exact B7|].
    destruct D7 as (C1 & C2 & C3 & C4 & C5 & C6). repeat split; congruence.
Qed.
