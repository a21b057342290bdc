(** * Rs3Accept: which files are read; text and units *)
From Verif Require Import PyBase DocGraph Relabel StrNum Query Text Rst Nltk Parsers Anaphora Conano Decour Ptb Convert Tiger Rs3Graph.
From Verif Require Import SpecGraph DocGraphFacts History SpecImport ImportFacts TextFacts AnaphoraFacts SpecQuery SpanFacts OffsetFacts TigerReject SpecRs3Graph Rs3Facts Rs3Read Rs3Doc.

Lemma link_needs rels g x p g' : add_parent_relation rels g x p = (g', None) → is_Some (x_relname x).
Proof. unfold add_parent_relation. destruct (x_relname x); [by eexists|done]. Qed.
Lemma segment_needs rels x s s' : rs3_segment rels x s = (s', None) → segment x → is_Some (el_parent x) → is_Some (el_relname x).
Proof.
  destruct x as [i p r t|]; [|done]. destruct s as [g L]. cbn [rs3_segment el_parent el_relname]. destruct (add_node _ _ _ _ _) as [g1 [e|]]; [done|]. intros H _ [q ->]. cbn in H.
  destruct (add_parent_relation rels g1 _ q) as [g2 o] eqn:E. cbn in H. injection H as _ ->. by apply link_needs in E.
Qed.
Lemma group_needs rels x g g' : rs3_group rels x g = (g', None) → ¬ segment x → (is_Some (el_parent x) → is_Some (el_relname x)) ∧ match x with Grp _ None _ _ => False | _ => True end.
Proof.
  destruct x as [|i ty p r]; [intros _ H; by destruct H|]. cbn [rs3_group el_parent el_relname]. destruct ty as [ty|]; [|done]. cbv zeta.
  match goal with |- match ?m with _ => _ end = _ → _ => destruct m as [g1 [e|]] end; [done|]. intros H _. split; [|done]. intros [q ->]. by apply link_needs in H.
Qed.
Lemma read_needs base name ns tokenize precedence d : (read_rs3_graph base name ns tokenize precedence d).2 = None →
  Forall (λ x, is_Some (el_parent x) → is_Some (el_relname x)) (d_body d) ∧ Forall (λ x, match x with Grp _ None _ _ => False | _ => True end) (d_body d).
Proof.
  unfold read_rs3_graph. cbv zeta. rewrite segments_eq, groups_eq.
  destruct (loop (rs3_segment _) (segments d) _) as [[g1 L] [e|]] eqn:E1; [done|]. destruct (loop (rs3_group _) (groups d) g1) as [g2 [e|]] eqn:E2; [done|]. intros _.
  assert (H1 : ∀ x, x ∈ segments d → is_Some (el_parent x) → is_Some (el_relname x)).
  { refine (loop_all _ (λ x, is_Some (el_parent x) → is_Some (el_relname x)) _ _ _ _ E1). intros x s s' Hx Hs. apply elem_of_list_filter in Hx as [Hx _]. by eapply segment_needs. }
  assert (H2 : ∀ x, x ∈ groups d → (is_Some (el_parent x) → is_Some (el_relname x)) ∧ match x with Grp _ None _ _ => False | _ => True end).
  { refine (loop_all _ (λ x, (is_Some (el_parent x) → is_Some (el_relname x)) ∧ match x with Grp _ None _ _ => False | _ => True end) _ _ _ _ E2). intros x s s' Hx Hs. apply elem_of_list_filter in Hx as [Hx _]. by eapply group_needs. }
  split; apply Forall_forall; intros x Hx; destruct (decide (segment x)) as [Hs|Hs].
  - apply H1. by apply elem_of_list_filter.
  - apply H2. by apply elem_of_list_filter.
  - by destruct x.
  - apply (H2 x). by apply elem_of_list_filter.
Qed.
(** with precedence relations: at least two tokens *)
Lemma precedence_needs base name ns d g L : (read_rs3_graph base name ns true true d).2 = None →
  read_rs3_graph base name ns true false d = (g, L, None) → 1 < length (g_tokens g).
Proof.
  unfold read_rs3_graph. cbv zeta. destruct (loop (rs3_segment _) _ _) as [[g1 L1] [e|]]; [done|]. destruct (loop (rs3_group _) _ g1) as [g2 [e|]]; [done|].
  destruct (loop rs3_tokens L1 g2) as [g3 [e|]]; [done|]. unfold add_precedence_relations. intros H H'. destruct (dmem (g_root g3) (g_node g3)); [|done].
  assert (Ht : g_tokens g = g_tokens g3) by (injection H' as <- _; by destruct (dmem (ns +:+ ":edus") (g_meta g3))). rewrite Ht.
  destruct (g_tokens g3) as [|t0 [|t1 ts]]; [done|done|cbn; lia].
Qed.
Lemma tokens_words ns d : length (doc_tokens ns d) = length (segments d ≫= words).
Proof. unfold doc_tokens. induction (segments d) as [|x l IH]; [done|]. cbn [mbind list_bind]. rewrite !app_length. unfold segment_tokens at 1. rewrite imap_length. f_equal. exact IH. Qed.
Lemma tokens_strings ns d : (doc_tokens ns d).*2 = segments d ≫= words.
Proof.
  unfold doc_tokens. induction (segments d) as [|x l IH]; [done|]. cbn [mbind list_bind]. rewrite fmap_app. f_equal; [|exact IH]. unfold segment_tokens.
  apply list_eq. intros i. rewrite list_lookup_fmap, list_lookup_imap. by destruct (words x !! i).
Qed.
Lemma rs3_iff base name ns tokenize precedence d : NoDup (el_id <$> d_body d) → Forall (λ x, el_parent x ≠ Some (el_id x)) (d_body d) →
  Forall (λ x, el_id x ≠ "root_node" ∧ el_parent x ≠ Some "root_node") (d_body d) → length (filter top (d_body d)) ≤ 1 → plain_ids d →
  (read_rs3_graph base name ns tokenize precedence d).2 = None ↔
  Forall (λ x, is_Some (el_parent x) → is_Some (el_relname x)) (d_body d) ∧ Forall (λ x, match x with Grp _ None _ _ => False | _ => True end) (d_body d) ∧
  (tokenize = true → precedence = true → 1 < length (segments d ≫= words)).
Proof.
  intros H1 H2 H3 H4 HP. split.
  - intros H. destruct (read_needs _ _ _ _ _ _ H) as [H5 H6]. split; [done|]. split; [done|]. intros -> ->. assert (HO : rs3_ok d) by done.
    destruct (document_read base name ns true false d HO (λ _, HP)) as (g & E & _ & _ & _ & _ & _ & Ht & _); [done|]. pose proof (precedence_needs _ _ _ _ _ _ H E) as HL. rewrite Ht, fmap_length, tokens_words in HL. exact HL.
  - intros (H5 & H6 & H7). assert (HO : rs3_ok d) by done. destruct (document_read base name ns tokenize precedence d HO (λ _, HP) H7) as (g & E & _). by rewrite E.
Qed.
Lemma texts_ok ns d g : g_ns g = ns → has_node_set g (rs3_nodes ns true d) → g_tokens g = (doc_tokens ns d).*1 → text_tokens g (segments d ≫= words).
Proof.
  intros Hns [_ HF] Ht. rewrite Forall_forall in HF. unfold text_tokens. rewrite Ht, <-(tokens_strings ns). apply Forall2_fmap_l, Forall2_fmap_r. apply Forall_Forall2_diag, Forall_forall. intros t Hin.
  destruct (HF (rs3_token_info ns t)) as (a & Ha & _ & HK). { unfold rs3_nodes. rewrite !elem_of_app. do 3 right. by apply elem_of_list_fmap_1. }
  exists a. split; [exact Ha|]. rewrite Hns, HK by apply key_layers. cbn [rs3_token_info snd dget]. by rewrite decide_True.
Qed.
Lemma root_there ns tokenize d g : has_node_set g (rs3_nodes ns tokenize d) → root_of ns (elements_of d) ∈ nodes g.
Proof.
  intros [HN _]. rewrite HN. unfold rs3_nodes, root_of. rewrite !fmap_app, !elem_of_app. destruct (last (filter top (elements_of d))) as [x|] eqn:El.
  - right. left. apply last_Some_elem_of in El. apply elem_of_list_filter in El as [_ Hx]. apply elem_of_list_fmap. exists (desc_info ns (node_of_el ns x) (element_desc ns d (elements_of d) x)). split; [done|].
    by apply (elem_of_list_fmap_1 (λ x, desc_info ns (node_of_el ns x) (element_desc ns d (elements_of d) x))).
  - left. apply last_None in El. rewrite decide_False; [left|]. intros HE. apply Exists_exists in HE as (y & Hy & Ht). rewrite <-(elements_perm d) in Hy.
    assert (H : y ∈ filter top (elements_of d)) by (by apply elem_of_list_filter). rewrite El in H. by apply elem_of_nil in H.
Qed.
