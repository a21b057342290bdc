(** * PtbFacts: reading Penn Treebank parses *)
From Verif Require Import PyBase DocGraph SpecGraph DocGraphFacts History Effects RelabelFacts MergeFacts AllHist MergeAll GraphThms Relabel StrNum Query SpecQuery Text Rst Anaphora Conano SpecImport ImportFacts RstLayout AnaphoraFacts Ptb SpecPtb.

Lemma unescape_word s : ptb_unescape s = word_of s.
Proof.
  unfold ptb_unescape, word_of, ptb_unescape_table. cbn [dget].
  do 6 (match goal with |- default _ (if decide (?a = ?b) then _ else _) = _ => let E := fresh in destruct (decide (a = b)) as [E|E]; [subst; reflexivity|] end).
  done.
Qed.
Lemma word_none s : word_of s = "-NONE-" ↔ s = "-NONE-".
Proof. unfold word_of. repeat (destruct (decide _) as [->|]; [done|]). done. Qed.
Lemma label_eq t : ptb_label t = tree_label t.
Proof. by destruct t. Qed.

(** ** Updating a node *)
Lemma built_update g N E n d : built g N E → n ∈ ids N → dget "layers" d = None →
  ∃ g', node_update g n d = (g', None) ∧ built g' (note n [] d N) E ∧ same_doc g g'.
Proof.
  intros [H [HN HF] (es & HP & HE)] Hn Hd. change (nodes g = ids N) in HN. assert (Hg : n ∈ nodes g) by (by rewrite HN). pose proof Hg as (a & Ha)%node_mem.
  unfold node_update. unfold node_attrs in Ha. rewrite Ha. exists (put_node g n (dupdate a d)).
  assert (Eg : set_node (dset n (dupdate a d) (g_node g)) g = put_node g n (dupdate a d)) by (unfold put_node; rewrite decide_True by done; done).
  rewrite Eg. split; [done|]. split; [|apply same_doc_put_node].
  assert (HI : GInv (put_node g n (dupdate a d))).
  { apply GInv_put_node; [done|]. pose proof (proj1 (proj2 H) n a Ha) as [L HL']. exists L. rewrite dget_dupdate, Hd. done. }
  assert (Hna : node_attrs (put_node g n (dupdate a d)) n = Some (dupdate a d)) by (rewrite node_attrs_put_node; by rewrite decide_True).
  split; [done| |].
  - split.
    + change (nodes (put_node g n (dupdate a d)) = ids (note n [] d N)). rewrite nodes_dset, ids_note, HN. by rewrite decide_True.
    + unfold note. rewrite decide_True by done. apply Forall_fmap, Forall_forall. intros x Hx. cbn. rewrite Forall_forall in HF. specialize (HF x Hx).
      destruct (decide (x.1.1 = n)) as [En|En].
      * destruct HF as (b & Hb & Hl & Hk). rewrite En in Hb. unfold node_attrs in Hb. rewrite Ha in Hb. injection Hb as <-. exists (dupdate a d). cbn [merge_info fst snd]. rewrite En. split; [done|]. split.
        -- intros y. rewrite app_nil_r, <-Hl. unfold has_layer. rewrite dget_dupdate, Hd. done.
        -- intros key Hkey. rewrite !dget_dupdate. by rewrite Hk.
      * eapply node_is_ext; [|exact HF]. rewrite node_attrs_put_node. by rewrite decide_False.
  - exists es. split; [|done]. rewrite <-HP. apply same_edges; [apply H|apply HI|]. intros. apply edge_attrs_put_node, H.
Qed.
Lemma note_last n l a b c N : n ∉ ids N → note n l a (N ++ [(n, b, c)]) = N ++ [(n, b ++ l, dupdate c a)].
Proof.
  intros H. unfold note. rewrite decide_True by (rewrite ids_app; apply elem_of_app; right; left). rewrite fmap_app. f_equal.
  - rewrite <-(list_fmap_id N) at 2. apply list_fmap_ext. intros i x Hx. cbn. rewrite decide_False; [done|]. intros <-. apply H. unfold ids. apply (elem_of_list_fmap_1 (λ x : node_info, x.1.1) N _). by eapply elem_of_list_lookup_2.
  - cbn. by rewrite decide_True.
Qed.

Lemma built_last g N E n l a : built g (N ++ [(n, l, a)]) E → ∃ b, node_attrs g n = Some b ∧ attrs_are b l a.
Proof. intros HB. apply (built_node_attrs g _ E n l a HB). apply elem_of_app. right. left. Qed.
(** ** The loop *)
Definition kid_step (parent : option nid) (ignore : bool) (root : nid) (kid : ntree) (s : tstate) : tstate * option exc :=
  let s : tstate := (s.1, (s.2 + 1)%Z) in
  let label := ptb_unescape (ptb_label kid) in
  if andb ignore (bool_decide (label = "-NONE-")) then (s, None)
  else match kid with
       | NLeaf _ => ptb_word parent label s
       | NTree _ ks =>
         match ptb_node root label (1 <? length ks)%nat s with
         | (s, Some e) => (s, Some e)
         | (s, None) => ptb_parse (Some (NInt s.2)) true kid s
         end
       end.
Lemma ptb_parse_tree parent ignore l kids s : ptb_parse parent ignore (NTree l kids) s =
  match node_update s.1 (NInt s.2) [("label", VStr l)] with
  | (g, Some e) => ((g, s.2), Some e)
  | (g, None) => loop (kid_step parent ignore (NInt s.2)) kids (g, s.2)
  end.
Proof. reflexivity. Qed.
Lemma ptb_places_phrase path k l ks : Forall ptb_tree ks → ptb_places path k (NTree l ks) =
  (let '(p, k') := kid_places (ptb_places (NInt k :: path)) false (k + 1) ks in
   ((path, NInt k, PkPhrase l (if (1 <? length ks)%nat then Some (word_of l) else None)) :: p, k')).
Proof. intros H. destruct ks as [|[w|l' ks'] ks]; [done| |by destruct ks]. apply Forall_cons in H as [H _]. inversion H. Qed.

Definition before (k : Z) (N : list node_info) : Prop := ∀ n, n ∈ ids N → ∃ j, n = NInt j ∧ (j < k)%Z.
Lemma before_new k N : before k N → NInt k ∉ ids N.
Proof. intros H Hin. destruct (H _ Hin) as (j & [= <-] & Hj). lia. Qed.
Definition place_ids (l : list place) : list nid := (λ x, x.1.2) <$> l.
Definition place_tokens (l : list place) : list nid := (λ x, x.1.2) <$> filter (λ x, is_word_place x.2 = true) l.
Lemma ids_places ns l : ids (place_node ns <$> l) = place_ids l.
Proof. unfold ids, place_ids. rewrite <-list_fmap_compose. apply list_fmap_ext. intros i [[path n] [w t|l' [c|]]] _; done. Qed.
Lemma place_tokens_app l l' : place_tokens (l ++ l') = place_tokens l ++ place_tokens l'.
Proof. unfold place_tokens. by rewrite filter_app, fmap_app. Qed.
(** the numbers *)
Definition between (k k' : Z) (l : list place) : Prop := (k ≤ k')%Z ∧ Forall (λ x, ∃ j, x.1.2 = NInt j ∧ (k ≤ j < k')%Z) l.
Lemma between_app k k1 k2 l l' : between k k1 l → between k1 k2 l' → between k k2 (l ++ l').
Proof.
  intros [H1 F1] [H2 F2]. split; [lia|]. apply Forall_app. split.
  - eapply Forall_impl; [exact F1|]. intros x (j & E & Hj). exists j. split; [done|lia].
  - eapply Forall_impl; [exact F2|]. intros x (j & E & Hj). exists j. split; [done|lia].
Qed.
Lemma before_places ns k k' N l : before k N → between k k' l → before k' (N ++ (place_node ns <$> l)).
Proof.
  intros HB [Hk HF] n. rewrite ids_app, ids_places. intros [Hn|Hn]%elem_of_app.
  - destruct (HB n Hn) as (j & -> & Hj). exists j. split; [done|lia].
  - apply elem_of_list_fmap in Hn as (x & -> & Hx). rewrite Forall_forall in HF. destruct (HF x Hx) as (j & -> & Hj). exists j. split; [done|lia].
Qed.
Lemma before_le k k' N : before k N → (k ≤ k')%Z → before k' N.
Proof. intros H Hk n Hn. destruct (H n Hn) as (j & -> & Hj). exists j. split; [done|lia]. Qed.

Section doc.
  Context (name ns : string) (root : nid) (S : list nid).
  Record state (g : graph) (N : list node_info) (E : list edge_info) (T : list nid) : Prop := {
    s_built : built g N E;
    s_name : g_name g = name;
    s_ns : g_ns g = ns;
    s_root : g_root g = root;
    s_sentences : g_sentences g = S;
    s_tokens : g_tokens g = T;
  }.
  Lemma state_same g g' N E N' E' T : state g N E T → same_doc g g' → built g' N' E' → state g' N' E' T.
  Proof. intros [HB H1 H2 H3 H4 H5] (D1 & D2 & D3 & D4 & D5 & _) HB'. split; [done|..]; congruence. Qed.
  (** what a step does: add these places *)
  Definition steps (s : tstate) (r : tstate * option exc) (ps : list place) (k' : Z) : Prop := ∀ N E T, state s.1 N E T →
    ∃ g', r = ((g', k'), None) ∧ state g' (N ++ (place_node ns <$> ps)) (E ++ (place_edge ns root <$> ps)) (T ++ place_tokens ps).
  (** a node with its edge *)
  Lemma node_ok g k r label many N E T : state g N E T → before k N → NInt r ∈ ids N →
    ∃ g', ptb_node (NInt r) label many (g, k) = ((g', k), None) ∧
      state g' (N ++ [(NInt k, if many then [ns; ns +:+ ":syntax"] else [ns], ("label", VStr label) :: if many then [(ns +:+ ":cat", VStr label)] else [])])
        (E ++ [(NInt r, NInt k, [ns], [("edge_type", VStr "dominates")])]) T.
  Proof.
    intros HS HB Hr. pose proof (before_new _ _ HB) as Hk. unfold ptb_node. rewrite (s_ns _ _ _ _ HS).
    destruct (built_node g N E (NInt k) (VSet (if many then [ns; ns +:+ ":syntax"] else [ns])) (Some (("label", VStr label) :: if many then [(ns +:+ ":cat", VStr label)] else [])) [] (if many then [ns; ns +:+ ":syntax"] else [ns]) (s_built _ _ _ _ HS)) as (g1 & E1 & B1 & D1).
    { left. split; [reflexivity|by destruct many]. }
    rewrite E1. rewrite (note_new _ _ _ _ Hk) in B1. pose proof (state_same _ _ _ _ _ _ _ HS D1 B1) as S1.
    destruct (built_edge_in g1 _ _ (NInt r) (NInt k) VNone None [("edge_type", VStr dominates)] [ns] B1) as (g2 & E2 & B2 & D2).
    { rewrite ids_app. apply elem_of_app. by left. }
    { rewrite ids_app. apply elem_of_app. right. left. }
    { right. split; [done|]. by rewrite (s_ns _ _ _ _ S1). }
    rewrite E2. exists g2. split; [done|]. exact (state_same _ _ _ _ _ _ _ S1 D2 B2).
  Qed.
  Lemma state_info g N N' E T : state g N E T → Forall2 same_info N N' → state g N' E T.
  Proof. intros HS HF. destruct HS. split; [|done..]. by eapply built_same. Qed.
  Lemma info_last (N : list node_info) x y : same_info x y → Forall2 same_info (N ++ [x]) (N ++ [y]).
  Proof.
    intros H. apply Forall2_app.
    - clear. induction N as [|z N IH]; [apply Forall2_nil_2|]. apply Forall2_cons. done.
    - apply Forall2_cons. split; [exact H|apply Forall2_nil_2].
  Qed.
  Definition tree_done (t : ntree) : Prop := ∀ m r path ps k' g N E T, ptb_places (NInt r :: path) (m + 1) t = (ps, k') →
    state g N E T → before (m + 1) N → NInt r ∈ ids N → between (m + 1) k' ps ∧
    ∃ g', match ptb_node (NInt r) (ptb_unescape (ptb_label t)) (1 <? length (match t with NLeaf _ => [] | NTree _ ks => ks end))%nat (g, (m + 1)%Z) with
          | (s, Some e) => (s, Some e)
          | (s, None) => ptb_parse (Some (NInt s.2)) true t s
          end = ((g', (k' - 1)%Z), None) ∧
      state g' (N ++ (place_node ns <$> ps)) (E ++ (place_edge ns root <$> ps)) (T ++ place_tokens ps).
  Lemma kids_done parent ignore r path ks : Forall ptb_tree ks → Forall tree_done ks → ∀ m ps k' g N E T,
    kid_places (ptb_places (NInt r :: path)) (negb ignore) (m + 1) ks = (ps, k') →
    state g N E T → before (m + 1) N → NInt r ∈ ids N → between (m + 1) k' ps ∧
    ∃ g', loop (kid_step parent ignore (NInt r)) ks (g, m) = ((g', (k' - 1)%Z), None) ∧
      state g' (N ++ (place_node ns <$> ps)) (E ++ (place_edge ns root <$> ps)) (T ++ place_tokens ps).
  Proof.
    intros HF. induction HF as [|t ks Ht HF IH]; intros HD m ps k' g N E T HP HS HB Hr.
    - cbn in HP. injection HP as <- <-. split; [split; [lia|constructor]|]. exists g. split; [cbn; do 2 f_equal; lia|]. cbn. rewrite !app_nil_r. done.
    - apply Forall_cons in HD as [Hd HD]. specialize (IH HD). cbn [kid_places] in HP. cbn [loop]. unfold kid_step at 1. cbn [fst snd].
      assert (Hsk : andb ignore (bool_decide (ptb_unescape (ptb_label t) = "-NONE-")) = bool_decide (tree_label t = "-NONE-" ∧ negb ignore = false)).
      { rewrite unescape_word, label_eq. destruct (decide (tree_label t = "-NONE-")) as [El|El].
        - rewrite El. destruct ignore; done.
        - rewrite (bool_decide_eq_false_2 (word_of _ = _)) by (by rewrite word_none). rewrite andb_false_r. symmetry. apply bool_decide_eq_false_2. by intros [? _]. }
      rewrite Hsk. destruct (decide _) as [Hn|Hn].
      + rewrite bool_decide_eq_true_2 by done. destruct (IH (m + 1)%Z ps k' g N E T HP HS) as [Hb Hg]; [eapply before_le; [exact HB|lia]|done|].
        split; [|exact Hg]. destruct Hb as [Hb1 Hb2]. split; [lia|]. eapply Forall_impl; [exact Hb2|]. intros x (j & ? & ?). exists j. split; [done|lia].
      + rewrite bool_decide_eq_false_2 by done. destruct (ptb_places (NInt r :: path) (m + 1) t) as [p k1] eqn:E1. destruct (kid_places (ptb_places (NInt r :: path)) (negb ignore) k1 ks) as [q k2] eqn:E2. injection HP as <- <-.
        destruct (Hd _ _ _ _ _ _ _ _ _ E1 HS HB Hr) as [Hb1 (g1 & R1 & S1)]. destruct t as [w|l kk]; [inversion Ht|].
        cbv beta iota in R1 |- *. rewrite R1. 
        destruct (IH (k1 - 1)%Z q k2 g1 _ _ _ ltac:(rewrite Z.sub_add; exact E2) S1) as [Hb2 (g2 & R2 & S2)].
        { rewrite Z.sub_add. by eapply before_places. }
        { rewrite ids_app. apply elem_of_app. by left. }
        rewrite Z.sub_add in Hb2. split; [by eapply between_app|]. exists g2. split; [done|]. rewrite !fmap_app, place_tokens_app, !app_assoc. done.
  Qed.
  Lemma tree_ok t : ptb_tree t → tree_done t.
  Proof.
    induction t as [w|l ks IH] using ntree_ind'; intros Ht; [inversion Ht|]. intros m r path ps k' g N E T HP HS HB Hr.
    destruct (node_ok g (m + 1) r (ptb_unescape (ptb_label (NTree l ks))) (1 <? length ks)%nat N E T HS HB Hr) as (g1 & E1 & S1). rewrite E1. cbn [fst snd]. rewrite ptb_parse_tree. cbn [fst snd].
    pose proof (before_new _ _ HB) as Hk. cbn [ptb_label] in S1.
    destruct (built_update g1 _ _ (NInt (m + 1)) [("label", VStr l)] (s_built _ _ _ _ S1)) as (g2 & E2 & B2 & D2); [rewrite ids_app; apply elem_of_app; right; left|done|].
    rewrite E2. rewrite note_last in B2 by done. pose proof (state_same _ _ _ _ _ _ _ S1 D2 B2) as S2.
    inversion Ht as [tag w Hw|l' ks' HF]; subst.
    - cbn in HP. injection HP as <- <-. split; [split; [lia|repeat constructor; exists (m + 1)%Z; split; [done|lia]]|].
      cbn [loop]. unfold kid_step. cbn [ptb_label fst snd]. rewrite (bool_decide_eq_false_2 (ptb_unescape w = _)) by (by rewrite unescape_word, word_none). cbn [andb].
      unfold ptb_word, node_label.
      destruct (built_last _ _ _ _ _ _ B2) as (b & Hb & Hl & Hkey).
      unfold node_attrs in Hb. rewrite Hb. cbn [of_option rbind]. rewrite Hkey by done. rewrite dget_dupdate. cbn [dget]. rewrite decide_True by done. cbn [of_option]. 
      destruct (built_update g2 _ _ (NInt (m + 1)) [("label", VStr (ptb_unescape w)); (g_ns g2 +:+ ":token", VStr (ptb_unescape w)); (g_ns g2 +:+ ":pos", VStr l)] (s_built _ _ _ _ S2)) as (g3 & E3 & B3 & D3).
      { rewrite ids_app; apply elem_of_app; right; left. }
      { cbn [dget]. rewrite decide_False by done. do 2 (rewrite decide_False by (apply not_eq_sym, key_layers)). done. }
      rewrite E3. rewrite note_last in B3 by done. pose proof (state_same _ _ _ _ _ _ _ S2 D3 B3) as S3. eexists. split; [do 2 f_equal; lia|].
      rewrite <-unescape_word. cbn [fmap list_fmap place_node place_edge snd fst place_tokens]. 
      destruct S3 as [B S1' S2' S3' S4' S5']. rewrite (s_ns _ _ _ _ S2) in *. split; [|done..|cbn; rewrite S5'; done].
      eapply built_tokens, built_same; [exact B|]. apply info_last. split; [done|]. split; [done|]. intros key. cbn [snd]. rewrite !dget_dupdate. cbn.
      repeat (destruct (decide _) as [?|?]; [done|]). done.
    - rewrite ptb_places_phrase in HP by done. destruct (kid_places (ptb_places (NInt (m + 1) :: NInt r :: path)) false (m + 1 + 1) ks) as [p k1] eqn:EK. injection HP as <- <-.
      assert (S2' : state g2 (N ++ (place_node ns <$> [(NInt r :: path, NInt (m + 1), PkPhrase l (if (1 <? length ks)%nat then Some (word_of l) else None))])) (E ++ [(NInt r, NInt (m + 1), [ns], [("edge_type", VStr "dominates")])]) T).
      { eapply state_info; [exact S2|]. apply info_last. rewrite <-unescape_word. destruct (1 <? length ks)%nat; (split; [done|]; split; [intros z; cbn; by rewrite ?app_nil_r|]); intros key; cbn [snd place_node]; rewrite dget_dupdate; cbn; repeat (destruct (decide _) as [?|?]; [done|]); done. }
      assert (Hb1 : between (m + 1) (m + 1 + 1) [(NInt r :: path, NInt (m + 1), PkPhrase l (if (1 <? length ks)%nat then Some (word_of l) else None))]) by (split; [lia|apply Forall_singleton; exists (m + 1)%Z; split; [done|lia]]).
      destruct (kids_done (Some (NInt (m + 1))) true (m + 1) (NInt r :: path) ks HF) with (m := (m + 1)%Z) (ps := p) (k' := k1) (g := g2) (2 := EK) (3 := S2') as [Hb (g3 & E3 & S3)].
      + clear -IH HF. induction HF as [|t ks Ht HF IH']; [constructor|]. apply Forall_cons in IH as [H1 H2]. constructor; [by apply H1|by apply IH'].
      + by eapply before_places.
      + rewrite ids_app, ids_places. apply elem_of_app. right. left.
      + split; [by eapply (between_app _ _ _ [_])|]. exists g3. split; [done|]. rewrite !fmap_cons. 
        change (place_tokens ((NInt r :: path, NInt (m + 1), PkPhrase l (if (1 <? length ks)%nat then Some (word_of l) else None)) :: p)) with (place_tokens p).
        rewrite <-!app_assoc in S3. exact S3.
  Qed.
End doc.

(** ** Sentences *)
Lemma sentence_ok name ns S ignore t g k ps k' N E T : ptb_sentence_tree t → state name ns (NInt 0) S g N E T → before k N → NInt 0 ∈ ids N →
  sentence_places (negb ignore) (NInt 0) k t = (ps, k') → between k k' ps ∧
  ∃ g', ptb_sentence ignore t (g, k) = ((g', k'), None) ∧
    state name ns (NInt 0) (S ++ [NInt k]) g' (N ++ (place_node ns <$> ps)) (E ++ (place_edge ns (NInt 0) <$> ps)) (T ++ place_tokens ps).
Proof.
  intros (l & ks & -> & HF) HS HB Hr HP. cbn in HP. destruct (kid_places (ptb_places [NInt k; NInt 0]) (negb ignore) (k + 1) ks) as [p k1] eqn:EK. injection HP as <- <-.
  unfold ptb_sentence. pose proof HS as [HB0 H1 H2 H3 H4 H5]. pose proof (before_new _ _ HB) as Hk.
  assert (S0 : state name ns (NInt 0) (S ++ [NInt k]) (set_sentences (g_sentences g ++ [NInt k]) g) N E T).
  { split; [by eapply built_ext; [..|exact HB0]|done..|cbn; by rewrite H4|done]. }
  set (g0 := set_sentences (g_sentences g ++ [NInt k]) g) in *.
  destruct (built_edge g0 N E (g_root g0) (NInt k) VNone None [("edge_type", VStr dominates)] [ns] (s_built _ _ _ _ _ _ _ _ S0)) as (g1 & E1 & B1 & D1).
  { right. split; [done|]. by rewrite (s_ns _ _ _ _ _ _ _ _ S0). }
  rewrite E1. rewrite (s_root _ _ _ _ _ _ _ _ S0) in B1. rewrite (ensure_old _ (NInt 0)) in B1 by done. unfold ensure in B1. rewrite decide_False in B1 by done. rewrite (s_ns _ _ _ _ _ _ _ _ S0) in B1.
  pose proof (state_same _ _ _ _ _ _ _ _ _ _ _ S0 D1 B1) as S1. rewrite ptb_parse_tree. cbn [fst snd].
  destruct (built_update g1 _ _ (NInt k) [("label", VStr l)] B1) as (g2 & E2 & B2 & D2); [rewrite ids_app; apply elem_of_app; right; left|done|].
  rewrite E2. rewrite note_last in B2 by done. pose proof (state_same _ _ _ _ _ _ _ _ _ _ _ S1 D2 B2) as S2.
  assert (S2' : state name ns (NInt 0) (S ++ [NInt k]) g2 (N ++ (place_node ns <$> [([NInt 0], NInt k, PkPhrase l None)])) (E ++ [(NInt 0, NInt k, [ns], [("edge_type", VStr "dominates")])]) T) by exact S2.
  assert (Hb1 : between k (k + 1) [([NInt 0], NInt k, PkPhrase l None)]) by (split; [lia|apply Forall_singleton; exists k; split; [done|lia]]).
  destruct (kids_done name ns (NInt 0) (S ++ [NInt k]) None ignore k [NInt 0] ks HF) with (m := k) (ps := p) (k' := k1) (g := g2) (2 := EK) (3 := S2') as [Hb (g3 & E3 & S3)].
  - eapply Forall_impl; [exact HF|]. intros t Ht. by apply tree_ok.
  - by eapply before_places.
  - rewrite ids_app, ids_places. apply elem_of_app. right. left.
  - split; [by eapply (between_app _ _ _ [_])|]. rewrite E3. exists g3. split; [cbn; do 2 f_equal; lia|]. rewrite !fmap_cons.
    change (place_tokens (([NInt 0], NInt k, PkPhrase l None) :: p)) with (place_tokens p). rewrite <-!app_assoc in S3. exact S3.
Qed.
Lemma sentences_ok name ns ignore ts : Forall ptb_sentence_tree ts → ∀ S g k N E T, state name ns (NInt 0) S g N E T → before k N → NInt 0 ∈ ids N →
  ∃ g' k', loop (ptb_sentence ignore) ts (g, k) = ((g', k'), None) ∧
    state name ns (NInt 0) (S ++ (doc_places (negb ignore) (NInt 0) k ts).1) g' (N ++ (place_node ns <$> (doc_places (negb ignore) (NInt 0) k ts).2))
      (E ++ (place_edge ns (NInt 0) <$> (doc_places (negb ignore) (NInt 0) k ts).2)) (T ++ place_tokens (doc_places (negb ignore) (NInt 0) k ts).2).
Proof.
  intros HF. induction HF as [|t ts Ht HF IH]; intros S g k N E T HS HB Hr.
  - exists g, k. split; [done|]. cbn. rewrite !app_nil_r. done.
  - cbn [doc_places loop]. destruct (sentence_places (negb ignore) (NInt 0) k t) as [p k1] eqn:EP. destruct (sentence_ok name ns S ignore t g k p k1 N E T Ht HS HB Hr EP) as [Hb (g1 & E1 & S1)].
    rewrite E1. destruct (IH _ g1 k1 _ _ _ S1) as (g2 & k2 & E2 & S2); [by eapply before_places|rewrite ids_app; apply elem_of_app; by left|].
    exists g2, k2. split; [done|]. destruct (doc_places (negb ignore) (NInt 0) k1 ts) as [s q]. cbn [fst snd] in *. rewrite !fmap_app, place_tokens_app. rewrite <-(app_assoc T), <-(app_assoc N), <-(app_assoc E), <-(app_assoc S) in S2. exact S2.
Qed.
Definition empty_graph : graph := mkGraph "" "discoursegraph" (NStr "discoursegraph:root_node") [] [] [] [] [] [].
Lemma removed_root : remove_node (init_graph "" "discoursegraph" None) (NStr "discoursegraph:root_node") = (empty_graph, None).
Proof. vm_compute. reflexivity. Qed.
Lemma built_empty : built empty_graph [] [].
Proof.
  split.
  - pose proof (GInv_remove_node _ (NStr "discoursegraph:root_node") (GInv_init "" "discoursegraph" None)) as H. rewrite removed_root in H. exact H.
  - split; [done|constructor].
  - exists []. done.
Qed.
Lemma read_ptb_ok name ns ignore ts : Forall ptb_sentence_tree ts → ∃ g, read_ptb name ns false None ignore (Some ts) = (g, None) ∧
  state name ns (NInt 0) (doc_places (negb ignore) (NInt 0) 1 ts).1 g
    ((NInt 0, [ns], [("label", VStr (ns +:+ ":root_node"))]) :: (place_node ns <$> (doc_places (negb ignore) (NInt 0) 1 ts).2))
    (place_edge ns (NInt 0) <$> (doc_places (negb ignore) (NInt 0) 1 ts).2) (place_tokens (doc_places (negb ignore) (NInt 0) 1 ts).2).
Proof.
  intros HF. unfold read_ptb. rewrite decide_True by (left). rewrite removed_root.
  match goal with |- context [add_node ?g (NInt 0) _ _ _] => set (g0 := g) end.
  destruct (built_node g0 [] [] (NInt 0) (VSet [ns]) None [("label", VStr (ns +:+ ":root_node"))] [ns]) as (g1 & E1 & B1 & D1).
  { eapply built_ext; [..|exact built_empty]; done. }
  { by left. }
  rewrite E1. rewrite note_new in B1 by (apply not_elem_of_nil).
  assert (S1 : state name ns (NInt 0) [] g1 [(NInt 0, [ns], [("label", VStr (ns +:+ ":root_node"))])] [] []).
  { destruct D1 as (D1 & D2 & D3 & D4 & D5 & _). split; [exact B1|done..]. }
  destruct (sentences_ok name ns ignore ts HF [] g1 1 _ _ _ S1) as (g2 & k2 & E2 & S2).
  - intros n [->|Hn]%elem_of_cons; [exists 0%Z; split; [done|lia]|by apply elem_of_nil in Hn].
  - left.
  - rewrite E2. exists g2. split; [done|]. exact S2.
Qed.
