(** * AliasProg: calls on stores of graphs, and programs of literal calls *)
From Verif Require Import PyBase DocGraph Alias SpecAlias AliasFacts AliasOps AliasEdges AliasEdges2 AliasStep.

(** ** One call on one graph *)
Definition result (h : heap) (F : list nat) (h' : heap) (g' : hgraph) (e : option exc) (v : outcome) : Prop :=
  HInv h' (locs g' ++ F) ∧ (graph_of h' g', e) = v ∧ ∀ l, l ∈ F → see_at h' l = see_at h l.

Lemma post_result h F h' g' e v : HInv h F → post h F h' g' e v → result h F h' g' e v.
Proof.
  intros HI (P1 & P2 & P3). split_and!; [done|done|]. intros l Hl. by eapply see_at_ext.
Qed.

Lemma step_ok h g F o h' g' e :
  HInv h (call_objects o ++ locs g ++ F) → call_sets h (call_objects o ++ locs g ++ F) o →
  h_step h g o = (h', g', e) → result h F h' g' e (step (graph_of h g) (call_value h o)).
Proof.
  intros HI HC E.
  assert (HF : HInv h F) by (eapply HInv_prefix; eapply HInv_prefix; exact HI).
  destruct o as [n l ad a|ns a|u v l k ad a|es ad a|n l|u v l|n|l|l|];
    cbn [call_objects call_sets call_value h_step step app] in *.
  - apply post_result; [done|]. by eapply add_node_ok; [| |exact E]; rewrite ?app_comm_cons.
  - apply post_result; [done|]. eapply add_nodes_from_ok; [| |exact E].
    + eapply HInv_perm; [exact HI|]. solve_Permutation.
    + destruct HC as [HC|HC]; [by left|]. right. apply Forall_forall. intros [n|n d] Hs Hb; [|done].
      by apply (HC n).
  - apply post_result; [done|]. by eapply add_edge_ok; [| |exact E].
  - apply post_result; [done|]. eapply add_edges_from_ok; [|exact E].
    by rewrite <-!app_assoc in HI.
  - by eapply add_layer_node_ok.
  - by eapply add_layer_edge_ok.
  - apply post_result; [done|]. by eapply remove_node_ok.
  - injection E as <- <- <-. split_and!; [exact HI|done|done].
  - injection E as <- <- <-. split_and!; [exact HI|done|done].
  - apply post_result; [done|]. by eapply add_precedence_ok.
Qed.

(** ** One call on a store *)
Lemma graphs_insert h h' (gs : list hgraph) i g' :
  (∀ j g, gs !! j = Some g → j ≠ i → graph_of h' g = graph_of h g) →
  graph_of h' <$> <[i := g']> gs = <[i := graph_of h' g']> (graph_of h <$> gs).
Proof.
  intros H. apply list_eq. intros j. rewrite list_lookup_fmap.
  destruct (decide (j = i)) as [->|Hne].
  - destruct (decide (i < length gs)) as [Hl|Hl].
    + rewrite !list_lookup_insert; [done|by rewrite fmap_length|done].
    + rewrite !list_insert_ge by (rewrite ?fmap_length; lia).
      rewrite list_lookup_fmap. assert (Hn : gs !! i = None) by (apply lookup_ge_None_2; lia). by rewrite Hn.
  - rewrite !list_lookup_insert_ne by done. rewrite list_lookup_fmap.
    destruct (gs !! j) as [g|] eqn:E; [|done]. cbn. f_equal. by eapply H.
Qed.

Lemma hexec_ok st i o st' e g :
  st_graphs st !! i = Some g →
  HInv (st_heap st) (call_objects o ++ held st) → call_sets (st_heap st) (call_objects o ++ held st) o →
  hexec st i o = (st', e) →
  HInv (st_heap st') (held st') ∧
  shown st' = <[i := (step (graph_of (st_heap st) g) (call_value (st_heap st) o)).1]> (shown st) ∧
  e = (step (graph_of (st_heap st) g) (call_value (st_heap st) o)).2.
Proof.
  intros Hg HI HC. unfold hexec. rewrite Hg.
  destruct st as [h gs]. unfold held, shown in *. cbn [st_heap st_graphs] in *.
  pose proof Hg as Hsp. apply take_drop_middle in Hsp.
  set (F := (take i gs ++ drop (S i) gs) ≫= locs).
  assert (HP : gs ≫= locs ≡ₚ locs g ++ F).
  { rewrite <-Hsp at 1. unfold F. rewrite !bind_app, bind_cons. solve_Permutation. }
  assert (HI' : HInv h (call_objects o ++ locs g ++ F)).
  { eapply HInv_perm; [exact HI|]. by rewrite HP. }
  assert (HC' : call_sets h (call_objects o ++ locs g ++ F) o).
  { assert (Hsub : call_objects o ++ locs g ++ F ⊆ call_objects o ++ (gs ≫= locs)).
    { intros x. by rewrite HP. }
    destruct o; cbn [call_sets] in *; try done.
    - intros s Hs. destruct (HC s Hs) as [? Hf]. split; [done|]. by eapply sfree_sub.
    - intros s Hs. destruct (HC s Hs) as [? Hf]. split; [done|]. by eapply sfree_sub. }
  destruct (h_step h g o) as [[h1 g1] e1] eqn:E. intros [= <- <-].
  destruct (step_ok _ _ _ _ _ _ _ HI' HC' E) as (P1 & P2 & P3).
  cbn [st_heap st_graphs]. rewrite <-P2. cbn [fst snd].
  assert (Hlen : i < length gs) by by eapply lookup_lt_Some.
  split_and!; [| |done].
  - eapply HInv_perm; [exact P1|]. rewrite insert_take_drop by done.
    unfold F. rewrite !bind_app, bind_cons. solve_Permutation.
  - apply graphs_insert. intros j gj Hj Hne. apply graph_of_see. intros l Hl. apply P3.
    unfold F. apply elem_of_list_bind. exists gj. split; [done|].
    apply elem_of_app. destruct (decide (j < i)).
    + left. apply elem_of_list_lookup. exists j. by rewrite lookup_take.
    + right. apply elem_of_list_lookup. exists (j - S i). rewrite lookup_drop.
      by replace (S i + (j - S i)) with j by lia.
Qed.

(** ** Literals *)
Lemma see_dicts h h' : hp_dicts h' = hp_dicts h → ∀ l, dict_at h' l = dict_at h l.
Proof. intros E l. unfold dict_at. by rewrite E. Qed.
Lemma lit_val_ok h v h' w : lit_val h v = (h', w) →
  hp_sets h `prefix_of` hp_sets h' ∧ hp_dicts h' = hp_dicts h ∧ val h' w = v ∧
  (∀ s, w = HSet s → s = length (hp_sets h) ∧ s < length (hp_sets h')).
Proof.
  destruct v; cbn; intros [= <- <-]; try done.
  split_and!; [by apply prefix_app_r|done|cbn; f_equal; apply (set_at_new h)|].
  intros s [= <-]. cbn. rewrite app_length. cbn. lia.
Qed.
Lemma lit_attrs_ok a : ∀ h h' d, lit_attrs h a = (h', d) →
  hp_sets h `prefix_of` hp_sets h' ∧ hp_dicts h' = hp_dicts h ∧ see h' d = a ∧
  (∀ k s, (k, HSet s) ∈ d → length (hp_sets h) ≤ s < length (hp_sets h')) ∧
  (∀ k k' s, (k, HSet s) ∈ d → (k', HSet s) ∈ d → k = k').
Proof.
  induction a as [|[k v] a IH]; intros h h' d; cbn [lit_attrs].
  { intros [= <- <-]. split_and!; [done|done|done|by intros ? ? ?%elem_of_nil|by intros ? ? ? ?%elem_of_nil]. }
  destruct (lit_val h v) as [h1 w] eqn:E1. destruct (lit_attrs h1 a) as [h2 d2] eqn:E2. intros [= <- <-].
  destruct (lit_val_ok _ _ _ _ E1) as (A1 & A2 & A3 & A4).
  destruct (IH _ _ _ E2) as (B1 & B2 & B3 & B4 & B5).
  pose proof (prefix_length _ _ A1). pose proof (prefix_length _ _ B1).
  assert (Hx : ext h1 h2 []) by (split; [done|by rewrite B2|by intros ? ?%elem_of_nil]).
  split_and!.
  - by etrans.
  - congruence.
  - unfold see, dmap. rewrite fmap_cons. cbn [fst snd]. f_equal; [|exact B3]. f_equal.
    rewrite <-A3. eapply val_ext; [exact Hx|]. intros s Hs. by apply A4.
  - intros k' s [[= -> <-]|Hin]%elem_of_cons.
    + destruct (A4 s eq_refl). lia.
    + destruct (B4 _ _ Hin). lia.
  - intros k1 k2 s [[= -> E0]|H1]%elem_of_cons [[= -> E]|H2]%elem_of_cons.
    + done.
    + subst w. destruct (A4 s eq_refl). destruct (B4 _ _ H2). lia.
    + subst w. destruct (A4 s eq_refl). destruct (B4 _ _ H1). lia.
    + by eapply B5.
Qed.
Lemma lit_dict_ok h G a h' l : HInv h G → NoDup (dkeys a) → lit_dict h a = (h', l) →
  HInv h' (l :: G) ∧ ext h h' G ∧ see_at h' l = a.
Proof.
  intros HI Hn. unfold lit_dict. destruct (lit_attrs h a) as [h1 d] eqn:E1.
  destruct (lit_attrs_ok _ _ _ _ E1) as (B1 & B2 & B3 & B4 & B5).
  assert (Hx : ext h h1 G).
  { split; [done|by rewrite B2|]. intros x _. by apply see_dicts. }
  assert (HI1 : HInv h1 G) by by eapply HInv_ext.
  assert (Hk : dkeys d = dkeys a) by (rewrite <-B3; unfold see; by rewrite dkeys_dmap).
  assert (Hf : fits h1 G d).
  { split; [split|..].
    - by rewrite Hk.
    - intros k s Hd%dget_Some_elem. by destruct (B4 _ _ Hd).
    - intros k s _ Hd%dget_Some_elem x Hx' Hd'. rewrite (x_at _ _ _ Hx) in Hd' by done.
      apply (i_refs _ _ HI) in Hd'; [|done]. destruct (B4 _ _ Hd). lia.
    - intros s Hd%dget_Some_elem x k Hx' Hd'. rewrite (x_at _ _ _ Hx) in Hd' by done.
      apply (i_refs _ _ HI) in Hd'; [|done]. destruct (B4 _ _ Hd). lia.
    - intros s k Hd%dget_Some_elem Hd'%dget_Some_elem. by eapply B5. }
  destruct (new_dict_ok h1 G d HI1 Hf) as [P1 P2].
  pose proof (dict_at_new h1 d) as Hat. cbn [new_dict fst] in *. intros [= <- <-].
  split_and!; [exact P1|by eapply ext_trans|].
  unfold see_at. rewrite Hat. rewrite <-B3. done.
Qed.
Lemma lit_opt_ok h G a h' o : HInv h G → (∀ d, a = Some d → NoDup (dkeys d)) → lit_opt h a = (h', o) →
  HInv h' (olist o ++ G) ∧ ext h h' G ∧ see_at h' <$> o = a.
Proof.
  intros HI Hn. unfold lit_opt. destruct a as [d|].
  - destruct (lit_dict h d) as [h1 l] eqn:E. intros [= <- <-].
    destruct (lit_dict_ok _ _ _ _ _ HI (Hn _ eq_refl) E) as (P1 & P2 & P3).
    split_and!; [done|done|]. cbn. by rewrite P3.
  - intros [= <- <-]. split_and!; [done|apply ext_refl|done].
Qed.
Lemma lit_nspecs_ok ns : ∀ h G h' ns', HInv h G → Forall (λ a, NoDup (dkeys a)) (ns ≫= nspec_dict) →
  lit_list lit_nspec h ns = (h', ns') →
  HInv h' ((ns' ≫= slocs) ++ G) ∧ ext h h' G ∧ nspec_of h' <$> ns' = ns.
Proof.
  induction ns as [|s ns IH]; intros h G h' ns' HI Hn; cbn [lit_list].
  { intros [= <- <-]. split_and!; [done|apply ext_refl|done]. }
  rewrite bind_cons, Forall_app in Hn. destruct Hn as [Hn1 Hn2].
  destruct (lit_nspec h s) as [h1 y] eqn:E1. destruct (lit_list lit_nspec h1 ns) as [h2 ys] eqn:E2.
  intros [= <- <-].
  assert (H1 : HInv h1 (slocs y ++ G) ∧ ext h h1 G ∧ nspec_of h1 y = s).
  { revert E1. unfold lit_nspec. destruct s as [n|n d].
    - intros [= <- <-]. split_and!; [done|apply ext_refl|done].
    - destruct (lit_dict h d) as [h3 l] eqn:E. intros [= <- <-].
      apply List.Forall_cons_iff in Hn1 as [Hn1 _].
      destruct (lit_dict_ok _ _ _ _ _ HI Hn1 E) as (P1 & P2 & P3).
      split_and!; [done|done|]. cbn. by rewrite P3. }
  destruct H1 as (A1 & A2 & A3).
  destruct (IH _ _ _ _ A1 Hn2 E2) as (B1 & B2 & B3).
  split_and!.
  - eapply HInv_perm; [exact B1|]. rewrite bind_cons. solve_Permutation.
  - eapply ext_trans; [exact A2|]. eapply ext_sub; [exact B2|]. apply sub_app_r.
  - rewrite fmap_cons, B3. f_equal. rewrite <-A3.
    destruct y as [n|n l]; [done|]. cbn. f_equal. eapply see_at_ext; [exact A1|exact B2|]. by left.
Qed.
Lemma lit_especs_ok es : ∀ h G h' es', HInv h G → Forall (λ a, NoDup (dkeys a)) (e_d <$> es) →
  lit_list lit_espec h es = (h', es') →
  HInv h' ((es' ≫= elocs) ++ G) ∧ ext h h' G ∧ espec_of h' <$> es' = es.
Proof.
  induction es as [|s es IH]; intros h G h' es' HI Hn; cbn [lit_list].
  { intros [= <- <-]. split_and!; [done|apply ext_refl|done]. }
  rewrite fmap_cons in Hn. apply List.Forall_cons_iff in Hn as [Hn1 Hn2].
  unfold lit_espec at 1. destruct (lit_dict h (e_d s)) as [h1 l] eqn:E1.
  destruct (lit_list lit_espec h1 es) as [h2 ys] eqn:E2. intros [= <- <-].
  destruct (lit_dict_ok _ _ _ _ _ HI Hn1 E1) as (A1 & A2 & A3).
  destruct (IH _ _ _ _ A1 Hn2 E2) as (B1 & B2 & B3).
  split_and!.
  - eapply HInv_perm; [exact B1|]. rewrite bind_cons. unfold elocs at 2. cbn. solve_Permutation.
  - eapply ext_trans; [exact A2|]. eapply ext_sub; [exact B2|]. intros x Hx. by right.
  - rewrite fmap_cons, B3. f_equal. unfold espec_of. cbn. rewrite (see_at_ext _ _ _ _ A1 B2) by by left.
    rewrite A3. by destruct s.
Qed.

Lemma lit_layers h G v h' w : HInv h G → lit_val h v = (h', w) →
  HInv h' G ∧ ext h h' G ∧ val h' w = v ∧ ∀ s, w = HSet s → s < length (hp_sets h') ∧ sfree h' G s.
Proof.
  intros HI E. destruct (lit_val_ok _ _ _ _ E) as (A1 & A2 & A3 & A4).
  assert (Hx : ext h h' G) by (split; [done|by rewrite A2|intros x _; by apply see_dicts]).
  split_and!; [by eapply HInv_ext|done|done|]. intros s Hs. destruct (A4 s Hs) as [-> B]. split; [done|].
  eapply sfree_ext; [|exact Hx]. by apply sfree_new.
Qed.

Lemma lit_op_ok h G o h' o' : HInv h G → python_call o → ¬ shares_layers o → lit_op h o = (h', o') →
  HInv h' (call_objects o' ++ G) ∧ ext h h' G ∧ call_value h' o' = o ∧ call_sets h' (call_objects o' ++ G) o'.
Proof.
  intros HI Hp Hs. unfold python_call in Hp.
  assert (Hopt : ∀ (ad : option attrs) (a : attrs),
    Forall (λ a, NoDup (dkeys a)) (match ad with Some d => [d; a] | None => [a] end) →
    (∀ d, ad = Some d → NoDup (dkeys d)) ∧ NoDup (dkeys a)).
  { intros [d|] a H; rewrite ?List.Forall_cons_iff in H.
    - destruct H as (H1 & H2 & _). split; [|done]. by intros ? [= <-].
    - destruct H as (H1 & _). done. }
  assert (Hdone : ext h h G ∧ True) by (split; [apply ext_refl|done]). destruct Hdone as [Hrefl _].
  destruct o as [n l ad a|ns a|u v l k ad a|es ad a|n l|u v l|n|l|l|]; cbn [lit_op call_dicts] in *;
    try (intros [= <- <-]; cbn [call_objects call_value call_sets app]; done).
  - destruct (Hopt ad a Hp) as [H1 H2].
    destruct (lit_opt h ad) as [h1 ad'] eqn:E1. destruct (lit_dict h1 a) as [h2 a'] eqn:E2.
    destruct (lit_val h2 l) as [h3 l'] eqn:E3. intros [= <- <-].
    destruct (lit_opt_ok _ _ _ _ _ HI H1 E1) as (A1 & A2 & A3).
    destruct (lit_dict_ok _ _ _ _ _ A1 H2 E2) as (B1 & B2 & B3).
    destruct (lit_layers _ _ _ _ _ B1 E3) as (C1 & C2 & C3 & C4).
    cbn [call_objects call_value call_sets]. rewrite <-app_comm_cons. split_and!.
    + done.
    + eapply ext_trans; [exact A2|]. eapply ext_trans; [eapply ext_sub; [exact B2|apply sub_app_r]|].
      eapply ext_sub; [exact C2|]. intros x Hx. right. apply elem_of_app. by right.
    + f_equal; [done| |].
      * rewrite <-A3. destruct ad' as [x|]; [|done]. cbn. f_equal.
        rewrite (see_at_ext _ _ _ x B1 C2) by (right; by left). eapply see_at_ext; [exact A1|exact B2|by left].
      * rewrite <-B3. eapply see_at_ext; [exact B1|exact C2|by left].
    + exact C4.
  - rewrite Forall_app, List.Forall_cons_iff in Hp. destruct Hp as (H1 & H2 & _).
    destruct (lit_list lit_nspec h ns) as [h1 ns'] eqn:E1. destruct (lit_dict h1 a) as [h2 a'] eqn:E2.
    intros [= <- <-].
    destruct (lit_nspecs_ok _ _ _ _ _ HI H1 E1) as (A1 & A2 & A3).
    destruct (lit_dict_ok _ _ _ _ _ A1 H2 E2) as (B1 & B2 & B3).
    assert (A3' : nspec_of h2 <$> ns' = ns).
    { rewrite <-A3. apply list_fmap_ext. intros i x Hi. destruct x as [n|n d]; [done|]. cbn. f_equal.
      eapply see_at_ext; [exact A1|exact B2|]. apply elem_of_app. left. apply elem_of_list_bind.
      exists (HTup n d). split; [by left|by eapply elem_of_list_lookup_2]. }
    cbn [call_objects call_value call_sets]. rewrite <-app_comm_cons. split_and!.
    + done.
    + eapply ext_trans; [exact A2|]. eapply ext_sub; [exact B2|]. apply sub_app_r.
    + by rewrite A3', B3.
    + destruct (decide ("layers" ∈ dkeys a)) as [Hl|Hl].
      * right. intros n Hn. apply Hs. split; [done|]. exists n. rewrite <-A3'.
        apply elem_of_list_fmap. by exists (HBare n).
      * left. destruct (dget "layers" (dict_at h2 a')) as [w|] eqn:Ew; [|done]. exfalso. apply Hl.
        apply dget_is_Some. rewrite <-B3. unfold see_at. rewrite see_dget, Ew. by eexists.
  - destruct (Hopt ad a Hp) as [H1 H2].
    destruct (lit_opt h ad) as [h1 ad'] eqn:E1. destruct (lit_dict h1 a) as [h2 a'] eqn:E2.
    destruct (lit_val h2 l) as [h3 l'] eqn:E3. intros [= <- <-].
    destruct (lit_opt_ok _ _ _ _ _ HI H1 E1) as (A1 & A2 & A3).
    destruct (lit_dict_ok _ _ _ _ _ A1 H2 E2) as (B1 & B2 & B3).
    destruct (lit_layers _ _ _ _ _ B1 E3) as (C1 & C2 & C3 & C4).
    cbn [call_objects call_value call_sets]. rewrite <-app_comm_cons. split_and!.
    + done.
    + eapply ext_trans; [exact A2|]. eapply ext_trans; [eapply ext_sub; [exact B2|apply sub_app_r]|].
      eapply ext_sub; [exact C2|]. intros x Hx. right. apply elem_of_app. by right.
    + f_equal; [done| |].
      * rewrite <-A3. destruct ad' as [x|]; [|done]. cbn. f_equal.
        rewrite (see_at_ext _ _ _ x B1 C2) by (right; by left). eapply see_at_ext; [exact A1|exact B2|by left].
      * rewrite <-B3. eapply see_at_ext; [exact B1|exact C2|by left].
    + exact C4.
  - rewrite Forall_app in Hp. destruct Hp as (H0 & Hp). destruct (Hopt ad a Hp) as [H1 H2].
    destruct (lit_list lit_espec h es) as [h0 es'] eqn:E0.
    destruct (lit_opt h0 ad) as [h1 ad'] eqn:E1. destruct (lit_dict h1 a) as [h2 a'] eqn:E2. intros [= <- <-].
    destruct (lit_especs_ok _ _ _ _ _ HI H0 E0) as (Z1 & Z2 & Z3).
    destruct (lit_opt_ok _ _ _ _ _ Z1 H1 E1) as (A1 & A2 & A3).
    destruct (lit_dict_ok _ _ _ _ _ A1 H2 E2) as (B1 & B2 & B3).
    assert (HxZ : ext h0 h2 ((es' ≫= elocs) ++ G)).
    { eapply ext_trans; [exact A2|]. eapply ext_sub; [exact B2|]. apply sub_app_r. }
    cbn [call_objects call_value call_sets]. split_and!; [| | |done].
    + rewrite <-app_comm_cons, <-app_assoc. exact B1.
    + eapply ext_trans; [exact Z2|]. eapply ext_sub; [exact HxZ|]. apply sub_app_r.
    + f_equal.
      * rewrite <-Z3. apply list_fmap_ext. intros i x Hi. unfold espec_of. f_equal.
        eapply see_at_ext; [exact Z1|exact HxZ|]. apply elem_of_app. left. apply elem_of_list_bind.
        exists x. split; [by left|by eapply elem_of_list_lookup_2].
      * rewrite <-A3. destruct ad' as [x|]; [|done]. cbn. f_equal. eapply see_at_ext; [exact A1|exact B2|by left].
      * exact B3.
Qed.

(** ** Programs *)
Lemma init_ok h G name ns root h' g : HInv h G → h_init h name ns root = (h', g) →
  HInv h' (locs g ++ G) ∧ ext h h' G ∧ graph_of h' g = init_graph name ns root.
Proof.
  intros HI. unfold h_init, init_graph.
  set (r := match root with None => _ | Some x => _ end).
  set (g0 := mkH name ns r [] [] [] [] [] []).
  assert (HI0 : HInv h (locs g0 ++ G)) by exact HI.
  destruct (fresh_args h (locs g0 ++ G) [ns] [] HI0 no_refs_nil) as (P1 & P2 & P3 & P4 & P5 & P6).
  cbn [new_set new_dict fst hp_sets hp_dicts] in *.
  set (h2 := mkHeap (hp_sets h ++ [[ns]]) (hp_dicts h ++ [[]])) in *.
  destruct (h_add_node h2 g0 r (HSet (length (hp_sets h))) None (length (hp_dicts h))) as [[h3 g3] e3] eqn:E.
  assert (P7 : ∀ s, HSet (length (hp_sets h)) = HSet s → s < length (hp_sets h2) ∧
    sfree h2 (length (hp_dicts h) :: olist None ++ locs g0 ++ G) s) by (intros s [= <-]; done).
  destruct (add_node_ok h2 g0 G r _ None _ _ _ _ P1 P7 E) as (Q1 & Q2 & Q3).
  cbn [fst]. intros [= <- <-]. split_and!; [done| |].
  - eapply ext_trans; [eapply ext_sub; [exact P2|apply sub_app_r]|done].
  - rewrite P5, P6 in Q3. change (see h2 []) with ([] : attrs) in Q3.
    change (graph_of h2 g0) with (mkGraph name ns r [] [] [] [] [] []) in Q3.
    cbn [fmap option_fmap option_map] in Q3. by rewrite <-Q3.
Qed.

Lemma exec_ok st c st' e : HInv (st_heap st) (held st) → literal c → exec st c = (st', e) →
  HInv (st_heap st') (held st') ∧ (shown st', e) = vexec (shown st) c.
Proof.
  intros HI Hl. destruct c as [name ns root|i o]; cbn [exec vexec literal] in *.
  - destruct (h_init (st_heap st) name ns root) as [h g] eqn:E. intros [= <- <-].
    destruct (init_ok _ _ _ _ _ _ _ HI E) as (P1 & P2 & P3).
    unfold held, shown in *. cbn [st_heap st_graphs]. split.
    + eapply HInv_perm; [exact P1|]. rewrite bind_app, bind_singleton. solve_Permutation.
    + rewrite fmap_app. cbn. rewrite P3. f_equal. f_equal.
      apply list_fmap_ext. intros j x Hj. eapply graph_of_ext; [exact HI|exact P2|].
      intros y Hy. apply elem_of_list_bind. exists x. split; [done|by eapply elem_of_list_lookup_2].
  - unfold shown at 2. rewrite list_lookup_fmap.
    destruct (st_graphs st !! i) as [g|] eqn:Eg; cbn [fmap option_fmap option_map].
    2:{ intros [= <- <-]. done. }
    destruct (lit_op (st_heap st) o) as [h o'] eqn:El. destruct Hl as [Hp Hs].
    destruct (lit_op_ok _ _ _ _ _ HI Hp Hs El) as (P1 & P2 & P3 & P4).
    set (st1 := mkStore h (st_graphs st)).
    destruct (h_step h g o') as [[h2 g2] e2] eqn:E2. intros [= <- <-].
    assert (Eh : hexec st1 i o' = (mkStore h2 (<[i:=g2]> (st_graphs st)), e2)).
    { unfold hexec, st1. cbn [st_graphs st_heap]. by rewrite Eg, E2. }
    destruct (hexec_ok st1 i o' _ _ g Eg P1 P4 Eh) as (Q1 & Q2 & Q3).
    split; [exact Q1|]. rewrite Q2, Q3. cbn [st1 st_heap]. rewrite P3.
    assert (Hsh : shown st1 = shown st).
    { unfold shown, st1. cbn [st_heap st_graphs]. apply list_fmap_ext. intros j x Hj.
      eapply graph_of_ext; [exact HI|exact P2|].
      intros y Hy. apply elem_of_list_bind. exists x. split; [done|by eapply elem_of_list_lookup_2]. }
    assert (Hgr : graph_of h g = graph_of (st_heap st) g).
    { eapply graph_of_ext; [exact HI|exact P2|].
      intros y Hy. apply elem_of_list_bind. exists g. split; [done|by eapply elem_of_list_lookup_2]. }
    rewrite Hsh, Hgr. by destruct (step (graph_of (st_heap st) g) o).
Qed.
Lemma exec_all_ok cs : ∀ st st' es, HInv (st_heap st) (held st) → Forall literal cs →
  exec_all st cs = (st', es) →
  HInv (st_heap st') (held st') ∧ (shown st', es) = vexec_all (shown st) cs.
Proof.
  induction cs as [|c cs IH]; intros st st' es HI Hl; cbn [exec_all vexec_all].
  { by intros [= <- <-]. }
  apply List.Forall_cons_iff in Hl as [Hc Hl].
  destruct (exec st c) as [st1 e] eqn:E1. destruct (exec_all st1 cs) as [st2 es2] eqn:E2. intros [= <- <-].
  destruct (exec_ok _ _ _ _ HI Hc E1) as [P1 P2]. destruct (IH _ _ _ P1 Hl E2) as [Q1 Q2].
  split; [done|]. by rewrite <-P2, <-Q2.
Qed.
Lemma empty_ok : HInv (st_heap empty_store) (held empty_store).
Proof. apply HInv_nil. Qed.

(** isolation, on values *)
Lemma vexec_length gs gs' c : length gs = length gs' → length (vexec gs c).1 = length (vexec gs' c).1.
Proof.
  intros H. destruct c as [name ns root|i o]; cbn.
  - rewrite !app_length. cbn. lia.
  - destruct (gs !! i) as [g|] eqn:E; destruct (gs' !! i) as [g'|] eqn:E'; cbn.
    + destruct (step g o), (step g' o). cbn. by rewrite !insert_length.
    + apply lookup_lt_Some in E. apply lookup_ge_None in E'. lia.
    + apply lookup_ge_None in E. apply lookup_lt_Some in E'. lia.
    + done.
Qed.
Lemma vexec_other i cs : ∀ gs gs', length gs = length gs' → gs !! i = gs' !! i →
  (vexec_all gs cs).1 !! i = (vexec_all gs' (filter (concerns i) cs)).1 !! i.
Proof.
  induction cs as [|c cs IH]; intros gs gs' Hl Hi; [done|].
  rewrite filter_cons. cbn [vexec_all].
  destruct (decide (concerns i c)) as [Hc|Hc].
  - cbn [vexec_all].
    pose proof (vexec_length gs gs' c Hl) as Hl'.
    assert (Hi' : (vexec gs c).1 !! i = (vexec gs' c).1 !! i).
    { destruct c as [name ns root|j o]; cbn.
      - destruct (decide (i < length gs)).
        + rewrite !lookup_app_l by lia. done.
        + rewrite !lookup_app_r by lia. by rewrite Hl.
      - cbn in Hc. apply bool_decide_unpack in Hc as ->. rewrite Hi.
        destruct (gs' !! i) as [g|] eqn:E; [|cbn; rewrite Hi; symmetry; exact E]. destruct (step g o) as [g1 e1]. cbn.
        rewrite !list_lookup_insert; [done|by eapply lookup_lt_Some|by eapply lookup_lt_Some]. }
    destruct (vexec gs c) as [gs1 e1]. destruct (vexec gs' c) as [gs1' e1']. cbn [fst] in *.
    pose proof (IH gs1 gs1' Hl' Hi') as HIH.
    destruct (vexec_all gs1 cs), (vexec_all gs1' (filter (concerns i) cs)). exact HIH.
  - destruct c as [name ns root|j o]; [done|].
    assert (Hne : j ≠ i). { intros E. apply Hc. unfold concerns. rewrite E. rewrite (bool_decide_eq_true_2 (i = i) eq_refl). exact I. }
    cbn [vexec].
    assert (H1 : length (vexec gs (CCall j o)).1 = length gs').
    { rewrite <-Hl. cbn. destruct (gs !! j) as [g|]; [|done]. destruct (step g o). cbn. apply insert_length. }
    assert (H2 : (vexec gs (CCall j o)).1 !! i = gs' !! i).
    { rewrite <-Hi. cbn. destruct (gs !! j) as [g|]; [|done]. destruct (step g o). cbn.
      by rewrite list_lookup_insert_ne. }
    cbn [vexec] in H1, H2.
    destruct (match gs !! j with Some g => _ | None => _ end) as [gs1 e1]. cbn [fst] in *.
    pose proof (IH gs1 gs' H1 H2) as HIH.
    destruct (vexec_all gs1 cs). exact HIH.
Qed.
