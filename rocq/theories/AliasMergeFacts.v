(** * AliasMergeFacts: merge_graphs on the heap (proofs) *)
From Verif Require Import PyBase DocGraph Relabel SpecGraph DocGraphFacts Effects MergeFacts Alias SpecAlias AliasFacts AliasOps AliasEdges AliasEdges2 AliasStep AliasFrame AliasMerge.

(** ** add_edges_from with dictionaries that stay where they are *)
Lemma fresh_new {V} (kd : dict nid V) k : fresh_key kd = Some k → dget k kd = None.
Proof.
  destruct (fresh_key_Some kd) as (z & -> & Hz). intros [= <-].
  destruct (dget (NInt z) kd) as [v|] eqn:E; [|done]. exfalso. apply Hz. apply dget_is_Some. by rewrite E.
Qed.
Lemma add_edges_from1_kept h g F ad u v d layers h' g' e :
  HInv h (locs g ++ F) → ad ∈ F → d ∈ F → dget "layers" (dict_at h d) = Some (HSet layers) →
  h_add_edges_from1 h g ad (HESpec u v None d) = (h', g', e) →
  post h F h' g' e (add_edges_from1 (graph_of h g) (see_at h ad) (ESpec u v None (see_at h d))).
Proof.
  intros HI Had Hd El.
  unfold h_add_edges_from1, add_edges_from1. cbn [he_u he_v he_key he_d e_u e_v e_key e_d].
  assert (Hm : dmem "layers" (dict_at h d) = true) by (unfold dmem; by rewrite El).
  assert (Hm' : dmem "layers" (see_at h d) = true) by (unfold dmem, see_at; by rewrite see_dget, El).
  rewrite Hm, Hm', El.
  assert (El' : dget "layers" (see_at h d) = Some (VSet (set_at h layers))) by (unfold see_at; by rewrite see_dget, El).
  cbv zeta. rewrite El', additional_ok.
  assert (HaG : ad ∈ locs g ++ F) by (apply elem_of_app; by right).
  assert (HdG : d ∈ locs g ++ F) by (apply elem_of_app; by right).
  destruct (h_additional_layers h ad) as [add_l|x].
  2:{ intros [= <- <- <-]. split_and!; [done|apply ext_refl|done]. }
  cbn [new_set].
  pose proof (ext_new_set h (set_union (set_at h layers) add_l) (locs g ++ F)) as Hx2.
  pose proof (set_at_new h (set_union (set_at h layers) add_l)) as Hnl. cbn [new_set fst] in Hx2, Hnl.
  set (h2 := mkHeap (hp_sets h ++ [set_union (set_at h layers) add_l]) (hp_dicts h)) in *.
  set (nl := length (hp_sets h)) in *.
  assert (Hnlv : nl < length (hp_sets h2)) by (unfold h2, nl; cbn; rewrite app_length; cbn; lia).
  assert (HI2 : HInv h2 (locs g ++ F)) by by eapply HInv_ext.
  assert (Hg2 : graph_of h2 g = graph_of h g).
  { eapply graph_of_ext; [exact HI|exact Hx2|]. intros x Hx. apply elem_of_app. by left. }
  assert (HxF2 : ext h h2 F) by (eapply ext_sub; [exact Hx2|apply sub_app_r]).
  change (g_succ (graph_of h g)) with (dmap (dmap (dmap (see_at h))) (h_succ g)).
  rewrite dget_dmap, default_dmap, dget_dmap, default_dmap, fresh_key_dmap.
  set (nbrs := default [] (dget u (h_succ g))). set (kd := default [] (dget v nbrs)).
  destruct (fresh_key kd) as [k|] eqn:Ef.
  2:{ intros [= <- <- <-]. split_and!; [done|done|by rewrite Hg2]. }
  rewrite dget_dmap, (fresh_new _ _ Ef). cbn [fmap option_fmap option_map default new_dict].
  destruct (new_dict_ok h2 _ [] HI2 (no_refs_fits _ _ _ no_refs_nil)) as [HI0 Hx0].
  pose proof (dict_at_new h2 []) as Hat0. cbn [new_dict fst] in *.
  set (h0 := mkHeap (hp_sets h2) (hp_dicts h2 ++ [[]])) in *.
  set (o := length (hp_dicts h2)) in *.
  rewrite Hat0. cbn [dget new_set].
  pose proof (ext_new_set h0 [] (o :: locs g ++ F)) as Hx3. cbn [new_set fst] in Hx3.
  pose proof (set_at_new h0 []) as Hs3. cbn [new_set fst] in Hs3.
  set (h3 := mkHeap (hp_sets h0 ++ [[]]) (hp_dicts h0)) in *.
  set (es := length (hp_sets h0)) in *.
  assert (HI3 : HInv h3 (o :: locs g ++ F)) by by eapply HInv_ext.
  assert (Hx03 : ext h2 h3 (locs g ++ F)).
  { eapply ext_trans; [exact Hx0|]. eapply ext_sub; [exact Hx3|]. intros x Hx. by right. }
  assert (Hov : o < length (hp_dicts h3)) by (apply (i_valid _ _ HI3); by left).
  pose proof (i_nodup _ _ HI3) as Hnd3. apply NoDup_cons in Hnd3 as [Hno Hnd3].
  assert (Hod : d ≠ o). { intros ->. by apply Hno. }
  assert (Hoa : ad ≠ o). { intros ->. by apply Hno. }
  assert (Hat3 : ∀ l, dict_at h3 l = dict_at h0 l) by done.
  rewrite put_put. rewrite (dict_at_put h3) by done.
  rewrite !(dict_at_put_ne h3 o d) by done.
  rewrite !(dict_at_put h3 o) by done.
  rewrite (Hat3 o), Hat0.
  set (D := dupdate (dupdate [] (dict_at h3 ad)) (dict_at h3 d)).
  set (h4 := put_dict h3 o D) in *.
  assert (Hd4 : dict_at h4 o = D) by by apply dict_at_put.
  intros E. rewrite ?Hd4 in E.
  assert (Hx34 : ext h3 h4 (locs g ++ F)) by by apply ext_put.
  assert (Hx24 : ext h2 h4 (locs g ++ F)) by by eapply ext_trans.
  assert (HxF4 : ext h h4 F).
  { eapply ext_trans; [exact HxF2|]. eapply ext_sub; [exact Hx24|apply sub_app_r]. }
  eapply post_trans; [exact HxF4|].
  assert (HIK4 : HInv h4 (locs g ++ F)) by by eapply HInv_ext.
  pose proof (last_part h4 g F u v k VNone (HSet es) nl D h' g' e HIK4) as Hp.
  assert (Hd3 : dict_at h3 d = dict_at h2 d) by (apply (x_at _ _ _ Hx03); done).
  assert (Ha3 : dict_at h3 ad = dict_at h2 ad) by (apply (x_at _ _ _ Hx03); done).
  assert (HD4 : nfits h4 (locs g ++ F) D).
  { eapply nfits_ext; [|exact Hx24]. unfold D. rewrite Hd3, Ha3.
    apply nfits_update; [apply nfits_update; [apply nfits_nil|]|]; by apply nfits_member. }
  assert (Hexv : ∀ s, HSet es = HSet s → s < length (hp_sets h4)).
  { intros s [= <-]. change (hp_sets h4) with (hp_sets h0 ++ [[]]). rewrite app_length.
    unfold es. cbn [length]. lia. }
  assert (Hnl4 : nl < length (hp_sets h4)).
  { pose proof (ext_sets_len _ _ _ Hx24). lia. }
  specialize (Hp HD4 Hexv Hnl4 E).
  assert (Hsl : set_at h4 nl = set_at h2 nl) by by eapply ext_set_at.
  assert (Hes : val h4 (HSet es) = VSet []) by (cbn; f_equal; exact Hs3).
  rewrite Hsl, Hes, Hnl in Hp.
  assert (Hx04 : ext h h4 (locs g ++ F)) by (eapply ext_trans; [exact Hx2|exact Hx24]).
  assert (Hgr : graph_of h4 g = graph_of h g).
  { eapply graph_of_ext; [exact HI|exact Hx04|]. intros x Hx. apply elem_of_app. by left. }
  assert (HseeD : see h4 D = dupdate (dupdate [] (see_at h ad)) (see_at h d)).
  { unfold D. rewrite Hd3, Ha3, !see_dupdate. f_equal; [f_equal|].
    - exact (see_keep _ _ _ _ Hx04 (nfits_member _ _ _ HI HaG)).
    - exact (see_keep _ _ _ _ Hx04 (nfits_member _ _ _ HI HdG)). }
  rewrite Hgr, HseeD in Hp. exact Hp.
Qed.

(** ** Phases *)
Lemma dmap_cons {K V W} (f : V → W) (k : K) v d : dmap f ((k, v) :: d) = (k, f v) :: dmap f d.
Proof. done. Qed.
Lemma bind_dmap {K V W X Y} (f : V → W) (d : list (K * V)) (G : K * W → list Y) (G' : K * V → list X) (H : X → Y) :
  (∀ k v, G (k, f v) = H <$> G' (k, v)) → dmap f d ≫= G = H <$> (d ≫= G').
Proof.
  intros HG. induction d as [|[k v] d IH]; [done|].
  change (G (k, f v) ++ (dmap f d ≫= G) = H <$> (G' (k, v) ++ (d ≫= G'))). by rewrite fmap_app, IH, HG.
Qed.
Lemma h_edges_value h g : edges (graph_of h g) = (λ x, (x.1, see_at h x.2)) <$> h_edges g.
Proof.
  unfold edges, h_edges, graph_of. cbn [g_succ].
  apply bind_dmap. intros u nb. apply bind_dmap. intros v kd. apply bind_dmap. intros k l. done.
Qed.
Lemma bind_locs {K V X} (L : V → list nat) (G : K * V → list (X * nat)) (d : list (K * V)) :
  (∀ p, (G p).*2 = L p.2) → (d ≫= G).*2 = dl L d.
Proof.
  intros HG. induction d as [|p d IH]; [done|].
  change ((G p ++ (d ≫= G)).*2 = L p.2 ++ dl L d). by rewrite fmap_app, IH, HG.
Qed.
Lemma h_edges_locs g : (h_edges g).*2 = succ_locs (h_succ g).
Proof.
  unfold h_edges, succ_locs. apply bind_locs. intros p. apply bind_locs. intros q. apply bind_locs. intros r. done.
Qed.
Lemma h_out_edges_value h g n : out_edges (graph_of h g) n = (λ x, (x.1, see_at h x.2)) <$> h_out_edges g n.
Proof.
  unfold out_edges, h_out_edges, graph_of. cbn [g_succ]. rewrite dget_dmap.
  destruct (dget n (h_succ g)) as [nb|]; [|done]. cbn [fmap option_fmap option_map default].
  apply bind_dmap. intros v kd. apply bind_dmap. intros k l. done.
Qed.
Lemma h_out_edges_elem g n x : NoDup (dkeys (h_succ g)) → x ∈ h_edges g → x.1.1.1 = n → x ∈ h_out_edges g n.
Proof.
  intros Hn. unfold h_edges, h_out_edges. rewrite elem_of_list_bind. intros ([u nb] & Hx & Hp) <-.
  pose proof Hx as Hx'. apply elem_of_list_bind in Hx' as (q & Hx' & Hq). apply elem_of_list_bind in Hx' as (r & Hx' & Hr).
  apply elem_of_list_singleton in Hx' as ->. cbn [fst snd] in *.
  rewrite (elem_dget _ _ _ Hn Hp). cbn [default]. exact Hx.
Qed.
Lemma h_out_edges_in g n x : x ∈ h_out_edges g n → x ∈ h_edges g ∧ x.1.1.1 = n.
Proof.
  unfold h_edges, h_out_edges. intros Hx. destruct (dget n (h_succ g)) as [nb|] eqn:E; cbn [default] in Hx.
  - split.
    + apply elem_of_list_bind. exists (n, nb). split; [exact Hx|by apply dget_Some_elem].
    + apply elem_of_list_bind in Hx as (q & Hx & Hq). apply elem_of_list_bind in Hx as (r & Hx & Hr).
      by apply elem_of_list_singleton in Hx as ->.
  - by apply elem_of_nil in Hx.
Qed.

(** every dictionary of [g] has a set of layers *)
Definition laid (h : heap) (g : hgraph) : Prop := ∀ l, l ∈ locs g → ∃ s, dget "layers" (dict_at h l) = Some (HSet s).

Lemma keeps_mono N (P Q : nat → Prop) h h' : (∀ l, P l → Q l) → keeps N P h h' → keeps N Q h h'.
Proof. intros HPQ [A B C]. split; [done|done|]. intros l Hl. apply C. intros [?|?]; apply Hl; [left; by apply HPQ|by right]. Qed.
Lemma gsafe_mono N (P Q : nat → Prop) g : (∀ l, P l → Q l) → gsafe N P g → gsafe N Q g.
Proof. intros HPQ H l Hl. destruct (H l Hl); [left; by apply HPQ|by right]. Qed.
(** dictionaries that are not written to *)
Lemma keeps_ext N P h h' G : keeps N P h h' → (∀ l, l ∈ G → l < N ∧ ¬ P l) → ext h h' G.
Proof. intros [A B C] HG. split; [done|done|]. intros l Hl. apply C. destruct (HG l Hl). intros [?|?]; [done|lia]. Qed.

Lemma nodes_phase h g og F kw h0 h1 g1 e :
  HInv h (locs g ++ locs og ++ F) → laid h og → new_dict h [] = (h0, kw) →
  h_add_nodes_from h0 g (nodes_data og) kw = (h1, g1, e) →
  HInv h1 (locs g1 ++ succ_locs (h_succ og) ++ F) ∧
  (graph_of h1 g1, e) = add_nodes_from (graph_of h g) ((λ p : nid * attrs, NTup p.1 p.2) <$> g_node (graph_of h og)) [] ∧
  keeps (length (hp_dicts h)) (λ l, l ∈ locs g) h h1 ∧ gsafe (length (hp_dicts h)) (λ l, l ∈ locs g) g1.
Proof.
  intros HI HL E0 E1.
  destruct (new_dict_ok h _ [] HI (no_refs_fits _ _ _ no_refs_nil)) as [HI0 Hx0].
  pose proof (dict_at_new h []) as Hat. cbn [new_dict fst] in HI0, Hx0, Hat. injection E0 as <- <-.
  set (h0 := mkHeap (hp_sets h) (hp_dicts h ++ [[]])) in *. set (kw := length (hp_dicts h)) in *.
  assert (Hs : nodes_data og ≫= slocs = dl one (h_node og)).
  { unfold nodes_data, dl. generalize (h_node og). intros d. induction d as [|[n l] d IH]; [done|].
    rewrite fmap_cons, !bind_cons. f_equal. exact IH. }
  assert (HI0' : HInv h0 ((nodes_data og ≫= slocs) ++ locs g ++ kw :: succ_locs (h_succ og) ++ F)).
  { rewrite Hs. eapply HInv_perm; [exact HI0|]. unfold locs at 2. solve_Permutation. }
  destruct (add_nodes_from_ok h0 g _ (nodes_data og) kw h1 g1 e HI0') as (P1 & P2 & P3).
  { left. by rewrite Hat. }
  { exact E1. }
  split; [exact P1|]. split.
  { rewrite P3. f_equal.
    - eapply graph_of_ext; [exact HI|exact Hx0|]. intros x Hx. apply elem_of_app. by left.
    - unfold nodes_data, graph_of. cbn [g_node]. unfold dmap. rewrite <-!list_fmap_compose. apply list_fmap_ext.
      intros i [n l] Hi. cbn. f_equal. eapply see_at_ext; [exact HI|exact Hx0|].
      apply elem_of_app. right. apply elem_of_app. left. apply elem_of_app. left. apply dl_one_elem. exists n.
      by eapply elem_of_list_lookup_2.
    - unfold see_at. by rewrite Hat. }
  assert (K0 : keeps (length (hp_dicts h)) (λ l, l ∈ locs g) h h0) by by apply (keeps_new_dict _ _ h []).
  assert (HN0 : length (hp_dicts h) ≤ length (hp_dicts h0)) by (unfold h0; cbn; rewrite app_length; lia).
  assert (Hg : gsafe (length (hp_dicts h)) (λ l, l ∈ locs g) g) by (intros l Hl; by left).
  assert (HL0 : ∀ l, l ∈ dl one (h_node og) → l < length (hp_dicts h) ∧ l ∉ locs g ∧ is_Some (dget "layers" (dict_at h0 l))).
  { intros l Hl. assert (Hl' : l ∈ locs og) by (apply elem_of_app; by left).
    assert (Hv : l < length (hp_dicts h)) by (apply (i_valid _ _ HI); rewrite !elem_of_app; tauto).
    split; [done|]. split.
    - intros Hlg. pose proof (i_nodup _ _ HI) as Hnd. apply NoDup_app in Hnd as (_ & Hd & _).
      apply (Hd l Hlg). apply elem_of_app. by left.
    - rewrite (x_at _ _ _ Hx0) by (rewrite !elem_of_app; tauto). destruct (HL l Hl') as [s ->]. by eexists. }
  unfold h_add_nodes_from in E1.
  assert (Hall : Forall (λ s, ∃ n l, s = HTup n l ∧ l ∈ dl one (h_node og)) (nodes_data og)).
  { apply Forall_forall. intros s Hs'. unfold nodes_data in Hs'. apply elem_of_list_fmap in Hs' as ([n l] & -> & Hp).
    exists n, l. split; [done|]. apply dl_one_elem. by exists n. }
  (* the loop keeps the dictionaries of [og], so they keep their layers *)
  clear HI0 HI0' P1 P2 P3 Hs Hat. clearbody h0.
  assert (HLoop : ∀ ns h2 g2, Forall (λ s, ∃ n l, s = HTup n l ∧ l ∈ dl one (h_node og)) ns →
    length (hp_dicts h) ≤ length (hp_dicts h2) → gsafe (length (hp_dicts h)) (λ l, l ∈ locs g) g2 →
    keeps (length (hp_dicts h)) (λ l, l ∈ locs g) h0 h2 →
    fine (length (hp_dicts h)) (λ l, l ∈ locs g) h2 (h_for_each (λ h g s, h_add_nodes_from1 h g kw s) ns h2 g2)).
  { clear Hall E1. intros ns. induction ns as [|s ns IH]; intros h2 g2 Hns HN2 Hg2 K2; cbn [h_for_each].
    { apply fine_intro; [apply keeps_refl|done]. }
    apply List.Forall_cons_iff in Hns as [(n & l & -> & Hl) Hns]. destruct (HL0 l Hl) as (H1 & H2 & H3).
    assert (H4 : is_Some (dget "layers" (dict_at h2 l))).
    { rewrite (k_at _ _ _ _ K2); [done|]. intros [?|?]; [done|lia]. }
    pose proof (add_nodes_from1_fine _ (λ l, l ∈ locs g) h2 g2 kw n l HN2 Hg2 H4) as [K3 G3].
    destruct (h_add_nodes_from1 h2 g2 kw (HTup n l)) as [[h3 g3] e3]. cbn [fst snd] in K3, G3.
    destruct e3 as [e3|]; [by apply fine_intro|]. eapply fine_trans; [exact K3|].
    apply IH; [done|by eapply keeps_N|done|by eapply keeps_trans]. }
  destruct (HLoop _ h0 g Hall HN0 Hg (keeps_refl _ _ h0)) as [K1 G1]. rewrite E1 in K1, G1. cbn [fst snd] in K1, G1.
  split; [by eapply keeps_trans|done].
Qed.

(** the copies of the token attributes *)
Lemma ns_token_layers ns : ns +:+ ":token" ≠ "layers".
Proof. apply token_key_ne. Qed.
Lemma token_loop og F l : ∀ h g h' g' e (lv : list (nid * attrs)),
  HInv h (locs g ++ F) → (∀ x, x ∈ locs og → x ∉ locs g) →
  (∀ n lo s, dget n (h_node og) = Some lo → dget (h_ns og +:+ ":token") (dict_at h lo) ≠ Some (HSet s)) →
  lv.*1 = l.*1 → h_for_each (h_merge_token_attr og) l h g = (h', g', e) →
  g' = g ∧ hp_sets h' = hp_sets h ∧ length (hp_dicts h') = length (hp_dicts h) ∧
  (∀ x, x ∉ locs g → dict_at h' x = dict_at h x) ∧ HInv h' (locs g ++ F) ∧
  (graph_of h' g, e) = for_each (merge_token_attr (graph_of h og)) lv (graph_of h g).
Proof.
  induction l as [|[n ln] l IH]; intros h g h' g' e lv HI Hdis Htok Hlv; cbn [h_for_each].
  { destruct lv; [|done]. intros [= <- <- <-]. done. }
  destruct lv as [|[n' av] lv]; [done|]. injection Hlv as -> Hlv. cbn [for_each].
  destruct (h_merge_token_attr og h g (n, ln)) as [[h1 g1] e1] eqn:E1.
  assert (Hstep : g1 = g ∧ hp_sets h1 = hp_sets h ∧ length (hp_dicts h1) = length (hp_dicts h) ∧
    (∀ x, x ∉ locs g → dict_at h1 x = dict_at h x) ∧ HInv h1 (locs g ++ F) ∧
    (graph_of h1 g, e1) = merge_token_attr (graph_of h og) (graph_of h g) (n, av)).
  { revert E1. unfold h_merge_token_attr, merge_token_attr, istoken, get_token. cbn [fst].
    assert (Ho : ∀ m, node_attrs (graph_of h og) m = see_at h <$> dget m (h_node og)) by (intros m; apply dget_dmap).
    assert (Hgg : ∀ m, node_attrs (graph_of h g) m = see_at h <$> dget m (h_node g)) by (intros m; apply dget_dmap).
    rewrite Ho, Hgg. change (g_ns (graph_of h og)) with (h_ns og). change (g_ns (graph_of h g)) with (h_ns g).
    destruct (dget n (h_node og)) as [lo|] eqn:En; cbn [fmap option_fmap option_map].
    2:{ intros [= <- <- <-]. done. }
    unfold see_at at 1. unfold see. rewrite dmem_dmap. destruct (dmem (h_ns og +:+ ":token") (dict_at h lo)) eqn:Em.
    2:{ intros [= <- <- <-]. done. }
    destruct (dget n (h_node g)) as [b|] eqn:Eb; cbn [fmap option_fmap option_map].
    2:{ intros [= <- <- <-]. done. }
    unfold see_at at 1. unfold see. rewrite dmem_dmap. destruct (dmem (h_ns g +:+ ":token") (dict_at h b)).
    { intros [= <- <- <-]. done. }
    unfold see_at at 1. rewrite see_dget.
    destruct (dget (h_ns og +:+ ":token") (dict_at h lo)) as [t|] eqn:Et; cbn [fmap option_fmap option_map of_option].
    2:{ intros [= <- <- <-]. done. }
    intros [= <- <- <-].
    assert (Hb : b ∈ locs g).
    { apply elem_of_app. left. apply dl_one_elem. exists n. by apply dget_Some_elem. }
    assert (HbG : b ∈ locs g ++ F) by (apply elem_of_app; by left).
    destruct (in_split_perm _ _ HbG) as [K' HK].
    assert (HIp : HInv h (b :: K')) by by eapply HInv_perm.
    apply HInv_cons in HIp as (HIK & HnK & Hv & Hf).
    pose proof (ns_token_layers (h_ns g)) as Hne.
    set (D := dset (h_ns g +:+ ":token") t (dict_at h b)).
    assert (HDg : ∀ k s, dget k D = Some (HSet s) → k ≠ h_ns g +:+ ":token" ∧ dget k (dict_at h b) = Some (HSet s)).
    { intros k s. unfold D. rewrite dget_dset. case_decide; [|done]. intros [= ->]. exfalso. by apply (Htok n lo s). }
    assert (HDl : dget "layers" D = dget "layers" (dict_at h b)).
    { unfold D. rewrite dget_dset. case_decide; [done|done]. }
    assert (HfD : fits h K' D).
    { split; [split|..].
      - unfold D. apply NoDup_dset. apply (i_keys _ _ HI b HbG).
      - intros k s [_ Hd]%HDg. by apply (n_refs _ _ _ (f_nfits _ _ _ Hf) k).
      - intros k s Hk [_ Hd]%HDg. by apply (n_free _ _ _ (f_nfits _ _ _ Hf) k).
      - intros s. rewrite HDl. apply (f_lay _ _ _ Hf).
      - intros s k. rewrite HDl. intros Hs [_ Hd]%HDg. by apply (f_one _ _ _ Hf s k). }
    pose proof (i_nodup _ _ HI) as Hnd.
    split_and!; [done|done|apply put_dict_len| | |].
    - intros x Hx. apply dict_at_put_ne. by intros ->.
    - by eapply write_dict.
    - f_equal. assert (Hx : ext h (put_dict h b D) K') by by apply ext_put.
      rewrite (graph_write_node h _ g n b).
      + f_equal. f_equal. unfold see_at at 1. rewrite dict_at_put by done.
        change (see (put_dict h b D)) with (see h). unfold D. apply see_dset.
      + by apply NoDup_app in Hnd as (? & _).
      + done.
      + intros x Hxg Hxb. eapply see_at_ext; [exact HIK|exact Hx|].
        assert (Hl' : x ∈ locs g ++ F) by (apply elem_of_app; by left).
        rewrite HK in Hl'. by apply elem_of_cons in Hl' as [?|?]. }
  destruct Hstep as (-> & S1 & S2 & S3 & S4 & S5). rewrite <-S5. destruct e1 as [e1|].
  { intros [= <- <- <-]. done. }
  intros E2.
  assert (Hog : graph_of h1 og = graph_of h og).
  { apply graph_of_see. intros x Hx. unfold see_at. rewrite S3 by by apply Hdis. unfold see. apply dmap_ext.
    intros [k v] _. cbn. destruct v; cbn; try done. f_equal. unfold set_at. by rewrite S1. }
  rewrite <-Hog.
  destruct (IH h1 g h' g' e lv S4 Hdis) as (-> & R1 & R2 & R3 & R4 & R5); [|done|exact E2|].
  - intros m lo s Hm. rewrite S3; [by apply Htok with m|]. apply Hdis. apply elem_of_app. left. apply dl_one_elem. exists m. by apply dget_Some_elem.
  - split_and!; [done|congruence|congruence| |done|done]. intros x Hx. rewrite R3, S3 by done. done.
Qed.

Lemma merge_lists_value h g og : graph_of h (h_merge_lists g og) =
  (let g3 := graph_of h g in let og := graph_of h og in
   let g4 := if String.eqb (g_name og) "" then g3
             else if String.eqb (g_name g3) "" then set_name (g_name og) g3 else g3 in
   let g5 := match g_tokens og, g_tokens g4 with _ :: _, [] => set_tokens (g_tokens og) g4 | _, _ => g4 end in
   match g_sentences og, g_sentences g5 with _ :: _, [] => set_sentences (g_sentences og) g5 | _, _ => g5 end).
Proof.
  destruct g as [a1 a2 a3 a4 a5 a6 t1 s1 a9], og as [b1 b2 b3 b4 b5 b6 t2 s2 b9].
  unfold h_merge_lists, graph_of. cbn -[String.eqb dmap].
  destruct (String.eqb b1 ""); cbn -[String.eqb dmap]; [|destruct (String.eqb a1 ""); cbn -[String.eqb dmap]];
    destruct t2, t1; cbn -[String.eqb dmap]; destruct s2, s1; reflexivity.
Qed.
Lemma merge_lists_locs g og : h_node (h_merge_lists g og) = h_node g ∧ h_succ (h_merge_lists g og) = h_succ g ∧
  h_ns (h_merge_lists g og) = h_ns g ∧ h_root (h_merge_lists g og) = h_root g.
Proof.
  unfold h_merge_lists. destruct (String.eqb (h_name og) ""); [|destruct (String.eqb (h_name g) "")]; cbn;
    destruct (h_tokens og); cbn; destruct (h_tokens g); cbn; destruct (h_sentences og); cbn; by destruct (h_sentences g).
Qed.

Lemma edges_phase h g og F kw h0 h1 g1 e :
  HInv h (locs g ++ succ_locs (h_succ og) ++ F) →
  (∀ l, l ∈ succ_locs (h_succ og) → ∃ s, dget "layers" (dict_at h l) = Some (HSet s)) → new_dict h [] = (h0, kw) →
  h_add_edges_from h0 g ((λ x, HESpec x.1.1.1 x.1.1.2 None x.2) <$> h_edges og) None kw = (h1, g1, e) →
  HInv h1 (locs g1 ++ succ_locs (h_succ og) ++ F) ∧
  (graph_of h1 g1, e) = add_edges_from (graph_of h g) ((λ e : nid * nid * nid * attrs,
                ESpec e.1.1.1 e.1.1.2 None e.2) <$> edges (graph_of h og)) None [].
Proof.
  intros HI HL E0 E1.
  destruct (new_dict_ok h _ [] HI (no_refs_fits _ _ _ no_refs_nil)) as [HI0 Hx0].
  pose proof (dict_at_new h []) as Hat. cbn [new_dict fst] in HI0, Hx0, Hat. injection E0 as <- <-.
  set (h0 := mkHeap (hp_sets h) (hp_dicts h ++ [[]])) in *. set (kw := length (hp_dicts h)) in *.
  set (F' := kw :: succ_locs (h_succ og) ++ F).
  assert (HI0' : HInv h0 (locs g ++ F')).
  { eapply HInv_perm; [exact HI0|]. unfold F'. solve_Permutation. }
  unfold h_add_edges_from in E1. cbn [attr_object] in E1. unfold add_edges_from.
  set (es := (λ x, HESpec x.1.1.1 x.1.1.2 None x.2) <$> h_edges og) in *.
  assert (Hes : Forall (λ x, he_key x = None ∧ he_d x ∈ succ_locs (h_succ og)) es).
  { apply Forall_forall. intros x Hx. unfold es in Hx. apply elem_of_list_fmap in Hx as (y & -> & Hy). split; [done|].
    cbn. rewrite <-h_edges_locs. apply elem_of_list_fmap. by exists y. }
  assert (Hv : (λ x : nid * nid * nid * attrs, ESpec x.1.1.1 x.1.1.2 None x.2) <$> edges (graph_of h og) = espec_of h <$> es).
  { rewrite h_edges_value. unfold es. rewrite <-!list_fmap_compose. by apply list_fmap_ext. }
  rewrite Hv.
  assert (Hgg : graph_of h0 g = graph_of h g).
  { eapply graph_of_ext; [exact HI|exact Hx0|]. intros x Hx. apply elem_of_app. by left. }
  assert (HF0 : HInv h0 F') by by eapply HInv_prefix.
  assert (HIF : HInv h (succ_locs (h_succ og) ++ F)) by by eapply HInv_prefix.
  assert (Hpost : post h0 F' h1 g1 e (for_each (λ g e, add_edges_from1 g [] e) (espec_of h <$> es) (graph_of h0 g))).
  { eapply (h_for_each_ok (λ h g x, h_add_edges_from1 h g kw x) (λ g x, add_edges_from1 g [] x) (λ _, []) (λ _ x, espec_of h x)
      (λ _ x, he_key x = None ∧ he_d x ∈ succ_locs (h_succ og)) F' (λ h1, ∀ l, l ∈ F' → dict_at h1 l = dict_at h0 l ∧ see_at h1 l = see_at h0 l)); [ |done|done| | | | | |exact Hes|exact E1].
    - intros h2 h3 H2 HI2 Hx2 l Hl. destruct (H2 l Hl) as [A B]. split.
      + rewrite (x_at _ _ _ Hx2) by done. done.
      + rewrite <-B. by eapply see_at_ext.
    - intros h2 g2 F2 x h3 g3 e3 HI2 HF2 H2 [Hk Hd] E3. cbn [app] in HI2.
      assert (HkF : kw ∈ F') by by left.
      assert (HdF : he_d x ∈ F') by (unfold F'; right; apply elem_of_app; by left).
      destruct (HL _ Hd) as [s Hs].
      assert (Hd0 : dict_at h0 (he_d x) = dict_at h (he_d x)).
      { apply (x_at _ _ _ Hx0). apply elem_of_app. right. apply elem_of_app. by left. }
      assert (Hsee : see_at h0 (he_d x) = see_at h (he_d x)).
      { eapply see_at_ext; [exact HI|exact Hx0|]. apply elem_of_app. right. apply elem_of_app. by left. }
      destruct (H2 _ HkF) as [_ A]. destruct (H2 _ HdF) as [B C].
      destruct x as [u v key d]. cbn [he_key he_d] in *. subst key.
      pose proof (add_edges_from1_kept h2 g2 F2 kw u v d s h3 g3 e3 HI2 (HF2 _ HkF) (HF2 _ HdF)) as Hp.
      rewrite B, Hd0 in Hp. specialize (Hp Hs E3). rewrite A, C, Hsee in Hp.
      unfold see_at in Hp at 1. rewrite Hat in Hp. exact Hp.
    - replace (es ≫= λ _, []) with ([] : list nat); [exact HI0'|]. clear. induction es as [|x l IH]; [done|]. exact IH.
    - done.
    - by apply (i_nodup _ _ HF0).
    - done. }
  destruct Hpost as (P1 & P2 & P3). rewrite Hgg in P3. split; [|exact P3].
  eapply HInv_subm; [exact P1|]. apply submseteq_skips_l. unfold F'. by apply submseteq_cons.
Qed.

(** ** merge_rootnodes *)
Lemma root_edge_ok h g F x h' g' e : HInv h (x.2 :: locs g ++ F) → h_merge_root_edge h g x = (h', g', e) →
  post h F h' g' e (add_edge (graph_of h g) (h_root g) x.1.1.2 VNone None (Some (see_at h x.2)) []).
Proof.
  intros HI. unfold h_merge_root_edge. cbn [new_dict].
  destruct (new_dict_ok h _ [] HI (no_refs_fits _ _ _ no_refs_nil)) as [HI0 Hx0].
  pose proof (dict_at_new h []) as Hat. cbn [new_dict fst] in HI0, Hx0, Hat.
  set (h0 := mkHeap (hp_sets h) (hp_dicts h ++ [[]])) in *. set (kw := length (hp_dicts h)) in *.
  intros E. assert (HIK : HInv h (locs g ++ F)) by (by apply HInv_cons in HI as (? & _)).
  eapply post_trans; [eapply ext_sub; [exact Hx0|]; intros y Hy; right; apply elem_of_app; by right|].
  pose proof (add_edge_ok h0 g F (h_root g) x.1.1.2 HNone None (Some x.2) kw h' g' e HI0) as Hp.
  cbn [fmap option_fmap option_map] in Hp.
  rewrite (see_at_ext h h0 _ x.2 HI Hx0) in Hp by by left.
  assert (Hk : see_at h0 kw = []) by (unfold see_at; by rewrite Hat). rewrite Hk in Hp.
  rewrite (graph_of_ext h h0 g _ HI Hx0) in Hp by (intros y Hy; right; apply elem_of_app; by left).
  apply Hp; [done|exact E].
Qed.
