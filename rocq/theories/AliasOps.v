(** * AliasOps: every mutator on the heap does what its value model does *)
From Verif Require Import PyBase DocGraph Alias SpecAlias AliasFacts.


(** what a call leaves: the discipline, the other dictionaries [F], and the
    outcome [v] of the value model *)
Definition post (h : heap) (F : list nat) (h' : heap) (g' : hgraph) (e : option exc) (v : outcome) : Prop :=
  HInv h' (locs g' ++ F) ∧ ext h h' F ∧ (graph_of h' g', e) = v.

Lemma write_dict h G o K' D : HInv h G → G ≡ₚ o :: K' → fits h K' D → HInv (put_dict h o D) G.
Proof.
  intros HI Hp Hf. apply (HInv_perm _ (o :: K')); [|done].
  apply (HInv_perm _ _ _ HI) in Hp. clear HI. apply HInv_cons in Hp as (HI & Hn & Hv & _).
  assert (Hx : ext h (put_dict h o D) K') by by apply ext_put.
  apply HInv_cons. split_and!.
  - by eapply HInv_ext.
  - done.
  - by rewrite put_dict_len.
  - rewrite dict_at_put by done. by eapply fits_ext.
Qed.
Lemma fits_fresh h h3 K v D : nfits h K D → HInv h K → ext h h3 K →
  (∀ s, v = HSet s → length (hp_sets h) ≤ s < length (hp_sets h3)) → fits h3 K (dset "layers" v D).
Proof.
  intros Hn HI Hx Hv. apply fits_set; [by eapply nfits_ext|].
  intros s Hs. destruct (Hv s Hs) as [H1 H2]. split_and!; [done| |].
  - eapply sfree_ext; [|exact Hx]. by apply sfree_new.
  - intros k _ Hd. apply (n_refs _ _ _ Hn) in Hd. lia.
Qed.
Lemma in_split_perm (G : list nat) o : o ∈ G → ∃ K, G ≡ₚ o :: K.
Proof. intros Ho. apply elem_of_Permutation in Ho as [K HK]. by exists K. Qed.

(** ** layers *)
Lemma check_layers_ok h G ns lay h1 r : HInv h G →
  (∀ s, lay = HSet s → s < length (hp_sets h) ∧ sfree h G s) →
  h_check_layers h ns lay = (h1, r) →
  ext h h1 G ∧ hp_dicts h1 = hp_dicts h ∧
  match r with
  | Ok l => check_layers ns (val h lay) = Ok (set_at h1 l) ∧ l < length (hp_sets h1) ∧ sfree h1 G l
  | Err e => check_layers ns (val h lay) = Err e
  end.
Proof.
  intros HI Hl. unfold h_check_layers, check_layers. destruct (truthy (val h lay)) eqn:Et.
  - intros [= <- <-]. split; [apply ext_refl|]. split; [done|].
    destruct lay; cbn in *; try done. destruct (Hl _ eq_refl). done.
  - intros [= <- <-]. assert (Hx := ext_new_set h [ns] G). split; [exact Hx|]. split; [done|].
    split_and!.
    + change (Ok [ns] = Ok (set_at (new_set h [ns]).1 (length (hp_sets h)))). by rewrite set_at_new.
    + cbn. rewrite app_length. cbn. lia.
    + eapply sfree_ext; [|exact Hx]. apply sfree_new; [done|]. lia.
Qed.
Lemma h_union_ok h G v l h3 r :
  h_union h v l = (h3, r) →
  ext h h3 G ∧ hp_dicts h3 = hp_dicts h ∧
  match r with
  | Ok all => py_union (val h v) (set_at h l) = Ok (val h3 all) ∧
              ∀ s, all = HSet s → length (hp_sets h) ≤ s < length (hp_sets h3)
  | Err e => py_union (val h v) (set_at h l) = Err e
  end.
Proof.
  unfold h_union. destruct v; cbn; intros [= <- <-]; try (split; [apply ext_refl|done]).
  - split; [apply (ext_new_set h)|]. split; [done|]. split.
    + unfold val. f_equal. f_equal. symmetry. apply (set_at_new h).
    + intros s [= <-]. cbn. rewrite app_length. cbn. lia.
Qed.

Lemma attr_object_ok h K attr ad l h2 a :
  HInv h (attr :: olist ad ++ K) → l < length (hp_sets h) → sfree h (attr :: olist ad ++ K) l →
  attr_object (put_dict h attr (dset "layers" (HSet l) (dict_at h attr))) ad attr = (h2, a) →
  ext h h2 K ∧ hp_sets h2 = hp_sets h ∧ a ∉ K ∧ a < length (hp_dicts h2) ∧ fits h2 K (dict_at h2 a) ∧
  dict_at h2 a = match ad with
                 | None => dset "layers" (HSet l) (dict_at h attr)
                 | Some a => dupdate (dict_at h a) (dset "layers" (HSet l) (dict_at h attr))
                 end.
Proof.
  intros HI Hl Hs. set (L := dset "layers" (HSet l) (dict_at h attr)).
  pose proof HI as HI0. apply HInv_cons in HI as (HI & Hn & Hv & Hf).
  assert (HnL : ∀ k, k ≠ "layers" → dget k L ≠ Some (HSet l)).
  { intros k Hk. unfold L. rewrite dget_dset_ne by done. apply Hs. by left. }
  destruct ad as [a0|]; cbn [olist app attr_object] in *.
  - pose proof HI as HI1. apply HInv_cons in HI1 as (HIK & Hn1 & Hv1 & Hf1).
    apply not_elem_of_cons in Hn as [Hna Hn].
    set (D := dupdate (dict_at h a0) L).
    assert (Hx1 : ext h (put_dict h attr L) (a0 :: K)).
    { apply ext_put. apply not_elem_of_cons. done. }
    rewrite (x_at _ _ _ Hx1 a0) by by left.
    rewrite dict_at_put by done. fold D. intros [= <- <-].
    assert (Hx2 : ext (put_dict h attr L) (put_dict (put_dict h attr L) a0 D) K) by by apply ext_put.
    assert (Hx : ext h (put_dict (put_dict h attr L) a0 D) K).
    { eapply ext_trans; [|exact Hx2]. eapply ext_sub; [exact Hx1|]. intros x Hx'. by right. }
    assert (Hd : dict_at (put_dict (put_dict h attr L) a0 D) a0 = D).
    { apply dict_at_put. by rewrite put_dict_len. }
    rewrite Hd. split_and!; [done|done|done| |..|done].
    + by rewrite !put_dict_len.
    + eapply fits_ext; [|exact Hx].
      assert (HD : nfits h K D).
      { apply nfits_update; [apply Hf1|].
        apply nfits_set; [eapply nfits_sub; [apply Hf|]; intros x Hx'; by right|].
        by intros s [= <-]. }
      assert (HlD : dget "layers" D = Some (HSet l)).
      { unfold D. rewrite dget_dupdate. unfold L. by rewrite dget_dset_eq. }
      split; [done|..].
      * intros s. rewrite HlD. intros [= <-]. eapply sfree_sub; [exact Hs|].
        intros x Hx'. right. by right.
      * intros s k. rewrite HlD. intros [= <-]. destruct (decide (k = "layers")) as [->|Hk]; [done|].
        unfold D. rewrite dget_dupdate. destruct (dget k L) as [w|] eqn:Ew.
        -- intros [= ->]. by destruct (HnL k Hk).
        -- intros Hd'. exfalso. apply (Hs a0 k); [right; by left|done].
  - intros [= <- <-]. assert (Hx : ext h (put_dict h attr L) K) by by apply ext_put.
    rewrite dict_at_put by done.
    split_and!; [done|done|done| |..|done].
    + by rewrite put_dict_len.
    + eapply fits_ext; [|exact Hx]. apply fits_set; [apply Hf|].
      intros s [= <-]. split_and!; [done| |].
      * eapply sfree_sub; [exact Hs|]. intros x Hx'. by right.
      * intros k Hk. apply Hs. by left.
Qed.

(** ** A new node *)
Definition with_new_node (g : hgraph) (n : nid) (a : nat) : hgraph :=
  hset_node (dset n a (h_node g)) (hset_pred (dset n [] (h_pred g)) (hset_succ (dset n [] (h_succ g)) g)).
Lemma locs_new_node g n a : dget n (h_succ g) = None →
  olocs one (dget n (h_node g)) ++ locs (with_new_node g n a) ≡ₚ a :: locs g.
Proof.
  intros Hs.
  change (olocs one (dget n (h_node g)) ++ dl one (dset n a (h_node g)) ++ succ_locs (dset n [] (h_succ g)) ≡ₚ a :: locs g).
  assert (E : succ_locs (dset n [] (h_succ g)) = succ_locs (h_succ g)).
  { rewrite (dset_new_app n []) by done. unfold succ_locs. rewrite dl_app. cbn. by rewrite app_nil_r. }
  rewrite E, app_assoc, (dl_dset one). done.
Qed.
Lemma adopt_node h g F n a : HInv h (a :: locs g ++ F) → dget n (h_succ g) = None →
  HInv h (locs (with_new_node g n a) ++ F) ∧
  graph_of h (with_new_node g n a) =
    set_node (dset n (see_at h a) (g_node (graph_of h g)))
      (set_pred (dset n [] (g_pred (graph_of h g))) (set_succ (dset n [] (g_succ (graph_of h g))) (graph_of h g))).
Proof.
  intros HI Hs. split.
  - eapply HInv_subm; [exact HI|]. rewrite app_comm_cons. apply submseteq_skips_r.
    rewrite <-(locs_new_node _ _ _ Hs). by apply submseteq_inserts_l.
  - unfold graph_of, with_new_node, set_node, set_pred, set_succ. cbn. by rewrite !dset_dmap.
Qed.

(** ** add_node *)
Lemma sub_app_r {A} (a b : list A) : b ⊆ a ++ b.
Proof. intros x Hx. apply elem_of_app. by right. Qed.
Lemma HInv_prefix h G G' : HInv h (G ++ G') → HInv h G'.
Proof. intros HI. eapply HInv_subm; [exact HI|]. by apply submseteq_inserts_l. Qed.

(** the update of an existing node *)
Lemma update_node h g F n o all D : HInv h (locs g ++ F) → dget n (h_node g) = Some o →
  (∀ K', locs g ++ F ≡ₚ o :: K' → fits h K' (dset "layers" all D)) →
  HInv (put_dict h o (dset "layers" all D)) (locs g ++ F) ∧ ext h (put_dict h o (dset "layers" all D)) F ∧
  graph_of (put_dict h o (dset "layers" all D)) g =
    set_node (dset n (dset "layers" (val h all) (see h D)) (g_node (graph_of h g))) (graph_of h g).
Proof.
  intros HI Hg Hf.
  assert (Ho : o ∈ locs g).
  { apply elem_of_app. left. apply dl_one_elem. exists n. by apply dget_Some_elem. }
  assert (Ho' : o ∈ locs g ++ F) by (apply elem_of_app; by left).
  destruct (in_split_perm _ _ Ho') as [K' HK].
  pose proof (i_nodup _ _ HI) as Hnd.
  assert (Hnd' : o ∉ K') by (rewrite HK in Hnd; by apply NoDup_cons in Hnd as [? _]).
  assert (HoF : o ∉ F). { intros Hin. apply NoDup_app in Hnd as (_ & Hd & _). by apply (Hd o). }
  assert (HK' : ∀ l, l ∈ locs g ++ F → l ≠ o → l ∈ K').
  { intros l Hl Hne. rewrite HK in Hl. by apply elem_of_cons in Hl as [?|?]. }
  assert (Hx : ext h (put_dict h o (dset "layers" all D)) K') by by apply ext_put.
  split_and!.
  - eapply write_dict; [exact HI|exact HK|by apply Hf].
  - by apply ext_put.
  - assert (HIK : HInv h K').
    { apply (HInv_perm _ _ _ HI) in HK. by apply HInv_cons in HK as (? & _). }
    rewrite (graph_write_node h _ g n o).
    + f_equal. f_equal. unfold see_at. rewrite dict_at_put by by apply (i_valid _ _ HI).
      change (see (put_dict h o (dset "layers" all D))) with (see h). apply see_dset.
    + by apply NoDup_app in Hnd as (? & _).
    + done.
    + intros l Hl Hne. eapply see_at_ext; [exact HIK|exact Hx|].
      apply HK'; [|done]. apply elem_of_app. by left.
Qed.

Lemma add_node_ok h g F n lay ad attr h' g' e :
  HInv h (attr :: olist ad ++ locs g ++ F) →
  (∀ s, lay = HSet s → s < length (hp_sets h) ∧ sfree h (attr :: olist ad ++ locs g ++ F) s) →
  h_add_node h g n lay ad attr = (h', g', e) →
  post h F h' g' e (add_node (graph_of h g) n (val h lay) (see_at h <$> ad) (see_at h attr)).
Proof.
  intros HI Hlay. unfold h_add_node, add_node.
  destruct (h_check_layers h (h_ns g) lay) as [h1 r] eqn:E1.
  destruct (check_layers_ok _ _ _ _ _ _ HI Hlay E1) as (Hx1 & Hd1 & Hr).
  change (g_ns (graph_of h g)) with (h_ns g).
  set (G0 := attr :: olist ad ++ locs g ++ F) in *.
  assert (Hs0 : locs g ++ F ⊆ G0). { unfold G0. intros x Hx. right. apply elem_of_app. by right. }
  assert (HsF : F ⊆ G0). { intros x Hx. apply Hs0, elem_of_app. by right. }
  assert (HK0 : HInv h (locs g ++ F)).
  { eapply HInv_subm; [exact HI|]. unfold G0. apply submseteq_cons, submseteq_inserts_l. done. }
  assert (HIK1 : HInv h1 (locs g ++ F)).
  { eapply HInv_ext; [exact HK0|]. by eapply ext_sub. }
  destruct r as [l|x].
  2:{ rewrite Hr. intros [= <- <- <-]. split_and!.
      - done.
      - by eapply ext_sub.
      - f_equal. eapply graph_of_ext; [exact HI|exact Hx1|].
        intros x' Hx. apply Hs0, elem_of_app. by left. }
  destruct Hr as (Hr & Hl & Hsf). rewrite Hr.
  assert (HI1 : HInv h1 G0) by by eapply HInv_ext.
  destruct (attr_object _ ad attr) as [h2 a] eqn:E2.
  destruct (attr_object_ok h1 (locs g ++ F) attr ad l h2 a HI1 Hl Hsf E2) as (Hx2 & Hd2 & Ha & Hva & Hfit & Hcont).
  assert (Hx02 : ext h h2 (locs g ++ F)).
  { eapply ext_trans; [|exact Hx2]. by eapply ext_sub. }
  assert (HIK2 : HInv h2 (locs g ++ F)) by by eapply HInv_ext.
  assert (Hg2 : graph_of h2 g = graph_of h g).
  { eapply graph_of_ext; [exact HK0|exact Hx02|]. intros x Hx. apply elem_of_app. by left. }
  assert (HxF : ext h h2 F).
  { eapply ext_sub; [exact Hx02|]. apply sub_app_r. }
  (* the attribute dictionary, as the value model sees it *)
  assert (Hseen : see h2 (dict_at h2 a) =
    match see_at h <$> ad with
    | None => dset "layers" (VSet (set_at h1 l)) (see_at h attr)
    | Some d => dupdate d (dset "layers" (VSet (set_at h1 l)) (see_at h attr))
    end).
  { rewrite Hcont.
    assert (Hat : see h2 (dset "layers" (HSet l) (dict_at h1 attr)) = dset "layers" (VSet (set_at h1 l)) (see_at h attr)).
    { rewrite see_dset. f_equal.
      - cbn. unfold set_at. by rewrite Hd2.
      - change (see h2 (dict_at h1 attr) = see_at h attr).
        transitivity (see_at h1 attr).
        + unfold see_at, see. apply dmap_ext. intros p _. destruct p as [? w]. cbn.
          destruct w; cbn; try done. unfold set_at. by rewrite Hd2.
        + eapply see_at_ext; [exact HI|exact Hx1|by left]. }
    destruct ad as [a0|]; cbn [fmap option_fmap option_map].
    - rewrite see_dupdate, Hat. f_equal.
      transitivity (see_at h1 a0).
      + unfold see_at, see. apply dmap_ext. intros p _. destruct p as [? w]. cbn.
        destruct w; cbn; try done. unfold set_at. by rewrite Hd2.
      + eapply see_at_ext; [exact HI|exact Hx1|]. right. by left.
    - exact Hat. }
  change (g_succ (graph_of h g)) with (dmap (dmap (dmap (see_at h))) (h_succ g)).
  rewrite dmem_dmap. destruct (dmem n (h_succ g)) eqn:Em.
  2:{ intros [= <- <- <-].
      assert (Hnone : dget n (h_succ g) = None).
      { unfold dmem in Em. by destruct (dget n (h_succ g)). }
      destruct (adopt_node h2 g F n a) as [HIn Hgn].
      - apply HInv_cons. done.
      - done.
      - split_and!; [exact HIn|exact HxF|]. f_equal. unfold with_new_node in Hgn. rewrite Hgn.
        rewrite Hg2. unfold see_at at 1. rewrite Hseen. done. }
  change (g_node (graph_of h g)) with (dmap (see_at h) (h_node g)). rewrite dget_dmap.
  destruct (dget n (h_node g)) as [o|] eqn:Eo; cbn [fmap option_fmap option_map].
  2:{ intros [= <- <- <-]. split_and!; [done|done|]. by rewrite Hg2. }
  assert (Hog : o ∈ locs g).
  { apply elem_of_app. left. apply dl_one_elem. exists n. by apply dget_Some_elem. }
  assert (HoG : o ∈ locs g ++ F) by (apply elem_of_app; by left).
  assert (Hao : dict_at h2 o = dict_at h o) by by apply (x_at _ _ _ Hx02).
  unfold see_at at 1. rewrite see_dget, Hao.
  destruct (dget "layers" (dict_at h o)) as [ex|] eqn:Eex; cbn [fmap option_fmap option_map].
  2:{ intros [= <- <- <-]. split_and!; [done|done|]. by rewrite Hg2. }
  destruct (h_union h2 ex l) as [h3 r] eqn:E3.
  destruct (h_union_ok h2 (locs g ++ F) ex l h3 r E3) as (Hx3 & Hd3 & Hr3).
  assert (Hvex : val h2 ex = val h ex).
  { eapply val_ext; [exact Hx02|]. intros s ->. by eapply (i_refs _ _ HK0). }
  assert (Hsl : set_at h2 l = set_at h1 l) by (unfold set_at; by rewrite Hd2).
  rewrite Hvex, Hsl in Hr3.
  assert (HIK3 : HInv h3 (locs g ++ F)) by by eapply HInv_ext.
  assert (Hg3 : graph_of h3 g = graph_of h g).
  { rewrite <-Hg2. eapply graph_of_ext; [exact HIK2|exact Hx3|]. intros x Hx. apply elem_of_app. by left. }
  assert (HxF3 : ext h h3 F).
  { eapply ext_trans; [exact HxF|]. eapply ext_sub; [exact Hx3|]. apply sub_app_r. }
  destruct r as [all|x].
  2:{ rewrite Hr3. intros [= <- <- <-]. split_and!; [done|done|]. by rewrite Hg3. }
  destruct Hr3 as (Hr3 & Hall). rewrite Hr3.
  assert (Hat3 : ∀ l, dict_at h3 l = dict_at h2 l) by (intros; unfold dict_at; by rewrite Hd3).
  rewrite dict_at_put by by apply (i_valid _ _ HIK3).
  rewrite put_put. rewrite !Hat3, Hao. intros [= <- <- <-].
  destruct (update_node h3 g F n o all (dupdate (dict_at h o) (ddel "layers" (dict_at h2 a)))) as (P1 & P2 & P3).
  - done.
  - done.
  - intros K' HK.
    assert (Hsub : K' ⊆ locs g ++ F). { intros x Hx. rewrite HK. by right. }
    apply (fits_fresh h2).
    + apply nfits_update.
      * apply (HInv_perm _ _ _ HIK2) in HK. apply HInv_cons in HK as (_ & _ & _ & Hf).
        rewrite <-Hao. apply Hf.
      * apply nfits_del. eapply nfits_sub; [apply Hfit|done].
    + apply (HInv_perm _ _ _ HIK2) in HK. by apply HInv_cons in HK as (? & _).
    + by eapply ext_sub.
    + exact Hall.
  - split_and!; [exact P1| |].
    + eapply ext_trans; [exact HxF3|exact P2].
    + rewrite P3, Hg3. f_equal. f_equal. cbn. f_equal. f_equal.
      assert (Hs3 : see h3 (dupdate (dict_at h o) (ddel "layers" (dict_at h2 a)))
        = see h2 (dupdate (dict_at h o) (ddel "layers" (dict_at h2 a)))).
      { eapply see_ext; [exact Hx3|..].
        - apply NoDup_dupdate. by apply (i_keys _ _ HK0).
        - intros k s. rewrite dget_dupdate, dget_ddel. case_decide as Hk.
          + intros Hd. rewrite <-Hao in Hd. by eapply (i_refs _ _ HIK2).
          + destruct (dget k (dict_at h2 a)) as [w|] eqn:Ew.
            * intros [= ->]. by apply (n_refs _ _ _ (f_nfits _ _ _ Hfit)) in Ew.
            * intros Hd. rewrite <-Hao in Hd. by eapply (i_refs _ _ HIK2). }
      rewrite Hs3, see_dupdate, see_ddel, Hseen. f_equal.
      rewrite <-Hao. eapply (see_at_ext h h2); [exact HK0|exact Hx02|done].
Qed.

(** ** add_nodes_from *)
Lemma nfits_member h G l : HInv h G → l ∈ G → nfits h G (dict_at h l).
Proof.
  intros HI Hl. split; [by apply HI|intros k s; by apply HI|].
  intros k s Hk Hd l' Hl' Hd'. by destruct (i_sole _ _ HI l' l k s Hl' Hl Hd' Hd).
Qed.
Lemma see_keep h h' G d : ext h h' G → nfits h G d → see h' d = see h d.
Proof. intros Hx Hn. eapply see_ext; [exact Hx|apply Hn|apply Hn]. Qed.

(** the dictionary of a tuple gets default layers in place *)
Definition default_layers (h : heap) (ns : string) (d : nat) : heap :=
  if dmem "layers" (dict_at h d) then h
  else let '(h, l) := new_set h [ns] in put_dict h d (dset "layers" (HSet l) (dict_at h d)).
Lemma default_layers_ok h ns d K : HInv h (d :: K) →
  HInv (default_layers h ns d) (d :: K) ∧ ext h (default_layers h ns d) K ∧
  see_at (default_layers h ns d) d =
    (if dmem "layers" (see_at h d) then see_at h d else dset "layers" (VSet [ns]) (see_at h d)).
Proof.
  intros HI. unfold default_layers. unfold see_at at 2. unfold see. rewrite dmem_dmap.
  destruct (dmem "layers" (dict_at h d)) eqn:Em.
  { split_and!; [done|apply ext_refl|done]. }
  cbn [new_set].
  pose proof (ext_new_set h [ns] (d :: K)) as Hx. cbn in Hx.
  set (h1 := mkHeap (hp_sets h ++ [[ns]]) (hp_dicts h)) in *.
  change (dict_at h1 d) with (dict_at h d).
  set (D := dset "layers" (HSet (length (hp_sets h))) (dict_at h d)).
  assert (HI1 : HInv h1 (d :: K)) by by eapply HInv_ext.
  pose proof HI1 as HI2. apply HInv_cons in HI2 as (HK & Hn & Hv & Hf).
  apply HInv_cons in HI as (HK0 & _ & _ & Hf0).
  assert (HxK : ext h h1 K) by (eapply ext_sub; [exact Hx|]; intros x Hx'; by right).
  split_and!.
  - eapply write_dict; [exact HI1|done|]. apply (fits_fresh h); [apply Hf0|done|done|].
    intros s [= <-]. unfold h1. cbn. rewrite app_length. cbn. lia.
  - eapply ext_trans; [exact HxK|]. by apply ext_put.
  - unfold see_at. rewrite dict_at_put by done.
    change (see (put_dict h1 d D)) with (see h1). unfold D. rewrite see_dset. f_equal.
    + cbn. f_equal. unfold h1. apply (set_at_new h).
    + eapply see_keep; [exact HxK|]. apply Hf0.
Qed.

Definition is_bare (s : hnspec) : Prop := match s with HBare _ => True | HTup _ _ => False end.

Lemma add_nodes_from1_ok h g F attr s h' g' e :
  HInv h (slocs s ++ locs g ++ F) → attr ∈ F →
  (is_bare s → dget "layers" (dict_at h attr) = None) →
  h_add_nodes_from1 h g attr s = (h', g', e) →
  post h F h' g' e (add_nodes_from1 (graph_of h g) (see_at h attr) (nspec_of h s)).
Proof.
  intros HI Hattr Hbare.
  assert (Hlg : ∀ n o, dget n (h_node g) = Some o → o ∈ locs g).
  { intros n o Ho. apply elem_of_app. left. apply dl_one_elem. exists n. by apply dget_Some_elem. }
  destruct s as [n|n d]; cbn [slocs app nspec_of is_bare] in *.
  - unfold h_add_nodes_from1, add_nodes_from1. specialize (Hbare I).
    change (g_succ (graph_of h g)) with (dmap (dmap (dmap (see_at h))) (h_succ g)).
    rewrite dmem_dmap. destruct (dmem n (h_succ g)) eqn:Em.
    + change (g_node (graph_of h g)) with (dmap (see_at h) (h_node g)). rewrite dget_dmap.
      destruct (dget n (h_node g)) as [o|] eqn:Eo; cbn [fmap option_fmap option_map].
      2:{ intros [= <- <- <-]. split_and!; [done|apply ext_refl|done]. }
      intros [= <- <- <-].
      pose proof (Hlg _ _ Eo) as Hog.
      assert (HoG : o ∈ locs g ++ F) by (apply elem_of_app; by left).
      assert (HaG : attr ∈ locs g ++ F) by (apply elem_of_app; by right).
      pose proof (i_nodup _ _ HI) as Hnd.
      assert (HoF : o ∉ F). { intros Hin. apply NoDup_app in Hnd as (_ & Hd & _). by apply (Hd o). }
      destruct (in_split_perm _ _ HoG) as [K' HK].
      assert (HIp : HInv h (o :: K')) by by eapply HInv_perm.
      apply HInv_cons in HIp as (HIK & HnK & Hv & Hf).
      set (D := dupdate (dict_at h o) (dict_at h attr)).
      assert (HaK : attr ∈ K').
      { rewrite HK in HaG. apply elem_of_cons in HaG as [->|?]; [|done]. done. }
      assert (HfD : fits h K' D).
      { split.
        - apply nfits_update; [apply Hf|]. by apply nfits_member.
        - intros s. unfold D. rewrite dget_dupdate, Hbare. apply Hf.
        - intros s k. unfold D. rewrite !dget_dupdate, Hbare. intros Hs.
          destruct (dget k (dict_at h attr)) as [w|] eqn:Ew.
          + intros [= ->]. destruct (i_sole _ _ HI o attr k s HoG HaG Hs Ew). done.
          + by apply (f_one _ _ _ Hf). }
      assert (Hx : ext h (put_dict h o D) K') by by apply ext_put.
      split_and!.
      * by eapply write_dict.
      * by apply ext_put.
      * f_equal. rewrite (graph_write_node h _ g n o).
        -- f_equal. f_equal. unfold see_at at 1. rewrite dict_at_put by done.
           change (see (put_dict h o D)) with (see h). unfold D. apply see_dupdate.
        -- by apply NoDup_app in Hnd as (? & _).
        -- done.
        -- intros l Hl Hne. eapply see_at_ext; [exact HIK|exact Hx|].
           assert (Hl' : l ∈ locs g ++ F) by (apply elem_of_app; by left).
           rewrite HK in Hl'. by apply elem_of_cons in Hl' as [?|?].
    + intros [= <- <- <-].
      assert (Hnone : dget n (h_succ g) = None).
      { unfold dmem in Em. by destruct (dget n (h_succ g)). }
      pose proof (ext_new_set h [h_ns g] (locs g ++ F)) as Hx1. cbn in Hx1.
      set (h1 := mkHeap (hp_sets h ++ [[h_ns g]]) (hp_dicts h)) in *.
      change (dict_at h1 attr) with (dict_at h attr).
      set (D := dset "layers" (HSet (length (hp_sets h))) (dict_at h attr)).
      assert (HI1 : HInv h1 (locs g ++ F)) by by eapply HInv_ext.
      assert (Hx2 := ext_new_dict h1 D (locs g ++ F) (i_valid _ _ HI1)). cbn in Hx2.
      pose proof (dict_at_new h1 D) as Hat. cbn in Hat.
      set (h2 := mkHeap (hp_sets h ++ [[h_ns g]]) (hp_dicts h ++ [D])) in *.
      assert (Hx : ext h h2 (locs g ++ F)) by by eapply ext_trans.
      assert (HI2 : HInv h2 (locs g ++ F)) by by eapply HInv_ext.
      assert (HaG : attr ∈ locs g ++ F) by (apply elem_of_app; by right).
      assert (Hfit : fits h2 (locs g ++ F) D).
      { eapply fits_ext; [|exact Hx2]. apply (fits_fresh h); [by apply nfits_member|done|done|].
        intros s [= <-]. unfold h1. cbn. rewrite app_length. cbn. lia. }
      destruct (adopt_node h2 g F n (length (hp_dicts h))) as [HIn Hgn].
      * apply HInv_cons. split_and!; [done| | |].
        -- intros Hin. apply (i_valid _ _ HI1) in Hin. cbn in Hin. lia.
        -- unfold h2. cbn. rewrite app_length. cbn. lia.
        -- by rewrite Hat.
      * done.
      * split_and!; [exact HIn| |].
        -- eapply ext_sub; [exact Hx|]. apply sub_app_r.
        -- f_equal. unfold with_new_node in Hgn. rewrite Hgn.
           rewrite (graph_of_ext h h2 g _ HI Hx) by (intros x Hx'; apply elem_of_app; by left).
           f_equal. f_equal. unfold see_at at 1. rewrite Hat. unfold D. rewrite see_dset. f_equal.
           ++ cbn. f_equal. unfold set_at. cbn. rewrite lookup_app_r by lia. by rewrite Nat.sub_diag.
           ++ eapply see_keep; [exact Hx|]. by apply nfits_member.
  - unfold h_add_nodes_from1, add_nodes_from1. fold (default_layers h (h_ns g) d).
    destruct (default_layers_ok h (h_ns g) d _ HI) as (HI1 & Hx1 & Hsee).
    set (h1 := default_layers h (h_ns g) d) in *. clearbody h1.
    assert (HxF1 : ext h h1 F) by (eapply ext_sub; [exact Hx1|apply sub_app_r]).
    change (g_ns (graph_of h g)) with (h_ns g). rewrite <-Hsee.
    unfold see_at at 1. rewrite see_dget.
    pose proof HI as HI0. apply HInv_cons in HI0 as (HIK & Hdn & Hdv & Hdf).
    pose proof HI1 as HI1'. apply HInv_cons in HI1' as (HIK1 & Hdn1 & Hdv1 & Hdf1).
    assert (HaG : attr ∈ locs g ++ F) by (apply elem_of_app; by right).
    assert (Hga : graph_of h1 g = graph_of h g).
    { eapply graph_of_ext; [exact HIK|exact Hx1|]. intros x Hx'. apply elem_of_app. by left. }
    destruct (dget "layers" (dict_at h1 d)) as [vl|] eqn:El.
    2:{ cbn. intros [= <- <- <-]. split_and!; [done|done|by rewrite Hga]. }
    destruct vl as [| | | |layers| |]; cbn [fmap option_fmap option_map val];
      try (intros [= <- <- <-]; split_and!; [done|done|by rewrite Hga]).
    change (g_succ (graph_of h g)) with (dmap (dmap (dmap (see_at h))) (h_succ g)).
    rewrite dmem_dmap. destruct (dmem n (h_succ g)) eqn:Em.
    + change (g_node (graph_of h g)) with (dmap (see_at h) (h_node g)). rewrite dget_dmap.
      destruct (dget n (h_node g)) as [o|] eqn:Eo; cbn [fmap option_fmap option_map].
      2:{ intros [= <- <- <-]. split_and!; [done|done|by rewrite Hga]. }
      pose proof (Hlg _ _ Eo) as Hog.
      assert (HoG : o ∈ locs g ++ F) by (apply elem_of_app; by left).
      assert (Hao : dict_at h1 o = dict_at h o) by by apply (x_at _ _ _ Hx1).
      unfold see_at at 1. rewrite see_dget, Hao.
      destruct (dget "layers" (dict_at h o)) as [ex|] eqn:Eex; cbn [fmap option_fmap option_map].
      2:{ intros [= <- <- <-]. split_and!; [done|done|by rewrite Hga]. }
      destruct (h_union h1 ex layers) as [h3 r] eqn:E3.
      destruct (h_union_ok h1 (d :: locs g ++ F) ex layers h3 r E3) as (Hx3 & Hd3 & Hr3).
      assert (Hvex : val h1 ex = val h ex).
      { eapply val_ext; [exact Hx1|]. intros s ->. by eapply (i_refs _ _ HIK). }
      rewrite Hvex in Hr3.
      assert (HI3 : HInv h3 (d :: locs g ++ F)) by by eapply HInv_ext.
      pose proof HI3 as HI3'. apply HInv_cons in HI3' as (HIK3 & _ & _ & _).
      assert (Hx3' : ext h1 h3 (locs g ++ F)).
      { eapply ext_sub; [exact Hx3|]. intros x Hx'. by right. }
      assert (Hg3 : graph_of h3 g = graph_of h g).
      { rewrite <-Hga. eapply graph_of_ext; [exact HIK1|exact Hx3'|]. intros x Hx'. apply elem_of_app. by left. }
      assert (HxF3 : ext h h3 F).
      { eapply ext_trans; [exact HxF1|]. eapply ext_sub; [exact Hx3'|]. apply sub_app_r. }
      destruct r as [all|x].
      2:{ rewrite Hr3. intros [= <- <- <-]. split_and!; [done|done|by rewrite Hg3]. }
      destruct Hr3 as (Hr3 & Hall). rewrite Hr3.
      assert (Hat3 : ∀ l, dict_at h3 l = dict_at h1 l) by (intros; unfold dict_at; by rewrite Hd3).
      assert (Hod : d ≠ o) by (intros ->; done).
      pose proof (i_nodup _ _ HIK) as Hnd.
      assert (Hoa : attr ≠ o). { intros ->. apply NoDup_app in Hnd as (_ & Hd & _). by apply (Hd o). }
      assert (Hov : o < length (hp_dicts h3)) by by apply (i_valid _ _ HIK3).
      rewrite !put_put. rewrite !dict_at_put by by rewrite ?put_dict_len.
      rewrite !(dict_at_put_ne _ _ attr) by done.
      rewrite !Hat3, Hao.
      assert (Haa : dict_at h1 attr = dict_at h attr) by by apply (x_at _ _ _ Hx1).
      rewrite Haa. intros [= <- <- <-].
      destruct (update_node h3 g F n o all (dupdate (dupdate (dict_at h o) (dict_at h1 d)) (dict_at h attr)))
        as (P1 & P2 & P3).
      * done.
      * done.
      * intros K' HK.
        assert (Hsub : K' ⊆ locs g ++ F). { intros x Hx. rewrite HK. by right. }
        apply (fits_fresh h1).
        -- apply nfits_update; [apply nfits_update|].
           ++ apply (HInv_perm _ _ _ HIK1) in HK. apply HInv_cons in HK as (_ & _ & _ & Hf).
              rewrite <-Hao. apply Hf.
           ++ eapply nfits_sub; [apply Hdf1|done].
           ++ rewrite <-Haa. eapply nfits_sub; [by apply nfits_member|done].
        -- apply (HInv_perm _ _ _ HIK1) in HK. by apply HInv_cons in HK as (? & _).
        -- by eapply ext_sub.
        -- exact Hall.
      * split_and!; [exact P1|by eapply ext_trans|].
        rewrite P3, Hg3. f_equal. f_equal. cbn. f_equal. f_equal.
        rewrite !see_dupdate. f_equal; [f_equal|].
        -- rewrite <-Hao. etrans; [|eapply (see_at_ext h h1); [exact HIK|exact Hx1|done]].
           rewrite <-Hat3. eapply (see_at_ext h1 h3); [exact HIK1|exact Hx3'|done].
        -- rewrite <-Hat3. eapply (see_at_ext h1 h3); [exact HI1|exact Hx3|by left].
        -- rewrite <-Haa. etrans; [|eapply (see_at_ext h h1); [exact HIK|exact Hx1|done]].
           rewrite <-Hat3. eapply (see_at_ext h1 h3); [exact HIK1|exact Hx3'|done].
    + assert (Hnone : dget n (h_succ g) = None).
      { unfold dmem in Em. by destruct (dget n (h_succ g)). }
      assert (Haa : dict_at h1 attr = dict_at h attr) by by apply (x_at _ _ _ Hx1).
      rewrite Haa. set (D := dupdate (dict_at h attr) (dict_at h1 d)).
      cbn [new_dict]. intros [= <- <- <-].
      assert (Hx2 := ext_new_dict h1 D (d :: locs g ++ F) (i_valid _ _ HI1)). cbn in Hx2.
      pose proof (dict_at_new h1 D) as Hat. cbn in Hat.
      set (h2 := mkHeap (hp_sets h1) (hp_dicts h1 ++ [D])) in *.
      assert (Hx2' : ext h1 h2 (locs g ++ F)).
      { eapply ext_sub; [exact Hx2|]. intros x Hx'. by right. }
      assert (Hx : ext h h2 (locs g ++ F)) by by eapply ext_trans.
      assert (HI2 : HInv h2 (locs g ++ F)) by by eapply HInv_ext.
      assert (Hfit : fits h2 (locs g ++ F) D).
      { eapply fits_ext; [|exact Hx2'].
        assert (HlD : dget "layers" D = Some (HSet layers)) by (unfold D; by rewrite dget_dupdate, El).
        split.
        - apply nfits_update; [|apply Hdf1]. rewrite <-Haa. by apply nfits_member.
        - intros s. rewrite HlD. intros [= <-]. by apply (f_lay _ _ _ Hdf1).
        - intros s k. rewrite HlD. intros [= <-]. unfold D. rewrite dget_dupdate.
          destruct (dget k (dict_at h1 d)) as [w|] eqn:Ew.
          + intros [= ->]. by apply (f_one _ _ _ Hdf1 layers k).
          + intros Hk. rewrite <-Haa in Hk.
            exfalso. apply (f_lay _ _ _ Hdf1 layers El attr k); done. }
      destruct (adopt_node h2 g F n (length (hp_dicts h1))) as [HIn Hgn].
      * apply HInv_cons. split_and!; [done| | |].
        -- intros Hin. apply (i_valid _ _ HIK1) in Hin. lia.
        -- unfold h2. cbn. rewrite app_length. cbn. lia.
        -- by rewrite Hat.
      * done.
      * split_and!; [exact HIn| |].
        -- eapply ext_sub; [exact Hx|]. apply sub_app_r.
        -- f_equal. unfold with_new_node in Hgn. rewrite Hgn.
           rewrite (graph_of_ext h h2 g _ HIK Hx) by (intros x Hx'; apply elem_of_app; by left).
           f_equal. f_equal. unfold see_at at 1. rewrite Hat. unfold D. rewrite see_dupdate. f_equal.
           ++ eapply see_keep; [exact Hx|]. by apply nfits_member.
Qed.

Lemma post_weak h F F' h' g' e v : post h (F' ++ F) h' g' e v → post h F h' g' e v.
Proof.
  intros (A & B & C). split_and!; [|eapply ext_sub; [exact B|apply sub_app_r]|done].
  eapply HInv_subm; [exact A|]. apply submseteq_skips_l. by apply submseteq_inserts_l.
Qed.
Lemma post_trans h F h1 h2 g2 e v : ext h h1 F → post h1 F h2 g2 e v → post h F h2 g2 e v.
Proof. intros Hx (A & B & C). split_and!; [done|by eapply ext_trans|done]. Qed.

(** a loop whose elements bring argument dictionaries *)
Section loop.
  Context {A B : Type} (f : heap → hgraph → A → houtcome) (vf : graph → B → outcome)
    (al : A → list nat) (tr : heap → A → B) (good : heap → A → Prop).
  Context (F0 : list nat) (vh : heap → Prop).
  (** [vh] is a fact about the kept dictionaries [F0] *)
  Hypothesis Hvh : ∀ h h', vh h → HInv h F0 → ext h h' F0 → vh h'.
  Hypothesis Htr : ∀ h h' G x, HInv h G → ext h h' G → al x ⊆ G → tr h' x = tr h x.
  Hypothesis Hgood : ∀ h h' G x, HInv h G → ext h h' G → al x ⊆ G → F0 ⊆ G → good h x → good h' x.
  Hypothesis Hstep : ∀ h g F x h' g' e, HInv h (al x ++ locs g ++ F) → F0 ⊆ F → vh h → good h x →
    f h g x = (h', g', e) → post h F h' g' e (vf (graph_of h g) (tr h x)).

  Lemma h_for_each_ok l : ∀ h g F h' g' e,
    HInv h ((l ≫= al) ++ locs g ++ F) → F0 ⊆ F → NoDup F0 → vh h → Forall (good h) l →
    h_for_each f l h g = (h', g', e) →
    post h F h' g' e (for_each vf (tr h <$> l) (graph_of h g)).
  Proof.
    induction l as [|x l IH]; intros h g F h' g' e HI HF HnF Hv Hg; cbn [h_for_each].
    - intros [= <- <- <-]. split_and!; [done|apply ext_refl|done].
    - cbn [mbind list_bind] in HI. apply List.Forall_cons_iff in Hg as [Hgx Hgl].
      set (R := l ≫= al) in *.
      assert (HI1 : HInv h (al x ++ locs g ++ (R ++ F))).
      { eapply HInv_perm; [exact HI|]. solve_Permutation. }
      destruct (f h g x) as [[h1 g1] e1] eqn:E1.
      assert (HF1 : F0 ⊆ R ++ F) by (intros y Hy; apply elem_of_app; right; by apply HF).
      pose proof (Hstep _ _ _ _ _ _ _ HI1 HF1 Hv Hgx E1) as Hp.
      rewrite fmap_cons. cbn [for_each].
      destruct Hp as (P1 & P2 & P3).
      assert (HIRF : HInv h (R ++ F)).
      { eapply HInv_prefix. eapply HInv_prefix. exact HI1. }
      assert (Hlw : ∀ y, y ∈ l → al y ⊆ R ++ F).
      { intros y Hy z Hz. apply elem_of_app. left. unfold R. apply elem_of_list_bind. by exists y. }
      rewrite <-P3. destruct e1 as [e1|].
      + intros [= <- <- <-]. apply (post_weak _ _ R). split_and!; [done|done|done].
      + intros E2.
        assert (Htr' : tr h <$> l = tr h1 <$> l).
        { apply list_fmap_ext. intros i y Hy. symmetry. eapply Htr; [exact HIRF|exact P2|].
          apply Hlw. by eapply elem_of_list_lookup_2. }
        rewrite Htr'. eapply post_trans; [eapply ext_sub; [exact P2|apply sub_app_r]|].
        eapply IH; [| | | | |exact E2].
        * eapply HInv_perm; [exact P1|]. solve_Permutation.
        * done.
        * done.
        * eapply Hvh; [exact Hv| |].
          -- eapply HInv_sub; [exact HIRF|done|done].
          -- by eapply ext_sub.
        * rewrite Forall_forall in Hgl |- *. intros y Hy. eapply Hgood; [exact HIRF|exact P2|by apply Hlw|done|auto].
  Qed.
End loop.

Lemma add_nodes_from_ok h g F ns attr h' g' e :
  HInv h ((ns ≫= slocs) ++ locs g ++ attr :: F) →
  (dget "layers" (dict_at h attr) = None ∨ Forall (λ s, ¬ is_bare s) ns) →
  h_add_nodes_from h g ns attr = (h', g', e) →
  post h F h' g' e (add_nodes_from (graph_of h g) (nspec_of h <$> ns) (see_at h attr)).
Proof.
  intros HI Hb E. unfold h_add_nodes_from in E. unfold add_nodes_from.
  apply (post_weak _ _ [attr]). cbn [app].
  assert (Ha : ∀ h1, HInv h [attr] → ext h h1 [attr] → see_at h1 attr = see_at h attr ∧ dict_at h1 attr = dict_at h attr).
  { intros h1 HIa Hxa. split; [eapply see_at_ext; [exact HIa|exact Hxa|by left]|]. apply (x_at _ _ _ Hxa). by left. }
  eapply (h_for_each_ok _ _ slocs nspec_of
    (λ h1 s, is_bare s → dget "layers" (dict_at h1 attr) = None) [attr]
    (λ h1, see_at h1 attr = see_at h attr)); [| | | |exact HI| | | | |exact E].
  - intros h1 h2 Hs HIa Hxa. rewrite <-Hs. eapply see_at_ext; [exact HIa|exact Hxa|by left].
  - intros h1 h2 G [n|n d] HIG HxG Hsub; [done|]. cbn. f_equal.
    eapply see_at_ext; [exact HIG|exact HxG|]. apply Hsub. by left.
  - intros h1 h2 G s HIG HxG _ HaG Hbs Hs. rewrite (x_at _ _ _ HxG) by (apply HaG; by left). by apply Hbs.
  - intros h1 g1 F1 s h2 g2 e2 HI1 HF1 Hs Hbs E1. rewrite <-Hs.
    eapply add_nodes_from1_ok; [exact HI1|apply HF1; by left|done|done].
  - intros x ->%elem_of_list_singleton. by left.
  - apply NoDup_singleton.
  - done.
  - apply Forall_forall. intros s Hs Hbs. destruct Hb as [Hb|Hb]; [done|].
    rewrite Forall_forall in Hb. by destruct (Hb s Hs).
Qed.
