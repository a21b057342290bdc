(** * AliasEdges: the mutators of edges on the heap *)
From Verif Require Import PyBase DocGraph Alias SpecAlias AliasFacts AliasOps.

(** ** New objects for the arguments of a call *)
Definition no_refs (D : dict string hval) : Prop := NoDup (dkeys D) ∧ ∀ k s, dget k D ≠ Some (HSet s).
Lemma no_refs_nfits h G D : no_refs D → nfits h G D.
Proof. intros [H1 H2]. split; [done|..]; intros k s; [intros Hd|intros _ Hd]; by destruct (H2 k s). Qed.
Lemma new_dict_ok h G D : HInv h G → fits h G D →
  HInv (new_dict h D).1 (length (hp_dicts h) :: G) ∧ ext h (new_dict h D).1 G.
Proof.
  intros HI Hf. assert (Hx := ext_new_dict h D G (i_valid _ _ HI)). split; [|exact Hx].
  apply HInv_cons. split_and!.
  - by eapply HInv_ext.
  - intros Hin. apply (i_valid _ _ HI) in Hin. lia.
  - cbn. rewrite app_length. cbn. lia.
  - rewrite dict_at_new. by eapply fits_ext.
Qed.
Lemma no_refs_fits h G D : no_refs D → fits h G D.
Proof.
  intros Hn. split; [by apply no_refs_nfits|..].
  - intros s Hd. by destruct Hn as [_ Hn]; destruct (Hn _ _ Hd).
  - intros s k Hd. by destruct Hn as [_ Hn]; destruct (Hn _ _ Hd).
Qed.
(** a new set and a new keyword dictionary *)
Lemma fresh_args h G S D : HInv h G → no_refs D →
  let h1 := (new_set h S).1 in let h2 := (new_dict h1 D).1 in
  let l := length (hp_sets h) in let a := length (hp_dicts h) in
  HInv h2 (a :: G) ∧ ext h h2 G ∧ l < length (hp_sets h2) ∧ sfree h2 (a :: G) l ∧
  val h2 (HSet l) = VSet S ∧ see_at h2 a = see h2 D.
Proof.
  intros HI Hn h1 h2 l a.
  assert (Hx1 : ext h h1 G) by apply ext_new_set.
  assert (HI1 : HInv h1 G) by by eapply HInv_ext.
  destruct (new_dict_ok h1 G D HI1 (no_refs_fits _ _ _ Hn)) as [HI2 Hx2].
  split_and!.
  - exact HI2.
  - by eapply ext_trans.
  - unfold l, h2, h1. cbn. rewrite app_length. cbn. lia.
  - intros x k [->|Hx]%elem_of_cons.
    + change a with (length (hp_dicts h1)). unfold h2. rewrite dict_at_new. apply Hn.
    + rewrite (x_at _ _ _ Hx2) by done. rewrite (x_at _ _ _ Hx1) by done.
      intros Hd. apply (i_refs _ _ HI) in Hd; [|done]. unfold l in Hd. lia.
  - unfold val. f_equal. apply (set_at_new h).
  - unfold see_at. f_equal. change a with (length (hp_dicts h1)). apply dict_at_new.
Qed.

Lemma no_refs_nil : no_refs [].
Proof. split; [by apply NoDup_nil|done]. Qed.

(** ** Endpoints *)
Lemma ensure_node_ok h g F n h' g' e : HInv h (locs g ++ F) →
  h_ensure_node h g n = (h', g', e) → post h F h' g' e (ensure_node (graph_of h g) n).
Proof.
  intros HI. unfold h_ensure_node, ensure_node.
  change (g_node (graph_of h g)) with (dmap (see_at h) (h_node g)). rewrite dmem_dmap.
  destruct (dmem n (h_node g)).
  { intros [= <- <- <-]. split_and!; [done|apply ext_refl|done]. }
  destruct (fresh_args h (locs g ++ F) [h_ns g] [] HI no_refs_nil) as (P1 & P2 & P3 & P4 & P5 & P6).
  cbn [new_set new_dict fst hp_sets hp_dicts] in *. intros E.
  set (h2 := mkHeap (hp_sets h ++ [[h_ns g]]) (hp_dicts h ++ [[]])) in *.
  eapply post_trans; [eapply ext_sub; [exact P2|apply sub_app_r]|].
  assert (P7 : ∀ s, HSet (length (hp_sets h)) = HSet s → s < length (hp_sets h2) ∧
    sfree h2 (length (hp_dicts h) :: olist None ++ locs g ++ F) s) by (intros s [= <-]; done).
  pose proof (add_node_ok h2 g F n _ None _ _ _ _ P1 P7 E) as Hp.
  rewrite P5, P6 in Hp. change (see h2 []) with ([] : attrs) in Hp.
  rewrite (graph_of_ext h h2 g _ HI P2) in Hp by (intros x Hx; apply elem_of_app; by left).
  exact Hp.
Qed.
Lemma ensure_ok h g F ns h' g' e : HInv h (locs g ++ F) → NoDup F →
  h_for_each h_ensure_node ns h g = (h', g', e) → post h F h' g' e (for_each ensure_node ns (graph_of h g)).
Proof.
  intros HI HF E.
  replace ns with ((λ n, n) <$> ns) by apply list_fmap_id.
  eapply (h_for_each_ok h_ensure_node ensure_node (λ _, []) (λ _ n, n) (λ _ _, True) F (λ _, True));
    [done|done|done| | |done|done|done|by apply Forall_forall|exact E].
  - intros h1 g1 F1 x h2 g2 e2 HI1 _ _ _. by apply ensure_node_ok.
  - replace (ns ≫= λ _, []) with ([] : list nat); [done|]. clear. induction ns as [|x l IH]; [done|]. exact IH.
Qed.

(** ** The edge *)
Lemma fresh_key_dmap {V W} (f : V → W) (kd : dict nid V) : fresh_key (dmap f kd) = fresh_key kd.
Proof.
  unfold fresh_key. rewrite length_dmap. generalize (S (length kd)), (Z.of_nat (length kd)).
  intros n. induction n as [|n IH]; intros z; [done|]. cbn. rewrite dmem_dmap.
  destruct (dmem (NInt z) kd); [apply IH|done].
Qed.
Lemma cancel3 (A X N S B C : list nat) o :
  A ++ X ≡ₚ N ++ S → B ++ N ≡ₚ C ++ A → C ≡ₚ o :: B → X ≡ₚ o :: S.
Proof.
  intros H1 H2 H3. apply (Permutation_app_inv_l (B ++ A)).
  transitivity (B ++ N ++ S).
  { rewrite <-app_assoc, H1. done. }
  transitivity ((C ++ A) ++ S).
  { rewrite <-H2. by rewrite app_assoc. }
  rewrite H3. solve_Permutation.
Qed.
Lemma locs_new_edge g u v k o nbrs : dget u (h_succ g) = Some nbrs →
  dget k (default [] (dget v nbrs)) = None →
  locs (hset_succ (dset u (dset v (dset k o (default [] (dget v nbrs))) nbrs) (h_succ g)) g) ≡ₚ o :: locs g.
Proof.
  intros Hu Hk. set (kd := default [] (dget v nbrs)) in *.
  unfold locs. cbn [h_node h_succ hset_succ].
  assert (HS : succ_locs (dset u (dset v (dset k o kd) nbrs) (h_succ g)) ≡ₚ o :: succ_locs (h_succ g)).
  { pose proof (dl_dset (dl (dl one)) u (dset v (dset k o kd) nbrs) (h_succ g)) as P1.
    rewrite Hu in P1. cbn [olocs] in P1.
    pose proof (dl_dset (dl one) v (dset k o kd) nbrs) as P2.
    pose proof (dl_dset one k o kd) as P3. rewrite Hk in P3.
    assert (E : olocs (dl one) (dget v nbrs) = dl one kd) by (unfold kd; by destruct (dget v nbrs)).
    rewrite E in P2. exact (cancel3 _ _ _ _ _ _ _ P1 P2 P3). }
  rewrite HS. solve_Permutation.
Qed.

Lemma edge_loc g u v k nbrs kd o : dget u (h_succ g) = Some nbrs → dget v nbrs = Some kd →
  dget k kd = Some o → o ∈ locs g.
Proof.
  intros Hu Hv Hk. apply elem_of_app. right. apply dl_elem. exists (u, nbrs).
  split; [by apply dget_Some_elem|]. apply dl_elem. exists (v, kd). split; [by apply dget_Some_elem|].
  apply dl_one_elem. exists k. by apply dget_Some_elem.
Qed.

(** adopting the dictionary [o] as a new edge *)
Lemma adopt_edge h g F u v k o nbrs : HInv h (o :: locs g ++ F) →
  dget u (h_succ g) = Some nbrs → dget k (default [] (dget v nbrs)) = None →
  HInv h (locs (hset_succ (dset u (dset v (dset k o (default [] (dget v nbrs))) nbrs) (h_succ g)) g) ++ F) ∧
  graph_of h (hset_succ (dset u (dset v (dset k o (default [] (dget v nbrs))) nbrs) (h_succ g)) g) =
  set_succ (dset u (dset v (dset k (see_at h o) (dmap (see_at h) (default [] (dget v nbrs))))
                      (dmap (dmap (see_at h)) nbrs)) (g_succ (graph_of h g))) (graph_of h g).
Proof.
  intros HI Hu Hk. split.
  - eapply HInv_perm; [exact HI|]. by rewrite (locs_new_edge _ _ _ _ _ _ Hu Hk).
  - unfold graph_of, hset_succ, set_succ. cbn. by rewrite !dset_dmap.
Qed.

(** writing into the dictionary of an existing edge *)
Lemma update_edge h g F u v k nbrs kd o D : HInv h (locs g ++ F) →
  dget u (h_succ g) = Some nbrs → dget v nbrs = Some kd → dget k kd = Some o →
  (∀ K', locs g ++ F ≡ₚ o :: K' → fits h K' D) →
  HInv (put_dict h o D) (locs g ++ F) ∧ ext h (put_dict h o D) F ∧
  graph_of (put_dict h o D) g =
    set_succ (dset u (dset v (dset k (see h D) (dmap (see_at h) kd)) (dmap (dmap (see_at h)) nbrs))
                (g_succ (graph_of h g))) (graph_of h g).
Proof.
  intros HI Hu Hv Hk Hf.
  pose proof (edge_loc _ _ _ _ _ _ _ Hu Hv Hk) as Ho.
  assert (Ho' : o ∈ locs g ++ F) by (apply elem_of_app; by left).
  destruct (in_split_perm _ _ Ho') as [K' HK].
  pose proof (i_nodup _ _ HI) as Hnd.
  assert (Hnd' : o ∉ K') by (rewrite HK in Hnd; by apply NoDup_cons in Hnd as [? _]).
  assert (HoF : o ∉ F). { intros Hin. apply NoDup_app in Hnd as (_ & Hd & _). by apply (Hd o). }
  assert (Hx : ext h (put_dict h o D) K') by by apply ext_put.
  split_and!.
  - eapply write_dict; [exact HI|exact HK|by apply Hf].
  - by apply ext_put.
  - assert (HIK : HInv h K').
    { pose proof (HInv_perm _ _ _ HI HK) as HIp. by apply HInv_cons in HIp as (? & _). }
    rewrite (graph_write_edge h _ g u v k nbrs kd o).
    + f_equal. f_equal. f_equal. f_equal. unfold see_at. rewrite dict_at_put by by apply (i_valid _ _ HI). done.
    + by apply NoDup_app in Hnd as (? & _).
    + done.
    + done.
    + done.
    + intros l Hl Hne. eapply see_at_ext; [exact HIK|exact Hx|].
      assert (Hl' : l ∈ locs g ++ F) by (apply elem_of_app; by left).
      rewrite HK in Hl'. by apply elem_of_cons in Hl' as [?|?].
Qed.

(** the layers of an edge that has none yet *)
Lemma some_layers h G o h1 ex : HInv h G → o ∈ G →
  match dget "layers" (dict_at h o) with
  | Some v => (h, v)
  | None => let '(h, s) := new_set h [] in (h, HSet s)
  end = (h1, ex) →
  ext h h1 G ∧ hp_dicts h1 = hp_dicts h ∧
  val h1 ex = default (VSet []) (dget "layers" (see_at h o)).
Proof.
  intros HI Ho. unfold see_at. rewrite see_dget.
  destruct (dget "layers" (dict_at h o)) as [v|]; cbn [new_set].
  - intros [= <- <-]. split_and!; [apply ext_refl|done|done].
  - intros [= <- <-]. split_and!; [apply (ext_new_set h)|done|].
    cbn. f_equal. apply (set_at_new h).
Qed.

Lemma insert_edge_ok h g F u v l key a h' g' e :
  HInv h (a :: locs g ++ F) → dget "layers" (dict_at h a) = Some (HSet l) →
  h_insert_edge h g u v l key a = (h', g', e) →
  post h F h' g' e (insert_edge (graph_of h g) u v (set_at h l) key (see_at h a)).
Proof.
  intros HI Hal. unfold h_insert_edge, insert_edge.
  pose proof HI as HI'. apply HInv_cons in HI' as (HIK & Han & Hav & Haf).
  change (g_succ (graph_of h g)) with (dmap (dmap (dmap (see_at h))) (h_succ g)). rewrite dget_dmap.
  destruct (dget u (h_succ g)) as [nbrs|] eqn:Eu; cbn [fmap option_fmap option_map].
  2:{ intros [= <- <- <-]. split_and!; [done|apply ext_refl|done]. }
  rewrite dget_dmap.
  destruct (dget v nbrs) as [kd|] eqn:Ev; cbn [fmap option_fmap option_map].
  - rewrite fresh_key_dmap.
    destruct (match key with Some k => Some k | None => fresh_key kd end) as [k|].
    2:{ intros [= <- <- <-]. split_and!; [done|apply ext_refl|done]. }
    rewrite dget_dmap.
    destruct (dget k kd) as [o|] eqn:Ek; cbn [fmap option_fmap option_map].
    + pose proof (edge_loc _ _ _ _ _ _ _ Eu Ev Ek) as Ho.
      assert (HoG : o ∈ a :: locs g ++ F) by (right; apply elem_of_app; by left).
      destruct (match dget "layers" (dict_at h o) with Some v0 => _ | None => _ end) as [h1 ex] eqn:E1.
      destruct (some_layers h _ o h1 ex HI HoG E1) as (Hx1 & Hd1 & Hex).
      destruct (h_union h1 ex l) as [h3 r] eqn:E3.
      destruct (h_union_ok h1 (a :: locs g ++ F) ex l h3 r E3) as (Hx3 & Hd3 & Hr3).
      assert (Hx : ext h h3 (a :: locs g ++ F)) by by eapply ext_trans.
      assert (Hsl : set_at h1 l = set_at h l).
      { eapply ext_set_at; [exact Hx1|]. eapply (i_refs _ _ HI); [by left|exact Hal]. }
      rewrite Hex, Hsl in Hr3.
      assert (HI3 : HInv h3 (a :: locs g ++ F)) by by eapply HInv_ext.
      pose proof HI3 as HI3'. apply HInv_cons in HI3' as (HIK3 & _ & _ & Haf3).
      assert (HxK : ext h h3 (locs g ++ F)).
      { eapply ext_sub; [exact Hx|]. intros x Hx'. by right. }
      assert (HxF : ext h h3 F) by (eapply ext_sub; [exact HxK|apply sub_app_r]).
      assert (Hg3 : graph_of h3 g = graph_of h g).
      { eapply graph_of_ext; [exact HIK|exact HxK|]. intros x Hx'. apply elem_of_app. by left. }
      change (default [] (Some (see_at h o))) with (see_at h o). destruct r as [all|x].
      2:{ rewrite Hr3.
          intros [= <- <- <-]. split_and!; [done|done|by rewrite Hg3]. }
      destruct Hr3 as (Hr3 & Hall).
      rewrite Hr3.
      assert (Hat3 : ∀ x, dict_at h3 x = dict_at h x).
      { intros x. unfold dict_at. by rewrite Hd3, Hd1. }
      assert (Hov : o < length (hp_dicts h3)) by (apply (i_valid _ _ HIK3); apply elem_of_app; by left).
      assert (Hoa : a ≠ o). { intros ->. apply Han. apply elem_of_app. by left. }
      rewrite put_put, dict_at_put by done.
      rewrite !Hat3. intros [= <- <- <-].
      assert (Hsame : hset_succ (dset u (dset v (dset k o kd) nbrs) (h_succ g)) g = g).
      { rewrite (dset_same k o kd Ek), (dset_same v kd nbrs Ev), (dset_same u nbrs _ Eu). by destruct g. }
      rewrite Hsame.
      destruct (update_edge h3 g F u v k nbrs kd o (dset "layers" all (dupdate (dict_at h o) (dict_at h a))))
        as (P1 & P2 & P3); try done.
      { intros K' HK.
        assert (Hsub : K' ⊆ locs g ++ F). { intros x Hx'. rewrite HK. by right. }
        pose proof (HInv_perm _ _ _ HIK HK) as HIp. apply HInv_cons in HIp as (HIp & _ & _ & Hf).
        assert (Hxs : ext h h1 (locs g ++ F)) by (eapply ext_sub; [exact Hx1|intros x Hx'; by right]).
        apply (fits_fresh h1).
        - eapply nfits_ext; [|by eapply ext_sub]. apply nfits_update; [apply Hf|].
          eapply nfits_sub; [apply Haf|done].
        - eapply HInv_ext; [exact HIp|by eapply ext_sub].
        - eapply ext_sub; [exact Hx3|]. intros x Hx'. right. by apply Hsub.
        - exact Hall. }
      split_and!; [exact P1|by eapply ext_trans|].
      rewrite P3, Hg3. f_equal. f_equal. f_equal. f_equal; [f_equal|].
      * rewrite see_dset, see_dupdate. f_equal. f_equal.
        -- rewrite <-(Hat3 o). eapply (see_at_ext h h3); [exact HI|exact Hx|done].
        -- rewrite <-(Hat3 a). eapply (see_at_ext h h3); [exact HI|exact Hx|by left].
      * apply dmap_ext. intros [k' x] Hp. cbn. eapply see_at_ext; [exact HI|exact Hx|].
        right. apply elem_of_app. left. apply elem_of_app. right. apply dl_elem. exists (u, nbrs).
        split; [by apply dget_Some_elem|]. apply dl_elem. exists (v, kd). split; [by apply dget_Some_elem|].
        apply dl_one_elem. by exists k'.
      * apply dmap_ext. intros [v' kd'] Hq. cbn. apply dmap_ext. intros [k' x] Hp. cbn.
        eapply see_at_ext; [exact HI|exact Hx|].
        right. apply elem_of_app. left. apply elem_of_app. right. apply dl_elem. exists (u, nbrs).
        split; [by apply dget_Some_elem|]. apply dl_elem. exists (v', kd'). split; [done|].
        apply dl_one_elem. by exists k'.
    + (* a new key *)
      cbn [new_dict].
      destruct (new_dict_ok h _ [] HI (no_refs_fits _ _ _ no_refs_nil)) as [HI0 Hx0].
      pose proof (dict_at_new h []) as Hat0. cbn [new_dict fst] in *.
      set (h0 := mkHeap (hp_sets h) (hp_dicts h ++ [[]])) in *.
      set (o := length (hp_dicts h)) in *.
      destruct (match dget "layers" (dict_at h0 o) with Some v0 => _ | None => _ end) as [h1 ex] eqn:E1.
      assert (HoG : o ∈ o :: a :: locs g ++ F) by by left.
      destruct (some_layers h0 _ o h1 ex HI0 HoG E1) as (Hx1 & Hd1 & Hex).
      unfold see_at in Hex. rewrite Hat0 in Hex. cbn in Hex.
      destruct (h_union h1 ex l) as [h3 r] eqn:E3.
      destruct (h_union_ok h1 (o :: a :: locs g ++ F) ex l h3 r E3) as (Hx3 & Hd3 & Hr3).
      assert (Hx03 : ext h0 h3 (o :: a :: locs g ++ F)) by by eapply ext_trans.
      assert (Hx : ext h h3 (a :: locs g ++ F)).
      { eapply ext_trans; [exact Hx0|]. eapply ext_sub; [exact Hx03|]. intros x Hx'. by right. }
      assert (Hsl : set_at h1 l = set_at h l).
      { transitivity (set_at h0 l); [|done]. eapply ext_set_at; [exact Hx1|].
        change (hp_sets h0) with (hp_sets h). eapply (i_refs _ _ HI); [by left|exact Hal]. }
      rewrite Hex, Hsl in Hr3.
      destruct r as [all|x].
      2:{ exfalso. cbn in Hr3. done. }
      destruct Hr3 as (Hr3 & Hall). cbn in Hr3.
      cbn [default]. change (default (VSet []) (dget "layers" [])) with (VSet []).
      cbn [py_union]. injection Hr3 as Hr3.
      assert (Hat3 : ∀ x, dict_at h3 x = dict_at h0 x).
      { intros x. unfold dict_at. by rewrite Hd3, Hd1. }
      assert (HI3 : HInv h3 (o :: a :: locs g ++ F)) by by eapply HInv_ext.
      assert (Hov : o < length (hp_dicts h3)) by (apply (i_valid _ _ HI3); by left).
      rewrite put_put, dict_at_put by done.
      assert (Ha0 : dict_at h3 a = dict_at h a) by (apply (x_at _ _ _ Hx); by left).
      assert (Ho0 : dict_at h3 o = []) by by rewrite Hat3.
      rewrite Ha0, Ho0. set (D := dset "layers" all (dupdate [] (dict_at h a))).
      intros [= <- <- <-].
      assert (Ekd : kd = default [] (dget v nbrs)) by by rewrite Ev.
      assert (HxK : ext h h3 (locs g ++ F)) by (eapply ext_sub; [exact Hx|intros x Hx'; by right]).
      assert (HIK3 : HInv h3 (o :: locs g ++ F)).
      { eapply HInv_subm; [exact HI3|]. apply submseteq_skip. by apply submseteq_cons. }
      assert (HnfD : nfits h (locs g ++ F) (dupdate [] (dict_at h a))).
      { apply nfits_update; [apply nfits_nil|apply Haf]. }
      assert (HI4 : HInv (put_dict h3 o D) (o :: locs g ++ F)).
      { eapply write_dict; [exact HIK3|done|].
        assert (Hx1K : ext h h1 (locs g ++ F)).
        { eapply ext_trans.
          - eapply ext_sub; [exact Hx0|]. intros x Hx'. by right.
          - eapply ext_sub; [exact Hx1|]. intros x Hx'. right. by right. }
        apply (fits_fresh h1).
        - by eapply nfits_ext.
        - by eapply HInv_ext.
        - eapply ext_sub; [exact Hx3|]. intros x Hx'. right. by right.
        - exact Hall. }
      assert (HoK : o ∉ locs g ++ F).
      { apply HInv_cons in HIK3 as (_ & ? & _). done. }
      assert (Hx4 : ext h (put_dict h3 o D) (locs g ++ F)).
      { eapply ext_trans; [exact HxK|]. by apply ext_put. }
      destruct (adopt_edge _ g F u v k o nbrs HI4 Eu) as [P1 P2]; [by rewrite <-Ekd|].
      rewrite <-Ekd in P1, P2.
      split_and!; [exact P1|eapply ext_sub; [exact Hx4|apply sub_app_r]|].
      rewrite P2. rewrite (graph_of_ext h _ g _ HIK Hx4) by (intros x Hx'; apply elem_of_app; by left).
      f_equal. f_equal. f_equal. f_equal; [f_equal|].
      * unfold see_at at 1. rewrite dict_at_put by done.
        change (see (put_dict h3 o D)) with (see h3). unfold D. rewrite see_dset. f_equal; [done|].
        rewrite see_dupdate. change (see h3 []) with ([] : attrs). f_equal.
        eapply see_keep; [exact HxK|]. apply Haf.
      * apply dmap_ext. intros [k' x] Hp. cbn. eapply see_at_ext; [exact HIK|exact Hx4|].
        apply elem_of_app. left. apply elem_of_app. right. apply dl_elem. exists (u, nbrs).
        split; [by apply dget_Some_elem|]. apply dl_elem. exists (v, kd). split; [by apply dget_Some_elem|].
        apply dl_one_elem. by exists k'.
      * apply dmap_ext. intros [v' kd'] Hq. cbn. apply dmap_ext. intros [k' x] Hp. cbn.
        eapply see_at_ext; [exact HIK|exact Hx4|].
        apply elem_of_app. left. apply elem_of_app. right. apply dl_elem. exists (u, nbrs).
        split; [by apply dget_Some_elem|]. apply dl_elem. exists (v', kd'). split; [done|].
        apply dl_one_elem. by exists k'.
  - (* no edge between u and v yet *)
    cbn [new_dict]. set (k := default (NInt 0) key).
    destruct (new_dict_ok h (locs g ++ F) (dict_at h a) HIK Haf) as [HI0 Hx0].
    pose proof (dict_at_new h (dict_at h a)) as Hat0. cbn [new_dict fst] in *.
    set (h0 := mkHeap (hp_sets h) (hp_dicts h ++ [dict_at h a])) in *.
    set (o := length (hp_dicts h)) in *.
    destruct (adopt_edge _ g F u v k o nbrs HI0 Eu) as [P1 P2]; [by rewrite Ev|].
    rewrite Ev in P1, P2. change (dset k o (default [] None)) with [(k, o)] in P1, P2.
    assert (Heq : graph_of h0 (hset_succ (dset u (dset v [(k, o)] nbrs) (h_succ g)) g) =
      set_succ (dset u (dset v [(k, see_at h a)] (dmap (dmap (see_at h)) nbrs))
        (dmap (dmap (dmap (see_at h))) (h_succ g))) (graph_of h g)).
    { rewrite P2. rewrite (graph_of_ext h h0 g _ HIK Hx0) by (intros x Hx'; apply elem_of_app; by left).
      f_equal. f_equal. f_equal.
      - change (dset k (see_at h0 o) (dmap (see_at h0) (default [] None))) with [(k, see_at h0 o)].
        f_equal. f_equal. unfold see_at at 1. rewrite Hat0. done.
      - apply dmap_ext. intros [v' kd'] Hq. cbn. apply dmap_ext. intros [k' x] Hp. cbn.
        eapply see_at_ext; [exact HIK|exact Hx0|].
        apply elem_of_app. left. apply elem_of_app. right. apply dl_elem. exists (u, nbrs).
        split; [by apply dget_Some_elem|]. apply dl_elem. exists (v', kd'). split; [done|].
        apply dl_one_elem. by exists k'. }
    change (g_pred (graph_of h g)) with (h_pred g).
    assert (HxF : ext h h0 F) by (eapply ext_sub; [exact Hx0|apply sub_app_r]).
    destruct (dget v (h_pred g)) as [ps|].
    + intros [= <- <- <-]. split_and!; [exact P1|exact HxF|]. f_equal.
      transitivity (set_pred (dset v (if decide (u ∈ ps) then ps else ps ++ [u]) (h_pred g))
        (graph_of h0 (hset_succ (dset u (dset v [(k, o)] nbrs) (h_succ g)) g))); [done|].
      by rewrite Heq.
    + intros [= <- <- <-]. split_and!; [exact P1|exact HxF|]. f_equal. exact Heq.
Qed.
