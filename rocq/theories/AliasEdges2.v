(** * AliasEdges2: add_edge and add_edges_from on the heap *)
From Verif Require Import PyBase DocGraph Alias SpecAlias AliasFacts AliasOps AliasEdges.

Lemma add_edge_ok h g F u v lay key ad attr h' g' e :
  HInv h (attr :: olist ad ++ locs g ++ F) →
  (∀ s, lay = HSet s → s < length (hp_sets h) ∧ sfree h (attr :: olist ad ++ locs g ++ F) s) →
  h_add_edge h g u v lay key ad attr = (h', g', e) →
  post h F h' g' e (add_edge (graph_of h g) u v (val h lay) key (see_at h <$> ad) (see_at h attr)).
Proof.
  intros HI Hlay. unfold h_add_edge, add_edge.
  destruct (h_check_layers h (h_ns g) lay) as [h1 r] eqn:E1.
  destruct (check_layers_ok _ _ _ _ _ _ HI Hlay E1) as (Hx1 & Hd1 & Hr).
  change (g_ns (graph_of h g)) with (h_ns g).
  set (G0 := attr :: olist ad ++ locs g ++ F) in *.
  assert (Hs0 : locs g ++ F ⊆ G0). { unfold G0. intros x Hx. right. apply elem_of_app. by right. }
  assert (HsF : F ⊆ G0). { intros x Hx. apply Hs0, elem_of_app. by right. }
  assert (HK0 : HInv h (locs g ++ F)).
  { eapply HInv_subm; [exact HI|]. unfold G0. apply submseteq_cons, submseteq_inserts_l. done. }
  assert (HIK1 : HInv h1 (locs g ++ F)).
  { eapply HInv_ext; [exact HK0|]. by eapply ext_sub. }
  destruct r as [l|x].
  2:{ rewrite Hr. intros [= <- <- <-]. split_and!.
      - done.
      - by eapply ext_sub.
      - f_equal. eapply graph_of_ext; [exact HI|exact Hx1|].
        intros x' Hx. apply Hs0, elem_of_app. by left. }
  destruct Hr as (Hr & Hl & Hsf). rewrite Hr.
  assert (HI1 : HInv h1 G0) by by eapply HInv_ext.
  destruct (attr_object _ ad attr) as [h2 a] eqn:E2.
  destruct (attr_object_ok h1 (locs g ++ F) attr ad l h2 a HI1 Hl Hsf E2) as (Hx2 & Hd2 & Ha & Hva & Hfit & Hcont).
  assert (Hx02 : ext h h2 (locs g ++ F)).
  { eapply ext_trans; [|exact Hx2]. by eapply ext_sub. }
  assert (HIK2 : HInv h2 (locs g ++ F)) by by eapply HInv_ext.
  assert (Hg2 : graph_of h2 g = graph_of h g).
  { eapply graph_of_ext; [exact HK0|exact Hx02|]. intros x Hx. apply elem_of_app. by left. }
  assert (HxF : ext h h2 F).
  { eapply ext_sub; [exact Hx02|]. apply sub_app_r. }
  assert (Hseen : see h2 (dict_at h2 a) =
    match see_at h <$> ad with
    | None => dset "layers" (VSet (set_at h1 l)) (see_at h attr)
    | Some d => dupdate d (dset "layers" (VSet (set_at h1 l)) (see_at h attr))
    end).
  { rewrite Hcont.
    assert (Hsame : ∀ d, see h2 d = see h1 d).
    { intros d. unfold see. apply dmap_ext. intros p _. destruct p as [? w]. cbn.
      destruct w; cbn; try done. unfold set_at. by rewrite Hd2. }
    assert (Hat : see h2 (dset "layers" (HSet l) (dict_at h1 attr)) = dset "layers" (VSet (set_at h1 l)) (see_at h attr)).
    { rewrite Hsame, see_dset. f_equal.
      eapply (see_at_ext h h1); [exact HI|exact Hx1|by left]. }
    destruct ad as [a0|]; cbn [fmap option_fmap option_map].
    - rewrite see_dupdate, Hat. f_equal. rewrite Hsame.
      eapply (see_at_ext h h1); [exact HI|exact Hx1|]. right. by left.
    - exact Hat. }
  assert (HI2 : HInv h2 (a :: locs g ++ F)) by (apply HInv_cons; done).
  assert (HIa : HInv h2 (locs g ++ a :: F)).
  { eapply HInv_perm; [exact HI2|]. solve_Permutation. }
  assert (HlA : dget "layers" (dict_at h2 a) = Some (HSet l)).
  { rewrite Hcont. destruct ad; rewrite ?dget_dupdate, dget_dset_eq; done. }
  destruct (h_for_each h_ensure_node [u; v] h2 g) as [[h3 g1] e1] eqn:E3.
  assert (HndF : NoDup (a :: F)).
  { pose proof (i_nodup _ _ HIa) as Hnd. by apply NoDup_app in Hnd as (_ & _ & ?). }
  destruct (ensure_ok h2 g (a :: F) [u; v] h3 g1 e1 HIa HndF E3) as (P1 & P2 & P3).
  rewrite Hg2 in P3. rewrite <-P3.
  destruct e1 as [e1|].
  { intros [= <- <- <-]. split_and!.
    - eapply HInv_subm; [exact P1|]. apply submseteq_skips_l. by apply submseteq_cons.
    - eapply ext_trans; [exact HxF|]. eapply ext_sub; [exact P2|]. intros x Hx. by right.
    - done. }
  intros E4.
  assert (HI3 : HInv h3 (a :: locs g1 ++ F)).
  { eapply HInv_perm; [exact P1|]. solve_Permutation. }
  assert (Hda : dict_at h3 a = dict_at h2 a) by (apply (x_at _ _ _ P2); by left).
  rewrite <-Hda in HlA.
  pose proof (insert_edge_ok _ _ _ _ _ _ _ _ _ _ _ HI3 HlA E4) as Hp.
  assert (Hsl : set_at h3 l = set_at h1 l).
  { transitivity (set_at h2 l); [|unfold set_at; by rewrite Hd2].
    eapply ext_set_at; [exact P2|]. by rewrite Hd2. }
  assert (Hsa : see_at h3 a = see h2 (dict_at h2 a)).
  { eapply (see_at_ext h2 h3); [|exact P2|by left].
    eapply HInv_prefix. exact HIa. }
  rewrite Hsl, Hsa, Hseen in Hp.
  eapply post_trans; [|exact Hp].
  eapply ext_trans; [exact HxF|]. eapply ext_sub; [exact P2|]. intros x Hx. by right.
Qed.

(** ** add_edges_from *)

Lemma additional_ok h ad : additional_layers (see_at h ad) = h_additional_layers h ad.
Proof.
  unfold additional_layers, h_additional_layers, see_at. rewrite see_dget.
  by destruct (dget "layers" (dict_at h ad)) as [[]|].
Qed.

(** the last part: add_edge with objects of its own *)
Lemma last_part h g F u v k (v0 : pyval) existing nl D h' g' e :
  HInv h (locs g ++ F) → nfits h (locs g ++ F) D →
  (∀ s, existing = HSet s → s < length (hp_sets h)) → nl < length (hp_sets h) →
  (let '(h, updated_attrs) := new_dict h (ddel "layers" D) in
   match h_union h existing nl with
   | (h, Err x) => (h, g, Some x)
   | (h, Ok all_layers) =>
     let '(h, kw) := new_dict h [] in
     h_add_edge h g u v all_layers (Some k) (Some updated_attrs) kw
   end) = (h', g', e) →
  post h F h' g' e
    (match py_union (val h existing) (set_at h nl) with
     | Err x => (graph_of h g, Some x)
     | Ok all_layers => add_edge (graph_of h g) u v all_layers (Some k) (Some (ddel "layers" (see h D))) []
     end).
Proof.
  intros HI HD Hex Hnl.
  assert (HD' : nfits h (locs g ++ F) (ddel "layers" D)) by by apply nfits_del.
  assert (Hfit : fits h (locs g ++ F) (ddel "layers" D)).
  { split; [done|..]; intros s; [|intros k']; rewrite dget_ddel, decide_True by done; done. }
  destruct (new_dict_ok h _ _ HI Hfit) as [HI1 Hx1]. pose proof (dict_at_new h (ddel "layers" D)) as Hat1.
  cbn [new_dict fst] in *. set (up := length (hp_dicts h)) in *.
  set (h1 := mkHeap (hp_sets h) (hp_dicts h ++ [ddel "layers" D])) in *.
  destruct (h_union h1 existing nl) as [h2 r] eqn:E2.
  destruct (h_union_ok h1 (up :: locs g ++ F) existing nl h2 r E2) as (Hx2 & Hd2 & Hr).
  change (val h1 existing) with (val h existing) in Hr. change (set_at h1 nl) with (set_at h nl) in Hr.
  assert (HI2 : HInv h2 (up :: locs g ++ F)) by by eapply HInv_ext.
  pose proof HI2 as HI2'. apply HInv_cons in HI2' as (HIK2 & _).
  assert (Hx2' : ext h1 h2 (locs g ++ F)) by (eapply ext_sub; [exact Hx2|intros x Hx; by right]).
  assert (Hx02 : ext h h2 (locs g ++ F)) by by eapply ext_trans.
  assert (HgF : locs g ⊆ locs g ++ F) by (intros x Hx; apply elem_of_app; by left).
  destruct r as [all|x].
  2:{ rewrite Hr. intros [= <- <- <-]. split_and!; [done|eapply ext_sub; [exact Hx02|apply sub_app_r]|].
      by rewrite (graph_of_ext h h2 g _ HI Hx02). }
  destruct Hr as (Hr & Hall). rewrite Hr.
  destruct (new_dict_ok h2 _ [] HI2 (no_refs_fits _ _ _ no_refs_nil)) as [HI3 Hx3].
  pose proof (dict_at_new h2 []) as Hat3. cbn [new_dict fst] in *.
  set (kw := length (hp_dicts h2)) in *. set (h3 := mkHeap (hp_sets h2) (hp_dicts h2 ++ [[]])) in *.
  assert (Hx03 : ext h h3 (locs g ++ F)).
  { eapply ext_trans; [exact Hx02|]. eapply ext_sub; [exact Hx3|]. intros x Hx. by right. }
  intros E. eapply post_trans; [eapply ext_sub; [exact Hx03|apply sub_app_r]|].
  pose proof (add_edge_ok h3 g F u v all (Some k) (Some up) kw h' g' e HI3) as Hp.
  assert (Hc : ∀ s, all = HSet s → s < length (hp_sets h3) ∧ sfree h3 (kw :: olist (Some up) ++ locs g ++ F) s).
  { intros s Hs. destruct (Hall s Hs) as [Q1 Q2]. split; [exact Q2|].
    intros x k' [->|Hx]%elem_of_cons.
    - rewrite Hat3. done.
    - rewrite (x_at _ _ _ Hx3) by done. rewrite (x_at _ _ _ Hx2) by done.
      intros Hd. apply (i_refs _ _ HI1) in Hd; [|done]. lia. }
  specialize (Hp Hc E).
  rewrite (graph_of_ext h h3 g _ HI Hx03) in Hp by done.
  cbn [fmap option_fmap option_map] in Hp.
  assert (Hkw : see_at h3 kw = []) by (unfold see_at; by rewrite Hat3). rewrite Hkw in Hp.
  assert (Hup : see_at h3 up = ddel "layers" (see h D)).
  { rewrite <-see_ddel.
    transitivity (see_at h2 up); [eapply see_at_ext; [exact HI2|exact Hx3|by left]|].
    transitivity (see_at h1 up); [eapply see_at_ext; [exact HI1|exact Hx2|by left]|].
    unfold see_at. by rewrite Hat1. }
  rewrite Hup in Hp. exact Hp.
Qed.

Lemma add_edges_from1_ok h g F ad ee h' g' e :
  HInv h (he_d ee :: locs g ++ F) → ad ∈ F →
  h_add_edges_from1 h g ad ee = (h', g', e) →
  post h F h' g' e (add_edges_from1 (graph_of h g) (see_at h ad) (espec_of h ee)).
Proof.
  intros HI Had. destruct ee as [u v key d]. cbn [he_d] in HI.
  unfold h_add_edges_from1, add_edges_from1, espec_of. cbn [he_u he_v he_key he_d e_u e_v e_key e_d].
  fold (default_layers h (h_ns g) d).
  destruct (default_layers_ok h (h_ns g) d _ HI) as (HI1 & Hx1 & Hsee).
  set (h1 := default_layers h (h_ns g) d) in *. clearbody h1.
  assert (HxF1 : ext h h1 F) by (eapply ext_sub; [exact Hx1|apply sub_app_r]).
  change (g_ns (graph_of h g)) with (h_ns g). rewrite <-Hsee.
  unfold see_at at 1. rewrite see_dget.
  pose proof HI as HI0. apply HInv_cons in HI0 as (HIK & _).
  pose proof HI1 as HI1'. apply HInv_cons in HI1' as (HIK1 & Hdn & Hdv & Hdf).
  assert (HaG : ad ∈ locs g ++ F) by (apply elem_of_app; by right).
  assert (HgF : locs g ⊆ locs g ++ F) by (intros x Hx; apply elem_of_app; by left).
  assert (Hga : graph_of h1 g = graph_of h g) by by eapply graph_of_ext.
  destruct (dget "layers" (dict_at h1 d)) as [vl|] eqn:El.
  2:{ cbn. intros [= <- <- <-]. split_and!; [done|done|by rewrite Hga]. }
  destruct vl as [| | | |layers| |]; cbn [fmap option_fmap option_map val];
    try (intros [= <- <- <-]; split_and!; [done|done|by rewrite Hga]).
  assert (Hsad : see_at h1 ad = see_at h ad) by by eapply see_at_ext.
  rewrite <-Hsad, additional_ok.
  destruct (h_additional_layers h1 ad) as [add_l|x].
  2:{ intros [= <- <- <-]. split_and!; [done|done|by rewrite Hga]. }
  cbn [new_set].
  pose proof (ext_new_set h1 (set_union (set_at h1 layers) add_l) (d :: locs g ++ F)) as Hx2.
  pose proof (set_at_new h1 (set_union (set_at h1 layers) add_l)) as Hnl. cbn [new_set fst] in Hx2, Hnl.
  set (h2 := mkHeap (hp_sets h1 ++ [set_union (set_at h1 layers) add_l]) (hp_dicts h1)) in *.
  set (nl := length (hp_sets h1)) in *.
  assert (Hnlv : nl < length (hp_sets h2)) by (unfold h2, nl; cbn; rewrite app_length; cbn; lia).
  assert (HI2 : HInv h2 (d :: locs g ++ F)) by by eapply HInv_ext.
  assert (Hx2K : ext h1 h2 (locs g ++ F)) by (eapply ext_sub; [exact Hx2|intros x Hx; by right]).
  assert (Hx02 : ext h h2 (locs g ++ F)) by by eapply ext_trans.
  pose proof HI2 as HI2'. apply HInv_cons in HI2' as (HIK2 & _ & _ & Hdf2).
  change (dict_at h2 d) with (dict_at h1 d) in Hdf2.
  assert (Hg2 : graph_of h2 g = graph_of h g) by by eapply graph_of_ext.
  assert (HxF2 : ext h h2 F) by (eapply ext_sub; [exact Hx02|apply sub_app_r]).
  assert (Hsd : see_at h1 d = see_at h2 d) by (symmetry; eapply see_at_ext; [exact HI1|exact Hx2|by left]).
  assert (Hsad2 : see_at h1 ad = see_at h2 ad) by (symmetry; by eapply see_at_ext).
  rewrite <-Hg2, Hsd, Hsad2, <-Hnl. clear Hsd Hsad2 Hsad.
  cbv zeta.
  change (g_succ (graph_of h2 g)) with (dmap (dmap (dmap (see_at h2))) (h_succ g)).
  rewrite dget_dmap, default_dmap, dget_dmap, default_dmap, fresh_key_dmap.
  set (nbrs := default [] (dget u (h_succ g))). set (kd := default [] (dget v nbrs)).
  destruct (match key with Some k => Some k | None => fresh_key kd end) as [k|].
  2:{ intros [= <- <- <-]. split_and!; [done|done|done]. }
  rewrite dget_dmap.
  assert (El2 : dget "layers" (dict_at h2 d) = Some (HSet layers)) by exact El.
  destruct (dget k kd) as [o|] eqn:Ek; cbn [fmap option_fmap option_map].
  - (* an existing edge *)
    assert (Eu : dget u (h_succ g) = Some nbrs).
    { unfold kd, nbrs in Ek. unfold nbrs. by destruct (dget u (h_succ g)). }
    assert (Ev : dget v nbrs = Some kd).
    { unfold kd in Ek. unfold kd. by destruct (dget v nbrs). }
    pose proof (edge_loc _ _ _ _ _ _ _ Eu Ev Ek) as Ho.
    assert (HoK : o ∈ locs g ++ F) by by apply HgF.
    assert (HoG : o ∈ d :: locs g ++ F) by by right.
    destruct (match dget "layers" (dict_at h2 o) with Some v0 => _ | None => _ end) as [h3 ex] eqn:E3.
    destruct (some_layers h2 _ o h3 ex HI2 HoG E3) as (Hx3 & Hd3 & Hex).
    change (default [] (Some (see_at h2 o))) with (see_at h2 o). rewrite <-Hex.
    assert (HI3 : HInv h3 (d :: locs g ++ F)) by by eapply HInv_ext.
    pose proof HI3 as HI3'. apply HInv_cons in HI3' as (HIK3 & _ & _ & Hdf3).
    assert (Hat3 : ∀ l, dict_at h3 l = dict_at h2 l) by (intros; unfold dict_at; by rewrite Hd3).
    assert (Hov : o < length (hp_dicts h3)) by by apply (i_valid _ _ HIK3).
    pose proof (i_nodup _ _ HIK) as Hnd.
    assert (HoF : o ∉ F). { intros Hin. apply NoDup_app in Hnd as (_ & Hd & _). by apply (Hd o). }
    assert (Hod : d ≠ o) by (intros ->; done).
    assert (Hoa : ad ≠ o) by (intros ->; done).
    rewrite put_put. rewrite (dict_at_put h3) by done.
    rewrite !(dict_at_put_ne h3 o d) by done.
    rewrite !(dict_at_put h3 o) by done.
    set (D := dupdate (dupdate (dict_at h3 o) (dict_at h3 ad)) (dict_at h3 d)).
    assert (HlD : dget "layers" D = Some (HSet layers)).
    { unfold D. rewrite dget_dupdate, Hat3, El2. done. }
    destruct (update_edge h3 g F u v k nbrs kd o D) as (P1 & P2 & P3); try done.
    { intros K' HK.
      assert (Hsub : K' ⊆ locs g ++ F). { intros x Hx'. rewrite HK. by right. }
      pose proof (HInv_perm _ _ _ HIK3 HK) as HIp. apply HInv_cons in HIp as (HIp & _ & _ & Hf).
      split.
      - apply nfits_update; [apply nfits_update|].
        + apply Hf.
        + eapply nfits_sub; [exact (nfits_member _ _ _ HIK3 HaG)|done].
        + eapply nfits_sub; [apply Hdf3|done].
      - intros s. rewrite HlD. intros [= <-]. eapply sfree_sub; [|exact Hsub].
        apply (f_lay _ _ _ Hdf3). rewrite Hat3. exact El2.
      - intros s k'. rewrite HlD. intros [= <-]. unfold D. rewrite !dget_dupdate.
        rewrite !Hat3. destruct (dget k' (dict_at h2 d)) as [w|] eqn:Ew.
        + intros [= ->]. by apply (f_one _ _ _ Hdf2 layers k').
        + destruct (dget k' (dict_at h2 ad)) as [w|] eqn:Ew'.
          * intros [= ->]. exfalso. by apply (f_lay _ _ _ Hdf2 layers El2 ad k').
          * intros Hw. exfalso. by apply (f_lay _ _ _ Hdf2 layers El2 o k'). }
    assert (Hsets : hp_sets (put_dict h3 o D) = hp_sets h3) by done.
    set (h4 := put_dict h3 o D) in *.
    intros E.
    assert (Hx3K : ext h2 h3 (locs g ++ F)) by (eapply ext_sub; [exact Hx3|intros x Hx; by right]).
    assert (HxF4 : ext h h4 F).
    { eapply ext_trans; [exact HxF2|]. eapply ext_trans; [|exact P2]. eapply ext_sub; [exact Hx3K|apply sub_app_r]. }
    assert (HvD : val h4 ex = val h3 ex) by (unfold h4; by destruct ex).
    eapply post_trans; [exact HxF4|].
    assert (Hd4 : dict_at h4 o = D) by (unfold h4; by apply dict_at_put).
    rewrite ?Hd4 in E.
    pose proof (last_part h4 g F u v k VNone ex nl D h' g' e P1) as Hp.
    assert (HD4 : nfits h4 (locs g ++ F) D).
    { rewrite <-Hd4. by apply nfits_member. }
    assert (Hexv : ∀ s, ex = HSet s → s < length (hp_sets h4)).
    { intros s ->. rewrite Hsets. revert E3. destruct (dget "layers" (dict_at h2 o)) as [w|] eqn:Ew; cbn [new_set].
      - intros [= <- ->]. by eapply (i_refs _ _ HIK2).
      - intros [= <- <-]. change (length (hp_sets h2) < length (hp_sets h2 ++ [[]])).
        rewrite (app_length (hp_sets h2)). cbn [length]. lia. }
    assert (Hnl4 : nl < length (hp_sets h4)).
    { rewrite Hsets. pose proof (ext_sets_len _ _ _ Hx3). lia. }
    specialize (Hp HD4 Hexv Hnl4 E).
    rewrite P3 in Hp.
    assert (Hsl : set_at h4 nl = set_at h2 nl).
    { transitivity (set_at h3 nl); [done|]. by eapply ext_set_at. }
    rewrite Hsl, HvD in Hp.
    assert (HseeD : see h3 D = dupdate (dupdate (see_at h2 o) (see_at h2 ad)) (see_at h2 d)).
    { unfold D. rewrite !see_dupdate. f_equal; [f_equal|].
      - eapply (see_at_ext h2 h3); [exact HI2|exact Hx3|done].
      - eapply (see_at_ext h2 h3); [exact HI2|exact Hx3|by right].
      - eapply (see_at_ext h2 h3); [exact HI2|exact Hx3|by left]. }
    change (see h4 D) with (see h3 D) in Hp. rewrite HseeD in Hp.
    assert (Hgr : graph_of h3 g = graph_of h2 g) by by eapply graph_of_ext.
    assert (Hkd : dmap (see_at h3) kd = dmap (see_at h2) kd).
    { apply dmap_ext. intros [k' x] Hq. cbn. eapply (see_at_ext h2 h3); [exact HIK2|exact Hx3K|].
      apply HgF. apply elem_of_app. right. apply dl_elem. exists (u, nbrs).
      split; [by apply dget_Some_elem|]. apply dl_elem. exists (v, kd). split; [by apply dget_Some_elem|].
      apply dl_one_elem. by exists k'. }
    assert (Hnb : dmap (dmap (see_at h3)) nbrs = dmap (dmap (see_at h2)) nbrs).
    { apply dmap_ext. intros [v' kd'] Hq'. cbn. apply dmap_ext. intros [k' x] Hq. cbn.
      eapply (see_at_ext h2 h3); [exact HIK2|exact Hx3K|].
      apply HgF. apply elem_of_app. right. apply dl_elem. exists (u, nbrs).
      split; [by apply dget_Some_elem|]. apply dl_elem. exists (v', kd'). split; [done|].
      apply dl_one_elem. by exists k'. }
    rewrite Hgr, Hkd, Hnb in Hp. exact Hp.
  - (* a new edge *)
    cbn [new_dict].
    destruct (new_dict_ok h2 _ [] HI2 (no_refs_fits _ _ _ no_refs_nil)) as [HI0 Hx0].
    pose proof (dict_at_new h2 []) as Hat0. cbn [new_dict fst] in *.
    set (h0 := mkHeap (hp_sets h2) (hp_dicts h2 ++ [[]])) in *.
    set (o := length (hp_dicts h2)) in *.
    rewrite Hat0. cbn [dget new_set].
    pose proof (ext_new_set h0 [] (o :: d :: locs g ++ F)) as Hx3. cbn [new_set fst] in Hx3.
    pose proof (set_at_new h0 []) as Hs3. cbn [new_set fst] in Hs3.
    set (h3 := mkHeap (hp_sets h0 ++ [[]]) (hp_dicts h0)) in *.
    set (es := length (hp_sets h0)) in *.
    assert (HI3 : HInv h3 (o :: d :: locs g ++ F)) by by eapply HInv_ext.
    assert (Hx03 : ext h2 h3 (d :: locs g ++ F)).
    { eapply ext_trans; [exact Hx0|]. eapply ext_sub; [exact Hx3|]. intros x Hx. by right. }
    assert (Hov : o < length (hp_dicts h3)) by (apply (i_valid _ _ HI3); by left).
    pose proof (i_nodup _ _ HI3) as Hnd3.
    apply NoDup_cons in Hnd3 as [Hno Hnd3].
    assert (Hod : d ≠ o). { intros ->. apply Hno. by left. }
    assert (Hoa : ad ≠ o). { intros ->. apply Hno. by right. }
    assert (Hat3 : ∀ l, dict_at h3 l = dict_at h0 l) by done.
    rewrite put_put. rewrite (dict_at_put h3) by done.
    rewrite !(dict_at_put_ne h3 o d) by done.
    rewrite !(dict_at_put h3 o) by done.
    rewrite (Hat3 o), Hat0.
    set (D := dupdate (dupdate [] (dict_at h3 ad)) (dict_at h3 d)).
    set (h4 := put_dict h3 o D) in *.
    assert (Hd4 : dict_at h4 o = D) by by apply dict_at_put.
    intros E. rewrite ?Hd4 in E.
    assert (Hx34 : ext h3 h4 (d :: locs g ++ F)) by by apply ext_put.
    assert (Hx24 : ext h2 h4 (d :: locs g ++ F)) by by eapply ext_trans.
    assert (Hx24K : ext h2 h4 (locs g ++ F)) by (eapply ext_sub; [exact Hx24|intros x Hx; by right]).
    assert (HxF4 : ext h h4 F).
    { eapply ext_trans; [exact HxF2|]. eapply ext_sub; [exact Hx24K|apply sub_app_r]. }
    eapply post_trans; [exact HxF4|].
    assert (HIK4 : HInv h4 (locs g ++ F)) by by eapply HInv_ext.
    pose proof (last_part h4 g F u v k VNone (HSet es) nl D h' g' e HIK4) as Hp.
    assert (Hd3 : dict_at h3 d = dict_at h2 d) by (apply (x_at _ _ _ Hx03); by left).
    assert (Ha3 : dict_at h3 ad = dict_at h2 ad) by (apply (x_at _ _ _ Hx03); by right).
    assert (HD4 : nfits h4 (locs g ++ F) D).
    { eapply nfits_ext; [|exact Hx24K]. unfold D. rewrite Hd3, Ha3.
      apply nfits_update; [apply nfits_update; [apply nfits_nil|]|apply Hdf2]. by apply nfits_member. }
    assert (Hexv : ∀ s, HSet es = HSet s → s < length (hp_sets h4)).
    { intros s [= <-]. change (hp_sets h4) with (hp_sets h0 ++ [[]]). rewrite app_length.
      unfold es. cbn [length]. lia. }
    assert (Hnl4 : nl < length (hp_sets h4)).
    { pose proof (ext_sets_len _ _ _ Hx24). lia. }
    specialize (Hp HD4 Hexv Hnl4 E).
    assert (Hsl : set_at h4 nl = set_at h2 nl) by by eapply ext_set_at.
    assert (Hes : val h4 (HSet es) = VSet []) by (cbn; f_equal; exact Hs3).
    rewrite Hsl, Hes in Hp.
    assert (Hgr : graph_of h4 g = graph_of h2 g) by by eapply graph_of_ext.
    assert (HseeD : see h4 D = dupdate (dupdate [] (see_at h2 ad)) (see_at h2 d)).
    { unfold D. rewrite Hd3, Ha3, !see_dupdate. f_equal; [f_equal|].
      - eapply see_keep; [exact Hx24K|]. by apply nfits_member.
      - eapply see_keep; [exact Hx24K|]. apply Hdf2. }
    rewrite Hgr, HseeD in Hp. exact Hp.
Qed.
