(** * AliasStep: every call on the heap does what its value model does *)
From Verif Require Import PyBase DocGraph Alias SpecAlias AliasFacts AliasOps AliasEdges AliasEdges2.

(** ** add_edges_from *)

Lemma plain_object_ok h K attr ad h2 a :
  HInv h (attr :: olist ad ++ K) → attr_object h ad attr = (h2, a) →
  HInv h2 (a :: K) ∧ ext h h2 K ∧
  see_at h2 a = match see_at h <$> ad with None => see_at h attr | Some d => dupdate d (see_at h attr) end.
Proof.
  intros HI. pose proof HI as HI'. apply HInv_cons in HI' as (HI1 & Hn & Hv & Hf).
  destruct ad as [a0|]; cbn [olist app attr_object fmap option_fmap option_map] in *.
  - intros [= <- <-]. pose proof HI1 as HI2. apply HInv_cons in HI2 as (HIK & Hn1 & Hv1 & Hf1).
    set (D := dupdate (dict_at h a0) (dict_at h attr)).
    assert (Hna : attr ≠ a0). { intros ->. apply Hn. by left. }
    split_and!.
    + eapply write_dict; [exact HI1|done|].
      assert (Hsub : K ⊆ a0 :: K) by (intros x Hx; by right).
      split.
      * apply nfits_update; [apply Hf1|]. eapply nfits_sub; [apply Hf|done].
      * intros s. unfold D. rewrite dget_dupdate.
        destruct (dget "layers" (dict_at h attr)) as [w|] eqn:Ew.
        -- intros [= ->]. eapply sfree_sub; [by apply (f_lay _ _ _ Hf)|done].
        -- apply (f_lay _ _ _ Hf1).
      * intros s k. unfold D. rewrite !dget_dupdate.
        assert (Ha : attr ∈ attr :: a0 :: K) by by left.
        assert (Ha0 : a0 ∈ attr :: a0 :: K) by (right; by left).
        destruct (dget "layers" (dict_at h attr)) as [w|] eqn:Ew; intros Hs; [injection Hs as ->|].
        -- destruct (dget k (dict_at h attr)) as [w'|] eqn:Ew'; [intros [= ->]|intros Hs'].
           ++ by destruct (i_sole _ _ HI attr attr k s Ha Ha Ew Ew').
           ++ by destruct (i_sole _ _ HI attr a0 k s Ha Ha0 Ew Hs').
        -- destruct (dget k (dict_at h attr)) as [w'|] eqn:Ew'; [intros [= ->]|intros Hs'].
           ++ by destruct (i_sole _ _ HI a0 attr k s Ha0 Ha Hs Ew').
           ++ by destruct (i_sole _ _ HI a0 a0 k s Ha0 Ha0 Hs Hs').
    + by apply ext_put.
    + unfold see_at. rewrite dict_at_put by done.
      change (see (put_dict h a0 D)) with (see h). apply see_dupdate.
  - intros [= <- <-]. split_and!; [done|apply ext_refl|done].
Qed.

Lemma add_edges_from_ok h g F es ad attr h' g' e :
  HInv h (attr :: olist ad ++ (es ≫= elocs) ++ locs g ++ F) →
  h_add_edges_from h g es ad attr = (h', g', e) →
  post h F h' g' e (add_edges_from (graph_of h g) (espec_of h <$> es) (see_at h <$> ad) (see_at h attr)).
Proof.
  intros HI. unfold h_add_edges_from, add_edges_from.
  destruct (attr_object h ad attr) as [h1 a] eqn:E1.
  destruct (plain_object_ok h ((es ≫= elocs) ++ locs g ++ F) attr ad h1 a HI E1) as (HI1 & Hx1 & Hs).
  rewrite <-Hs. intros E.
  assert (HK : HInv h ((es ≫= elocs) ++ locs g ++ F)).
  { apply HInv_cons in HI as (HI & _). by eapply HInv_prefix. }
  assert (HsF : F ⊆ (es ≫= elocs) ++ locs g ++ F).
  { intros x Hx. apply elem_of_app. right. apply elem_of_app. by right. }
  eapply post_trans; [by eapply ext_sub|].
  apply (post_weak _ _ [a]). cbn [app].
  assert (Hg1 : graph_of h g = graph_of h1 g).
  { symmetry. eapply graph_of_ext; [exact HK|exact Hx1|]. intros x Hx. apply elem_of_app. right. apply elem_of_app. by left. }
  rewrite Hg1.
  assert (Hes : espec_of h <$> es = espec_of h1 <$> es).
  { apply list_fmap_ext. intros i x Hi. unfold espec_of. f_equal. symmetry.
    eapply see_at_ext; [exact HK|exact Hx1|]. apply elem_of_app. left. apply elem_of_list_bind.
    exists x. split; [by left|by eapply elem_of_list_lookup_2]. }
  rewrite Hes.
  eapply (h_for_each_ok _ _ elocs espec_of (λ _ _, True) [a] (λ h2, see_at h2 a = see_at h1 a));
    [| | | | | | | |by apply Forall_forall|exact E].
  - intros h2 h3 H2 HIa Hxa. rewrite <-H2. eapply see_at_ext; [exact HIa|exact Hxa|by left].
  - intros h2 h3 G x HIG HxG Hsub. unfold espec_of. f_equal.
    eapply see_at_ext; [exact HIG|exact HxG|]. apply Hsub. by left.
  - done.
  - intros h2 g2 F2 x h3 g3 e3 HI2 HF2 H2 _ E2. rewrite <-H2.
    eapply add_edges_from1_ok; [exact HI2|apply HF2; by left|exact E2].
  - eapply HInv_perm; [exact HI1|]. solve_Permutation.
  - intros x ->%elem_of_list_singleton. by left.
  - apply NoDup_singleton.
  - done.
Qed.

(** ** add_precedence_relations *)
Lemma add_prec_edge_ok h g F p h' g' e : HInv h (locs g ++ F) →
  h_add_prec_edge h g p = (h', g', e) → post h F h' g' e (add_prec_edge (graph_of h g) p).
Proof.
  intros HI. unfold h_add_prec_edge, add_prec_edge.
  assert (Hnr : no_refs [("edge_type", HStr precedes)]).
  { split; [apply NoDup_singleton|]. intros k s. cbn. case_decide; done. }
  destruct (fresh_args h (locs g ++ F) [h_ns g; h_ns g +:+ ":precedence"] _ HI Hnr) as (P1 & P2 & P3 & P4 & P5 & P6).
  cbn [new_set new_dict fst hp_sets hp_dicts] in *. intros E.
  set (h2 := mkHeap (hp_sets h ++ [[h_ns g; h_ns g +:+ ":precedence"]])
               (hp_dicts h ++ [[("edge_type", HStr precedes)]])) in *.
  eapply post_trans; [eapply ext_sub; [exact P2|apply sub_app_r]|].
  assert (P7 : ∀ s, HSet (length (hp_sets h)) = HSet s → s < length (hp_sets h2) ∧
    sfree h2 (length (hp_dicts h) :: olist None ++ locs g ++ F) s) by (intros s [= <-]; done).
  pose proof (add_edge_ok h2 g F _ _ _ _ None _ _ _ _ P1 P7 E) as Hp.
  rewrite P5, P6 in Hp.
  rewrite (graph_of_ext h h2 g _ HI P2) in Hp by (intros x Hx; apply elem_of_app; by left).
  exact Hp.
Qed.
Lemma add_precedence_ok h g F h' g' e : HInv h (locs g ++ F) →
  h_add_precedence_relations h g = (h', g', e) →
  post h F h' g' e (add_precedence_relations (graph_of h g)).
Proof.
  intros HI. unfold h_add_precedence_relations, add_precedence_relations.
  change (g_tokens (graph_of h g)) with (h_tokens g). change (g_root (graph_of h g)) with (h_root g).
  destruct (h_tokens g) as [|t0 [|t1 ts]].
  1,2: intros [= <- <- <-]; split_and!; [done|apply ext_refl|done].
  set (ps := (h_root g, t0) :: _). intros E.
  replace ps with ((λ n, n) <$> ps) by apply list_fmap_id.
  assert (HF : NoDup F).
  { pose proof (i_nodup _ _ HI) as Hnd. by apply NoDup_app in Hnd as (_ & _ & ?). }
  eapply (h_for_each_ok h_add_prec_edge add_prec_edge (λ _, []) (λ _ n, n) (λ _ _, True) F (λ _, True));
    [done|done|done| | |done|done|done|by apply Forall_forall|exact E].
  - intros h1 g1 F1 x h2 g2 e2 HI1 _ _ _. by apply add_prec_edge_ok.
  - replace (ps ≫= λ _, []) with ([] : list nat); [done|]. clear. induction ps as [|x l IH]; [done|]. exact IH.
Qed.

(** ** remove_node *)
Lemma cut_perm (A X Y S : list nat) : A ++ X ≡ₚ Y ++ S → Y ⊆+ A → X ⊆+ S.
Proof.
  intros H1 H2. apply submseteq_Permutation in H2 as [Z HZ].
  rewrite HZ, <-app_assoc in H1. apply Permutation_app_inv_l in H1.
  rewrite <-H1. by apply submseteq_inserts_l.
Qed.
Definition cut_step {V} (n : nid) (s : dict nid (dict nid V)) (u : nid) : dict nid (dict nid V) :=
  match dget u s with Some nb => dset u (ddel n nb) s | None => s end.
Lemma cut_locs n us (s : dict nid (dict nid (dict nid nat))) :
  succ_locs (foldl (cut_step n) s us) ⊆+ succ_locs s.
Proof.
  revert s. induction us as [|u us IH]; intros s; [done|]. cbn [foldl].
  etrans; [apply IH|]. unfold cut_step. destruct (dget u s) as [nb|] eqn:E; [|done].
  pose proof (dl_dset (dl (dl one)) u (ddel n nb) s) as P. rewrite E in P. cbn [olocs] in P.
  eapply cut_perm; [exact P|]. apply dl_ddel.
Qed.
Lemma cut_dmap n us (s : dict nid (dict nid (dict nid nat))) (f : dict nid nat → dict nid attrs) :
  dmap (dmap f) (foldl (cut_step n) s us) = foldl (cut_step n) (dmap (dmap f) s) us.
Proof.
  revert s. induction us as [|u us IH]; intros s; [done|]. cbn [foldl]. rewrite IH. f_equal.
  unfold cut_step. rewrite dget_dmap. destruct (dget u s) as [nb|]; [|done].
  cbn [fmap option_fmap option_map]. by rewrite dset_dmap, ddel_dmap.
Qed.
Lemma remove_node_ok h g F n h' g' e : HInv h (locs g ++ F) →
  h_remove_node h g n = (h', g', e) → post h F h' g' e (remove_node (graph_of h g) n).
Proof.
  intros HI. unfold h_remove_node, remove_node.
  change (g_succ (graph_of h g)) with (dmap (dmap (dmap (see_at h))) (h_succ g)).
  change (g_node (graph_of h g)) with (dmap (see_at h) (h_node g)).
  change (g_pred (graph_of h g)) with (h_pred g).
  rewrite !dget_dmap.
  destruct (dget n (h_succ g)) as [nbrs|]; cbn [fmap option_fmap option_map].
  2:{ intros [= <- <- <-]. split_and!; [done|apply ext_refl|done]. }
  destruct (dget n (h_node g)) as [o|]; cbn [fmap option_fmap option_map].
  2:{ intros [= <- <- <-]. split_and!; [done|apply ext_refl|done]. }
  rewrite dkeys_dmap. intros [= <- <- <-]. split_and!; [|apply ext_refl|].
  - eapply HInv_subm; [exact HI|]. apply submseteq_skips_r. unfold locs. cbn [h_node h_succ].
    apply submseteq_app; [apply dl_ddel|]. etrans; [apply (cut_locs n)|]. apply dl_ddel.
  - f_equal. unfold graph_of. cbn. f_equal; [apply ddel_dmap|].
    etrans; [apply (cut_dmap n)|]. by rewrite ddel_dmap.
Qed.

(** ** add_layer *)
Lemma dmap_write2 {K V W} `{EqDecision K} (L : V → list nat) (f f' : V → W) k v (d : dict K V) :
  dget k d = Some v → NoDup (dl L d) →
  (∀ w, (∀ x, x ∈ L w → x ∉ L v) → (∀ x, x ∈ L w → x ∈ dl L d) → f' w = f w) →
  dmap f' d = dset k (f' v) (dmap f d).
Proof.
  induction d as [|[a b] d IH]; [done|]. rewrite dl_cons.
  intros Hg Hnd Hf. apply NoDup_app in Hnd as (_ & Hd & Hnd).
  unfold dmap in *. rewrite !fmap_cons. cbn [fst snd dset]. cbn [dget] in Hg.
  destruct (decide (k = a)) as [->|Hne].
  - injection Hg as ->. f_equal. apply (dmap_ext f' f). intros p Hp. apply Hf.
    + intros x Hx Hx'. apply (Hd x Hx'). apply dl_elem. by exists p.
    + intros x Hx. rewrite elem_of_app. right. apply dl_elem. by exists p.
  - f_equal.
    + f_equal. apply Hf; [|intros; apply elem_of_app; by left]. intros x Hx Hx'. apply (Hd x Hx).
      apply dl_elem. exists (k, v). split; [by apply dget_Some_elem|done].
    + apply IH; try done. intros w H1 H2. apply Hf; [done|].
      intros x Hx. apply elem_of_app. right. by apply H2.
Qed.
Lemma dmap_write_key {K V W} `{EqDecision K} (f f' : V → W) k v (d : dict K V) :
  NoDup (dkeys d) → dget k d = Some v → (∀ k' w, k' ≠ k → dget k' d = Some w → f' w = f w) →
  dmap f' d = dset k (f' v) (dmap f d).
Proof.
  intros Hn Hg Hf.
  assert (Hf' : ∀ k' w, k' ≠ k → (k', w) ∈ d → f' w = f w).
  { intros k' w Hk Hp. apply (Hf k'); [done|]. by apply elem_dget. }
  clear Hf. induction d as [|[a b] d IH]; [done|].
  apply NoDup_cons in Hn as [Ha Hn]. unfold dmap. rewrite !fmap_cons. cbn [fst snd dset].
  cbn [dget] in Hg. case_decide as Hk.
  - subst a. injection Hg as ->. f_equal. apply (dmap_ext f' f). intros [k' w] Hp. apply (Hf' k').
    + intros ->. apply Ha. apply elem_of_list_fmap. by exists (k, w).
    + by right.
  - f_equal.
    + f_equal. apply (Hf' a); [done|by left].
    + apply IH; [done|done|]. intros k' w Hk' Hp. apply (Hf' k'); [done|by right].
Qed.
Lemma add_layer_at_ok h G l layer h' e : HInv h G → l ∈ G →
  h_add_layer_at h l layer = (h', e) →
  HInv h' G ∧ (∀ l', l' ∈ G → l' ≠ l → see_at h' l' = see_at h l') ∧ hp_dicts h' = hp_dicts h ∧
  match dget "layers" (see_at h l) with
  | None => e = Some KeyError ∧ see_at h' l = see_at h l
  | Some (VSet L) => e = None ∧ see_at h' l = dset "layers" (VSet (set_add layer L)) (see_at h l)
  | Some VBadSet => e = None ∧ see_at h' l = see_at h l
  | Some _ => e = Some AttributeError ∧ see_at h' l = see_at h l
  end.
Proof.
  intros HI Hl. unfold h_add_layer_at. unfold see_at at 3. rewrite see_dget.
  destruct (dget "layers" (dict_at h l)) as [w|] eqn:Ew; cbn [fmap option_fmap option_map].
  2:{ by intros [= <- <-]. }
  destruct w as [| | | |s| |]; cbn [val]; try (by intros [= <- <-]).
  intros [= <- <-].
  set (S' := set_add layer (set_at h s)). set (h' := put_set h s S').
  assert (Hsv : s < length (hp_sets h)) by by eapply (i_refs _ _ HI).
  assert (Hset : ∀ x, x ≠ s → set_at h' x = set_at h x).
  { intros x Hx. unfold set_at, h', put_set. cbn. by rewrite list_lookup_insert_ne. }
  assert (Hset' : set_at h' s = S').
  { unfold set_at, h', put_set. cbn. by rewrite list_lookup_insert. }
  assert (Hval : ∀ v, v ≠ HSet s → val h' v = val h v).
  { intros v Hv. destruct v; cbn; try done. f_equal. apply Hset. congruence. }
  split_and!.
  - destruct HI as [A1 A2 A3 A4 A5]. split; [done|done|done| |done].
    intros x k y Hx Hd. specialize (A4 x k y Hx Hd). unfold h', put_set. cbn. by rewrite insert_length.
  - intros l' Hl' Hne. unfold see_at. change (dict_at h' l') with (dict_at h l').
    apply dmap_ext. intros [k v] Hp. cbn. apply Hval. intros ->.
    apply elem_dget in Hp; [|by apply (i_keys _ _ HI)].
    by destruct (i_sole _ _ HI l l' k s Hl Hl' Ew Hp).
  - done.
  - done.
  - unfold see_at. change (dict_at h' l) with (dict_at h l).
    unfold see. rewrite (dmap_write_key (val h) (val h') "layers" (HSet s)).
    + by rewrite <-Hset'.
    + by apply (i_keys _ _ HI).
    + done.
    + intros k' w Hk Hd. apply Hval. intros ->. by destruct (i_sole _ _ HI l l k' s Hl Hl Ew Hd).
Qed.

Lemma add_layer_node_ok h g F n layer h' g' e : HInv h (locs g ++ F) →
  h_add_layer_node h g n layer = (h', g', e) →
  HInv h' (locs g' ++ F) ∧ (graph_of h' g', e) = add_layer_node (graph_of h g) n layer ∧
  ∀ l, l ∈ F → see_at h' l = see_at h l.
Proof.
  intros HI. unfold h_add_layer_node, add_layer_node.
  change (g_node (graph_of h g)) with (dmap (see_at h) (h_node g)). rewrite dget_dmap.
  destruct (dget n (h_node g)) as [o|] eqn:Eo; cbn [fmap option_fmap option_map].
  2:{ by intros [= <- <- <-]. }
  assert (Ho : o ∈ locs g).
  { apply elem_of_app. left. apply dl_one_elem. exists n. by apply dget_Some_elem. }
  assert (HoG : o ∈ locs g ++ F) by (apply elem_of_app; by left).
  pose proof (i_nodup _ _ HI) as Hnd.
  assert (HoF : o ∉ F). { intros Hin. apply NoDup_app in Hnd as (_ & Hd & _). by apply (Hd o). }
  destruct (h_add_layer_at h o layer) as [h1 e1] eqn:E1.
  destruct (add_layer_at_ok _ _ _ _ _ _ HI HoG E1) as (P1 & P2 & _ & P3).
  intros [= <- <- <-].
  assert (PF : ∀ l, l ∈ F → see_at h1 l = see_at h l).
  { intros l Hl. apply P2; [apply elem_of_app; by right|]. by intros ->. }
  assert (Hw : graph_of h1 g = set_node (dset n (see_at h1 o) (g_node (graph_of h g))) (graph_of h g)).
  { apply graph_write_node; [by apply NoDup_app in Hnd as (? & _)|done|].
    intros l Hl Hne. apply P2; [apply elem_of_app; by left|done]. }
  assert (Hsame : see_at h1 o = see_at h o → graph_of h1 g = graph_of h g).
  { intros Hs. apply graph_of_see. intros l Hl. destruct (decide (l = o)) as [->|Hne]; [done|].
    apply P2; [apply elem_of_app; by left|done]. }
  split; [done|]. split; [|done].
  destruct (dget "layers" (see_at h o)) as [[]|]; destruct P3 as [-> P3]; try (by rewrite Hsame).
  rewrite Hw, P3. done.
Qed.

Lemma add_layer_keydict_ok G layer kd : ∀ h h' e, HInv h G → NoDup (dl one kd) → dl one kd ⊆ G →
  h_add_layer_keydict h layer kd = (h', e) →
  HInv h' G ∧ (dmap (see_at h') kd, e) = add_layer_keydict layer (dmap (see_at h) kd) ∧
  ∀ l, l ∈ G → l ∉ dl one kd → see_at h' l = see_at h l.
Proof.
  induction kd as [|[k o] kd IH]; intros h h' e HI Hnd Hsub; cbn [h_add_layer_keydict].
  { by intros [= <- <-]. }
  change (dl one ((k, o) :: kd)) with (o :: dl one kd) in *.
  apply NoDup_cons in Hnd as [Hno Hnd].
  assert (HoG : o ∈ G) by (apply Hsub; by left).
  assert (Hsub' : dl one kd ⊆ G) by (intros x Hx; apply Hsub; by right).
  destruct (h_add_layer_at h o layer) as [h1 e1] eqn:E1.
  destruct (add_layer_at_ok _ _ _ _ _ _ HI HoG E1) as (P1 & P2 & _ & P3).
  change (dmap (see_at h) ((k, o) :: kd)) with ((k, see_at h o) :: dmap (see_at h) kd).
  change (dmap (see_at h') ((k, o) :: kd)) with ((k, see_at h' o) :: dmap (see_at h') kd).
  assert (Hrest : dmap (see_at h1) kd = dmap (see_at h) kd).
  { apply dmap_ext. intros [k' x] Hp. cbn.
    assert (Hx : x ∈ dl one kd) by (apply dl_one_elem; by exists k').
    apply P2; [by apply Hsub'|]. intros ->. done. }
  cbn [add_layer_keydict].
  assert (Hgo : h_add_layer_keydict h1 layer kd = (h', e) →
    HInv h' G ∧ (dmap (see_at h') kd, e) = add_layer_keydict layer (dmap (see_at h) kd) ∧
    see_at h' o = see_at h1 o ∧ ∀ l, l ∈ G → l ∉ o :: dl one kd → see_at h' l = see_at h l).
  { intros E2. destruct (IH h1 h' e P1 Hnd Hsub' E2) as (Q1 & Q2 & Q3).
    rewrite Hrest in Q2. split_and!; [done|done|by apply Q3|].
    intros l Hl [Hl1 Hl2]%not_elem_of_cons. rewrite Q3 by done. by apply P2. }
  assert (Hstop : see_at h1 o = see_at h o → h' = h1 →
    HInv h' G ∧ (k, see_at h' o) :: dmap (see_at h') kd = (k, see_at h o) :: dmap (see_at h) kd ∧
    ∀ l, l ∈ G → l ∉ o :: dl one kd → see_at h' l = see_at h l).
  { intros Hs ->. rewrite Hrest, Hs. split_and!; [done|done|].
    intros l Hl [Hl1 Hl2]%not_elem_of_cons. by apply P2. }
  destruct (dget "layers" (see_at h o)) as [w|].
  2:{ destruct P3 as [-> P3]. intros [= <- <-]. destruct (Hstop P3 eq_refl) as (Q1 & Q2 & Q3). by rewrite Q2. }
  destruct w; destruct P3 as [-> P3];
    try (intros [= <- <-]; destruct (Hstop P3 eq_refl) as (Q1 & Q2 & Q3); by rewrite Q2).
  - intros E2. destruct (Hgo E2) as (Q1 & Q2 & Q3 & Q4). split; [done|]. split; [|done].
    rewrite <-Q2, Q3, P3. done.
  - intros E2. destruct (Hgo E2) as (Q1 & Q2 & Q3 & Q4). split; [done|]. split; [|done].
    rewrite <-Q2, Q3, P3. done.
Qed.

(** the parallel edges of one pair of nodes have changed *)
Lemma graph_write_edges h h' g u v nbrs kd : NoDup (locs g) →
  dget u (h_succ g) = Some nbrs → dget v nbrs = Some kd →
  (∀ l', l' ∈ locs g → l' ∉ dl one kd → see_at h' l' = see_at h l') →
  graph_of h' g =
    set_succ (dset u (dset v (dmap (see_at h') kd) (dmap (dmap (see_at h)) nbrs))
                (g_succ (graph_of h g))) (graph_of h g).
Proof.
  intros Hn Hu Hv Hs. unfold graph_of, set_succ. cbn.
  pose proof Hn as Hn'. unfold locs in Hn'. apply NoDup_app in Hn' as (_ & Hd & Hns).
  assert (Hsub1 : ∀ x, x ∈ dl one kd → x ∈ dl (dl one) nbrs).
  { intros x Hx. apply dl_elem. exists (v, kd). split; [by apply dget_Some_elem|done]. }
  assert (Hsub2 : ∀ x, x ∈ dl (dl one) nbrs → x ∈ succ_locs (h_succ g)).
  { intros x Hx. apply dl_elem. exists (u, nbrs). split; [by apply dget_Some_elem|done]. }
  assert (Hn2 : NoDup (dl (dl one) nbrs)).
  { destruct (dl_get (dl (dl one)) _ _ _ Hu) as (R & HR). unfold succ_locs in Hns. rewrite HR in Hns.
    by apply NoDup_app in Hns as (? & _). }
  f_equal.
  - apply dmap_ext. intros [a b] Hp. cbn. apply Hs.
    + apply elem_of_app. left. apply dl_one_elem. by exists a.
    + intros Hb. apply (Hd b); [apply dl_one_elem; by exists a|]. by apply Hsub2, Hsub1.
  - rewrite (dmap_write2 (dl (dl one)) (dmap (dmap (see_at h))) (dmap (dmap (see_at h'))) u nbrs _ Hu Hns).
    2:{ intros w Hw Hin. apply dmap_ext. intros p Hp. apply dmap_ext. intros q Hq.
        assert (Hq' : q.2 ∈ dl (dl one) w).
        { apply dl_elem. exists p. split; [done|]. apply dl_elem. exists q. split; [done|].
          by apply elem_of_list_singleton. }
        apply Hs; [apply elem_of_app; right; by apply Hin|]. intros E. apply (Hw _ Hq'). by apply Hsub1. }
    rewrite (dmap_write2 (dl one) (dmap (see_at h)) (dmap (see_at h')) v kd _ Hv Hn2).
    2:{ intros w Hw Hin. apply dmap_ext. intros p Hp.
        assert (Hq' : p.2 ∈ dl one w).
        { apply dl_elem. exists p. split; [done|]. by apply elem_of_list_singleton. }
        apply Hs; [apply elem_of_app; right; apply Hsub2; by apply Hin|]. by apply Hw. }
    done.
Qed.

Lemma add_layer_edge_ok h g F u v layer h' g' e : HInv h (locs g ++ F) →
  h_add_layer_edge h g u v layer = (h', g', e) →
  HInv h' (locs g' ++ F) ∧ (graph_of h' g', e) = add_layer_edge (graph_of h g) u v layer ∧
  ∀ l, l ∈ F → see_at h' l = see_at h l.
Proof.
  intros HI. unfold h_add_layer_edge, add_layer_edge.
  change (g_succ (graph_of h g)) with (dmap (dmap (dmap (see_at h))) (h_succ g)). rewrite dget_dmap.
  destruct (dget u (h_succ g)) as [nbrs|] eqn:Eu; cbn [fmap option_fmap option_map].
  2:{ by intros [= <- <- <-]. }
  rewrite dget_dmap. destruct (dget v nbrs) as [kd|] eqn:Ev; cbn [fmap option_fmap option_map].
  2:{ by intros [= <- <- <-]. }
  destruct (h_add_layer_keydict h layer kd) as [h1 e1] eqn:E1. intros [= <- <- <-].
  pose proof (i_nodup _ _ HI) as Hnd. pose proof Hnd as Hnd'. apply NoDup_app in Hnd' as (Hng & Hdis & _).
  assert (Hsub : dl one kd ⊆ locs g).
  { intros x Hx. apply elem_of_app. right. apply dl_elem. exists (u, nbrs).
    split; [by apply dget_Some_elem|]. apply dl_elem. exists (v, kd). split; [by apply dget_Some_elem|done]. }
  assert (Hn1 : NoDup (dl one kd)).
  { unfold locs in Hng. apply NoDup_app in Hng as (_ & _ & Hns). unfold succ_locs in Hns.
    destruct (dl_get (dl (dl one)) _ _ _ Eu) as (R & HR). rewrite HR in Hns.
    apply NoDup_app in Hns as (Hns & _). destruct (dl_get (dl one) _ _ _ Ev) as (R' & HR').
    rewrite HR' in Hns. by apply NoDup_app in Hns as (? & _). }
  destruct (add_layer_keydict_ok (locs g ++ F) layer kd h h1 e1 HI Hn1) as (P1 & P2 & P3).
  - intros x Hx. apply elem_of_app. left. by apply Hsub.
  - done.
  - split_and!; [done| |].
    + rewrite <-P2. f_equal. apply graph_write_edges; try done.
      intros l Hl. apply P3. apply elem_of_app. by left.
    + intros l Hl. apply P3; [apply elem_of_app; by right|]. intros Hin. by apply (Hdis l); [apply Hsub|].
Qed.
