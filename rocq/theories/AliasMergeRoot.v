(** * AliasMergeRoot: merge_graphs on the heap (proofs, second part) *)
From Verif Require Import PyBase DocGraph Relabel SpecGraph DocGraphFacts Effects MergeFacts Alias SpecAlias AliasFacts AliasOps AliasEdges AliasEdges2 AliasStep AliasFrame AliasMerge SpecAliasMerge AliasMergeFacts.

(** the edges phase writes to new dictionaries and those of the receiving graph only *)
Lemma edges_frame N (P : nat → Prop) h g og kw h0 h1 g1 e :
  N ≤ length (hp_dicts h) → gsafe N P g →
  (∀ l, l ∈ succ_locs (h_succ og) → l < N ∧ ¬ P l ∧ is_Some (dget "layers" (dict_at h l))) → new_dict h [] = (h0, kw) →
  h_add_edges_from h0 g ((λ x, HESpec x.1.1.1 x.1.1.2 None x.2) <$> h_edges og) None kw = (h1, g1, e) →
  keeps N P h h1 ∧ gsafe N P g1.
Proof.
  intros HN Hg HL E0 E1. unfold h_add_edges_from in E1. cbn [attr_object] in E1.
  assert (K0 : keeps N P h h0) by (injection E0 as <- _; by apply (keeps_new_dict N P h [])).
  set (es := (λ x, HESpec x.1.1.1 x.1.1.2 None x.2) <$> h_edges og) in *.
  assert (Hes : Forall (λ x, he_d x ∈ succ_locs (h_succ og)) es).
  { apply Forall_forall. intros x Hx. unfold es in Hx. apply elem_of_list_fmap in Hx as (y & -> & Hy).
    cbn. rewrite <-h_edges_locs. apply elem_of_list_fmap. by exists y. }
  clearbody es. clear E0.
  assert (HLoop : ∀ es h2 g2, Forall (λ x, he_d x ∈ succ_locs (h_succ og)) es →
    N ≤ length (hp_dicts h2) → gsafe N P g2 → keeps N P h h2 →
    fine N P h2 (h_for_each (λ h g x, h_add_edges_from1 h g kw x) es h2 g2)).
  { clear -HL. intros es. induction es as [|x es IH]; intros h2 g2 Hns HN2 Hg2 K2; cbn [h_for_each].
    { apply fine_intro; [apply keeps_refl|done]. }
    apply List.Forall_cons_iff in Hns as [Hx Hns]. destruct (HL _ Hx) as (H1 & H2 & H3).
    assert (H4 : is_Some (dget "layers" (dict_at h2 (he_d x)))).
    { rewrite (k_at _ _ _ _ K2); [done|]. intros [?|?]; [done|lia]. }
    pose proof (add_edges_from1_fine N P h2 g2 kw x HN2 Hg2 H4) as [K3 G3].
    destruct (h_add_edges_from1 h2 g2 kw x) as [[h3 g3] e3]. cbn [fst snd] in K3, G3.
    destruct e3 as [e3|]; [by apply fine_intro|]. eapply fine_trans; [exact K3|].
    apply IH; [done|by eapply keeps_N|done|by eapply keeps_trans]. }
  destruct (HLoop es h0 g Hes (keeps_N _ _ _ _ K0 HN) Hg K0) as [K1 G1]. rewrite E1 in K1, G1. cbn [fst snd] in K1, G1.
  split; [by eapply keeps_trans|done].
Qed.

(** ** The name space and the root of the receiving graph stay *)
Definition hd (g g' : hgraph) : Prop := h_ns g' = h_ns g ∧ h_root g' = h_root g.
Lemma hd_ensure h g n h' g' e : h_ensure_node h g n = (h', g', e) → hd g g'.
Proof.
  unfold h_ensure_node. destruct (dmem n (h_node g)); [by intros [= <- <- <-]|]. cbn [new_set new_dict].
  unfold h_add_node. destruct (h_check_layers _ _ _) as [h1 [l|x]]; [|by intros [= <- <- <-]].
  cbn [attr_object]. destruct (dmem n (h_succ g)); [|by intros [= <- <- <-]].
  destruct (dget n (h_node g)); [|by intros [= <- <- <-]].
  destruct (dget "layers" _); [|by intros [= <- <- <-]].
  destruct (h_union _ _ _) as [h2 [v|x]]; by intros [= <- <- <-].
Qed.
Lemma hd_insert h g u v l key a h' g' e : h_insert_edge h g u v l key a = (h', g', e) → hd g g'.
Proof.
  unfold h_insert_edge. destruct (dget u (h_succ g)) as [nb|]; [|by intros [= <- <- <-]].
  destruct (dget v nb) as [kd|].
  - destruct (match key with Some k => Some k | None => fresh_key kd end) as [k|]; [|by intros [= <- <- <-]].
    destruct (match dget k kd with Some o => (h, o) | None => new_dict h [] end) as [h1 o].
    destruct (match dget "layers" (dict_at h1 o) with Some v => (h1, v) | None => _ end) as [h2 ex].
    destruct (h_union h2 ex l) as [h3 [al|x]]; by intros [= <- <- <-].
  - cbn [new_dict]. destruct (dget v (h_pred g)); by intros [= <- <- <-].
Qed.
Lemma hd_trans g1 g2 g3 : hd g1 g2 → hd g2 g3 → hd g1 g3.
Proof. intros [A B] [C D]. split; congruence. Qed.
Lemma hd_for_each {A} (f : heap → hgraph → A → houtcome) : (∀ h g x h' g' e, f h g x = (h', g', e) → hd g g') →
  ∀ l h g h' g' e, h_for_each f l h g = (h', g', e) → hd g g'.
Proof.
  intros Hf l. induction l as [|x l IH]; intros h g h' g' e; cbn [h_for_each]; [by intros [= <- <- <-]|].
  destruct (f h g x) as [[h1 g1] [e1|]] eqn:E; [intros [= <- <- <-]; by eapply Hf|].
  intros E2. eapply hd_trans; [by eapply Hf|by eapply IH].
Qed.

(** ** One edge of the other root *)
Lemma set_at_prefix h h' s : hp_sets h `prefix_of` hp_sets h' → s < length (hp_sets h) → set_at h' s = set_at h s.
Proof. intros [k A] Hs. unfold set_at. by rewrite A, lookup_app_l. Qed.
Lemma root_edge_frame N (P : nat → Prop) h g x h' g' e : N ≤ length (hp_dicts h) → gsafe N P g → x.2 < N → ¬ P x.2 →
  h_merge_root_edge h g x = (h', g', e) →
  keeps N (λ l, P l ∨ l = x.2) h h' ∧ gsafe N P g' ∧ hd g g' ∧
  ∃ s, dict_at h' x.2 = dset "layers" (HSet s) (dict_at h x.2) ∧ s < length (hp_sets h') ∧ set_at h' s = [h_ns g].
Proof.
  intros HN Hg HxN HxP. unfold h_merge_root_edge. cbn [new_dict].
  set (h0 := mkHeap (hp_sets h) (hp_dicts h ++ [[]])). set (kw := length (hp_dicts h)).
  assert (K0 : keeps N P h h0) by by apply (keeps_new_dict N P h []).
  assert (Hkw : dict_at h0 kw = []) by apply (dict_at_new h []).
  assert (Hx0 : dict_at h0 x.2 = dict_at h x.2) by (apply (dict_at_new_old h []); lia).
  assert (Hl0 : length (hp_dicts h0) = S kw) by (unfold h0; cbn; rewrite app_length; cbn; unfold kw; lia).
  clearbody h0. unfold h_add_edge, h_check_layers. cbn [val truthy new_set].
  set (s := length (hp_sets h0)). set (h1 := mkHeap (hp_sets h0 ++ [[h_ns g]]) (hp_dicts h0)).
  assert (K1 : keeps N P h0 h1) by apply (keeps_new_set N P h0 [h_ns g]).
  assert (Hs1 : set_at h1 s = [h_ns g]) by apply (set_at_new h0 [h_ns g]).
  assert (Hd1 : ∀ l, dict_at h1 l = dict_at h0 l) by done.
  assert (Hls1 : s < length (hp_sets h1)) by (unfold h1, s; cbn; rewrite app_length; cbn; lia).
  assert (Hld1 : length (hp_dicts h1) = S kw) by done.
  clearbody h1.
  rewrite (Hd1 kw), Hkw. cbn [dset]. set (h2 := put_dict h1 kw [("layers", HSet s)]).
  assert (Hkw2 : dict_at h2 kw = [("layers", HSet s)]) by (apply dict_at_put; lia).
  assert (Hne : x.2 ≠ kw) by (unfold kw; lia).
  assert (Hx2 : dict_at h2 x.2 = dict_at h x.2) by (unfold h2; rewrite dict_at_put_ne by done; by rewrite Hd1).
  assert (K2 : keeps N P h1 h2) by (apply keeps_put; right; unfold kw; lia).
  assert (Hls2 : hp_sets h2 = hp_sets h1) by done.
  assert (Hld2 : length (hp_dicts h2) = S kw) by (unfold h2; by rewrite put_dict_len).
  clearbody h2. cbn [attr_object]. rewrite Hkw2, Hx2.
  change (dupdate (dict_at h x.2) [("layers", HSet s)]) with (dset "layers" (HSet s) (dict_at h x.2)).
  set (D := dset "layers" (HSet s) (dict_at h x.2)). set (h3 := put_dict h2 x.2 D).
  assert (Hx3 : dict_at h3 x.2 = D) by (apply dict_at_put; unfold kw in Hld2; lia).
  assert (K3 : keeps N (λ l, P l ∨ l = x.2) h2 h3) by (apply keeps_put; left; by right).
  assert (Hls3 : hp_sets h3 = hp_sets h1) by done.
  assert (HN3 : N ≤ length (hp_dicts h3)) by (unfold h3; rewrite put_dict_len; unfold kw in Hld2; lia).
  clearbody h3.
  assert (Hmono : ∀ l, P l → P l ∨ l = x.2) by tauto.
  assert (K03 : keeps N (λ l, P l ∨ l = x.2) h h3).
  { eapply keeps_trans; [|exact K3]. eapply keeps_mono; [exact Hmono|]. eapply keeps_trans; [exact K0|]. by eapply keeps_trans. }
  assert (Hfin : ∀ h4, keeps N P h3 h4 → keeps N (λ l, P l ∨ l = x.2) h h4 ∧
    ∃ s, dict_at h4 x.2 = dset "layers" (HSet s) (dict_at h x.2) ∧ s < length (hp_sets h4) ∧ set_at h4 s = [h_ns g]).
  { intros h4 K4. split; [eapply keeps_trans; [exact K03|by eapply keeps_mono]|]. exists s. split_and!.
    - rewrite (k_at _ _ _ _ K4), Hx3; [done|]. intros [?|?]; [done|lia].
    - pose proof (prefix_length _ _ (k_sets _ _ _ _ K4)). rewrite Hls3 in *. lia.
    - rewrite (set_at_prefix h3); [|apply K4|by rewrite Hls3]. unfold set_at. rewrite Hls3. exact Hs1. }
  destruct (h_for_each h_ensure_node [h_root g; x.1.1.2] h3 g) as [[h4 g4] e4] eqn:E4.
  destruct (for_each_fine N P h_ensure_node (λ _, True) [h_root g; x.1.1.2] (λ h g n HN Hg _, ensure_fine N P h g n HN Hg) h3 g HN3 Hg) as [K4 G4].
  { by repeat constructor. }
  rewrite E4 in K4, G4. cbn [fst snd] in K4, G4.
  assert (Hd4 : hd g g4) by (eapply (hd_for_each h_ensure_node); [apply hd_ensure|exact E4]).
  destruct e4 as [e4|].
  { intros [= <- <- <-]. destruct (Hfin h4 K4) as [A B]. done. }
  intros E5. pose proof (insert_edge_fine N P h4 g4 (h_root g) x.1.1.2 s None x.2 (keeps_N _ _ _ _ K4 HN3) G4) as [K5 G5].
  rewrite E5 in K5, G5. cbn [fst snd] in K5, G5.
  destruct (Hfin h') as [A B]; [by eapply keeps_trans|]. split_and!; [done|done| |done].
  eapply hd_trans; [exact Hd4|]. by eapply hd_insert.
Qed.

(** ** The loop over them *)
Definition relaid (h : heap) (ns : string) (h' : heap) (l : nat) : Prop :=
  ∃ s, dict_at h' l = dset "layers" (HSet s) (dict_at h l) ∧ s < length (hp_sets h') ∧ set_at h' s = [ns].
Lemma root_loop_frame N (P : nat → Prop) xs : ∀ h g h' g' e, N ≤ length (hp_dicts h) → gsafe N P g →
  NoDup xs.*2 → (∀ l, l ∈ xs.*2 → l < N ∧ ¬ P l) → h_for_each h_merge_root_edge xs h g = (h', g', e) →
  keeps N (λ l, P l ∨ l ∈ xs.*2) h h' ∧ gsafe N P g' ∧ hd g g' ∧ (e = None → ∀ l, l ∈ xs.*2 → relaid h (h_ns g) h' l).
Proof.
  induction xs as [|x xs IH]; intros h g h' g' e HN Hg Hnd Hxs; cbn [h_for_each].
  { intros [= <- <- <-]. split_and!; [apply keeps_refl|done|done|]. intros _ l Hl. by apply elem_of_nil in Hl. }
  rewrite fmap_cons in Hnd, Hxs. apply NoDup_cons in Hnd as [Hx Hnd].
  destruct (Hxs x.2) as [HxN HxP]; [by left|].
  destruct (h_merge_root_edge h g x) as [[h1 g1] e1] eqn:E1.
  destruct (root_edge_frame N P h g x h1 g1 e1 HN Hg HxN HxP E1) as (K1 & G1 & D1 & s & S1 & S2 & S3).
  destruct e1 as [e1|].
  { intros [= <- <- <-]. split_and!; [|done|done|done].
    eapply keeps_mono; [|exact K1]. intros l [?| ->]; [by left|right; left]. }
  intros E2. destruct (IH h1 g1 h' g' e (keeps_N _ _ _ _ K1 HN) G1 Hnd) as (K2 & G2 & D2 & R2); [|exact E2|].
  { intros l Hl. apply Hxs. by right. }
  split_and!.
  - eapply keeps_trans; (eapply keeps_mono; [|eassumption]).
    + intros l [?| ->]; [by left|right; left].
    + intros l [?|?]; [by left|right; by right].
  - done.
  - by eapply hd_trans.
  - intros He l Hl. apply elem_of_cons in Hl as [-> |Hl].
    + exists s. split_and!.
      * rewrite (k_at _ _ _ _ K2); [done|]. intros [[?|?]|?]; [done|done|lia].
      * pose proof (prefix_length _ _ (k_sets _ _ _ _ K2)). lia.
      * by rewrite (set_at_prefix h1); [| apply K2|].
    + destruct (R2 He l Hl) as (s' & T1 & T2 & T3). exists s'. split_and!; [|done|by rewrite T3; destruct D1 as [-> _]].
      rewrite T1. f_equal. apply (k_at _ _ _ _ K1). destruct (Hxs l) as [HlN HlP]; [by right|].
      intros [[?| ->]|?]; [done|done|lia].
Qed.
Lemma root_loop_ok F xs h g h' g' e : HInv h (xs.*2 ++ locs g ++ F) → h_for_each h_merge_root_edge xs h g = (h', g', e) →
  post h F h' g' e (for_each (λ g e, add_edge g (g_root g) e.1.1.2 VNone None (Some e.2) [])
    ((λ x, (x.1, see_at h x.2)) <$> xs) (graph_of h g)).
Proof.
  intros HI E.
  assert (Hb : ∀ l : list (nid * nid * nid * nat), (l ≫= λ x, [x.2]) = l.*2).
  { intros l. induction l as [|y l IH]; [done|]. rewrite fmap_cons. change ([y.2] ++ (l ≫= λ x, [x.2]) = y.2 :: l.*2). by rewrite IH. }
  eapply (h_for_each_ok h_merge_root_edge (λ g e, add_edge g (g_root g) e.1.1.2 VNone None (Some e.2) [])
    (λ x, [x.2]) (λ h x, (x.1, see_at h x.2)) (λ _ _, True) [] (λ _, True)); [done| |done| | | | | | |exact E].
  - intros h1 h2 G x HI1 Hx Hs. f_equal. eapply see_at_ext; [exact HI1|exact Hx|]. apply Hs. by left.
  - intros h1 g1 F1 x h2 g2 e2 HI1 _ _ _ E1. cbn [fst snd]. exact (root_edge_ok h1 g1 F1 x h2 g2 e2 HI1 E1).
  - rewrite Hb. exact HI.
  - intros x Hx. by apply elem_of_nil in Hx.
  - by apply NoDup_nil.
  - done.
  - by apply Forall_forall.
Qed.

(** ** The name space in the other phases *)
Lemma hd_add_edge h g u v lay key ad a h' g' e : h_add_edge h g u v lay key ad a = (h', g', e) → hd g g'.
Proof.
  unfold h_add_edge. destruct (h_check_layers h (h_ns g) lay) as [h1 [l|x]]; [|by intros [= <- <- <-]].
  destruct (attr_object _ ad a) as [h2 o].
  destruct (h_for_each h_ensure_node [u; v] h2 g) as [[h3 g3] e3] eqn:E3.
  assert (Hd : hd g g3) by (eapply (hd_for_each h_ensure_node); [apply hd_ensure|exact E3]).
  destruct e3; [by intros [= <- <- <-]|]. intros E. eapply hd_trans; [exact Hd|]. by eapply hd_insert.
Qed.
Lemma hd_add_nodes_from1 h g a s h' g' e : h_add_nodes_from1 h g a s = (h', g', e) → hd g g'.
Proof.
  unfold h_add_nodes_from1. destruct s as [n|n d].
  - destruct (dmem n (h_succ g)); [destruct (dget n (h_node g)); by intros [= <- <- <-]|]. cbn [new_set new_dict]. by intros [= <- <- <-].
  - cbv zeta. set (h0 := if dmem "layers" (dict_at h d) then h else _). clearbody h0.
    destruct (dget "layers" (dict_at h0 d)) as [v|]; [|by intros [= <- <- <-]].
    destruct v as [| | | |l| |]; try by intros [= <- <- <-].
    destruct (dmem n (h_succ g)); [|cbn [new_dict]; by intros [= <- <- <-]].
    destruct (dget n (h_node g)) as [o|]; [|by intros [= <- <- <-]].
    destruct (dget "layers" (dict_at h0 o)) as [ex|]; [|by intros [= <- <- <-]].
    destruct (h_union h0 ex l) as [h2 [v|x]]; by intros [= <- <- <-].
Qed.
Lemma hd_add_edges_from1 h g ad x h' g' e : h_add_edges_from1 h g ad x = (h', g', e) → hd g g'.
Proof.
  unfold h_add_edges_from1. cbv zeta. set (h0 := if dmem "layers" (dict_at h (he_d x)) then h else _). clearbody h0.
  destruct (dget "layers" (dict_at h0 (he_d x))) as [v|]; [|by intros [= <- <- <-]].
  destruct v as [| | | |l| |]; try by intros [= <- <- <-].
  destruct (h_additional_layers h0 ad) as [al|y]; [|by intros [= <- <- <-]].
  cbn [new_set]. set (h1 := mkHeap _ _). clearbody h1.
  destruct (match he_key x with Some k => Some k | None => _ end) as [k|]; [|by intros [= <- <- <-]].
  destruct (match dget k _ with Some o => (h1, o) | None => new_dict h1 [] end) as [h2 o].
  destruct (match dget "layers" (dict_at h2 o) with Some v => (h2, v) | None => _ end) as [h3 ex].
  cbn [new_dict]. destruct (h_union _ ex _) as [h4 [v|y]]; [|by intros [= <- <- <-]].
  apply hd_add_edge.
Qed.

(** ** The whole of it *)
Lemma laid_GInv h g : GInv (graph_of h g) → laid h g.
Proof.
  intros [C [L1 L2]].
  assert (Hv : ∀ l, layered (see_at h l) → ∃ s, dget "layers" (dict_at h l) = Some (HSet s)).
  { intros l [s Hs]. unfold see_at in Hs. rewrite see_dget in Hs.
    destruct (dget "layers" (dict_at h l)) as [v|]; [|done]. destruct v; try done. by eexists. }
  intros l [Hl|Hl]%elem_of_app; apply Hv.
  - apply dl_one_elem in Hl as [n Hn]. apply (L1 n). unfold node_attrs. apply elem_dget.
    + apply C.
    + change (g_node (graph_of h g)) with (dmap (see_at h) (h_node g)). unfold dmap. apply elem_of_list_fmap. exists (n, l). done.
  - rewrite <-h_edges_locs in Hl. apply elem_of_list_fmap in Hl as ([[[u v] k] l'] & -> & Hx). cbn [snd].
    apply (L2 u v k). apply elem_edges; [done|]. rewrite h_edges_value. apply elem_of_list_fmap. exists (u, v, k, l'). done.
Qed.
Lemma root_locs g n : (h_out_edges g n).*2 ⊆+ succ_locs (h_succ g).
Proof.
  unfold h_out_edges. destruct (dget n (h_succ g)) as [nb|] eqn:E; cbn [default]; [|apply submseteq_nil_l].
  rewrite (bind_locs (dl one)) by (intros p; apply bind_locs; intros r; done).
  apply dget_split in E as (l1 & l2 & -> & _). unfold succ_locs. generalize (@dl nid nat one). intros L.
  assert (H : ∀ (A B : list (nid * dict nid (dict nid nat))), dl (dl L) (A ++ B) = dl (dl L) A ++ dl (dl L) B).
  { intros A B. unfold dl at 1 3 5. apply bind_app. }
  rewrite H. apply submseteq_inserts_l. change (dl L nb ⊆+ dl L nb ++ dl (dl L) l2). by apply submseteq_inserts_r.
Qed.
Lemma relaid_see h ns h' l : hp_sets h `prefix_of` hp_sets h' → (∀ k s, dget k (dict_at h l) = Some (HSet s) → s < length (hp_sets h)) →
  NoDup (dkeys (dict_at h l)) → relaid h ns h' l → see_at h' l = dset "layers" (VSet [ns]) (see_at h l).
Proof.
  intros Hp Hr Hnd (s & H1 & H2 & H3). unfold see_at. rewrite H1, see_dset. cbn [val]. rewrite H3. f_equal.
  apply dmap_ext. intros [k v] Hkv. cbn [snd]. destruct v as [| | | |s'| |]; try done. cbn [val]. f_equal.
  apply set_at_prefix; [done|]. apply (Hr k). by apply elem_dget.
Qed.
Lemma dmap_dmap {K V W X} (f : V → W) (f' : W → X) (d : dict K V) : dmap f' (dmap f d) = dmap (λ x, f' (f x)) d.
Proof. induction d as [|[k v] d IH]; [done|]. rewrite !dmap_cons. by rewrite IH. Qed.
Lemma relaid_value h h' ns og : HInv h (locs og) → NoDup (dkeys (h_succ og)) → hp_sets h `prefix_of` hp_sets h' →
  (∀ l, l ∈ (h_out_edges og (h_root og)).*2 → relaid h ns h' l) →
  (∀ l, l ∈ locs og → l ∉ (h_out_edges og (h_root og)).*2 → see_at h' l = see_at h l) →
  graph_of h' og = relaid_root ns (graph_of h og).
Proof.
  intros HI Hks Hp Hre Hke. pose proof (i_nodup _ _ HI) as Hnd.
  assert (Hnode : dmap (see_at h') (h_node og) = dmap (see_at h) (h_node og)).
  { apply dmap_ext. intros [k l] Hkl. cbn [snd].
    assert (Hl : l ∈ dl one (h_node og)) by (apply dl_one_elem; by exists k).
    apply Hke; [apply elem_of_app; by left|]. intros Hx. unfold locs in Hnd. apply NoDup_app in Hnd as (_ & Hd & _).
    apply (Hd l Hl). eapply elem_of_submseteq; [exact Hx|apply root_locs]. }
  unfold relaid_root, graph_of, set_succ. cbn [g_name g_ns g_root g_node g_succ g_pred g_tokens g_sentences g_meta].
  rewrite Hnode. f_equal.
  set (f := λ p : nid * dict nid (dict nid attrs), (p.1, if decide (p.1 = h_root og) then dmap (dmap (dset "layers" (VSet [ns]))) p.2 else p.2)).
  transitivity ((λ p : nid * dict nid (dict nid nat), f (p.1, dmap (dmap (see_at h)) p.2)) <$> h_succ og).
  2:{ unfold dmap at 3. rewrite <-list_fmap_compose. done. }
  unfold dmap at 3. apply list_fmap_ext. intros i [u nb] Hi.
  apply elem_of_list_lookup_2 in Hi. unfold f. cbn [fst snd]. f_equal.
  assert (Hin : ∀ v kd k l, (v, kd) ∈ nb → (k, l) ∈ kd → l ∈ succ_locs (h_succ og)).
  { intros v kd k l Hv Hk. apply dl_elem. exists (u, nb). split; [done|]. apply dl_elem. exists (v, kd). split; [done|]. apply dl_one_elem. by exists k. }
  destruct (decide (u = h_root og)) as [->|Hne].
  - rewrite dmap_dmap. apply dmap_ext. intros [v kd] Hj. cbn [snd]. rewrite dmap_dmap. apply dmap_ext. intros [k l] Hj'. cbn [snd].
    assert (Hl : l ∈ locs og) by (apply elem_of_app; right; by eapply Hin).
    apply relaid_see; [done|intros k' s'; by apply (i_refs _ _ HI)|by apply (i_keys _ _ HI)|].
    apply Hre. apply elem_of_list_fmap. exists (h_root og, v, k, l). split; [done|].
    unfold h_out_edges. rewrite (elem_dget _ _ _ Hks Hi). cbn [default]. apply elem_of_list_bind. exists (v, kd). split; [|done].
    apply elem_of_list_bind. exists (k, l). split; [|done]. by left.
  - apply dmap_ext. intros [v kd] Hv. apply dmap_ext. intros [k l] Hk. cbn [snd] in *. apply Hke.
    + apply elem_of_app. right. by eapply Hin.
    + intros Hx. apply elem_of_list_fmap in Hx as (x & -> & Hx). apply h_out_edges_in in Hx as [Hx1 Hx2].
      assert (Hy : (u, v, k, x.2) ∈ h_edges og).
      { unfold h_edges. apply elem_of_list_bind. exists (u, nb). split; [|done]. apply elem_of_list_bind. exists (v, kd). split; [|done].
        apply elem_of_list_bind. exists (k, x.2). split; [by left|done]. }
      assert (Hndx : NoDup (h_edges og).*2).
      { rewrite h_edges_locs. unfold locs in Hnd. by apply NoDup_app in Hnd as (_ & _ & ?). }
      apply elem_of_list_lookup in Hx1 as [i1 Hx1]. apply elem_of_list_lookup in Hy as [i2 Hy].
      assert (Hii : i1 = i2).
      { eapply NoDup_lookup; [exact Hndx| |]; rewrite list_lookup_fmap; [by rewrite Hx1|by rewrite Hy]. }
      subst i2. rewrite Hx1 in Hy. injection Hy as Hxe. apply Hne. rewrite <-Hx2, Hxe. done.
Qed.
Lemma merge_heap h g og F h' g' e : HInv h (locs g ++ locs og ++ F) → GInv (graph_of h og) →
  plain_tokens (graph_of h og) →
  h_merge_renamed h g og = (h', g', e) →
  (graph_of h' g', e) = merge_renamed (graph_of h g) (graph_of h og) ∧ HInv h' (locs g' ++ F) ∧ ext h h' F ∧
  g_node (graph_of h' og) = g_node (graph_of h og) ∧
  (e = None → graph_of h' og = relaid_root (h_ns g) (graph_of h og)).
Proof.
  intros HI HG Htok E. pose proof (laid_GInv h og HG) as HL.
  set (N := length (hp_dicts h)). set (P := λ l, l ∈ locs g).
  pose proof (i_nodup _ _ HI) as Hnd. apply NoDup_app in Hnd as (Hndg & Hd1 & Hnd). apply NoDup_app in Hnd as (Hndo & Hd2 & HndF).
  assert (Hog : ∀ l, l ∈ locs og → l < N ∧ ¬ P l).
  { intros l Hl. split; [apply (i_valid _ _ HI); rewrite !elem_of_app; tauto|]. intros Hg. apply (Hd1 l Hg). apply elem_of_app. by left. }
  assert (HFo : ∀ l, l ∈ F → l < N ∧ ¬ P l).
  { intros l Hl. split; [apply (i_valid _ _ HI); rewrite !elem_of_app; tauto|]. intros Hg. apply (Hd1 l Hg). apply elem_of_app. by right. }
  assert (HIo : HInv h (locs og)).
  { eapply HInv_subm; [exact HI|]. apply submseteq_inserts_l. by apply submseteq_inserts_r. }
  assert (HKo : ∀ h1, keeps N P h h1 → graph_of h1 og = graph_of h og).
  { intros h1 K. eapply graph_of_ext; [exact HIo|by eapply keeps_ext|done]. }
  assert (HKF : ∀ h1, keeps N P h h1 → ext h h1 F) by (intros h1 K; by eapply keeps_ext).
  assert (Hout : ∀ h1, keeps N P h h1 → ∀ l, l ∈ locs og → dict_at h1 l = dict_at h l).
  { intros h1 K l Hl. apply (k_at _ _ _ _ K). destruct (Hog l Hl). intros [?|?]; [done|lia]. }
  unfold h_merge_renamed in E. unfold merge_renamed.
  destruct (new_dict h []) as [ha kwa] eqn:Ea.
  destruct (h_add_nodes_from ha g (nodes_data og) kwa) as [[h1 g1] e1] eqn:E1.
  destruct (nodes_phase h g og F kwa ha h1 g1 e1 HI HL Ea E1) as (I1 & V1 & K1 & G1). fold N in K1, G1. fold P in K1, G1.
  rewrite <-V1.
  destruct e1 as [e1|].
  { injection E as <- <- <-. split_and!; [done|eapply HInv_subm; [exact I1|]; apply submseteq_skips_l; by apply submseteq_inserts_l|by apply HKF|by rewrite HKo|done]. }
  destruct (h_for_each (h_merge_token_attr og) (h_node og) h1 g1) as [[h2 g2] e2] eqn:E2.
  assert (Hdis : ∀ x, x ∈ locs og → x ∉ locs g1).
  { intros x Hx Hx1. destruct (Hog x Hx). destruct (G1 x Hx1); [done|lia]. }
  destruct (token_loop og (succ_locs (h_succ og) ++ F) (h_node og) h1 g1 h2 g2 e2 (g_node (graph_of h og)) I1 Hdis) as (-> & S2 & L2 & A2 & I2 & V2).
  { intros n lo s Hn. rewrite (Hout h1 K1).
    - intros Hs. apply (Htok n (see_at h lo) (set_at h s)).
      + change (node_attrs (graph_of h og) n) with (dget n (dmap (see_at h) (h_node og))). by rewrite dget_dmap, Hn.
      + change (g_ns (graph_of h og)) with (h_ns og). unfold see_at. by rewrite see_dget, Hs.
    - apply elem_of_app. left. apply dl_one_elem. exists n. by apply dget_Some_elem. }
  { exact (dkeys_dmap (see_at h) (h_node og)). }
  { exact E2. }
  rewrite (HKo h1 K1) in V2. rewrite <-V2.
  assert (K2 : keeps N P h h2).
  { eapply keeps_trans; [exact K1|]. split; [by rewrite S2|lia|]. intros l Hl. apply A2. intros Hl1. apply Hl. exact (G1 l Hl1). }
  destruct e2 as [e2|].
  { injection E as <- <- <-. split_and!; [done|eapply HInv_subm; [exact I2|]; apply submseteq_skips_l; by apply submseteq_inserts_l|by apply HKF|by rewrite HKo|done]. }
  destruct (new_dict h2 []) as [hb kwb] eqn:Eb.
  destruct (h_add_edges_from hb g1 _ None kwb) as [[h3 g3] e3] eqn:E3.
  assert (HN2 : N ≤ length (hp_dicts h2)) by exact (k_len _ _ _ _ K2).
  assert (HL2 : ∀ l, l ∈ succ_locs (h_succ og) → ∃ s, dget "layers" (dict_at h2 l) = Some (HSet s)).
  { intros l Hl. assert (Hl' : l ∈ locs og) by (apply elem_of_app; by right). rewrite (Hout h2 K2 l Hl'). exact (HL l Hl'). }
  destruct (edges_phase h2 g1 og F kwb hb h3 g3 e3 I2 HL2 Eb E3) as (I3 & V3).
  destruct (edges_frame N P h2 g1 og kwb hb h3 g3 e3 HN2 G1) as (K3' & G3); [|exact Eb|exact E3|].
  { intros l Hl. destruct (Hog l) as [? ?]; [apply elem_of_app; by right|]. split_and!; [done|done|]. destruct (HL2 l Hl) as [s ->]. by eexists. }
  assert (K3 : keeps N P h h3) by by eapply keeps_trans.
  rewrite (HKo h2 K2) in V3. rewrite <-V3. clear V1 V2 V3.
  destruct e3 as [e3|].
  { injection E as <- <- <-. split_and!; [done|eapply HInv_subm; [exact I3|]; apply submseteq_skips_l; by apply submseteq_inserts_l|by apply HKF|by rewrite HKo|done]. }
  pose proof (merge_lists_value h3 g3 og) as Hm. cbv zeta in Hm. rewrite (HKo h3 K3) in Hm. cbv zeta. rewrite <-Hm. clear Hm.
  destruct (merge_lists_locs g3 og) as (M1 & M2 & M3 & M4).
  set (g6 := h_merge_lists g3 og) in *. clearbody g6.
  assert (Hl6 : locs g6 = locs g3) by (unfold locs; by rewrite M1, M2).
  assert (Hns6 : h_ns g6 = h_ns g).
  { rewrite M3. transitivity (h_ns g1).
    - eapply (hd_for_each (λ h g x, h_add_edges_from1 h g kwb x)); [intros *; apply hd_add_edges_from1|exact E3].
    - eapply (hd_for_each (λ h g s, h_add_nodes_from1 h g kwa s)); [intros *; apply hd_add_nodes_from1|exact E1]. }
  rewrite <-Hl6 in I3. assert (G6 : gsafe N P g6) by (intros l; rewrite Hl6; apply G3).
  clear M1 M2 M3 M4 Hl6 G3 E1 E2 E3 Ea Eb.
  assert (Hdone : ∀ g7 (e : exc), locs g7 = locs g6 →
     HInv h3 (locs g7 ++ F) ∧ ext h h3 F ∧ g_node (graph_of h3 og) = g_node (graph_of h og) ∧ (Some e = None → graph_of h3 og = relaid_root (h_ns g) (graph_of h og))).
  { intros g7 e' Hl7. rewrite Hl7. split_and!; [eapply HInv_subm; [exact I3|]; apply submseteq_skips_l; by apply submseteq_inserts_l|by apply HKF|by rewrite HKo|done]. }
  unfold h_merge_rootnodes in E. unfold merge_rootnodes.
  change (node_attrs (graph_of h og) (g_root (graph_of h og))) with (dget (h_root og) (dmap (see_at h) (h_node og))).
  change (node_attrs (graph_of h3 g6) (g_root (graph_of h3 g6))) with (dget (h_root g6) (dmap (see_at h3) (h_node g6))).
  rewrite !dget_dmap.
  destruct (dget (h_root og) (h_node og)) as [lo|]; cbn [fmap option_fmap option_map].
  2:{ injection E as <- <- <-. split; [done|]. by apply Hdone. }
  destruct (dget (h_root g6) (h_node g6)) as [lg|]; cbn [fmap option_fmap option_map].
  2:{ injection E as <- <- <-. split; [done|]. by apply Hdone. }
  set (g7 := mkH _ _ _ _ _ _ _ _ _) in E. cbv zeta.
  change (set_meta (dupdate (g_meta (graph_of h3 g6)) (g_meta (graph_of h og))) (graph_of h3 g6)) with (graph_of h3 g7).
  rewrite (HKo h3 K3) in E. change (g_root (graph_of h og)) with (h_root og).
  destruct (in_edges (graph_of h og) (h_root og)) as [|ie ies].
  2:{ injection E as <- <- <-. split; [done|]. by apply Hdone. }
  assert (I7 : HInv h3 (locs g7 ++ succ_locs (h_succ og) ++ F)) by exact I3.
  assert (G7 : gsafe N P g7) by exact G6. assert (Hns7 : h_ns g7 = h_ns g) by exact Hns6.
  clearbody g7. clear I3 G6 Hns6 Hdone g6.
  set (xs := h_out_edges og (h_root og)) in *.
  assert (Hsub : xs.*2 ⊆+ succ_locs (h_succ og)) by apply root_locs.
  assert (Hxs : ∀ l, l ∈ xs.*2 → l ∈ locs og).
  { intros l Hl. apply elem_of_app. right. by eapply elem_of_submseteq. }
  assert (Hndx : NoDup xs.*2).
  { pose proof Hndo as Hnd. unfold locs in Hnd. apply NoDup_app in Hnd as (_ & _ & Hnd).
    destruct (submseteq_Permutation _ _ Hsub) as [k Hk]. rewrite Hk in Hnd. by apply NoDup_app in Hnd as (? & _). }
  assert (Ix : HInv h3 (xs.*2 ++ locs g7 ++ F)).
  { eapply HInv_subm; [exact I7|]. rewrite (Permutation_app_comm xs.*2), <-app_assoc. apply submseteq_skips_l.
    rewrite (Permutation_app_comm F). by apply submseteq_skips_r. }
  destruct (h_for_each h_merge_root_edge xs h3 g7) as [[h8 g8] e8] eqn:E8.
  destruct (root_loop_ok F xs h3 g7 h8 g8 e8 Ix E8) as (I8 & X8 & V8).
  destruct (root_loop_frame N P xs h3 g7 h8 g8 e8) as (K8 & G8 & D8 & R8); [exact (k_len _ _ _ _ K3)|done|done| |exact E8|].
  { intros l Hl. by apply Hog, Hxs. }
  rewrite <-(HKo h3 K3) at 1. rewrite h_out_edges_value. fold xs. rewrite <-V8.
  assert (XF : ext h h8 F) by (eapply ext_trans; [by apply HKF|exact X8]).
  assert (K38 : keeps N (λ l, P l ∨ l ∈ xs.*2) h h8).
  { eapply keeps_trans; [|exact K8]. eapply keeps_mono; [|exact K3]. tauto. }
  assert (Hother : ∀ l, l ∈ locs og → l ∉ xs.*2 → see_at h8 l = see_at h l).
  { intros l Hl Hlx. assert (Hd8 : dict_at h8 l = dict_at h l).
    { apply (k_at _ _ _ _ K38). destruct (Hog l Hl). intros [[?|?]|?]; [done|done|lia]. }
    eapply (see_at_ext h h8 [l]); [|split; [apply K38|apply K38|]|by left].
    - eapply HInv_sub; [exact HIo|apply NoDup_singleton|]. intros y Hy. by apply elem_of_list_singleton in Hy as ->.
    - intros y Hy. by apply elem_of_list_singleton in Hy as ->. }
  assert (Hnode8 : g_node (graph_of h8 og) = g_node (graph_of h og)).
  { change (dmap (see_at h8) (h_node og) = dmap (see_at h) (h_node og)). apply dmap_ext. intros [k l] Hkl. cbn [snd].
    assert (Hl : l ∈ dl one (h_node og)) by (apply dl_one_elem; by exists k).
    apply Hother; [apply elem_of_app; by left|]. intros Hx. pose proof Hndo as Hnd. unfold locs in Hnd. apply NoDup_app in Hnd as (_ & Hd & _).
    apply (Hd l Hl). by eapply elem_of_submseteq. }
  destruct e8 as [e8|].
  { injection E as <- <- <-. done. }
  destruct (remove_node_ok h8 g8 F (h_root og) h' g' e I8 E) as (I9 & X9 & V9).
  assert (h' = h8) as ->.
  { unfold h_remove_node in E. destruct (dget (h_root og) (h_succ g8)); [|by injection E].
    destruct (dget (h_root og) (h_node g8)); by injection E. }
  split_and!; [done|done|done|done|]. intros ->.
  apply relaid_value; [done| | | |done].
  - destruct HG as [C _]. pose proof (c_nodup _ C) as Hn. rewrite <-(c_succ_dom _ C) in Hn.
    change (g_succ (graph_of h og)) with (dmap (dmap (dmap (see_at h))) (h_succ og)) in Hn. by rewrite dkeys_dmap in Hn.
  - apply K38.
  - intros l Hl. destruct (R8 eq_refl l Hl) as (s & T1 & T2 & T3). exists s. rewrite Hns7 in T3. split_and!; [|done|done].
    rewrite T1. f_equal. by apply Hout, Hxs.
Qed.
