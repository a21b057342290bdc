(** * ImportFacts: graphs built node by node and edge by edge *)
From Verif Require Import PyBase DocGraph SpecGraph DocGraphFacts History Effects RelabelFacts MergeFacts AllHist MergeAll GraphThms SpecImport.

Definition ids (N : list node_info) : list nid := (λ x, x.1.1) <$> N.
Lemma ids_app N N' : ids (N ++ N') = ids N ++ ids N'.
Proof. apply fmap_app. Qed.
Record built (g : graph) (N : list node_info) (E : list edge_info) : Prop := {
  b_inv : GInv g;
  b_nodes : has_nodes g N;
  b_edges : has_edges g E;
}.
(** add or merge a node *)
Definition merge_info (l : list string) (a : attrs) (x : node_info) : node_info := (x.1.1, x.1.2 ++ l, dupdate x.2 a).
Definition note (n : nid) (l : list string) (a : attrs) (N : list node_info) : list node_info :=
  if decide (n ∈ ids N) then (λ x, if decide (x.1.1 = n) then merge_info l a x else x) <$> N else N ++ [(n, l, a)].
Definition ensure (ns : string) (n : nid) (N : list node_info) : list node_info :=
  if decide (n ∈ ids N) then N else N ++ [(n, [ns], [])].
Lemma note_new n l a N : n ∉ ids N → note n l a N = N ++ [(n, l, a)].
Proof. intros. unfold note. by rewrite decide_False. Qed.
Lemma ensure_old ns n N : n ∈ ids N → ensure ns n N = N.
Proof. intros. unfold ensure. by rewrite decide_True. Qed.
Lemma ids_note n l a N : ids (note n l a N) = if decide (n ∈ ids N) then ids N else ids N ++ [n].
Proof.
  unfold note. destruct (decide _) as [H|H]; [|by rewrite ids_app]. unfold ids. rewrite <-list_fmap_compose. apply list_fmap_ext.
  intros i x _. cbn. by destruct (decide _).
Qed.
Lemma ids_ensure ns n N : ids (ensure ns n N) = if decide (n ∈ ids N) then ids N else ids N ++ [n].
Proof. unfold ensure. destruct (decide _); [done|by rewrite ids_app]. Qed.

Lemma nodes_dset g n a : nodes (put_node g n a) = if decide (n ∈ nodes g) then nodes g else nodes g ++ [n].
Proof.
  unfold put_node. destruct (decide (n ∈ nodes g)) as [H|H].
  - unfold nodes, upd_node, set_node. cbn [g_node]. rewrite dkeys_dset, decide_True; done.
  - unfold nodes, new_node, set_node. cbn [g_node]. rewrite dkeys_dset, decide_False; done.
Qed.
Lemma same_edges g g' : Consistent g → Consistent g' → (∀ u v k, edge_attrs g' u v k = edge_attrs g u v k) → edges g' ≡ₚ edges g.
Proof.
  intros C C' H. apply NoDup_Permutation; [by apply NoDup_edges|by apply NoDup_edges|]. intros [[[u v] k] a]. rewrite !elem_edges by done. by rewrite H.
Qed.
Lemma node_is_ext g g' x : node_attrs g' x.1.1 = node_attrs g x.1.1 → node_is g x → node_is g' x.
Proof. intros E (a & Ha & H). exists a. by rewrite E. Qed.

Lemma built_node g N E n layers ad attr l : built g N E → asked_layers (g_ns g) layers l →
  ∃ g', add_node g n layers ad attr = (g', None) ∧ built g' (note n l (given_attrs ad attr) N) E ∧ same_doc g g'.
Proof.
  intros [H [HN HF] (es & HP & HE)] Ha. pose proof (add_node_eff g n layers ad attr (proj1 H) (proj2 H)) as He.
  rewrite (check_asked _ _ _ Ha) in He. destruct He as (a & -> & Hm). exists (put_node g n a). split; [done|].
  assert (HI : GInv (put_node g n a)). { apply GInv_put_node; [done|]. destruct Hm as [(L & HL & _) _]. by exists L. }
  split; [|apply same_doc_put_node]. split; [done| |].
  - assert (Hn : node_attrs (put_node g n a) n = Some a) by (rewrite node_attrs_put_node; by rewrite decide_True).
    split.
    + change (nodes (put_node g n a) = ids (note n l (given_attrs ad attr) N)). rewrite nodes_dset, ids_note. change (nodes g = ids N) in HN. rewrite HN. done.
    + unfold note. change (nodes g = ids N) in HN. destruct (decide (n ∈ ids N)) as [Hin|Hin].
      * apply Forall_fmap, Forall_forall. intros x Hx. cbn. rewrite Forall_forall in HF. specialize (HF x Hx).
        destruct (decide (x.1.1 = n)) as [En|En].
        -- destruct HF as (b & Hb & Hl & Hk). exists a. cbn [merge_info fst snd]. rewrite En in *. split; [done|]. split.
           ++ intros y. rewrite (attr_merge_has_layer _ _ _ _ y Hm), Hb, elem_of_app, <-Hl. unfold ohas_layer. naive_solver.
           ++ intros key Hkey. destruct Hm as [_ Hm]. rewrite Hm, dget_dupdate by done. rewrite Hb. cbn [oget]. by rewrite Hk.
        -- eapply node_is_ext; [|exact HF]. rewrite node_attrs_put_node. by rewrite decide_False.
      * apply Forall_app. split.
        -- eapply Forall_impl; [exact HF|]. intros x Hx. destruct Hx as (b & Hb & Hx). exists b. split; [|done].
           rewrite node_attrs_put_node. rewrite decide_False; [done|]. intros E'. apply Hin. rewrite <-HN. apply node_mem. rewrite <-E'. by exists b.
        -- constructor; [|constructor]. exists a. split; [done|]. assert (Hno : node_attrs g n = None) by (apply node_nmem; by rewrite HN). rewrite Hno in Hm. split.
           ++ intros y. rewrite (attr_merge_has_layer _ _ _ _ y Hm). unfold ohas_layer. cbn. naive_solver.
           ++ intros key Hkey. destruct Hm as [_ Hm]. rewrite Hm by done. cbn. by case_match.
  - exists es. split; [|done]. rewrite <-HP. apply same_edges; [apply H|apply HI|]. intros. apply edge_attrs_put_node, H.
Qed.
Lemma built_with g N E n : built g N E → built (with_node g n) (ensure (g_ns g) n N) E.
Proof.
  intros HB. destruct HB as [H [HN HF] (es & HP & HE)]. change (nodes g = ids N) in HN. unfold with_node, ensure. rewrite HN. destruct (decide (n ∈ ids N)) as [Hin|Hin]; [by split; [done|split|exists es]|].
  pose proof (GInv_put_node g n [("layers", VSet [g_ns g])] H ltac:(by eexists)) as HI. split; [done| |].
  - split.
    + change (nodes (put_node g n [("layers", VSet [g_ns g])]) = ids (N ++ [(n, [g_ns g], [])])). rewrite nodes_dset, ids_app, HN, decide_False by done. done.
    + apply Forall_app. split.
      * eapply Forall_impl; [exact HF|]. intros x (b & Hb & Hx). exists b. split; [|done].
        rewrite node_attrs_put_node. rewrite decide_False; [done|]. intros E'. apply Hin. rewrite <-HN. apply node_mem. rewrite <-E'. by exists b.
      * constructor; [|constructor]. eexists. split; [rewrite node_attrs_put_node; by rewrite decide_True|]. split.
        -- intros y. unfold has_layer. cbn. split; [intros (l & [= <-] & ?); done|]. intros. by eexists.
        -- intros key Hkey. cbn. rewrite decide_False by done. done.
  - exists es. split; [|done]. rewrite <-HP. apply same_edges; [apply H|apply HI|]. intros. apply edge_attrs_put_node, H.
Qed.
Lemma built_edge g N E u v layers ad attr l : built g N E → asked_layers (g_ns g) layers l →
  ∃ g', add_edge g u v layers None ad attr = (g', None) ∧
    built g' (ensure (g_ns g) v (ensure (g_ns g) u N)) (E ++ [(u, v, l, given_attrs ad attr)]) ∧ same_doc g g'.
Proof.
  intros HB Ha. pose proof (built_with _ _ _ u HB) as HB1. pose proof (built_with _ _ _ v HB1) as HB2.
  assert (Hns : g_ns (with_node g u) = g_ns g) by (pose proof (with_node_other g u); naive_solver). rewrite Hns in HB2.
  destruct (add_edge_new g u v layers ad attr l (b_inv _ _ _ HB) Ha) as (g' & k & a & Eg & Hk & HP & _ & _ & HL & HK & _ & HD).
  exists g'. split; [done|]. split; [|done].
  pose proof (add_edge_eff g u v layers None ad attr (b_inv _ _ _ HB)) as He. rewrite (check_asked _ _ _ Ha) in He.
  destruct He as (k' & a' & E' & _ & Hm). rewrite Eg in E'. injection E' as ->.
  set (g2 := with_node (with_node g u) v) in *.
  assert (Hu : u ∈ nodes g2) by (unfold g2; rewrite !nodes_with_node; naive_solver).
  assert (Hv : v ∈ nodes g2) by (unfold g2; rewrite !nodes_with_node; naive_solver).
  split.
  - apply GInv_put_edge; [apply HB2|done|done|]. destruct Hm as [(L & HL' & _) _]. by exists L.
  - destruct (b_nodes _ _ _ HB2) as [HN HF]. split.
    + rewrite <-HN. unfold nodes, put_edge. by destruct (dget v _).
    + eapply Forall_impl; [exact HF|]. intros x. apply node_is_ext, node_attrs_put_edge.
  - destruct (b_edges _ _ _ HB) as (es & Hes & HE). exists (es ++ [(u, v, k, a)]). split.
    + rewrite HP, Hes. by rewrite Permutation_app_comm.
    + apply Forall2_app; [done|]. constructor; [|constructor]. split; [done|]. split; [done|]. by split.
Qed.
Lemma built_edge_in g N E u v layers ad attr l : built g N E → u ∈ ids N → v ∈ ids N → asked_layers (g_ns g) layers l →
  ∃ g', add_edge g u v layers None ad attr = (g', None) ∧ built g' N (E ++ [(u, v, l, given_attrs ad attr)]) ∧ same_doc g g'.
Proof.
  intros HB Hu Hv Ha. destruct (built_edge g N E u v layers ad attr l HB Ha) as (g' & ? & H & ?). exists g'. split; [done|]. split; [|done].
  rewrite (ensure_old _ u), ensure_old in H; done.
Qed.
Lemma built_ext g g' N E : g_node g' = g_node g → g_succ g' = g_succ g → g_pred g' = g_pred g → built g N E → built g' N E.
Proof.
  intros E1 E2 E3 [H [HN HF] (es & HP & HE)]. split.
  - by eapply GInv_ext.
  - split; [unfold nodes in *; by rewrite E1|]. eapply Forall_impl; [exact HF|]. intros x. apply node_is_ext. unfold node_attrs. by rewrite E1.
  - exists es. split; [|done]. rewrite <-HP. unfold edges. by rewrite E2.
Qed.
Lemma built_tokens g N E T : built g N E → built (set_tokens T g) N E.
Proof. by apply built_ext. Qed.
Lemma built_init name ns : built (init_graph name ns None) [(NStr (ns +:+ ":root_node"), [ns], [])] [].
Proof.
  split; [apply GInv_init| |].
  - split; [done|]. constructor; [|constructor]. eexists. split; [unfold node_attrs; cbn; by rewrite decide_True|]. split.
    + intros y. unfold has_layer. cbn. split; [intros (l & [= <-] & ?); done|]. intros. by eexists.
    + intros key Hkey. cbn. rewrite decide_False by done. done.
  - exists []. done.
Qed.
(** consequences *)
Lemma built_node_attrs g N E n l a : built g N E → (n, l, a) ∈ N → ∃ b, node_attrs g n = Some b ∧ attrs_are b l a.
Proof. intros HB Hin. destruct (b_nodes _ _ _ HB) as [_ HF]. rewrite Forall_forall in HF. apply (HF _ Hin). Qed.
Lemma built_NoDup g N E : built g N E → NoDup (ids N).
Proof. intros HB. destruct (b_nodes _ _ _ HB) as [HN _]. unfold ids. rewrite <-HN. apply (c_nodup _ (proj1 (b_inv _ _ _ HB))). Qed.
(** descriptions with the same layers and attributes *)
Definition same_info (x y : node_info) : Prop := x.1.1 = y.1.1 ∧ (∀ z, z ∈ x.1.2 ↔ z ∈ y.1.2) ∧ ∀ k, dget k x.2 = dget k y.2.
Global Instance same_info_refl : Reflexive same_info.
Proof. done. Qed.
Lemma built_same g N N' E : built g N E → Forall2 same_info N N' → built g N' E.
Proof.
  intros [H [HN HF] HE] HS. split; [done| |done]. split.
  - rewrite HN. clear -HS. induction HS as [|x y N N' [E _] _ IH]; [done|]. cbn. f_equal; [done|exact IH].
  - clear -HS HF. induction HS as [|x y N N' (E & HL & HK) _ IH]; [constructor|]. apply Forall_cons in HF as [Hx HF]. constructor; [|by apply IH].
    destruct Hx as (a & Ha & HA & HB). exists a. rewrite <-E. split; [done|]. split; [intros z; by rewrite HA|]. intros key Hk. by rewrite HB.
Qed.
