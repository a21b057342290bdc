(** * BuiltFrom: copying the nodes and edges of one graph into another *)
From Verif Require Import PyBase DocGraph Relabel StrNum Query Text Rst Nltk Parsers Anaphora Conano Decour Ptb Convert Tiger.
From Verif Require Import SpecGraph DocGraphFacts History Effects RelabelFacts MergeFacts AllHist MergeAll GraphThms SpecImport ImportFacts PtbFacts.

Lemma built_put g N E n l b c a : built g N E → attr_merge (node_attrs g n) l b a → (∀ key, key ≠ "layers" → dget key b = dget key c) →
  built (put_node g n a) (note n l c N) E.
Proof.
  intros [H [HN HF] (es & HP & HE)] Hm Hbc.
  assert (HI : GInv (put_node g n a)). { apply GInv_put_node; [done|]. destruct Hm as [(L & HL & _) _]. by exists L. }
  split; [done| |].
  - assert (Hn : node_attrs (put_node g n a) n = Some a) by (rewrite node_attrs_put_node; by rewrite decide_True).
    split.
    + change (nodes (put_node g n a) = ids (note n l c N)). rewrite nodes_dset, ids_note. change (nodes g = ids N) in HN. rewrite HN. done.
    + unfold note. change (nodes g = ids N) in HN. destruct (decide (n ∈ ids N)) as [Hin|Hin].
      * apply Forall_fmap, Forall_forall. intros x Hx. cbn. rewrite Forall_forall in HF. specialize (HF x Hx).
        destruct (decide (x.1.1 = n)) as [En|En].
        -- destruct HF as (b' & Hb & Hl & Hk). exists a. cbn [merge_info fst snd]. rewrite En in *. split; [done|]. split.
           ++ intros y. rewrite (attr_merge_has_layer _ _ _ _ y Hm), Hb, elem_of_app, <-Hl. unfold ohas_layer. naive_solver.
           ++ intros key Hkey. destruct Hm as [_ Hm]. rewrite Hm, dget_dupdate by done. rewrite Hb, Hbc by done. cbn [oget]. by rewrite Hk.
        -- eapply node_is_ext; [|exact HF]. rewrite node_attrs_put_node. by rewrite decide_False.
      * apply Forall_app. split.
        -- eapply Forall_impl; [exact HF|]. intros x Hx. destruct Hx as (b' & Hb & Hx). exists b'. split; [|done].
           rewrite node_attrs_put_node. rewrite decide_False; [done|]. intros E'. apply Hin. rewrite <-HN. apply node_mem. rewrite <-E'. by exists b'.
        -- constructor; [|constructor]. exists a. split; [done|]. assert (Hno : node_attrs g n = None) by (apply node_nmem; by rewrite HN). rewrite Hno in Hm. split.
           ++ intros y. rewrite (attr_merge_has_layer _ _ _ _ y Hm). unfold ohas_layer. cbn. naive_solver.
           ++ intros key Hkey. destruct Hm as [_ Hm]. rewrite Hm, Hbc by done. cbn. by case_match.
  - exists es. split; [|done]. rewrite <-HP. apply same_edges; [apply H|apply HI|]. intros. apply edge_attrs_put_node, H.
Qed.
Lemma attrs_are_layers d l a : attrs_are d l a → l ≠ [] → ∃ L, dget "layers" d = Some (VSet L) ∧ ∀ x, x ∈ L ↔ x ∈ l.
Proof.
  intros [HL _] Hl. destruct l as [|x l]; [done|]. assert (Hx : has_layer d x) by (apply HL; left). destruct Hx as (L & E & _). exists L. split; [done|].
  intros y. rewrite <-HL. unfold has_layer. rewrite E. naive_solver.
Qed.
Lemma attr_merge_layers old L l b a : (∀ x, x ∈ L ↔ x ∈ l) → attr_merge old L b a → attr_merge old l b a.
Proof. intros H [(L' & E & HL) HK]. split; [|done]. exists L'. split; [done|]. intros x. by rewrite HL, H. Qed.
Lemma built_from_node g N E n d l c : built g N E → attrs_are d l c → l ≠ [] →
  ∃ g', add_nodes_from1 g [] (NTup n d) = (g', None) ∧ built g' (note n l c N) E ∧ same_doc g g'.
Proof.
  intros HB HA Hl. destruct (attrs_are_layers _ _ _ HA Hl) as (L & EL & HL).
  pose proof (add_nodes_from1_tup_eff g n d [] (b_inv _ _ _ HB)) as He. unfold tup_layers in He. rewrite EL in He. cbn [default] in He.
  destruct He as (a & E1 & Hm). exists (put_node g n a). split; [done|]. split; [|apply same_doc_put_node].
  eapply built_put; [exact HB|eapply attr_merge_layers; [exact HL|exact Hm]|]. intros key Hkey. destruct HA as [_ HK]. rewrite <-HK by done.
  destruct (decide _); [done|]. rewrite dget_dupdate. cbn. by destruct (dget key d).
Qed.
Lemma data_infos g N E : built g N E → Forall2 (λ (p : nid * attrs) (x : node_info), p.1 = x.1.1 ∧ attrs_are p.2 x.1.2 x.2) (g_node g) N.
Proof.
  intros HB. pose proof (c_nodup _ (proj1 (b_inv _ _ _ HB))) as HD. destruct (b_nodes _ _ _ HB) as [HN HF].
  assert (G : ∀ d N, NoDup (dkeys d) → dkeys d = ids N → Forall (λ x : node_info, ∃ a, dget x.1.1 d = Some a ∧ attrs_are a x.1.2 x.2) N →
    Forall2 (λ (p : nid * attrs) (x : node_info), p.1 = x.1.1 ∧ attrs_are p.2 x.1.2 x.2) d N).
  { clear. induction d as [|[n a] d IH]; intros N HD HN HF; destruct N as [|x N]; try done. injection HN as -> HN.
    apply Forall_cons in HF as [(b & Hb & Hx) HF]. cbn [dget] in Hb. rewrite decide_True in Hb by done. injection Hb as ->.
    apply NoDup_cons in HD as [Hn HD]. apply List.Forall2_cons; [done|]. apply IH; [done|done|].
    rewrite Forall_forall in *. intros y Hy. destruct (HF y Hy) as (c & Hc & Hy'). cbn [dget] in Hc. destruct (decide _) as [E|]; [|by exists c].
    exfalso. apply Hn. cbn in HN |- *. change (x.1.1 ∈ d.*1). unfold dkeys in HN. rewrite HN, <-E. unfold ids. by apply (elem_of_list_fmap_1 (λ x : node_info, x.1.1)). }
  apply G; [exact HD|exact HN|exact HF].
Qed.
Definition note_all (N' N : list node_info) : list node_info := foldl (λ N x, note x.1.1 x.1.2 x.2 N) N N'.
Lemma built_nodes_from ds N' : Forall2 (λ (p : nid * attrs) (x : node_info), p.1 = x.1.1 ∧ attrs_are p.2 x.1.2 x.2) ds N' →
  Forall (λ x : node_info, x.1.2 ≠ []) N' → ∀ g N E, built g N E →
  ∃ g', add_nodes_from g ((λ p : nid * attrs, NTup p.1 p.2) <$> ds) [] = (g', None) ∧ built g' (note_all N' N) E ∧ same_doc g g'.
Proof.
  induction 1 as [|[n d] x ds N' [Hx HA] _ IH]; intros HL g N E HB.
  - exists g. split; [done|]. split; [done|]. by repeat split.
  - apply Forall_cons in HL as [Hl HL]. rewrite fmap_cons. unfold add_nodes_from. cbn [for_each fst snd].
    destruct (built_from_node g N E n d _ _ HB HA Hl) as (g1 & E1 & B1 & D1). rewrite E1.
    destruct (IH HL g1 _ _ B1) as (g2 & E2 & B2 & D2). exists g2. split; [exact E2|]. cbn in Hx. subst n. split; [exact B2|by eapply same_doc_trans].
Qed.
(** ** Edges *)
Lemma built_put_edge g N E u v k l b c a : built g N E → u ∈ ids N → v ∈ ids N → edge_attrs g u v k = None →
  attr_merge None l b a → (∀ key, key ≠ "layers" → dget key b = dget key c) →
  built (put_edge g u v k a) N (E ++ [(u, v, l, c)]).
Proof.
  intros HB Hu Hv Hk Hm Hbc. assert (HN : nodes g = ids N) by apply (b_nodes _ _ _ HB). rewrite <-HN in Hu, Hv.
  assert (C' : Consistent (put_edge g u v k a)) by (apply Consistent_put_edge; [apply HB|done..]).
  split.
  - apply GInv_put_edge; [apply HB|done|done|]. destruct Hm as [(L & HL' & _) _]. by exists L.
  - destruct (b_nodes _ _ _ HB) as [_ HF]. split.
    + change (nodes (put_edge g u v k a) = ids N). rewrite <-HN. unfold nodes, put_edge. by destruct (dget v _).
    + eapply Forall_impl; [exact HF|]. intros x. apply node_is_ext, node_attrs_put_edge.
  - destruct (b_edges _ _ _ HB) as (es & Hes & HE). exists (es ++ [(u, v, k, a)]). split.
    + rewrite Permutation_app_comm. cbn [app]. rewrite <-Hes. apply edges_insert; [apply HB|done|done|].
      intros u' v' k'. apply edge_attrs_put_edge; [apply HB|done].
    + apply Forall2_app; [done|]. constructor; [|constructor]. split; [done|]. split; [done|]. split.
      * intros x. cbn. rewrite (attr_merge_has_layer _ _ _ _ x Hm). unfold ohas_layer. naive_solver.
      * intros key Hkey. cbn. destruct Hm as [_ Hm]. rewrite Hm, Hbc by done. cbn. by case_match.
Qed.
Lemma built_from_edge g N E u v d l c : built g N E → u ∈ ids N → v ∈ ids N → attrs_are d l c → l ≠ [] →
  ∃ g', add_edges_from1 g [] (ESpec u v None d) = (g', None) ∧ built g' N (E ++ [(u, v, l, c)]) ∧ same_doc g g'.
Proof.
  intros HB Hu Hv HA Hl. destruct (attrs_are_layers _ _ _ HA Hl) as (L & EL & HL). assert (HN : nodes g = ids N) by apply (b_nodes _ _ _ HB).
  pose proof (add_edges_from1_eff g [] (ESpec u v None d) (b_inv _ _ _ HB)) as He. unfold tup_layers in He. cbn [e_d e_u e_v e_key] in He. rewrite EL in He. cbn [default additional_layers dget] in He.
  destruct He as (k & a & g1 & E1 & Hg1 & [Hk _] & L' & HL' & Hm). rewrite Hk in Hm.
  assert (G1 : g1 = g). { destruct Hg1 as [->|(b & _ & Hs & _)]; [|rewrite Hk in Hs; by destruct Hs]. rewrite (with_node_in g u) by (by rewrite HN). apply with_node_in. by rewrite HN. }
  subst g1. eexists. split; [exact E1|]. split; [|apply same_doc_put_edge].
  eapply built_put_edge; [exact HB|done|done|done| |].
  - eapply attr_merge_layers; [|exact Hm]. intros x. rewrite HL', elem_of_nil, HL. split; [|by left]. intros [?|[?|(-> & _)]]; [done|done|]. exfalso. apply Hl. apply elem_of_nil_inv. intros y Hy. apply HL in Hy. by apply elem_of_nil in Hy.
  - intros key Hkey. destruct HA as [_ HK]. rewrite <-HK by done. rewrite dget_dupdate. cbn. by destruct (dget key d).
Qed.
Lemma built_edges_from es E' : Forall2 edge_is es E' → Forall (λ x : edge_info, x.1.2 ≠ []) E' → ∀ g N E, built g N E →
  Forall (λ x : edge_info, x.1.1.1 ∈ ids N ∧ x.1.1.2 ∈ ids N) E' →
  ∃ g', add_edges_from g ((λ e : nid * nid * nid * attrs, ESpec e.1.1.1 e.1.1.2 None e.2) <$> es) None [] = (g', None) ∧ built g' N (E ++ E') ∧ same_doc g g'.
Proof.
  induction 1 as [|[[[u v] k] d] x es E' (H1 & H2 & HA) _ IH]; intros HL g N E HB HI.
  - exists g. split; [done|]. rewrite app_nil_r. split; [done|]. by repeat split.
  - apply Forall_cons in HL as [Hl HL], HI as [[Hu Hv] HI]. rewrite fmap_cons. unfold add_edges_from. cbn [for_each fst snd]. cbn [fst snd] in *. subst u v.
    destruct (built_from_edge g N E _ _ d _ _ HB Hu Hv HA Hl) as (g1 & E1 & B1 & D1). rewrite E1.
    destruct (IH HL g1 _ _ B1 HI) as (g2 & E2 & B2 & D2). exists g2. split; [exact E2|]. rewrite <-app_assoc in B2. destruct x as [[[u v] l] c]. split; [exact B2|by eapply same_doc_trans].
Qed.
Lemma built_perm g N E E' : built g N E → E ≡ₚ E' → built g N E'.
Proof.
  intros [H HN (es & HP & HE)] HEE. split; [done|done|].
  apply Forall2_flip in HE. destruct (Permutation.Permutation_Forall2 HEE HE) as (es' & Hes & HE').
  exists es'. split; [by rewrite HP|]. by apply Forall2_flip.
Qed.
(** all nodes and edges of [sg] *)
Lemma built_copy g N E sg N' E' : built g N E → built sg N' E' → Forall (λ x : node_info, x.1.2 ≠ []) N' → Forall (λ x : edge_info, x.1.2 ≠ []) E' →
  Forall (λ x : edge_info, x.1.1.1 ∈ ids N' ∧ x.1.1.2 ∈ ids N') E' →
  ∃ g1 g2, add_nodes_from g (nodes_with_data sg) [] = (g1, None) ∧ add_edges_from g1 (edges_with_data sg) None [] = (g2, None) ∧
    built g2 (note_all N' N) (E ++ E') ∧ same_doc g g2.
Proof.
  intros HB HS HN HE HI. destruct (built_nodes_from _ _ (data_infos _ _ _ HS) HN g N E HB) as (g1 & E1 & B1 & D1).
  destruct (b_edges _ _ _ HS) as (es & HP & HF). symmetry in HP. destruct (Permutation.Permutation_Forall2 HP HF) as (E'' & HPE & HF').
  destruct (built_edges_from _ _ HF') with (g := g1) (N := note_all N' N) (E := E) as (g2 & E2 & B2 & D2).
  - by rewrite <-HPE.
  - done.
  - rewrite <-HPE. eapply Forall_impl; [exact HI|]. assert (HM : ∀ N' N n, n ∈ ids N' ∨ n ∈ ids N → n ∈ ids (note_all N' N)).
    { clear. induction N' as [|x N' IH]; intros N n Hn; [destruct Hn as [Hn|Hn]; [by apply elem_of_nil in Hn|done]|]. cbn. apply IH.
      rewrite ids_note. change (ids (x :: N')) with (x.1.1 :: ids N') in Hn. rewrite elem_of_cons in Hn. destruct (decide _); [|rewrite elem_of_app, elem_of_list_singleton]; naive_solver. }
    intros x [H1 H2]. split; apply HM; by left.
  - exists g1, g2. split; [exact E1|]. split; [exact E2|]. split; [|by eapply same_doc_trans]. eapply built_perm; [exact B2|]. by rewrite HPE.
Qed.
Lemma note_all_new N' N : NoDup (ids N') → (∀ n, n ∈ ids N' → n ∉ ids N) → note_all N' N = N ++ N'.
Proof.
  revert N. induction N' as [|x N' IH]; intros N HD HN; [symmetry; apply app_nil_r|]. change (ids (x :: N')) with (x.1.1 :: ids N') in *. apply NoDup_cons in HD as [Hx HD].
  change (note_all (x :: N') N) with (note_all N' (note x.1.1 x.1.2 x.2 N)). rewrite note_new by (apply HN; left). rewrite IH; [|done|].
  - rewrite <-app_assoc. destruct x as [[n l] a]. done.
  - intros n Hn. rewrite ids_app, elem_of_app. intros [H|H]; [by apply (HN n); [right|]|]. apply elem_of_list_singleton in H. cbn in H. by subst.
Qed.
