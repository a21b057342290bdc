(** * GraphThms: proofs of the document graph properties *)
From Verif Require Import PyBase DocGraph DocGraphFacts History Effects RelabelFacts MergeFacts AllHist MergeAll.

Section thms.
  Implicit Types (g : graph) (n u v k : nid) (a : attrs).

  Lemma check_asked ns layers l : asked_layers ns layers l → check_layers ns layers = Ok l.
  Proof.
    intros [[-> Hl]|[Ht ->]]; unfold check_layers.
    - destruct l; [done|]. done.
    - by rewrite Ht.
  Qed.
  Lemma check_bad ns layers : bad_layers layers → check_layers ns layers = Err AssertionError.
  Proof.
    intros [Ht Hl]. unfold check_layers. rewrite Ht. destruct layers; try done. by destruct (Hl l).
  Qed.
  Lemma same_doc_put_node g n a : same_doc g (put_node g n a).
  Proof. apply put_node_other. Qed.
  Lemma same_doc_with_node g n : same_doc g (with_node g n).
  Proof. apply with_node_other. Qed.
  Lemma same_doc_put_edge g u v k a : same_doc g (put_edge g u v k a).
  Proof. pose proof (put_edge_other g u v k a) as (?&?&?&?&?&?&?). by split_and!. Qed.
  Lemma same_doc_trans g1 g2 g3 : same_doc g1 g2 → same_doc g2 g3 → same_doc g1 g3.
  Proof. unfold same_doc. intros. destruct_and!. split_and!; congruence. Qed.
  Lemma same_doc_refl g : same_doc g g.
  Proof. done. Qed.

  (** C03 *)
  Lemma adjacency P g : reachable P g →
    NoDup (nodes g) ∧
    (∀ u v, v ∈ successors g u ↔ u ∈ predecessors g v) ∧
    (∀ u v, v ∈ successors g u ↔ ∃ k a, edge_attrs g u v k = Some a) ∧
    (∀ u v k a, edge_attrs g u v k = Some a → u ∈ nodes g ∧ v ∈ nodes g) ∧
    NoDup (edges g) ∧
    (∀ u v k a, (u, v, k, a) ∈ edges g ↔ edge_attrs g u v k = Some a).
  Proof.
    intros C%reach_consistent. split_and!.
    - apply C.
    - apply C.
    - intros u v. split.
      + intros H%succ_keydict; [|done]. unfold edge_attrs.
        destruct (keydict_of g u v) as [|[k a] kd]; [done|]. exists k, a. simpl. by rewrite decide_True.
      + intros (k & a & H). by eapply edge_succ.
    - intros u v k a H. eapply succ_nodes; [done|]. by eapply edge_succ.
    - by apply NoDup_edges.
    - intros. by apply elem_edges.
  Qed.

  (** C04, C08 *)
  Definition endpoint_effect g g' u v : Prop :=
    (∀ n a, node_attrs g n = Some a → node_attrs g' n = Some a) ∧
    (∀ n, n ∉ nodes g → node_attrs g' n =
       if decide (n = u ∨ n = v) then Some [("layers", VSet [g_ns g])] else None).
  Lemma ends_with g u v : endpoint_effect g (with_node (with_node g u) v) u v.
  Proof.
    assert (Hns : g_ns (with_node g u) = g_ns g) by (pose proof (with_node_other g u); naive_solver).
    split.
    - intros n a Ha. by rewrite !node_attrs_with_node, Ha.
    - intros n Hn%node_nmem. rewrite !node_attrs_with_node, Hn, Hns.
      destruct (decide (n = u)), (decide (n = v)), (decide (n = u ∨ n = v)); naive_solver.
  Qed.
  Lemma add_edge_new g u v layers ad attr l :
    GInv g → asked_layers (g_ns g) layers l →
    ∃ g' k a, add_edge g u v layers None ad attr = (g', None) ∧
      edge_attrs g u v k = None ∧
      edges g' ≡ₚ (u, v, k, a) :: edges g ∧
      (∀ u' v' k' a', edge_attrs g u' v' k' = Some a' → edge_attrs g' u' v' k' = Some a') ∧
      edge_attrs g' u v k = Some a ∧
      (∀ x, has_layer a x ↔ x ∈ l) ∧
      (∀ key, key ≠ "layers" → dget key a = dget key (given_attrs ad attr)) ∧
      endpoint_effect g g' u v ∧ same_doc g g'.
  Proof.
    intros H Ha%check_asked. pose proof (add_edge_eff g u v layers None ad attr H) as He.
    rewrite Ha in He. destruct He as (k & a & -> & [Hk _] & Hm). rewrite Hk in Hm.
    pose proof (GInv_with_node g u H) as H1. pose proof (GInv_with_node _ v H1) as H2.
    set (g2 := with_node (with_node g u) v) in *.
    assert (Hu : u ∈ nodes g2) by (unfold g2; rewrite !nodes_with_node; naive_solver).
    assert (Hv : v ∈ nodes g2) by (unfold g2; rewrite !nodes_with_node; naive_solver).
    assert (HE : ∀ u' v' k', edge_attrs (put_edge g2 u v k a) u' v' k' =
         if decide (u' = u ∧ v' = v ∧ k' = k) then Some a else edge_attrs g u' v' k').
    { intros. rewrite edge_attrs_put_edge by (apply H2 || done). unfold g2.
      rewrite !edge_attrs_with_node; [done|apply H|apply H1]. }
    exists (put_edge g2 u v k a), k, a. split_and!; try done.
    - apply edges_insert; [apply H| |done|done].
      apply Consistent_put_edge; [apply H2|done|done].
    - intros u' v' k' a' Ha'. rewrite HE. destruct (decide _) as [(-> & -> & ->)|]; [congruence|done].
    - rewrite HE. by rewrite decide_True.
    - intros x. rewrite (attr_merge_has_layer _ _ _ _ x Hm). unfold ohas_layer. naive_solver.
    - intros key Hkey. destruct Hm as [_ Hm]. rewrite Hm by done. simpl. by case_match.
    - pose proof (ends_with g u v) as [E1 E2]. split.
      + intros n b Hb. rewrite node_attrs_put_edge. by apply E1.
      + intros n Hn. rewrite node_attrs_put_edge. by apply E2.
    - eapply same_doc_trans; [apply (same_doc_with_node g u)|].
      eapply same_doc_trans; [apply (same_doc_with_node _ v)|]. apply same_doc_put_edge.
  Qed.
  Lemma add_edge_keyed g u v layers k ad attr l :
    GInv g → asked_layers (g_ns g) layers l →
    ∃ g' a, add_edge g u v layers (Some k) ad attr = (g', None) ∧
      edge_attrs g' u v k = Some a ∧
      (∀ x, has_layer a x ↔ x ∈ l ∨ ohas_layer (edge_attrs g u v k) x) ∧
      (∀ key, key ≠ "layers" → dget key a =
         match dget key (given_attrs ad attr) with
         | Some w => Some w | None => oget (edge_attrs g u v k) key end) ∧
      (∀ u' v' k', (u', v', k') ≠ (u, v, k) → edge_attrs g' u' v' k' = edge_attrs g u' v' k') ∧
      endpoint_effect g g' u v ∧ same_doc g g'.
  Proof.
    intros H Ha%check_asked. pose proof (add_edge_eff g u v layers (Some k) ad attr H) as He.
    rewrite Ha in He. destruct He as (k' & a & -> & -> & Hm).
    pose proof (GInv_with_node g u H) as H1. pose proof (GInv_with_node _ v H1) as H2.
    set (g2 := with_node (with_node g u) v) in *.
    assert (Hu : u ∈ nodes g2) by (unfold g2; rewrite !nodes_with_node; naive_solver).
    assert (HE : ∀ u' v' k', edge_attrs (put_edge g2 u v k a) u' v' k' =
         if decide (u' = u ∧ v' = v ∧ k' = k) then Some a else edge_attrs g u' v' k').
    { intros. rewrite edge_attrs_put_edge by (apply H2 || done). unfold g2.
      rewrite !edge_attrs_with_node; [done|apply H|apply H1]. }
    exists (put_edge g2 u v k a), a. split_and!; try done.
    - rewrite HE. by rewrite decide_True.
    - intros x. by rewrite (attr_merge_has_layer _ _ _ _ x Hm).
    - intros key Hkey. destruct Hm as [_ Hm]. by rewrite Hm.
    - intros u' v' k' Hne. rewrite HE. rewrite decide_False; [done|]. naive_solver.
    - pose proof (ends_with g u v) as [E1 E2]. split.
      + intros n b Hb. rewrite node_attrs_put_edge. by apply E1.
      + intros n Hn. rewrite node_attrs_put_edge. by apply E2.
    - eapply same_doc_trans; [apply (same_doc_with_node g u)|].
      eapply same_doc_trans; [apply (same_doc_with_node _ v)|]. apply same_doc_put_edge.
  Qed.
  Lemma add_edge_bad g u v layers key ad attr :
    bad_layers layers → add_edge g u v layers key ad attr = (g, Some AssertionError).
  Proof. intros Hb. unfold add_edge. by rewrite (check_bad (g_ns g) layers Hb). Qed.
  Lemma add_node_bad g n layers ad attr :
    bad_layers layers → add_node g n layers ad attr = (g, Some AssertionError).
  Proof. intros Hb. unfold add_node. by rewrite (check_bad (g_ns g) layers Hb). Qed.

  (** C05 *)
  Lemma add_node_full g n layers ad attr l :
    GInv g → asked_layers (g_ns g) layers l →
    ∃ g' a, add_node g n layers ad attr = (g', None) ∧
      node_attrs g' n = Some a ∧
      (∀ x, has_layer a x ↔ x ∈ l ∨ ohas_layer (node_attrs g n) x) ∧
      (∀ key, key ≠ "layers" → dget key a =
         match dget key (given_attrs ad attr) with
         | Some w => Some w | None => oget (node_attrs g n) key end) ∧
      (∀ m, m ≠ n → node_attrs g' m = node_attrs g m) ∧
      (∀ u v k, edge_attrs g' u v k = edge_attrs g u v k) ∧
      same_doc g g'.
  Proof.
    intros H Ha%check_asked. pose proof (add_node_eff g n layers ad attr (proj1 H) (proj2 H)) as He.
    rewrite Ha in He. destruct He as (a & -> & Hm). exists (put_node g n a), a. split_and!; try done.
    - rewrite node_attrs_put_node. by rewrite decide_True.
    - intros x. by rewrite (attr_merge_has_layer _ _ _ _ x Hm).
    - intros key Hkey. destruct Hm as [_ Hm]. by rewrite Hm.
    - intros m Hm'. rewrite node_attrs_put_node. by rewrite decide_False.
    - intros. apply edge_attrs_put_node, H.
    - apply same_doc_put_node.
  Qed.

  (** C06: one call with a list of (id, dict) tuples *)
  Lemma add_tuples l : ∀ g attr,
    GInv g → NoDup l.*1 → (∀ n d, (n, d) ∈ l → ∃ s, default (VSet [g_ns g]) (dget "layers" d) = VSet s) →
    ∃ g', add_nodes_from g ((λ p : nid * attrs, NTup p.1 p.2) <$> l) attr = (g', None) ∧
      GInv g' ∧
      (∀ n d s, (n, d) ∈ l → default (VSet [g_ns g]) (dget "layers" d) = VSet s →
        ∃ a, node_attrs g' n = Some a ∧
          attr_merge (node_attrs g n) s
            (if decide (n ∈ nodes g) then dupdate d attr else dupdate attr d) a) ∧
      (∀ n, n ∉ l.*1 → node_attrs g' n = node_attrs g n) ∧
      (∀ u v k, edge_attrs g' u v k = edge_attrs g u v k) ∧ same_doc g g'.
  Proof.
    unfold add_nodes_from. induction l as [|[n a] l IH]; intros g attr H Hnd Hl; cbn [fmap list_fmap for_each].
    { exists g. split_and!; try done. intros n d s Hx. by apply elem_of_nil in Hx. }
    rewrite fmap_cons in Hnd. apply NoDup_cons in Hnd as [Hn Hnd]. simpl in Hn.
    destruct (Hl n a) as [s0 Hs0]; [left|].
    pose proof (add_nodes_from1_tup_eff g n a attr H) as He. unfold tup_layers in He.
    rewrite Hs0 in He. destruct He as (a' & He & Hm). cbn [fst snd]. rewrite He.
    set (g1 := put_node g n a').
    assert (H1 : GInv g1) by (apply GInv_put_node; [done|by eapply attr_merge_layered]).
    assert (Hns : g_ns g1 = g_ns g) by (pose proof (put_node_other g n a'); naive_solver).
    destruct (IH g1 attr H1 Hnd) as (g' & -> & H' & N' & U' & E' & D').
    { intros m d Hm'. rewrite Hns. apply (Hl m). by right. }
    exists g'. split_and!; try done.
    - intros m d s Hin Hs. apply elem_of_cons in Hin as [[= -> ->]|Hin].
      + exists a'. rewrite U' by done. unfold g1. rewrite node_attrs_put_node, decide_True by done.
        split; [done|]. rewrite Hs0 in Hs. injection Hs as ->. done.
      + assert (Hne : m ≠ n).
        { intros ->. apply Hn. apply elem_of_list_fmap. by exists (n, d). }
        destruct (N' m d s Hin) as (b & Hb & Hmb); [by rewrite Hns|]. exists b. split; [done|].
        unfold g1 in Hmb. rewrite node_attrs_put_node, decide_False in Hmb by done.
        destruct (decide (m ∈ nodes (put_node g n a'))) as [Hi|Hi], (decide (m ∈ nodes g)) as [Hj|Hj];
          try done; rewrite nodes_put_node in Hi; naive_solver.
    - intros m Hm'. apply not_elem_of_cons in Hm'. destruct Hm' as [Hm1 Hm2]. simpl in Hm1.
      rewrite U' by done. unfold g1. rewrite node_attrs_put_node. by rewrite decide_False.
    - intros. rewrite E'. apply edge_attrs_put_node, H.
    - eapply same_doc_trans; [apply (same_doc_put_node g n a')|done].
  Qed.

  (** C07 *)
  Lemma add_edges_from_one g u v key d ad attr l l' :
    GInv g →
    default (VSet [g_ns g]) (dget "layers" d) = VSet l → l ≠ [] →
    (l' = [] ∧ dget "layers" (given_attrs ad attr) = None ∨
     dget "layers" (given_attrs ad attr) = Some (VSet l')) →
    ∃ g' k a, add_edges_from g [ESpec u v key d] ad attr = (g', None) ∧
      match key with Some k' => k = k' | None => edge_attrs g u v k = None end ∧
      edge_attrs g' u v k = Some a ∧
      (∀ x, has_layer a x ↔ x ∈ l ∨ x ∈ l' ∨ ohas_layer (edge_attrs g u v k) x) ∧
      (∀ x, x ≠ "layers" → dget x a =
         match dget x d with
         | Some w => Some w
         | None => match dget x (given_attrs ad attr) with
                   | Some w => Some w
                   | None => oget (edge_attrs g u v k) x
                   end
         end) ∧
      (∀ u' v' k', (u', v', k') ≠ (u, v, k) → edge_attrs g' u' v' k' = edge_attrs g u' v' k') ∧
      endpoint_effect g g' u v ∧ same_doc g g'.
  Proof.
    intros H Hl Hne Hl'. unfold add_edges_from.
    set (A := match ad with None => attr | Some d0 => dupdate d0 attr end).
    assert (HA : ∀ x, dget x A = dget x (given_attrs ad attr)).
    { intros x. unfold A, given_attrs. destruct ad; [done|]. rewrite dget_dupdate. simpl. by destruct (dget x attr). }
    cbn [for_each]. pose proof (add_edges_from1_eff g A (ESpec u v key d) H) as He. simpl in He.
    unfold tup_layers in He. rewrite Hl in He.
    assert (Hal : additional_layers A = Ok l').
    { unfold additional_layers. rewrite HA. destruct Hl' as [[-> ->]| ->]; done. }
    rewrite Hal in He. destruct He as (k & a & g1 & -> & Hg1 & Hk & L & HL & Hm).
    destruct (edges_from1_cases g (ESpec u v key d) k g1 H Hg1) as (H1 & Hu & Hv & Hna & Hea & Hdoc).
    simpl in *.
    assert (HE : ∀ u' v' k', edge_attrs (put_edge g1 u v k a) u' v' k' =
         if decide (u' = u ∧ v' = v ∧ k' = k) then Some a else edge_attrs g u' v' k').
    { intros. rewrite edge_attrs_put_edge by (apply H1 || done).
      destruct (decide _) as [?|Hd]; [done|]. apply Hea. naive_solver. }
    exists (put_edge g1 u v k a), k, a. split_and!; try done.
    - destruct key; [done|]. apply Hk.
    - rewrite HE. by rewrite decide_True.
    - intros x. rewrite (attr_merge_has_layer _ _ _ _ x Hm), HL. naive_solver.
    - intros x Hx. destruct Hm as [_ Hm]. rewrite Hm by done. rewrite dget_dupdate, HA.
      by destruct (dget x d).
    - intros u' v' k' Hne'. rewrite HE. rewrite decide_False; [done|]. naive_solver.
    - pose proof (ends_with g u v) as [E1 E2]. split.
      + intros n b Hb. rewrite node_attrs_put_edge, Hna. by apply E1.
      + intros n Hn. rewrite node_attrs_put_edge, Hna. by apply E2.
    - eapply same_doc_trans; [exact Hdoc|]. apply same_doc_put_edge.
  Qed.

  (** C07: a whole list of edges without keys *)
  Lemma add_edges_fresh l : ∀ g,
    GInv g → (∀ u v d, (u, v, d) ∈ l → nlayered d) →
    ∃ g' new, add_edges_from g ((λ e : nid * nid * attrs, ESpec e.1.1 e.1.2 None e.2) <$> l) None [] = (g', None) ∧
      edges g' ≡ₚ edges g ++ new ∧
      Forall2 (λ e e', e'.1.1 = e.1 ∧ attr_eqv e.2 e'.2) l new ∧
      (∀ n a, node_attrs g n = Some a → node_attrs g' n = Some a) ∧
      (∀ n, n ∈ nodes g' ↔ n ∈ nodes g ∨ n ∈ (fst ∘ fst <$> l) ∨ n ∈ (snd ∘ fst <$> l)) ∧
      same_doc g g'.
  Proof.
    induction l as [|[[u v] d] l IH]; intros g H Hl.
    { exists g, []. rewrite app_nil_r. split_and!; try done. intros n.
      rewrite !fmap_nil, elem_of_nil. naive_solver. }
    destruct (Hl u v d) as (x0 & l0 & Hd); [left|].
    destruct (add_edges_from_one g u v None d None [] (x0 :: l0) [] H)
      as (g1 & k & a & He & Hk & Ha & HL & HA & HO & HE & HD).
    { by rewrite Hd. } { done. } { by left. }
    assert (H1 : GInv g1).
    { pose proof (GInv_step g (OAddEdgesFrom [ESpec u v None d] None []) I H) as Hs. cbn [step] in Hs.
      by rewrite He in Hs. }
    destruct (IH g1 H1) as (g' & new & He' & Hp & HF & HN & HNn & HD').
    { intros u' v' d' Hin. apply (Hl u' v'). by right. }
    exists g', ((u, v, k, a) :: new).
    unfold add_edges_from in *. cbn [fmap list_fmap for_each] in *. cbn [fst snd].
    destruct (add_edges_from1 g [] (ESpec u v None d)) as [g1' [e|]]; [done|].
    injection He as ->. rewrite He'. split_and!; [done| | | | |].
    - rewrite Hp. assert (edges g1 ≡ₚ (u, v, k, a) :: edges g) as ->.
      { apply edges_insert; [apply H|apply H1|done|]. intros u' v' k'.
        destruct (decide _) as [(-> & -> & ->)|Hne]; [done|]. apply HO. naive_solver. }
      simpl. by rewrite Permutation_middle.
    - constructor; [|done]. split; [done|]. split.
      + intros x. simpl. rewrite HL, Hk. unfold has_layer at 1. rewrite Hd.
        unfold ohas_layer. rewrite elem_of_nil. naive_solver.
      + intros key Hkey. simpl. rewrite HA by done. rewrite Hk. unfold given_attrs. simpl.
        by destruct (dget key d).
    - intros n b Hb. apply HN. by apply (proj1 HE).
    - intros n. rewrite HNn, !elem_of_cons. simpl.
      assert (n ∈ nodes g1 ↔ n ∈ nodes g ∨ n = u ∨ n = v) as ->; [|naive_solver].
      destruct (decide (n ∈ nodes g)) as [Hn|Hn].
      + split; [by left|]. intros _. apply node_mem in Hn as [b Hb]. apply node_mem.
        exists b. by apply (proj1 HE).
      + rewrite (node_mem g1), (proj2 HE n Hn). destruct (decide (n = u ∨ n = v)) as [Hd'|Hd'].
        * split; [by right|]. by eexists.
        * split; [by intros [? ?]|]. tauto.
    - by eapply same_doc_trans.
  Qed.

  (** C15 *)
  Lemma precedence g t0 t1 ts :
    GInv g → g_tokens g = t0 :: t1 :: ts →
    ∃ g' new, add_precedence_relations g = (g', None) ∧
      edges g' ≡ₚ new ++ edges g ∧
      (λ e, e.1.1) <$> new = zip (g_root g :: g_tokens g) (g_tokens g) ∧
      Forall (λ e, prec_attrs (g_ns g) e.2) new ∧
      (∀ n a, node_attrs g n = Some a → node_attrs g' n = Some a) ∧
      (∀ n, n ∉ nodes g → n ∉ g_root g :: g_tokens g → n ∉ nodes g') ∧
      same_doc g g'.
  Proof.
    intros H Ht. unfold add_precedence_relations. rewrite Ht.
    destruct (prec_loop ((g_root g, t0) :: zip (t0 :: t1 :: ts) (tail (t0 :: t1 :: ts))) g H)
      as (g' & new & He & H' & Hp & HF & HN1 & HN2 & Hdoc).
    exists g', new. split_and!; try done.
    - assert (Hz : zip (g_root g :: t0 :: t1 :: ts) (t0 :: t1 :: ts) =
                   (g_root g, t0) :: zip (t0 :: t1 :: ts) (t1 :: ts)) by done.
      rewrite Hz. clear -HF. simpl tail in HF. revert HF.
      generalize ((g_root g, t0) :: zip (t0 :: t1 :: ts) (t1 :: ts)). intros l HF.
      induction HF as [|p e l new' [He _] HF IH]; [done|]. rewrite fmap_cons. by rewrite He, IH.
    - apply Forall_forall. intros e He'. apply elem_of_list_lookup in He' as [i Hi].
      by destruct (Forall2_lookup_r _ _ _ _ _ HF Hi) as (p & _ & _ & ?).
    - intros n Hn Hni. apply node_nmem. apply node_nmem in Hn. rewrite HN2 by done.
      rewrite decide_False; [done|]. intros Hin. apply Hni. rewrite !fmap_cons in Hin.
      apply elem_of_app in Hin as [Hin|Hin]; apply elem_of_cons in Hin as [->|Hin]; simpl.
      + left.
      + right. by eapply zip_fst_sub.
      + right. left.
      + right. apply zip_snd_sub in Hin. simpl in Hin. by right.
  Qed.
  Lemma precedence_short g :
    length (g_tokens g) < 2 → add_precedence_relations g = (g, Some AssertionError).
  Proof.
    unfold add_precedence_relations. destruct (g_tokens g) as [|t0 [|t1 ts]]; simpl; [done|done|lia].
  Qed.

  (** C10 *)
  Lemma endpoints_default es : ∀ g n,
    GInv g → n ∉ nodes g →
    node_attrs (add_edges_from g es None []).1 n = None ∨
    node_attrs (add_edges_from g es None []).1 n = Some [("layers", VSet [g_ns g])].
  Proof.
    intros g n H Hn. unfold add_edges_from.
    assert (GInv (for_each (λ g e, add_edges_from1 g [] e) es g).1 ∧
            g_ns (for_each (λ g e, add_edges_from1 g [] e) es g).1 = g_ns g ∧
       (node_attrs (for_each (λ g e, add_edges_from1 g [] e) es g).1 n = None ∨
        node_attrs (for_each (λ g e, add_edges_from1 g [] e) es g).1 n = Some [("layers", VSet [g_ns g])]))
      as (_ & _ & ?); [|done].
    apply (for_each_inv (λ g', GInv g' ∧ g_ns g' = g_ns g ∧
       (node_attrs g' n = None ∨ node_attrs g' n = Some [("layers", VSet [g_ns g])]))).
    { split_and!; [done|done|]. left. by apply node_nmem. }
    intros g0 e _ (H0 & N0 & D0). split; [by apply GInv_add_edges_from1|].
    pose proof (add_edges_from1_eff g0 [] e H0) as He.
    destruct (tup_layers _ _) as [| | | |l| |]; try by rewrite He.
    simpl in He. destruct He as (k & a & g1 & -> & Hg1 & _). simpl.
    destruct (edges_from1_cases g0 e k g1 H0 Hg1) as (H1 & Hu & Hv & Hna & _ & _ & Hns & _).
    split.
    - pose proof (put_edge_other g1 (e_u e) (e_v e) k a) as (?&Hpn&?). simpl in *. congruence.
    - rewrite node_attrs_put_edge, Hna.
      assert (Hns' : g_ns (with_node g0 (e_u e)) = g_ns g0)
        by (pose proof (with_node_other g0 (e_u e)); naive_solver).
      rewrite !node_attrs_with_node, Hns', N0. destruct D0 as [-> | ->]; [|by right].
      destruct (decide (n = e_u e)); [by right|]. destruct (decide (n = e_v e)); [by right|by left].
  Qed.
  Lemma relabel_identity g n r :
    GInv g → n ∈ nodes g → relabel_inplace g [(n, n)] r →
    node_attrs r.1 n = None ∨ node_attrs r.1 n = Some [("layers", VSet [g_ns g])].
  Proof.
    intros H Hn Hr.
    assert (H1 : node_attrs (relabel1 g n n).1 n = None ∨
                 node_attrs (relabel1 g n n).1 n = Some [("layers", VSet [g_ns g])]).
    { unfold relabel1. apply node_mem in Hn as [a Ha]. rewrite Ha.
      destruct (proj1 (proj2 H) _ _ Ha) as [l Hl]. rewrite Hl.
      assert (Hc : asked_layers (g_ns g) (VSet l) (match l with [] => [g_ns g] | _ => l end)).
      { destruct l; [by right|by left]. }
      destruct (add_node_full g n (VSet l) (Some a) [] _ H Hc) as (g1 & a1 & He & Ha1 & _ & _ & _ & _ & D1).
      assert (H1 : GInv g1).
      { pose proof (GInv_add_node g n (VSet l) (Some a) [] H) as Hg. by rewrite He in Hg. }
      rewrite He. pose proof (remove_node_eff g1 n (proj1 H1)) as Hr1.
      rewrite decide_True in Hr1 by (apply node_mem; by eexists).
      destruct Hr1 as (g2 & Hr2 & C2 & Hn2 & _ & _ & _ & Hns2 & _). rewrite Hr2.
      pose proof (GInv_remove_node g1 n H1) as H2. rewrite Hr2 in H2. simpl in H2.
      assert (Hns : g_ns g2 = g_ns g) by (unfold same_doc in D1; destruct_and!; congruence).
      rewrite <-Hns. apply endpoints_default; [done|]. apply node_nmem. rewrite Hn2. by rewrite decide_True. }
    assert (Hone : ∀ order, NoDup order → n ∈ order → (∀ x, x ∈ order → x = n) →
              relabel_loop g [(n, n)] order = relabel1 g n n).
    { intros order Hnd Hin Hall. destruct order as [|x [|y order]].
      - by apply elem_of_nil in Hin.
      - rewrite (Hall x) by left. unfold relabel_loop. cbn [for_each dget]. rewrite decide_True by done.
        by destruct (relabel1 g n n) as [g' [e|]].
      - exfalso. assert (x = n) as -> by (apply Hall; left). assert (y = n) as -> by (apply Hall; right; left).
        apply NoDup_cons in Hnd as [Hnd _]. apply Hnd. left. }
    inversion Hr as [order Hno Hp|l Hov Ht|Hov Hnt]; subst.
    - destruct Hno. exists n. split; left.
    - destruct Ht as (Hnd & Hall & _). rewrite Hone; [done| | |].
      + by rewrite reverse_Permutation.
      + apply elem_of_reverse, Hall. left. left.
      + intros x Hx. apply elem_of_reverse, Hall in Hx. simpl in Hx.
        rewrite !elem_of_list_singleton in Hx. naive_solver.
    - destruct (Hnt [n]). split_and!.
      + apply NoDup_singleton.
      + intros x. simpl. rewrite !elem_of_list_singleton. naive_solver.
      + intros a b Hab%elem_of_list_singleton Hne. congruence.
  Qed.
End thms.
