(** * History: invariants over arbitrary call histories (proofs) *)
From Verif Require Import PyBase DocGraph DocGraphFacts.

Section remove.
  Implicit Types (g : graph) (n u v k : nid).

  (** the loop "for u in nbrs: del self.pred[u][n]" *)
  Lemma pred_loop (l : list nid) n : ∀ (p : dict nid (list nid)) x,
    dget x (foldl (λ p u, match dget u p with
                          | Some ps => dset u (filter (λ y, y ≠ n) ps) p
                          | None => p end) p l) =
    if decide (x ∈ l) then filter (λ y, y ≠ n) <$> dget x p else dget x p.
  Proof.
    induction l as [|u l IH]; intros p x; cbn [foldl].
    { rewrite decide_False; [done|apply not_elem_of_nil]. }
    rewrite IH. clear IH.
    assert (Hf : ∀ q : list nid, filter (λ y, y ≠ n) (filter (λ y, y ≠ n) q) = filter (λ y, y ≠ n) q).
    { intros q. rewrite list_filter_filter. apply list_filter_iff. naive_solver. }
    destruct (decide (x = u)) as [->|Hne].
    - rewrite (decide_True (P := u ∈ u :: l)) by left.
      destruct (dget u p) as [ps|] eqn:E.
      + rewrite dget_dset_eq. simpl. rewrite Hf. by case_decide.
      + rewrite E. by case_decide.
    - assert (Hd : dget x (match dget u p with
                          | Some ps => dset u (filter (λ y, y ≠ n) ps) p
                          | None => p end) = dget x p).
      { case_match; [|done]. by rewrite dget_dset_ne. }
      rewrite Hd. destruct (decide (x ∈ l)).
      + by rewrite decide_True by (by right).
      + rewrite decide_False; [done|]. rewrite not_elem_of_cons. done.
  Qed.
  Lemma pred_loop_keys (l : list nid) n : ∀ (p : dict nid (list nid)),
    dkeys (foldl (λ p u, match dget u p with
                          | Some ps => dset u (filter (λ y, y ≠ n) ps) p
                          | None => p end) p l) = dkeys p.
  Proof.
    induction l as [|u l IH]; intros p; cbn [foldl]; [done|]. rewrite IH.
    destruct (dget u p) eqn:E; [|done]. rewrite dkeys_dset, decide_True; [done|].
    apply dget_is_Some; eauto.
  Qed.
  Lemma succ_loop {V} (l : list nid) n : ∀ (s : dict nid (dict nid V)) x,
    dget x (foldl (λ s u, match dget u s with
                          | Some nb => dset u (ddel n nb) s
                          | None => s end) s l) =
    if decide (x ∈ l) then ddel n <$> dget x s else dget x s.
  Proof.
    induction l as [|u l IH]; intros p x; cbn [foldl].
    { rewrite decide_False; [done|apply not_elem_of_nil]. }
    rewrite IH. clear IH.
    assert (Hf : ∀ q : dict nid V, ddel n (ddel n q) = ddel n q).
    { intros q. rewrite !ddel_filter, list_filter_filter. apply list_filter_iff. naive_solver. }
    destruct (decide (x = u)) as [->|Hne].
    - rewrite (decide_True (P := u ∈ u :: l)) by left.
      destruct (dget u p) as [ps|] eqn:E.
      + rewrite dget_dset_eq. simpl. rewrite Hf. by case_decide.
      + rewrite E. by case_decide.
    - assert (Hd : dget x (match dget u p with
                          | Some nb => dset u (ddel n nb) p
                          | None => p end) = dget x p).
      { case_match; [|done]. by rewrite dget_dset_ne. }
      rewrite Hd. destruct (decide (x ∈ l)).
      + by rewrite decide_True by (by right).
      + rewrite decide_False; [done|]. rewrite not_elem_of_cons. done.
  Qed.
  Lemma succ_loop_keys {V} (l : list nid) n : ∀ (s : dict nid (dict nid V)),
    dkeys (foldl (λ s u, match dget u s with
                          | Some nb => dset u (ddel n nb) s
                          | None => s end) s l) = dkeys s.
  Proof.
    induction l as [|u l IH]; intros p; cbn [foldl]; [done|]. rewrite IH.
    destruct (dget u p) eqn:E; [|done]. rewrite dkeys_dset, decide_True; [done|].
    apply dget_is_Some; eauto.
  Qed.

  (** The whole effect of remove_node on a consistent graph. *)
  Lemma remove_node_eff g n :
    Consistent g →
    if decide (n ∈ nodes g) then
      ∃ g', remove_node g n = (g', None) ∧ Consistent g' ∧
        (∀ m, node_attrs g' m = if decide (m = n) then None else node_attrs g m) ∧
        (∀ u v, keydict_of g' u v = if decide (u = n ∨ v = n) then [] else keydict_of g u v) ∧
        nodes g' = filter (λ m, m ≠ n) (nodes g) ∧
        g_name g' = g_name g ∧ g_ns g' = g_ns g ∧ g_root g' = g_root g ∧
        g_tokens g' = g_tokens g ∧ g_sentences g' = g_sentences g ∧ g_meta g' = g_meta g
    else remove_node g n = (g, Some NetworkXError).
  Proof.
    intros C. destruct (decide (n ∈ nodes g)) as [Hn|Hn]; cycle 1.
    { unfold remove_node. rewrite <-(c_succ_dom g C) in Hn. apply dget_None in Hn. by rewrite Hn. }
    pose proof (succ_get _ _ C Hn) as [nb Hnb].
    pose proof (pred_get _ _ C Hn) as [ps Hps].
    pose proof Hn as Hn'. apply node_mem in Hn' as [a Ha]. unfold node_attrs in Ha.
    unfold remove_node. rewrite Hnb, Ha.
    match goal with |- context [foldl ?f (g_pred g) (dkeys nb)] =>
      set (pred1 := foldl f (g_pred g) (dkeys nb)) end.
    assert (Hp1 : ∀ x, dget x pred1 = if decide (x ∈ dkeys nb)
              then filter (λ y, y ≠ n) <$> dget x (g_pred g) else dget x (g_pred g)).
    { intros x. apply pred_loop. }
    assert (Hp1k : dkeys pred1 = dkeys (g_pred g)) by apply pred_loop_keys.
    match goal with |- context [foldl ?f (ddel n (g_succ g)) ?l] =>
      set (succ2 := foldl f (ddel n (g_succ g)) l) end.
    assert (Hnn : n ∈ dkeys nb ↔ n ∈ ps).
    { pose proof (c_sp g C n n) as Hsp. unfold successors, predecessors in Hsp.
      by rewrite Hnb, Hps in Hsp. }
    assert (Hl : ∀ x, x ∈ default [] (dget n pred1) ↔ x ≠ n ∧ x ∈ ps).
    { intros x. rewrite Hp1, Hps. case_decide as Hd; simpl.
      - by rewrite elem_of_list_filter.
      - split; [|naive_solver]. intros Hx. split; [|done]. intros ->. naive_solver. }
    assert (Hs2 : ∀ x, dget x succ2 = if decide (x = n) then None else
               if decide (x ∈ ps) then ddel n <$> dget x (g_succ g) else dget x (g_succ g)).
    { intros x. unfold succ2. rewrite succ_loop. rewrite dget_ddel.
      destruct (decide (x = n)) as [->|Hx].
      - by case_decide.
      - destruct (decide (x ∈ ps)).
        + by rewrite decide_True by (by apply Hl).
        + rewrite decide_False; [done|]. rewrite Hl. naive_solver. }
    assert (Hps_iff : ∀ u, u ∈ ps ↔ n ∈ successors g u).
    { intros u. rewrite (c_sp g C). unfold predecessors. by rewrite Hps. }
    assert (Hnb_iff : ∀ v, v ∈ dkeys nb ↔ n ∈ predecessors g v).
    { intros v. rewrite <-(c_sp g C). unfold successors. by rewrite Hnb. }
    eexists; split; [reflexivity|].
    match goal with |- Consistent ?G ∧ _ => set (g' := G) end.
    assert (Hnodes : nodes g' = filter (λ m, m ≠ n) (nodes g)) by apply dkeys_ddel.
    assert (Hkd : ∀ u v, keydict_of g' u v = if decide (u = n ∨ v = n) then [] else keydict_of g u v).
    { intros u v. unfold keydict_of. cbn [g' g_succ]. rewrite Hs2.
      destruct (decide (u = n)) as [->|Hu].
      - rewrite decide_True by (by left). done.
      - destruct (decide (u ∈ ps)) as [Hup|Hup].
        + destruct (dget u (g_succ g)) as [nb'|] eqn:E; simpl.
          * rewrite dget_ddel. destruct (decide (v = n)); [by rewrite decide_True by naive_solver|].
            by rewrite decide_False by naive_solver.
          * by case_decide.
        + case_decide as Hd; [|done]. destruct Hd as [->| ->]; [done|].
          rewrite Hps_iff in Hup. unfold successors in Hup.
          apply dget_None in Hup. by rewrite Hup. }
    assert (Hsucc : ∀ u v, v ∈ successors g' u ↔ u ≠ n ∧ v ≠ n ∧ v ∈ successors g u).
    { intros u v. unfold successors. cbn [g' g_succ]. rewrite Hs2.
      destruct (decide (u = n)) as [->|Hu]; [simpl; rewrite elem_of_nil; naive_solver|].
      destruct (decide (u ∈ ps)) as [Hup|Hup].
      - destruct (dget u (g_succ g)) as [nb'|] eqn:E; simpl.
        + rewrite dkeys_ddel_elem. naive_solver.
        + rewrite elem_of_nil. naive_solver.
      - split; [|naive_solver]. intros Hv. split_and!; try done. intros ->.
        apply Hup, Hps_iff. done. }
    assert (Hpred : ∀ u v, u ∈ predecessors g' v ↔ u ≠ n ∧ v ≠ n ∧ u ∈ predecessors g v).
    { intros u v. unfold predecessors. cbn [g' g_pred]. rewrite dget_ddel, Hp1.
      destruct (decide (v = n)) as [->|Hv]; [simpl; rewrite elem_of_nil; naive_solver|].
      destruct (decide (v ∈ dkeys nb)) as [Hvp|Hvp].
      - destruct (dget v (g_pred g)) as [ps'|] eqn:E; simpl.
        + rewrite elem_of_list_filter. naive_solver.
        + rewrite elem_of_nil. naive_solver.
      - split; [|naive_solver]. intros Hu. split_and!; try done. intros ->.
        apply Hvp, Hnb_iff. done. }
    split_and!; try done.
    - split.
      + rewrite Hnodes. apply NoDup_filter, C.
      + rewrite Hnodes. cbn [g' g_succ]. unfold succ2. rewrite succ_loop_keys, dkeys_ddel.
        by rewrite (c_succ_dom g C).
      + rewrite Hnodes. cbn [g' g_pred]. rewrite dkeys_ddel, Hp1k. by rewrite (c_pred_dom g C).
      + intros u nbrs. cbn [g' g_succ]. rewrite Hs2. case_decide; [done|].
        case_decide; [|apply C]. destruct (dget u (g_succ g)) as [nb'|] eqn:E; [|done].
        intros [= <-]. destruct (c_adj g C _ _ E) as [H1 H2]. split; [by apply NoDup_ddel|].
        intros v kd. rewrite dget_ddel. case_decide; [done|]. apply H2.
      + intros v ps'. cbn [g' g_pred]. rewrite dget_ddel, Hp1. case_decide; [done|].
        case_decide; [|apply C]. destruct (dget v (g_pred g)) as [q|] eqn:E; [|done].
        intros [= <-]. apply NoDup_filter. by eapply C.
      + intros u v. rewrite Hsucc, Hpred, (c_sp g C). done.
    - intros m. unfold node_attrs. cbn [g' g_node]. apply dget_ddel.
  Qed.
End remove.

Section loops.
  Implicit Types (g : graph).
  (** Any property preserved by each iteration survives a for loop that may
      be cut short by an exception. *)
  Lemma for_each_inv {A} (P : graph → Prop) (f : graph → A → outcome) l : ∀ g,
    P g → (∀ g x, x ∈ l → P g → P (f g x).1) → P (for_each f l g).1.
  Proof.
    induction l as [|x l IH]; intros g Hg Hf; cbn [for_each]; [done|].
    pose proof (Hf g x (elem_of_list_here _ _) Hg) as Hx.
    destruct (f g x) as [g' [e|]]; simpl in *; [done|].
    apply IH; [done|]. intros g0 y Hy. apply Hf. by right.
  Qed.
End loops.

(** ** Which call can break the layer invariant *)
(** add_nodes_from(bare ids, layers=...) *)
Section hist.
  Implicit Types (g : graph) (n u v k : nid) (a : attrs).

  Lemma GInv_init name ns root : GInv (init_graph name ns root).
  Proof.
    unfold init_graph.
    match goal with |- context [add_node ?G ?R _ _ _] => set (g0 := G); set (r := R) end.
    assert (GInv g0) as H0.
    { split.
      - split; [constructor|done|done|done|done|].
        intros u v. unfold successors, predecessors. simpl. by rewrite !elem_of_nil.
      - split; done. }
    pose proof (add_node_eff g0 r (VSet [ns]) None [] (proj1 H0) (proj2 H0)) as He.
    simpl in He. destruct He as (a & -> & Hm). simpl.
    apply GInv_put_node; [done|]. by eapply attr_merge_layered.
  Qed.

  Lemma add_layer_keydict_spec layer (kd : dict nid attrs) :
    (∀ k a, (k, a) ∈ kd → layered a) →
    ∃ kd', add_layer_keydict layer kd = (kd', None) ∧ dkeys kd' = dkeys kd ∧
      ∀ k, match dget k kd with
           | None => dget k kd' = None
           | Some a => ∃ a', dget k kd' = Some a' ∧ attr_merge (Some a) [layer] [] a'
           end.
  Proof.
    induction kd as [|[k0 a0] kd IH]; intros Hl; simpl.
    { exists []. by split_and!. }
    destruct (Hl k0 a0 (elem_of_list_here _ _)) as [l0 Hl0]. rewrite Hl0.
    destruct IH as (kd' & -> & Hk & Hs). { intros k a Hin. apply (Hl k a). by right. }
    eexists; split; [reflexivity|]. split; [simpl; by f_equal|].
    intros k. simpl. case_decide.
    - subst. eexists; split; [done|]. split.
      + eexists; split; [apply dget_dset_eq|]. intros x.
        rewrite elem_set_add, elem_of_list_singleton. unfold ohas_layer, has_layer. naive_solver.
      + intros key Hne. by rewrite dget_dset_ne.
    - apply Hs.
  Qed.

  Lemma GInv_set_keydict g u v nb kd kd' :
    GInv g → dget u (g_succ g) = Some nb → dget v nb = Some kd →
    dkeys kd' = dkeys kd → (∀ k a, dget k kd' = Some a → layered a) →
    GInv (upd_kd g u v nb kd').
  Proof.
    intros [C [L1 L2]] Hu Hv Hk Hl.
    destruct (c_adj g C _ _ Hu) as [_ Hkk]. destruct (Hkk _ _ Hv) as [Hnn Hnd].
    split.
    - apply Consistent_upd_kd; try done.
      + apply dget_is_Some; eauto.
      + intros ->. by destruct kd.
      + by rewrite Hk.
    - split; [apply L1|]. intros u' v' k' a. unfold edge_attrs.
      rewrite keydict_upd_kd by done. case_decide; [apply Hl|apply L2].
  Qed.

  (** effect of add_layer on an edge *)
  Lemma add_layer_edge_eff g u v layer :
    GInv g →
    if decide (v ∈ successors g u) then
      ∃ g', add_layer_edge g u v layer = (g', None) ∧ GInv g' ∧
        (∀ n, node_attrs g' n = node_attrs g n) ∧
        (∀ u' v' k, match edge_attrs g u' v' k with
           | None => edge_attrs g' u' v' k = None
           | Some a => ∃ a', edge_attrs g' u' v' k = Some a' ∧
               if decide (u' = u ∧ v' = v) then attr_merge (Some a) [layer] [] a' else a' = a
           end) ∧
        g_name g' = g_name g ∧ g_ns g' = g_ns g ∧ g_root g' = g_root g ∧
        g_tokens g' = g_tokens g ∧ g_sentences g' = g_sentences g ∧ g_meta g' = g_meta g
    else add_layer_edge g u v layer = (g, Some KeyError).
  Proof.
    intros H. unfold add_layer_edge. destruct (decide (v ∈ successors g u)) as [Hs|Hs].
    - unfold successors in Hs. destruct (dget u (g_succ g)) as [nb|] eqn:Hu; simpl in Hs.
      2:{ by apply elem_of_nil in Hs. }
      apply dget_is_Some in Hs as [kd Hkd]. rewrite Hkd.
      assert (Hko : keydict_of g u v = kd).
      { unfold keydict_of. rewrite Hu. simpl. by rewrite Hkd. }
      assert (Hnd : NoDup (dkeys kd)).
      { destruct (c_adj g (proj1 H) _ _ Hu) as [_ Hkk]. by destruct (Hkk _ _ Hkd). }
      destruct (add_layer_keydict_spec layer kd) as (kd' & -> & Hk & Hsp).
      { intros k a Hin. apply (proj2 (proj2 H) u v k). unfold edge_attrs. rewrite Hko.
        by apply elem_dget. }
      eexists; split; [reflexivity|]. split.
      { eapply GInv_set_keydict; try done. intros k a Hka. specialize (Hsp k).
        destruct (dget k kd); [|congruence]. destruct Hsp as (a' & Ha' & Hm).
        rewrite Ha' in Hka. injection Hka as <-. by eapply attr_merge_layered. }
      split_and!; try done. intros u' v' k. unfold edge_attrs.
      pose proof (keydict_upd_kd g u v nb kd' u' v' Hu) as He. unfold upd_kd in He. rewrite He.
      destruct (decide (u' = u ∧ v' = v)) as [[-> ->]|Hne].
      + rewrite Hko. specialize (Hsp k). destruct (dget k kd); [|done]. done.
      + case_match; [|done]. eauto.
    - unfold successors in Hs. destruct (dget u (g_succ g)) as [nb|] eqn:Hu; simpl in Hs; [|done].
      apply dget_None in Hs. by rewrite Hs.
  Qed.

  Lemma add_layer_node_eff g n layer :
    GInv g →
    match node_attrs g n with
    | None => add_layer_node g n layer = (g, Some KeyError)
    | Some a => ∃ a', add_layer_node g n layer = (put_node g n a', None) ∧
                      attr_merge (Some a) [layer] [] a'
    end.
  Proof.
    intros H. unfold add_layer_node. fold (node_attrs g n).
    destruct (node_attrs g n) as [a|] eqn:E; [|done].
    destruct (proj1 (proj2 H) _ _ E) as [l Hl]. rewrite Hl.
    eexists; split; [apply put_node_in, node_mem; eauto|]. split.
    - eexists; split; [apply dget_dset_eq|]. intros x.
      rewrite elem_set_add, elem_of_list_singleton. unfold ohas_layer, has_layer. naive_solver.
    - intros key Hne. by rewrite dget_dset_ne.
  Qed.

  (** *** one step preserves the invariant *)
  Lemma GInv_add_edge g u v layers key ad attr :
    GInv g → GInv (add_edge g u v layers key ad attr).1.
  Proof.
    intros H. pose proof (add_edge_eff g u v layers key ad attr H) as He.
    destruct (check_layers _ _) as [l|x]; [|by rewrite He].
    destruct He as (k & a & -> & _ & Hm). simpl.
    apply GInv_put_edge.
    - by do 2 apply GInv_with_node.
    - rewrite !nodes_with_node. naive_solver.
    - rewrite !nodes_with_node. naive_solver.
    - by eapply attr_merge_layered.
  Qed.
  Lemma GInv_add_node g n layers ad attr :
    GInv g → GInv (add_node g n layers ad attr).1.
  Proof.
    intros H. pose proof (add_node_eff g n layers ad attr (proj1 H) (proj2 H)) as He.
    destruct (check_layers _ _) as [l|x]; [|by rewrite He].
    destruct He as (b & -> & Hm). apply GInv_put_node; [done|by eapply attr_merge_layered].
  Qed.
  Lemma GInv_add_nodes_from1 g attr s :
    (is_bare s → dget "layers" attr = None) →
    GInv g → GInv (add_nodes_from1 g attr s).1.
  Proof.
    intros Hb H. destruct s as [n|n d].
    - destruct (add_nodes_from1_bare_eff g n attr H) as (b & -> & Ha). simpl.
      apply GInv_put_node; [done|]. case_decide as Hn.
      + apply node_mem in Hn as [o Ho]. destruct (proj1 (proj2 H) _ _ Ho) as [l Hl].
        exists l. rewrite Ha, Hb by done. rewrite Ho. done.
      + destruct Ha as [Ha _]. by eexists.
    - pose proof (add_nodes_from1_tup_eff g n d attr H) as He.
      destruct (tup_layers _ _) as [| | | |l| |]; try by rewrite He.
      destruct He as (b & -> & Hm). apply GInv_put_node; [done|by eapply attr_merge_layered].
  Qed.
  Lemma edges_from1_cases g e k g1 :
    GInv g → (g1 = with_node (with_node g (e_u e)) (e_v e) ∨
           ∃ b, layered b ∧ is_Some (edge_attrs g (e_u e) (e_v e) k) ∧
                g1 = put_edge g (e_u e) (e_v e) k b) →
    GInv g1 ∧ e_u e ∈ nodes g1 ∧ e_v e ∈ nodes g1 ∧
    (∀ n, node_attrs g1 n = node_attrs (with_node (with_node g (e_u e)) (e_v e)) n) ∧
    (∀ u v k', (u, v, k') ≠ (e_u e, e_v e, k) → edge_attrs g1 u v k' = edge_attrs g u v k') ∧
    g_name g1 = g_name g ∧ g_ns g1 = g_ns g ∧ g_root g1 = g_root g ∧
    g_tokens g1 = g_tokens g ∧ g_sentences g1 = g_sentences g ∧ g_meta g1 = g_meta g.
  Proof.
    intros H Hg1. destruct Hg1 as [->|(b & Hb & [o Ho] & ->)].
    - pose proof (GInv_with_node g (e_u e) H) as H1.
      pose proof (GInv_with_node _ (e_v e) H1) as H2.
      pose proof (with_node_other g (e_u e)) as (?&?&?&?&?&?).
      pose proof (with_node_other (with_node g (e_u e)) (e_v e)) as (?&?&?&?&?&?).
      split_and!; try congruence; try done.
      + rewrite !nodes_with_node. naive_solver.
      + rewrite !nodes_with_node. naive_solver.
      + intros u v k' _. rewrite !edge_attrs_with_node; [done|apply H|apply H1].
    - pose proof (succ_nodes _ _ _ (proj1 H) (edge_succ _ _ _ _ _ Ho)) as [Hu Hv].
      pose proof (put_edge_other g (e_u e) (e_v e) k b) as (?&?&?&?&?&?&?).
      split_and!; try done.
      + by apply GInv_put_edge.
      + by rewrite nodes_put_edge.
      + by rewrite nodes_put_edge.
      + intros n. rewrite node_attrs_put_edge.
        rewrite (with_node_in g (e_u e) Hu). by rewrite (with_node_in g (e_v e) Hv).
      + intros u v k' Hne. rewrite edge_attrs_put_edge; [|apply H|done].
        rewrite decide_False; [done|]. naive_solver.
  Qed.
  Lemma GInv_add_edges_from1 g ad e : GInv g → GInv (add_edges_from1 g ad e).1.
  Proof.
    intros H. pose proof (add_edges_from1_eff g ad e H) as He.
    destruct (tup_layers _ _) as [| | | |l| |]; try by rewrite He.
    destruct (additional_layers ad) as [l'|x]; [|by rewrite He].
    destruct He as (k & a & g1 & -> & Hg1 & _ & L & _ & Hm). simpl.
    destruct (edges_from1_cases g e k g1 H) as (H1 & Hu & Hv & _).
    { done. }
    apply GInv_put_edge; try done. by eapply attr_merge_layered.
  Qed.

  Lemma GInv_set_tokens g l : GInv g → GInv (set_tokens l g).
  Proof. intros [C L]. split; [|exact L]. by destruct C. Qed.
  Lemma GInv_set_sentences g l : GInv g → GInv (set_sentences l g).
  Proof. intros [C L]. split; [|exact L]. by destruct C. Qed.

  Lemma GInv_remove_node g n : GInv g → GInv (remove_node g n).1.
  Proof.
    intros H. pose proof (remove_node_eff g n (proj1 H)) as He. case_decide.
    - destruct He as (g' & -> & C' & Hn & Hk & _). split; [done|]. destruct H as [C [L1 L2]]. split.
      + intros m a. cbn [fst]. rewrite Hn. case_decide; [done|]. apply L1.
      + intros u v k a. cbn [fst]. unfold edge_attrs. rewrite Hk. case_decide; [done|]. apply L2.
    - by rewrite He.
  Qed.

  Lemma GInv_step g o : no_bare_layers o → GInv g → GInv (step g o).1.
  Proof.
    intros Hb H. destruct o; cbn [step].
    - by apply GInv_add_node.
    - unfold add_nodes_from. apply for_each_inv; [done|]. intros g0 x Hx H0.
      apply GInv_add_nodes_from1; [|done]. intros Hbx. apply Hb. eauto.
    - by apply GInv_add_edge.
    - unfold add_edges_from. apply for_each_inv; [done|]. intros; by apply GInv_add_edges_from1.
    - pose proof (add_layer_node_eff g n layer H) as He. destruct (node_attrs g n); [|by rewrite He].
      destruct He as (a' & -> & Hm). apply GInv_put_node; [done|by eapply attr_merge_layered].
    - pose proof (add_layer_edge_eff g u v layer H) as He. case_decide; [|by rewrite He].
      by destruct He as (g' & -> & ? & _).
    - by apply GInv_remove_node.
    - by apply GInv_set_tokens.
    - by apply GInv_set_sentences.
    - unfold add_precedence_relations. destruct (g_tokens g) as [|t0 [|t1 ts]]; try done.
      apply for_each_inv; [done|]. intros g0 x _ H0. by apply GInv_add_edge.
  Qed.

  Lemma GInv_run g os : Forall no_bare_layers os → GInv g → GInv (run g os).
  Proof.
    unfold run. intros Hf. revert g. induction Hf as [|o os Ho Hf IH]; intros g H; [done|].
    simpl. apply IH. by apply GInv_step.
  Qed.
End hist.
