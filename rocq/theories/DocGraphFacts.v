(** * DocGraphFacts: invariants and effects of the mutators (proofs) *)
From Verif Require Export PyBase DocGraph Relabel SpecGraph.

(** ** Four primitive updates into which every mutator decomposes *)
Definition new_node (g : graph) (n : nid) (a : attrs) : graph :=
  set_node (dset n a (g_node g))
    (set_pred (dset n [] (g_pred g)) (set_succ (dset n [] (g_succ g)) g)).
Definition upd_node (g : graph) (n : nid) (a : attrs) : graph :=
  set_node (dset n a (g_node g)) g.
Definition upd_kd (g : graph) (u v : nid) nbrs (kd : dict nid attrs) : graph :=
  set_succ (dset u (dset v kd nbrs) (g_succ g)) g.
Definition new_kd (g : graph) (u v : nid) nbrs (kd : dict nid attrs) ps : graph :=
  set_pred (dset v (if decide (u ∈ ps) then ps else ps ++ [u]) (g_pred g))
    (set_succ (dset u (dset v kd nbrs) (g_succ g)) g).

Section facts.
  Implicit Types (g : graph) (n u v k : nid) (a : attrs).

  Lemma succ_mem_nodes g n : Consistent g → dmem n (g_succ g) = true ↔ n ∈ nodes g.
  Proof. intros C. rewrite dmem_spec, c_succ_dom; done. Qed.
  Lemma succ_nmem_nodes g n : Consistent g → dmem n (g_succ g) = false ↔ n ∉ nodes g.
  Proof. intros C. rewrite dmem_false, c_succ_dom; done. Qed.
  Lemma node_mem g n : n ∈ nodes g ↔ is_Some (node_attrs g n).
  Proof. unfold node_attrs, nodes. by rewrite dget_is_Some. Qed.
  Lemma node_nmem g n : n ∉ nodes g ↔ node_attrs g n = None.
  Proof. unfold node_attrs, nodes. by rewrite dget_None. Qed.
  Lemma succ_get g n : Consistent g → n ∈ nodes g → ∃ nb, dget n (g_succ g) = Some nb.
  Proof. intros C Hn. apply dget_is_Some. by rewrite (c_succ_dom g C). Qed.
  Lemma pred_get g n : Consistent g → n ∈ nodes g → ∃ ps, dget n (g_pred g) = Some ps.
  Proof. intros C Hn. apply dget_is_Some. by rewrite (c_pred_dom g C). Qed.
  Lemma succ_get_nodes g n nb : Consistent g → dget n (g_succ g) = Some nb → n ∈ nodes g.
  Proof. intros C Hn. rewrite <-(c_succ_dom g C). apply dget_is_Some. eauto. Qed.
  Lemma pred_get_nodes g n nb : Consistent g → dget n (g_pred g) = Some nb → n ∈ nodes g.
  Proof. intros C Hn. rewrite <-(c_pred_dom g C). apply dget_is_Some. eauto. Qed.

  Lemma succ_nodes g u v : Consistent g → v ∈ successors g u → u ∈ nodes g ∧ v ∈ nodes g.
  Proof.
    intros C Hv. split.
    - unfold successors in Hv. destruct (dget u (g_succ g)) eqn:E; simpl in *.
      + eapply succ_get_nodes; eauto.
      + by apply elem_of_nil in Hv.
    - apply (c_sp g C) in Hv. unfold predecessors in Hv.
      destruct (dget v (g_pred g)) eqn:E; simpl in *.
      + eapply pred_get_nodes; eauto.
      + by apply elem_of_nil in Hv.
  Qed.
  Lemma keydict_succ g u v : keydict_of g u v ≠ [] → v ∈ successors g u.
  Proof.
    unfold keydict_of, successors. intros H. apply dget_is_Some.
    destruct (dget v _) eqn:E; [eauto|]. done.
  Qed.
  Lemma succ_keydict g u v : Consistent g → v ∈ successors g u → keydict_of g u v ≠ [].
  Proof.
    unfold keydict_of, successors. intros C H. destruct (dget u (g_succ g)) as [nb|] eqn:E; simpl in *.
    - apply dget_is_Some in H as [kd Hkd]. rewrite Hkd. simpl.
      destruct (c_adj g C _ _ E) as [_ Hk]. by destruct (Hk _ _ Hkd).
    - by apply elem_of_nil in H.
  Qed.
  Lemma edge_succ g u v k a : edge_attrs g u v k = Some a → v ∈ successors g u.
  Proof. unfold edge_attrs. intros H. apply keydict_succ. by intros Hn; rewrite Hn in H. Qed.

  (** *** observations after the primitives *)
  Lemma node_attrs_new g n a m :
    node_attrs (new_node g n a) m = if decide (m = n) then Some a else node_attrs g m.
  Proof. apply dget_dset. Qed.
  Lemma node_attrs_upd g n a m :
    node_attrs (upd_node g n a) m = if decide (m = n) then Some a else node_attrs g m.
  Proof. apply dget_dset. Qed.
  Lemma keydict_upd_node g n a u v : keydict_of (upd_node g n a) u v = keydict_of g u v.
  Proof. done. Qed.
  Lemma keydict_new_node g n a u v :
    Consistent g → n ∉ nodes g → keydict_of (new_node g n a) u v = keydict_of g u v.
  Proof.
    intros C Hn. unfold keydict_of. simpl. rewrite dget_dset. case_decide; [|done]. subst.
    rewrite <-(c_succ_dom g C) in Hn. apply dget_None in Hn. by rewrite Hn.
  Qed.
  Lemma keydict_upd_kd g u v nbrs kd u' v' :
    dget u (g_succ g) = Some nbrs →
    keydict_of (upd_kd g u v nbrs kd) u' v' =
    if decide (u' = u ∧ v' = v) then kd else keydict_of g u' v'.
  Proof.
    intros Hu. unfold keydict_of. simpl. rewrite dget_dset.
    destruct (decide (u' = u)) as [->|]; simpl.
    - rewrite dget_dset. destruct (decide (v' = v)) as [->|].
      + by rewrite decide_True.
      + rewrite decide_False by naive_solver. by rewrite Hu.
    - by rewrite decide_False by naive_solver.
  Qed.
  Lemma keydict_new_kd g u v nbrs kd ps u' v' :
    dget u (g_succ g) = Some nbrs →
    keydict_of (new_kd g u v nbrs kd ps) u' v' =
    if decide (u' = u ∧ v' = v) then kd else keydict_of g u' v'.
  Proof. intros Hu. apply (keydict_upd_kd g u v nbrs kd u' v' Hu). Qed.

  (** *** the primitives preserve consistency *)
  Lemma Consistent_new g n a : Consistent g → n ∉ nodes g → Consistent (new_node g n a).
  Proof.
    intros C Hn.
    assert (Hns : n ∉ dkeys (g_succ g)) by (by rewrite (c_succ_dom g C)).
    assert (Hnp : n ∉ dkeys (g_pred g)) by (by rewrite (c_pred_dom g C)).
    split.
    - apply NoDup_dset, C.
    - unfold nodes. simpl. rewrite !dkeys_dset. fold (nodes g).
      rewrite (c_succ_dom g C). done.
    - unfold nodes. simpl. rewrite !dkeys_dset. fold (nodes g).
      rewrite (c_pred_dom g C). done.
    - intros u nbrs. simpl. rewrite dget_dset. case_decide; [|by apply C].
      intros [= <-]. split; [constructor|]. done.
    - intros v ps. simpl. rewrite dget_dset. case_decide; [|by apply C].
      intros [= <-]. constructor.
    - intros u v. unfold successors, predecessors. simpl. rewrite !dget_dset.
      pose proof (c_sp g C u v) as Hsp. unfold successors, predecessors in Hsp.
      apply dget_None in Hns, Hnp.
      repeat case_decide; simplify_eq/=; try done;
        rewrite ?Hns, ?Hnp in Hsp; simpl in *; rewrite ?elem_of_nil in *; naive_solver.
  Qed.
  Lemma Consistent_upd g n a : Consistent g → n ∈ nodes g → Consistent (upd_node g n a).
  Proof.
    intros C Hn.
    assert (Hk : nodes (upd_node g n a) = nodes g).
    { unfold nodes. simpl. rewrite dkeys_dset. by rewrite decide_True. }
    split; rewrite ?Hk; try apply C.
  Qed.
  Lemma nodes_upd g n a : n ∈ nodes g → nodes (upd_node g n a) = nodes g.
  Proof. intros. unfold nodes. simpl. rewrite dkeys_dset. by rewrite decide_True. Qed.
  Lemma nodes_new g n a : n ∉ nodes g → nodes (new_node g n a) = nodes g ++ [n].
  Proof. intros. unfold nodes. simpl. rewrite dkeys_dset. by rewrite decide_False. Qed.

  Lemma Consistent_upd_kd g u v nbrs kd :
    Consistent g → dget u (g_succ g) = Some nbrs → v ∈ dkeys nbrs →
    kd ≠ [] → NoDup (dkeys kd) → Consistent (upd_kd g u v nbrs kd).
  Proof.
    intros C Hu Hv Hkd Hnd.
    assert (Hs : ∀ x, successors (upd_kd g u v nbrs kd) x = successors g x).
    { intros x. unfold successors. simpl. rewrite dget_dset. case_decide; [|done]. subst.
      rewrite Hu. simpl. rewrite dkeys_dset. by rewrite decide_True. }
    split; try apply C.
    - simpl. rewrite dkeys_dset. rewrite decide_True; [apply C|].
      apply dget_is_Some; eauto.
    - intros x nb. simpl. rewrite dget_dset. case_decide; [|apply C].
      intros [= <-]. subst. destruct (c_adj g C _ _ Hu) as [H1 H2]. split.
      + by apply NoDup_dset.
      + intros w kd'. rewrite dget_dset. case_decide; [|apply H2].
        by intros [= <-].
    - intros x y. rewrite Hs. apply C.
  Qed.
  Lemma Consistent_new_kd g u v nbrs kd ps :
    Consistent g → dget u (g_succ g) = Some nbrs → v ∉ dkeys nbrs →
    dget v (g_pred g) = Some ps →
    kd ≠ [] → NoDup (dkeys kd) → Consistent (new_kd g u v nbrs kd ps).
  Proof.
    intros C Hu Hv Hp Hkd Hnd.
    assert (Hups : u ∉ ps).
    { intros Hin. apply Hv. pose proof (c_sp g C u v) as Hsp.
      unfold successors, predecessors in Hsp. rewrite Hu, Hp in Hsp. by apply Hsp. }
    assert (Hs : ∀ x y, y ∈ successors (new_kd g u v nbrs kd ps) x ↔
                        y ∈ successors g x ∨ (x = u ∧ y = v)).
    { intros x y. unfold successors. simpl. rewrite dget_dset. case_decide; simpl.
      - subst. rewrite Hu. simpl. rewrite dkeys_dset_elem. naive_solver.
      - naive_solver. }
    split; try apply C.
    - simpl. rewrite dkeys_dset. rewrite decide_True; [apply C|]. apply dget_is_Some; eauto.
    - simpl. rewrite dkeys_dset. rewrite decide_True; [apply C|]. apply dget_is_Some; eauto.
    - intros x nb. simpl. rewrite dget_dset. case_decide; [|apply C].
      intros [= <-]. subst. destruct (c_adj g C _ _ Hu) as [H1 H2]. split.
      + by apply NoDup_dset.
      + intros w kd'. rewrite dget_dset. case_decide; [|apply H2].
        by intros [= <-].
    - intros x ps'. simpl. rewrite dget_dset. case_decide; [|apply C].
      intros [= <-]. rewrite decide_False by done.
      apply NoDup_app. split_and!; [by eapply C| |apply NoDup_singleton].
      intros z Hz ->%elem_of_list_singleton. done.
    - intros x y. rewrite Hs. unfold predecessors. simpl. rewrite dget_dset.
      case_decide; simpl.
      + subst. rewrite decide_False by done. rewrite elem_of_app, elem_of_list_singleton.
        rewrite (c_sp g C). unfold predecessors. rewrite Hp. simpl. naive_solver.
      + rewrite (c_sp g C). unfold predecessors. naive_solver.
  Qed.

  (** *** fresh keys *)
  Lemma fresh_key_loop_spec {V} (kd : dict nid V) fuel : ∀ (k : Z) r,
    fresh_key_loop fuel k kd = Some r → r ∉ dkeys kd ∧ ∃ z, r = NInt z ∧ (k ≤ z)%Z ∧
      ∀ j, (k ≤ j < z)%Z → NInt j ∈ dkeys kd.
  Proof.
    induction fuel as [|f IH]; intros k r; simpl; [done|].
    destruct (dmem (NInt k) kd) eqn:E.
    - intros H. apply IH in H as (? & z & -> & ? & Hj). split; [done|]. exists z.
      split_and!; [done|lia|]. intros j ?. destruct (decide (j = k)) as [->|].
      + by apply dmem_spec.
      + apply Hj. lia.
    - intros [= <-]. split; [by apply dmem_false|]. exists k. split_and!; [done|lia|lia].
  Qed.
  Lemma fresh_key_loop_None {V} (kd : dict nid V) fuel : ∀ (k : Z),
    fresh_key_loop fuel k kd = None →
    ∀ i, i < fuel → NInt (k + Z.of_nat i) ∈ dkeys kd.
  Proof.
    induction fuel as [|f IH]; intros k; simpl; [lia|].
    destruct (dmem (NInt k) kd) eqn:E; [|done].
    intros H i Hi. destruct i as [|i].
    - replace (k + Z.of_nat 0)%Z with k by lia. by apply dmem_spec.
    - replace (k + Z.of_nat (S i))%Z with ((k+1) + Z.of_nat i)%Z by lia. apply IH; [done|lia].
  Qed.
  Lemma fresh_key_Some {V} (kd : dict nid V) :
    ∃ z, fresh_key kd = Some (NInt z) ∧ NInt z ∉ dkeys kd.
  Proof.
    destruct (fresh_key kd) as [r|] eqn:E; unfold fresh_key in E.
    - apply fresh_key_loop_spec in E as (? & z & -> & _). eauto.
    - exfalso. pose proof (fresh_key_loop_None _ _ _ E) as H.
      set (f := λ i : nat, NInt (Z.of_nat (length kd) + Z.of_nat i)) in *.
      assert (Hinj : NoDup (f <$> seq 0 (S (length kd)))).
      { apply NoDup_fmap_2; [|apply NoDup_ListNoDup, List.seq_NoDup]. intros i j [= ?]. lia. }
      assert (Hsub : f <$> seq 0 (S (length kd)) ⊆+ dkeys kd).
      { apply NoDup_submseteq; [done|]. intros x (i & -> & Hi)%elem_of_list_fmap.
        apply elem_of_seq in Hi. apply H. lia. }
      apply submseteq_length in Hsub. unfold dkeys in Hsub.
      rewrite !fmap_length, seq_length in Hsub. lia.
  Qed.

  Lemma check_layers_Ok ns (v : pyval) l :
    check_layers ns v = Ok l → l ≠ [] ∧ (v = VSet l ∨ (truthy v = false ∧ l = [ns])).
  Proof.
    unfold check_layers. destruct (truthy v) eqn:E.
    - destruct v as [| | | |l'| |]; try done. intros [= ->]. split; [|by left].
      by destruct l.
    - intros [= <-]. split; [done|]. by right.
  Qed.

  (** ** Two primitives with simple laws *)
  Definition put_node g n a : graph :=
    if decide (n ∈ nodes g) then upd_node g n a else new_node g n a.
  Definition put_edge g u v k a : graph :=
    let nbrs := default [] (dget u (g_succ g)) in
    match dget v nbrs with
    | Some kd => upd_kd g u v nbrs (dset k a kd)
    | None => new_kd g u v nbrs [(k, a)] (default [] (dget v (g_pred g)))
    end.

  Lemma node_attrs_put_node g n a m :
    node_attrs (put_node g n a) m = if decide (m = n) then Some a else node_attrs g m.
  Proof.
    unfold put_node. case_decide; [apply node_attrs_upd|apply node_attrs_new].
  Qed.
  Lemma keydict_put_node g n a u v :
    Consistent g → keydict_of (put_node g n a) u v = keydict_of g u v.
  Proof.
    intros C. unfold put_node. case_decide; [done|by apply keydict_new_node].
  Qed.
  Lemma edge_attrs_put_node g n a u v k :
    Consistent g → edge_attrs (put_node g n a) u v k = edge_attrs g u v k.
  Proof. intros C. unfold edge_attrs. by rewrite keydict_put_node. Qed.
  Lemma Consistent_put_node g n a : Consistent g → Consistent (put_node g n a).
  Proof.
    intros C. unfold put_node. case_decide; [by apply Consistent_upd|by apply Consistent_new].
  Qed.
  Lemma nodes_put_node g n a m : m ∈ nodes (put_node g n a) ↔ m = n ∨ m ∈ nodes g.
  Proof.
    rewrite !node_mem, node_attrs_put_node. case_decide; [|naive_solver].
    subst. split; [by left|by eexists].
  Qed.
  Lemma put_node_other g n a :
    let g' := put_node g n a in
    g_name g' = g_name g ∧ g_ns g' = g_ns g ∧ g_root g' = g_root g ∧
    g_tokens g' = g_tokens g ∧ g_sentences g' = g_sentences g ∧ g_meta g' = g_meta g.
  Proof. simpl. unfold put_node. by case_decide. Qed.

  Lemma node_attrs_put_edge g u v k a m :
    node_attrs (put_edge g u v k a) m = node_attrs g m.
  Proof. unfold put_edge. by case_match. Qed.
  Lemma nodes_put_edge g u v k a : nodes (put_edge g u v k a) = nodes g.
  Proof. unfold put_edge. by case_match. Qed.
  Lemma keydict_put_edge g u v k a u' v' :
    Consistent g → u ∈ nodes g →
    keydict_of (put_edge g u v k a) u' v' =
    if decide (u' = u ∧ v' = v) then dset k a (keydict_of g u v) else keydict_of g u' v'.
  Proof.
    intros C [nb Hu]%succ_get; [|done]. unfold put_edge. rewrite Hu. simpl.
    destruct (dget v nb) as [kd|] eqn:Hv.
    - rewrite keydict_upd_kd by done. case_decide; [|done].
      unfold keydict_of. rewrite Hu. simpl. by rewrite Hv.
    - rewrite keydict_new_kd by done. case_decide; [|done].
      unfold keydict_of. rewrite Hu. simpl. by rewrite Hv.
  Qed.
  Lemma edge_attrs_put_edge g u v k a u' v' k' :
    Consistent g → u ∈ nodes g →
    edge_attrs (put_edge g u v k a) u' v' k' =
    if decide (u' = u ∧ v' = v ∧ k' = k) then Some a else edge_attrs g u' v' k'.
  Proof.
    intros C Hu. unfold edge_attrs. rewrite keydict_put_edge by done.
    destruct (decide (u' = u ∧ v' = v)) as [[-> ->]|Hn].
    - rewrite dget_dset. destruct (decide (k' = k)) as [->|].
      + by rewrite decide_True.
      + by rewrite decide_False by naive_solver.
    - by rewrite decide_False by naive_solver.
  Qed.
  Lemma dset_nonnil {K V} `{EqDecision K} (k : K) (a : V) d : dset k a d ≠ [].
  Proof. destruct d as [|[? ?] ?]; simpl; [done|]. by case_decide. Qed.
  Lemma Consistent_put_edge g u v k a :
    Consistent g → u ∈ nodes g → v ∈ nodes g → Consistent (put_edge g u v k a).
  Proof.
    intros C Hu Hv. apply succ_get in Hu as [nb Hu]; [|done].
    apply pred_get in Hv as [ps Hv]; [|done].
    unfold put_edge. rewrite Hu, Hv. simpl. destruct (dget v nb) as [kd|] eqn:E.
    - destruct (c_adj g C _ _ Hu) as [_ Hk]. destruct (Hk _ _ E).
      apply Consistent_upd_kd; try done.
      + apply dget_is_Some; eauto.
      + apply dset_nonnil.
      + by apply NoDup_dset.
    - apply Consistent_new_kd; try done.
      + by apply dget_None.
      + apply NoDup_singleton.
  Qed.
  Lemma put_edge_other g u v k a :
    let g' := put_edge g u v k a in
    g_name g' = g_name g ∧ g_ns g' = g_ns g ∧ g_root g' = g_root g ∧ g_node g' = g_node g ∧
    g_tokens g' = g_tokens g ∧ g_sentences g' = g_sentences g ∧ g_meta g' = g_meta g.
  Proof. simpl. unfold put_edge. by case_match. Qed.

  Lemma put_node_in g n a : n ∈ nodes g → (upd_node g n a, @None exc) = (put_node g n a, None).
  Proof. intros. unfold put_node. by rewrite decide_True. Qed.
  Lemma put_node_notin g n a : n ∉ nodes g → (new_node g n a, @None exc) = (put_node g n a, None).
  Proof. intros. unfold put_node. by rewrite decide_False. Qed.

  Lemma attr_merge_layered old l given a : attr_merge old l given a → layered a.
  Proof. intros [(L & ? & _) _]. by exists L. Qed.
  Lemma attr_merge_has_layer old l given a x :
    attr_merge old l given a → has_layer a x ↔ x ∈ l ∨ ohas_layer old x.
  Proof.
    intros [(L & HL & Hx) _]. unfold has_layer. rewrite HL. rewrite <-Hx. naive_solver.
  Qed.
  Lemma nlayered_has_layer a : layered a → nlayered a ↔ ∃ x, has_layer a x.
  Proof.
    intros [l Hl]. unfold nlayered, has_layer. rewrite Hl. split.
    - intros (x & l' & [= ->]). exists x, (x :: l'). split; [done|left].
    - intros (x & l' & [= ->] & Hx). destruct l' as [|y l']; [by apply elem_of_nil in Hx|]. eauto.
  Qed.
  Lemma attr_merge_nlayered old l given a : l ≠ [] → attr_merge old l given a → nlayered a.
  Proof.
    intros Hl H. apply nlayered_has_layer; [by eapply attr_merge_layered|].
    destruct l as [|x l]; [done|]. exists x. eapply attr_merge_has_layer; [done|]. left. left.
  Qed.

  (** ** add_node *)
  Lemma dget_given key (attr_dict : option attrs) (attr : attrs) (l : pyval) : key ≠ "layers" →
    dget key (match attr_dict with None => dset "layers" l attr
              | Some d => dupdate d (dset "layers" l attr) end)
    = dget key (given_attrs attr_dict attr).
  Proof.
    intros Hk. unfold given_attrs. destruct attr_dict as [d|]; simpl.
    - by rewrite !dget_dupdate, dget_dset_ne.
    - rewrite dget_dset_ne by done. rewrite dget_dupdate. simpl. by case_match.
  Qed.
  Lemma dget_given_layers (attr_dict : option attrs) (attr : attrs) (l : pyval) :
    dget "layers" (match attr_dict with None => dset "layers" l attr
              | Some d => dupdate d (dset "layers" l attr) end) = Some l.
  Proof. destruct attr_dict; simpl; rewrite ?dget_dupdate, dget_dset_eq; done. Qed.

  Lemma add_node_eff g n layers ad attr :
    Consistent g → Layered g →
    match check_layers (g_ns g) layers with
    | Err e => add_node g n layers ad attr = (g, Some e)
    | Ok l => ∃ a, add_node g n layers ad attr = (put_node g n a, None) ∧
                   attr_merge (node_attrs g n) l (given_attrs ad attr) a
    end.
  Proof.
    intros C L. unfold add_node. destruct (check_layers _ _) as [l|e] eqn:E; [|done].
    destruct (dmem n (g_succ g)) eqn:Em.
    - apply succ_mem_nodes in Em; [|done]. pose proof Em as Hin.
      apply node_mem in Em as [old Hold]. pose proof Hold as Hold'.
      unfold node_attrs in Hold'. rewrite Hold'.
      destruct (proj1 L _ _ Hold) as [lo Hlo]. rewrite Hlo. simpl.
      eexists; split; [by apply put_node_in|]. rewrite Hold. split.
      + eexists; split; [apply dget_dset_eq|]. intros x. rewrite elem_set_union.
        unfold ohas_layer, has_layer. naive_solver.
      + intros key Hk. rewrite dget_dset_ne by done. rewrite dget_dupdate.
        rewrite dget_ddel, decide_False by done. rewrite dget_given by done. done.
    - apply succ_nmem_nodes in Em; [|done].
      eexists; split; [by apply put_node_notin|]. pose proof Em as Em'. apply node_nmem in Em'. rewrite Em'. split.
      + exists l. split; [apply dget_given_layers|]. unfold ohas_layer. naive_solver.
      + intros key Hk. rewrite dget_given by done. simpl. by case_match.
  Qed.

  Lemma ensure_node_eff g n :
    Consistent g → Layered g →
    ensure_node g n = (if decide (n ∈ nodes g) then g
                       else put_node g n [("layers", VSet [g_ns g])], None).
  Proof.
    intros C L. unfold ensure_node. destruct (dmem n (g_node g)) eqn:E.
    - apply dmem_spec in E. by rewrite decide_True.
    - apply dmem_false in E. rewrite decide_False by done.
      unfold add_node. simpl. unfold put_node. rewrite decide_False by done.
      by rewrite (proj2 (succ_nmem_nodes g n C) E).
  Qed.

  (** ** Invariant package *)
  Definition GInv g : Prop := Consistent g ∧ Layered g.
  Lemma GInv_put_node g n a : GInv g → layered a → GInv (put_node g n a).
  Proof.
    intros [C [L1 L2]] Ha. split; [by apply Consistent_put_node|]. split.
    - intros m b. rewrite node_attrs_put_node. case_decide; naive_solver.
    - intros u v k b. rewrite edge_attrs_put_node by done. apply L2.
  Qed.
  Lemma GInv_put_edge g u v k a :
    GInv g → u ∈ nodes g → v ∈ nodes g → layered a → GInv (put_edge g u v k a).
  Proof.
    intros [C [L1 L2]] Hu Hv Ha. split; [by apply Consistent_put_edge|]. split.
    - intros m b. rewrite node_attrs_put_edge. apply L1.
    - intros u' v' k' b. rewrite edge_attrs_put_edge by done. case_decide; naive_solver.
  Qed.

  (** the graph after the two missing-endpoint checks of add_edge *)
  Definition with_node g n : graph :=
    if decide (n ∈ nodes g) then g else put_node g n [("layers", VSet [g_ns g])].
  Lemma with_node_in g n : n ∈ nodes g → with_node g n = g.
  Proof. intros. unfold with_node. by rewrite decide_True. Qed.
  Lemma GInv_with_node g n : GInv g → GInv (with_node g n).
  Proof.
    intros H. unfold with_node. case_decide; [done|]. apply GInv_put_node; [done|]. by eexists.
  Qed.
  Lemma node_attrs_with_node g n m :
    node_attrs (with_node g n) m =
    match node_attrs g m with
    | Some a => Some a
    | None => if decide (m = n) then Some [("layers", VSet [g_ns g])] else None
    end.
  Proof.
    unfold with_node. case_decide as Hn.
    - destruct (node_attrs g m) eqn:E; [done|]. case_decide; [|done]. subst.
      apply node_mem in Hn as [? Hn]. congruence.
    - rewrite node_attrs_put_node. apply node_nmem in Hn. case_decide; subst.
      + by rewrite Hn.
      + by case_match.
  Qed.
  Lemma edge_attrs_with_node g n u v k :
    Consistent g → edge_attrs (with_node g n) u v k = edge_attrs g u v k.
  Proof. intros C. unfold with_node. case_decide; [done|]. by apply edge_attrs_put_node. Qed.
  Lemma keydict_with_node g n u v :
    Consistent g → keydict_of (with_node g n) u v = keydict_of g u v.
  Proof. intros C. unfold with_node. case_decide; [done|]. by apply keydict_put_node. Qed.
  Lemma nodes_with_node g n m : m ∈ nodes (with_node g n) ↔ m = n ∨ m ∈ nodes g.
  Proof. unfold with_node. case_decide; [naive_solver|]. apply nodes_put_node. Qed.
  Lemma with_node_other g n :
    let g' := with_node g n in
    g_name g' = g_name g ∧ g_ns g' = g_ns g ∧ g_root g' = g_root g ∧
    g_tokens g' = g_tokens g ∧ g_sentences g' = g_sentences g ∧ g_meta g' = g_meta g.
  Proof. simpl. unfold with_node. case_decide; [done|]. apply put_node_other. Qed.

  Lemma insert_edge_eff g u v l key ad :
    GInv g → u ∈ nodes g → v ∈ nodes g → dget "layers" ad = Some (VSet l) →
    ∃ k a, insert_edge g u v l key ad = (put_edge g u v k a, None) ∧
      match key with
      | Some k' => k = k'
      | None => edge_attrs g u v k = None ∧ ∃ z, k = NInt z
      end ∧
      attr_merge (edge_attrs g u v k) l ad a.
  Proof.
    intros [C L] Hu Hv Had. unfold insert_edge, put_edge.
    pose proof (succ_get _ _ C Hu) as [nb Hnb]. rewrite Hnb. simpl.
    pose proof (pred_get _ _ C Hv) as [ps Hps].
    assert (Hkd : ∀ kd, dget v nb = Some kd → keydict_of g u v = kd).
    { intros kd Hk. unfold keydict_of. rewrite Hnb. simpl. by rewrite Hk. }
    destruct (dget v nb) as [kd|] eqn:Hvn.
    - specialize (Hkd kd eq_refl).
      assert (∃ k, match key with Some k => Some k | None => fresh_key kd end = Some k ∧
                match key with Some k' => k = k'
                | None => edge_attrs g u v k = None ∧ ∃ z, k = NInt z end) as (k & Hk & Hkey).
      { destruct key as [k|]; [by exists k|].
        destruct (fresh_key_Some kd) as (z & -> & Hz). exists (NInt z). split_and!; [done| |eauto].
        unfold edge_attrs. rewrite Hkd. by apply dget_None. }
      rewrite Hk. exists k.
      assert (Hea : edge_attrs g u v k = dget k kd) by (unfold edge_attrs; by rewrite Hkd).
      rewrite Hea. rewrite <-Hea in *.
      destruct (edge_attrs g u v k) as [old|] eqn:Eold; simpl.
      + destruct (proj2 L _ _ _ _ Eold) as [lo Hlo]. rewrite Hlo. simpl.
        eexists; split_and!; [reflexivity|done|]. split.
        * eexists; split; [apply dget_dset_eq|]. intros x. rewrite elem_set_union.
          unfold ohas_layer, has_layer. naive_solver.
        * intros x Hx. by rewrite dget_dset_ne, dget_dupdate.
      + eexists; split_and!; [reflexivity|done|]. split.
        * eexists; split; [apply dget_dset_eq|]. intros x. rewrite elem_set_union, elem_of_nil.
          unfold ohas_layer, has_layer. naive_solver.
        * intros x Hx. by rewrite dget_dset_ne, dget_dupdate.
    - rewrite Hps. simpl.
      assert (Hno : ∀ k, edge_attrs g u v k = None).
      { intros k. unfold edge_attrs, keydict_of. rewrite Hnb. simpl. by rewrite Hvn. }
      exists (default (NInt 0) key), ad. split; [reflexivity|]. split.
      + destruct key as [k|]; simpl; [done|]. eauto.
      + rewrite Hno. split.
        * exists l. split; [done|]. unfold ohas_layer. naive_solver.
        * intros x Hx. simpl. by case_match.
  Qed.

  (** ** add_edge *)
  Lemma add_edge_eff g u v layers key ad attr :
    GInv g →
    match check_layers (g_ns g) layers with
    | Err e => add_edge g u v layers key ad attr = (g, Some e)
    | Ok l => ∃ k a,
        add_edge g u v layers key ad attr =
          (put_edge (with_node (with_node g u) v) u v k a, None) ∧
        match key with
        | Some k' => k = k'
        | None => edge_attrs g u v k = None ∧ ∃ z, k = NInt z
        end ∧
        attr_merge (edge_attrs g u v k) l (given_attrs ad attr) a
    end.
  Proof.
    intros H. unfold add_edge. destruct (check_layers _ _) as [l|e] eqn:E; [|done].
    cbn [for_each]. rewrite ensure_node_eff by apply H. fold (with_node g u).
    pose proof (GInv_with_node g u H) as H1.
    rewrite ensure_node_eff by apply H1. fold (with_node (with_node g u) v).
    pose proof (GInv_with_node _ v H1) as H2.
    match goal with |- context [insert_edge _ _ _ _ _ ?d] => set (D := d) end.
    destruct (insert_edge_eff (with_node (with_node g u) v) u v l key D) as (k & a & -> & Hk & Ha).
    - done.
    - rewrite !nodes_with_node. naive_solver.
    - rewrite !nodes_with_node. naive_solver.
    - apply dget_given_layers.
    - rewrite !edge_attrs_with_node in * by (apply H || apply H1).
      exists k, a. split_and!; [done|done|]. destruct Ha as [Ha1 Ha2]. split; [done|].
      intros x Hx. rewrite Ha2 by done. subst D. rewrite dget_given by done. done.
  Qed.

  (** ** add_nodes_from, one element *)
  Lemma dmem_dget {K V} `{EqDecision K} (k : K) (d : dict K V) :
    dmem k d = false → dget k d = None.
  Proof. unfold dmem. by case_match. Qed.

  (** layers requested by a tuple *)
  Definition tup_layers (ns : string) (nd : attrs) : pyval :=
    default (VSet [ns]) (dget "layers" nd).

  Lemma add_nodes_from1_tup_eff g n nd attr :
    GInv g →
    match tup_layers (g_ns g) nd with
    | VSet l =>
        ∃ a, add_nodes_from1 g attr (NTup n nd) = (put_node g n a, None) ∧
          attr_merge (node_attrs g n) l
            (if decide (n ∈ nodes g) then dupdate nd attr else dupdate attr nd) a
    | _ => add_nodes_from1 g attr (NTup n nd) = (g, Some AssertionError)
    end.
  Proof.
    intros [C L]. unfold add_nodes_from1.
    set (nd' := if dmem "layers" nd then nd else _).
    assert (Hnd : dget "layers" nd' = Some (tup_layers (g_ns g) nd)).
    { unfold nd', tup_layers. destruct (dmem "layers" nd) eqn:E.
      - unfold dmem in E. by destruct (dget "layers" nd).
      - rewrite dget_dset_eq. by rewrite dmem_dget. }
    assert (Hx : ∀ x, x ≠ "layers" → dget x nd' = dget x nd).
    { intros x Hx. unfold nd'. case_match; [done|]. by rewrite dget_dset_ne. }
    rewrite Hnd. destruct (tup_layers (g_ns g) nd) as [| | | |l| |]; try done.
    destruct (dmem n (g_succ g)) eqn:Em.
    - apply succ_mem_nodes in Em; [|done]. pose proof Em as Hin.
      apply node_mem in Em as [old Hold]. pose proof Hold as Hold'.
      unfold node_attrs in Hold'. rewrite Hold'.
      destruct (proj1 L _ _ Hold) as [lo Hlo]. rewrite Hlo. simpl.
      eexists; split; [by apply put_node_in|]; rewrite ?(decide_True _ _ Hin). rewrite Hold. split.
      + eexists; split; [apply dget_dset_eq|]. intros x. rewrite elem_set_union.
        unfold ohas_layer, has_layer. naive_solver.
      + intros x Hne. rewrite dget_dset_ne by done. rewrite !dget_dupdate.
        rewrite Hx by done. simpl. destruct (dget x attr); [done|]. done.
    - apply succ_nmem_nodes in Em; [|done]. 
      eexists; split; [by apply put_node_notin|]; rewrite ?(decide_False _ _ Em). pose proof Em as Em'. apply node_nmem in Em'. rewrite Em'. split.
      + exists l. split; [by rewrite dget_dupdate, Hnd|]. unfold ohas_layer. naive_solver.
      + intros x Hne. rewrite !dget_dupdate, Hx by done. simpl. repeat case_match; done.
  Qed.

  Lemma add_nodes_from1_bare_eff g n attr :
    GInv g →
    ∃ a, add_nodes_from1 g attr (NBare n) = (put_node g n a, None) ∧
      (if decide (n ∈ nodes g) then
         ∀ x, dget x a = match dget x attr with Some v => Some v | None => oget (node_attrs g n) x end
       else dget "layers" a = Some (VSet [g_ns g]) ∧ ∀ x, x ≠ "layers" → dget x a = dget x attr).
  Proof.
    intros [C L]. unfold add_nodes_from1. destruct (dmem n (g_succ g)) eqn:Em.
    - apply succ_mem_nodes in Em; [|done]. pose proof Em as Hin.
      apply node_mem in Em as [old Hold]. pose proof Hold as Hold'.
      unfold node_attrs in Hold'. rewrite Hold'. eexists; split; [by apply put_node_in|]; rewrite ?(decide_True _ _ Hin).
      intros x. rewrite dget_dupdate, Hold. done.
    - apply succ_nmem_nodes in Em; [|done]. 
      eexists; split; [by apply put_node_notin|]; rewrite ?(decide_False _ _ Em). split; [apply dget_dset_eq|].
      intros x Hx. by rewrite dget_dset_ne.
  Qed.

  (** ** add_edges_from, one element *)
  Lemma upd_kd_put_edge g u v k a nb kd :
    dget u (g_succ g) = Some nb → dget v nb = Some kd →
    upd_kd g u v nb (dset k a kd) = put_edge g u v k a.
  Proof. intros H1 H2. unfold put_edge. rewrite H1. simpl. by rewrite H2. Qed.

  Lemma put_edge_put_edge g u v k a b :
    Consistent g → u ∈ nodes g → v ∈ nodes g →
    ∀ u' v' k', edge_attrs (put_edge (put_edge g u v k a) u v k b) u' v' k' =
                edge_attrs (put_edge g u v k b) u' v' k'.
  Proof.
    intros C Hu Hv u' v' k'.
    rewrite !edge_attrs_put_edge; rewrite ?nodes_put_edge; try done.
    - by case_decide.
    - by apply Consistent_put_edge.
  Qed.

  Lemma dset_dset {K V} `{EqDecision K} (k : K) (a b : V) d :
    dset k b (dset k a d) = dset k b d.
  Proof.
    induction d as [|[k' a'] d IH]; simpl.
    - by case_decide.
    - case_decide; simpl; (case_decide; [|done || congruence]); try congruence; try done.
  Qed.

  Lemma add_edges_from1_eff g ad e :
    GInv g →
    match tup_layers (g_ns g) (e_d e), additional_layers ad with
    | VSet l, Ok l' =>
        ∃ k a g1,
          add_edges_from1 g ad e = (put_edge g1 (e_u e) (e_v e) k a, None) ∧
          (g1 = with_node (with_node g (e_u e)) (e_v e) ∨
           ∃ b, layered b ∧ is_Some (edge_attrs g (e_u e) (e_v e) k) ∧
                g1 = put_edge g (e_u e) (e_v e) k b) ∧
          match e_key e with
          | Some k' => k = k'
          | None => edge_attrs g (e_u e) (e_v e) k = None ∧ ∃ z, k = NInt z
          end ∧
          ∃ L, (∀ x, x ∈ L ↔ x ∈ l ∨ x ∈ l' ∨
             (l = [] ∧ l' = [] ∧ (∀ y, ¬ ohas_layer (edge_attrs g (e_u e) (e_v e) k) y) ∧ x = g_ns g)) ∧
          attr_merge (edge_attrs g (e_u e) (e_v e) k) L (dupdate ad (e_d e)) a
    | VSet l, Err x => add_edges_from1 g ad e = (g, Some x)
    | _, _ => add_edges_from1 g ad e = (g, Some AssertionError)
    end.
  Proof.
    intros H. destruct e as [u v key d]. simpl. unfold add_edges_from1. cbn [e_u e_v e_key e_d].
    set (dd := if dmem "layers" d then d else _).
    assert (Hdd : dget "layers" dd = Some (tup_layers (g_ns g) d)).
    { unfold dd, tup_layers. destruct (dmem "layers" d) eqn:E.
      - unfold dmem in E. by destruct (dget "layers" d).
      - rewrite dget_dset_eq. by rewrite dmem_dget. }
    assert (Hx : ∀ x, x ≠ "layers" → dget x dd = dget x d).
    { intros x Hx. unfold dd. case_match; [done|]. by rewrite dget_dset_ne. }
    rewrite Hdd. destruct (tup_layers (g_ns g) d) as [| | | |l| |]; try done.
    destruct (additional_layers ad) as [l'|x]; [|done].
    fold (keydict_of g u v).
    assert (∃ k, match key with Some k => Some k | None => fresh_key (keydict_of g u v) end = Some k ∧
              match key with Some k' => k = k'
              | None => edge_attrs g u v k = None ∧ ∃ z, k = NInt z end) as (k & Hk & Hkey).
    { destruct key as [k|]; [by exists k|].
      destruct (fresh_key_Some (keydict_of g u v)) as (z & -> & Hz). exists (NInt z).
      split_and!; [done| |eauto]. by apply dget_None. }
    rewrite Hk. fold (edge_attrs g u v k).
    set (old := default [] (edge_attrs g u v k)).
    assert (Hex : ∃ lo, default (VSet []) (dget "layers" old) = VSet lo ∧
                        ∀ x, x ∈ lo ↔ ohas_layer (edge_attrs g u v k) x).
    { subst old. destruct (edge_attrs g u v k) as [o|] eqn:E; simpl.
      - destruct H as [_ [_ L2]]. destruct (L2 _ _ _ _ E) as [lo Hlo]. rewrite Hlo. exists lo.
        split; [done|]. unfold ohas_layer, has_layer. naive_solver.
      - exists []. split; [done|]. intros x. rewrite elem_of_nil. unfold ohas_layer. naive_solver. }
    destruct Hex as (lo & -> & Hlo). simpl.
    set (dat := dupdate (dupdate old ad) dd).
    set (new := set_union lo (set_union l l')).
    (* the effect of the final add_edge call on any suitable g1 *)
    assert (Hfin : ∀ g1, GInv g1 → g_ns g1 = g_ns g →
       edge_attrs g1 u v k = edge_attrs g u v k ∨
         (edge_attrs g1 u v k = Some dat ∧ is_Some (edge_attrs g u v k)) →
       ∃ a, add_edge g1 u v (VSet new) (Some k) (Some (ddel "layers" dat)) [] =
          (put_edge (with_node (with_node g1 u) v) u v k a, None) ∧
       ∃ L, (∀ x, x ∈ L ↔ x ∈ l ∨ x ∈ l' ∨
             (l = [] ∧ l' = [] ∧ (∀ y, ¬ ohas_layer (edge_attrs g u v k) y) ∧ x = g_ns g)) ∧
          attr_merge (edge_attrs g u v k) L (dupdate ad d) a).
    { intros g1 H1 Hns Hea. pose proof (add_edge_eff g1 u v (VSet new) (Some k)
          (Some (ddel "layers" dat)) [] H1) as Hadd.
      assert (Hc : check_layers (g_ns g1) (VSet new) = Ok (if decide (new = []) then [g_ns g] else new)).
      { unfold check_layers. rewrite Hns. destruct new; simpl; done. }
      rewrite Hc in Hadd. destruct Hadd as (k' & a & Ha & -> & Hm1 & Hm2).
      exists a. split; [done|].
      exists (set_union l l' ++ if decide (new = []) then [g_ns g] else []).
      assert (Hnew : new = [] ↔ l = [] ∧ l' = [] ∧ ∀ y, ¬ ohas_layer (edge_attrs g u v k) y).
      { split.
        - intros Hn. assert (Hy : ∀ y, ¬ (y ∈ lo ∨ y ∈ l ∨ y ∈ l')).
          { intros y Hy. assert (y ∈ new) as Hyn.
            { subst new. rewrite !elem_set_union. naive_solver. }
            rewrite Hn in Hyn. by apply elem_of_nil in Hyn. }
          split_and!.
          + destruct l as [|y ?]; [done|]. destruct (Hy y). right; left; left.
          + destruct l' as [|y ?]; [done|]. destruct (Hy y). right; right; left.
          + intros y Hh. apply (Hy y). left. by apply Hlo.
        - intros (-> & -> & Hno). destruct lo as [|y lo']; [done|].
          destruct (Hno y). apply Hlo. left. }
      split.
      { intros x. rewrite elem_of_app, elem_set_union.
        destruct (decide (new = [])) as [Hn|Hn].
        - rewrite elem_of_list_singleton. naive_solver.
        - rewrite elem_of_nil. naive_solver. }
      split.
      - destruct Hm1 as (L & HL & HLx). exists L. split; [done|]. intros x. rewrite HLx.
        rewrite elem_of_app, elem_set_union.
        assert (Hoh : ohas_layer (edge_attrs g1 u v k) x →
                      x ∈ l ∨ ohas_layer (edge_attrs g u v k) x).
        { destruct Hea as [->|[-> _]]; [by right|].
          intros (b & [= <-] & lb & Hb & Hxb). unfold dat in Hb.
          rewrite dget_dupdate, Hdd in Hb. left. naive_solver. }
        destruct (decide (new = [])) as [Hn|Hn].
        + apply Hnew in Hn as (-> & -> & Hno). rewrite elem_of_list_singleton, !elem_of_nil.
          split; [|naive_solver]. intros [->|Hh]; [naive_solver|].
          apply Hoh in Hh. rewrite elem_of_nil in Hh. naive_solver.
        + subst new. rewrite !elem_set_union, elem_of_nil, Hlo. naive_solver.
      - intros x Hxl. rewrite Hm2 by done.
        unfold given_attrs. simpl. rewrite dget_ddel, decide_False by done.
        unfold dat. rewrite !dget_dupdate, Hx by done.
        assert (Hold : dget x old = oget (edge_attrs g u v k) x).
        { unfold old. by destruct (edge_attrs g u v k). }
        rewrite Hold. destruct (dget x d) eqn:Ed; [done|]. destruct (dget x ad) eqn:Ea; [done|].
        destruct (oget (edge_attrs g u v k) x) eqn:Eo; [done|].
        destruct Hea as [->|[-> _]]; [done|]. simpl. unfold dat.
        rewrite !dget_dupdate, Hx by done. by rewrite Ed, Ea, Hold. }
    destruct (edge_attrs g u v k) as [o|] eqn:Eo.
    - pose proof (edge_succ _ _ _ _ _ Eo) as Hs.
      pose proof (proj1 H) as C.
      pose proof (succ_nodes _ _ _ C Hs) as [Hun Hvn].
      pose proof (succ_get _ _ C Hun) as [nb Hnb].
      assert (∃ kd, dget v nb = Some kd) as [kd Hkd].
      { apply dget_is_Some. unfold successors in Hs. by rewrite Hnb in Hs. }
      assert (Hkk : keydict_of g u v = kd).
      { unfold keydict_of. rewrite Hnb. simpl. by rewrite Hkd. }
      rewrite Hnb. simpl. rewrite Hkk.
      change (set_succ (dset u (dset v (dset k dat kd) nb) (g_succ g)) g) with
        (upd_kd g u v nb (dset k dat kd)).
      rewrite (upd_kd_put_edge _ _ _ _ _ _ _ Hnb Hkd).
      assert (Hlb : layered dat).
      { exists l. unfold dat. by rewrite dget_dupdate, Hdd. }
      destruct (Hfin (put_edge g u v k dat)) as (a & Ha & HL).
      + by apply GInv_put_edge.
      + apply put_edge_other.
      + right. split; [|by eexists]. rewrite edge_attrs_put_edge by done. by rewrite decide_True.
      + rewrite Ha. exists k, a, (put_edge g u v k dat).
        rewrite (with_node_in (put_edge g u v k dat) u) by (by rewrite nodes_put_edge).
        rewrite with_node_in by (by rewrite nodes_put_edge).
        rewrite Eo. split_and!; [done| |done|done]. right. exists dat. split_and!; [done|by eexists|done].
    - destruct (Hfin g H eq_refl (or_introl Eo)) as (a & Ha & HL). rewrite Ha.
      exists k, a, (with_node (with_node g u) v). rewrite Eo. split_and!; [done|by left|done|done].
  Qed.
End facts.
