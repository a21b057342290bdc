(** * AllHist: invariants of every reachable graph (proofs) *)
From Verif Require Import PyBase DocGraph DocGraphFacts History Effects RelabelFacts MergeFacts.

Section consistent_all.
  Implicit Types (g : graph) (n u v k : nid) (a : attrs).

  Lemma Consistent_ext g g' :
    g_node g' = g_node g → g_succ g' = g_succ g → g_pred g' = g_pred g → Consistent g → Consistent g'.
  Proof.
    intros Hn Hs Hp [C1 C2 C3 C4 C5 C6].
    split; unfold nodes, successors, predecessors in *; rewrite ?Hn, ?Hs, ?Hp; done.
  Qed.

  Lemma Consistent_add_node g n layers ad attr :
    Consistent g → Consistent (add_node g n layers ad attr).1.
  Proof.
    intros C. unfold add_node. destruct (check_layers _ _) as [l|]; [|done].
    destruct (dmem n (g_succ g)) eqn:E.
    - apply succ_mem_nodes in E; [|done]. repeat case_match; try done; by apply Consistent_upd.
    - apply succ_nmem_nodes in E; [|done]. by apply Consistent_new.
  Qed.
  Lemma Consistent_add_nodes_from1 g attr s :
    Consistent g → Consistent (add_nodes_from1 g attr s).1.
  Proof.
    intros C. destruct s as [n|n nd]; unfold add_nodes_from1.
    - destruct (dmem n (g_succ g)) eqn:E.
      + apply succ_mem_nodes in E; [|done]. case_match; [|done]. by apply Consistent_upd.
      + apply succ_nmem_nodes in E; [|done]. by apply Consistent_new.
    - destruct (dget "layers" _) as [[| | | |l| |]|]; try done.
      destruct (dmem n (g_succ g)) eqn:E.
      + apply succ_mem_nodes in E; [|done]. repeat case_match; try done; by apply Consistent_upd.
      + apply succ_nmem_nodes in E; [|done]. by apply Consistent_new.
  Qed.
  Lemma Consistent_ensure_node g n : Consistent g →
    Consistent (ensure_node g n).1 ∧ (ensure_node g n).2 = None ∧
    n ∈ nodes (ensure_node g n).1 ∧ (∀ m, m ∈ nodes g → m ∈ nodes (ensure_node g n).1).
  Proof.
    intros C. unfold ensure_node. destruct (dmem n (g_node g)) eqn:E.
    - by apply dmem_spec in E.
    - apply dmem_false in E. unfold add_node. cbn [check_layers truthy].
      rewrite (proj2 (succ_nmem_nodes g n C) E). cbn [fst snd].
      change (set_node _ _) with (new_node g n [("layers", VSet [g_ns g])]).
      rewrite (nodes_new _ _ _ E). split_and!; [by apply Consistent_new|done| |].
      + apply elem_of_app. right. left.
      + intros m Hm. apply elem_of_app. by left.
  Qed.
  Lemma Consistent_insert_edge g u v l key ad :
    Consistent g → u ∈ nodes g → v ∈ nodes g → Consistent (insert_edge g u v l key ad).1.
  Proof.
    intros C Hu Hv. unfold insert_edge.
    destruct (succ_get _ _ C Hu) as [nb Hnb]. rewrite Hnb.
    destruct (pred_get _ _ C Hv) as [ps Hps]. rewrite Hps.
    destruct (dget v nb) as [kd|] eqn:Ev.
    - destruct (match key with Some k => Some k | None => _ end) as [k|]; [|done].
      destruct (py_union _ _) as [al|]; [|done].
      destruct (c_adj g C _ _ Hnb) as [_ Hk]. destruct (Hk _ _ Ev) as [_ Hnd].
      apply Consistent_upd_kd; try done.
      + apply dget_is_Some; eauto.
      + apply dset_nonnil.
      + by apply NoDup_dset.
    - apply Consistent_new_kd; try done.
      + by apply dget_None.
      + apply NoDup_singleton.
  Qed.
  Lemma Consistent_add_edge g u v layers key ad attr :
    Consistent g → Consistent (add_edge g u v layers key ad attr).1.
  Proof.
    intros C. unfold add_edge. destruct (check_layers _ _) as [l|]; [|done]. cbn [for_each].
    destruct (Consistent_ensure_node g u C) as (C1 & E1 & U1 & M1).
    destruct (ensure_node g u) as [g1 o1]. simpl in *. subst.
    destruct (Consistent_ensure_node g1 v C1) as (C2 & E2 & U2 & M2).
    destruct (ensure_node g1 v) as [g2 o2]. simpl in *. subst.
    apply Consistent_insert_edge; auto.
  Qed.
  Lemma Consistent_add_edges_from1 g ad e :
    Consistent g → Consistent (add_edges_from1 g ad e).1.
  Proof.
    intros C. unfold add_edges_from1.
    destruct (dget "layers" _) as [[| | | |l| |]|]; try done.
    destruct (additional_layers ad) as [al|]; [|done].
    destruct (match e_key e with Some k => Some k | None => _ end) as [k|] eqn:Ek; [|done].
    match goal with |- context [py_union ?A ?B] => set (un := py_union A B) end.
    match goal with |- context [match dget k ?kd with None => g | Some _ => ?G end] =>
      set (g1 := match dget k kd with None => g | Some _ => G end) end.
    assert (C1 : Consistent g1).
    { unfold g1. destruct (dget k _) as [d|] eqn:Ed; [|done].
      destruct (dget (e_u e) (g_succ g)) as [nb|] eqn:Eu; [|done]. simpl in *.
      destruct (dget (e_v e) nb) as [kd|] eqn:Ev; [|done]. simpl in *.
      destruct (c_adj g C _ _ Eu) as [_ Hk]. destruct (Hk _ _ Ev) as [_ Hnd].
      apply Consistent_upd_kd; try done.
      + apply dget_is_Some; eauto.
      + apply dset_nonnil.
      + by apply NoDup_dset. }
    destruct un; [|done]. by apply Consistent_add_edge.
  Qed.
  Lemma add_layer_keydict_keys layer (kd : dict nid attrs) :
    dkeys (add_layer_keydict layer kd).1 = dkeys kd.
  Proof.
    induction kd as [|[k a] kd IH]; [done|]. cbn [add_layer_keydict].
    destruct (dget "layers" a) as [[| | | |l| |]|]; try done;
      destruct (add_layer_keydict layer kd) as [r e]; unfold dkeys in *; simpl in *; by f_equal.
  Qed.
  Lemma Consistent_step g o : Consistent g → Consistent (step g o).1.
  Proof.
    intros C. destruct o; cbn [step].
    - by apply Consistent_add_node.
    - unfold add_nodes_from. apply for_each_inv; [done|]. intros. by apply Consistent_add_nodes_from1.
    - by apply Consistent_add_edge.
    - unfold add_edges_from. apply for_each_inv; [done|]. intros. by apply Consistent_add_edges_from1.
    - unfold add_layer_node. destruct (dget n (g_node g)) as [a|] eqn:En; [|done].
      destruct (dget "layers" a) as [[| | | |l| |]|]; try done.
      apply Consistent_upd; [done|]. apply node_mem. by eexists.
    - unfold add_layer_edge. destruct (dget u (g_succ g)) as [nb|] eqn:Eu; [|done].
      destruct (dget v nb) as [kd|] eqn:Ev; [|done].
      pose proof (add_layer_keydict_keys layer kd) as Hk.
      destruct (add_layer_keydict layer kd) as [kd' e]. simpl in *.
      destruct (c_adj g C _ _ Eu) as [_ Hkk]. destruct (Hkk _ _ Ev) as [Hnn Hnd].
      apply Consistent_upd_kd; try done.
      + apply dget_is_Some; eauto.
      + intros ->. destruct kd; [done|]. done.
      + by rewrite Hk.
    - pose proof (remove_node_eff g n C) as Hr. case_decide.
      + destruct Hr as (g' & -> & C' & _). done.
      + by rewrite Hr.
    - by apply (Consistent_ext g).
    - by apply (Consistent_ext g).
    - unfold add_precedence_relations. destruct (g_tokens g) as [|t0 [|t1 ts]]; [done|done|].
      apply for_each_inv; [done|]. intros. by apply Consistent_add_edge.
  Qed.
End consistent_all.

(** An invariant of the single calls is an invariant of relabelling and of
    merging. *)
Section lift.
  Context (I : graph → Prop) (P : op → Prop).
  Hypothesis Istep : ∀ g o, P o → I g → I (step g o).1.
  Hypothesis Pnode : ∀ n l ad a, P (OAddNode n l ad a).
  Hypothesis Pedge : ∀ u v l k ad a, P (OAddEdge u v l k ad a).
  Hypothesis Pedges : ∀ es ad a, P (OAddEdgesFrom es ad a).
  Hypothesis Prem : ∀ n, P (ORemoveNode n).
  Hypothesis Iext : ∀ g g', g_node g' = g_node g → g_succ g' = g_succ g → g_pred g' = g_pred g → I g → I g'.
  Hypothesis Itok : ∀ g n a t, node_attrs g n = Some a → I g →
    I (set_node (dset n (dset (g_ns g +:+ ":token") t a) (g_node g)) g).
  Hypothesis Pother : ∀ og, I og → P (OAddNodesFrom ((λ p : nid * attrs, NTup p.1 p.2) <$> g_node og) []).
  Hypothesis Iinit : ∀ name ns root, I (init_graph name ns root).

  Lemma lift_relabel1 g old new : I g → I (relabel1 g old new).1.
  Proof using Istep Pnode Pedges Prem.
    intros H. unfold relabel1. destruct (node_attrs g old) as [a|]; [|done].
    destruct (dget "layers" a) as [l|]; [|done].
    pose proof (Istep g (OAddNode new l (Some a) []) (Pnode _ _ _ _) H) as H1. cbn [step] in H1.
    destruct (add_node g new l (Some a) []) as [g1 [e|]]; [done|]. cbn [fst] in H1.
    pose proof (Istep g1 (ORemoveNode old) (Prem _) H1) as H2. cbn [step] in H2.
    destruct (remove_node g1 old) as [g2 [e|]]; [done|]. cbn [fst] in H2.
    match goal with |- I (add_edges_from g2 ?es None []).1 =>
      exact (Istep g2 (OAddEdgesFrom es None []) (Pedges _ _ _) H2) end.
  Qed.
  Lemma lift_relabel g m r : relabel_inplace g m r → I g → I r.1.
  Proof using Istep Pnode Pedges Prem.
    assert (Hl : ∀ order, I g → I (relabel_loop g m order).1).
    { intros order H. unfold relabel_loop. apply for_each_inv; [done|].
      intros g0 x Hx H0. destruct (dget x m); [by apply lift_relabel1|done]. }
    intros [order ? ?|l ? ?|? ?] Hg; try (by apply Hl). done.
  Qed.
  Lemma lift_rename og g r : rename_tokens og g r → I og → I r.1.
  Proof using Istep Pnode Pedges Prem Iext.
    intros [e He|m og' e Hm Hr|m og' vals Hm Hr Hv] H.
    - done.
    - by apply (lift_relabel og m _ Hr).
    - apply (lift_relabel og m _ Hr) in H. simpl in H. destruct vals; [done|]. by apply (Iext og').
  Qed.
  Lemma lift_merge_renamed g og : I g → I og → I (merge_renamed g og).1.
  Proof using Istep Pnode Pedge Pedges Prem Iext Itok Pother.
    intros H Ho. unfold merge_renamed.
    pose proof (Istep g _ (Pother og Ho) H) as H1. cbn [step] in H1.
    destruct (add_nodes_from g _ []) as [g1 [e|]]; [done|]. cbn [fst] in H1.
    assert (H2 : I (for_each (merge_token_attr og) (g_node og) g1).1).
    { apply for_each_inv; [done|]. intros g0 x Hx H0. unfold merge_token_attr.
      destruct (istoken og x.1) as [[]|]; try done.
      destruct (node_attrs g0 x.1) as [a|] eqn:Ea; [|done].
      destruct (dmem _ a); [done|]. destruct (get_token og x.1); [|done]. by apply Itok. }
    destruct (for_each (merge_token_attr og) (g_node og) g1) as [g2 [e|]]; [done|]. cbn [fst] in H2.
    match goal with |- context [add_edges_from g2 ?es None []] =>
      pose proof (Istep g2 (OAddEdgesFrom es None []) (Pedges _ _ _) H2) as H3; cbn [step] in H3;
      destruct (add_edges_from g2 es None []) as [g3 [e|]] end; [done|]. cbn [fst] in H3.
    match goal with |- context [merge_rootnodes ?G og] => set (g6 := G) end.
    assert (H6 : I g6).
    { unfold g6. clear -H3 Iext. repeat case_match; try done; by apply (Iext g3). }
    clearbody g6. unfold merge_rootnodes.
    destruct (node_attrs og (g_root og)); [|done]. destruct (node_attrs g6 (g_root g6)); [|done].
    assert (H7 : I (set_meta (dupdate (g_meta g6) (g_meta og)) g6)) by (by apply (Iext g6)).
    destruct (in_edges og (g_root og)); [|done].
    match goal with |- context [for_each ?F ?L ?G] =>
      assert (H8 : I (for_each F L G).1); [|destruct (for_each F L G) as [g8 [e|]]] end.
    - apply for_each_inv; [done|]. intros g0 x Hx H0.
      exact (Istep g0 (OAddEdge (g_root g0) x.1.1.2 VNone None (Some x.2) []) (Pedge _ _ _ _ _ _) H0).
    - done.
    - exact (Istep g8 (ORemoveNode (g_root og)) (Prem _) H8).
  Qed.
  Lemma lift_reachable (Q : op → Prop) (g : graph) : (∀ o, Q o → P o) → reachable Q g → I g.
  Proof using All.
    intros HQ. induction 1 as [name ns root|g o H IH Ho|g m r H IH Hr|og g r Ho IHo H IH Hr|g og r H IH Ho IHo Hr].
    - apply Iinit.
    - by apply Istep; [apply HQ|].
    - by eapply lift_relabel.
    - by eapply lift_rename.
    - destruct Hr as [og' e Hr|og' Hr]; [done|]. apply lift_merge_renamed; [done|].
      by apply (lift_rename _ _ _ Hr).
  Qed.
End lift.

Section reach.
  Implicit Types (g : graph).
  Lemma GInv_ext g g' :
    g_node g' = g_node g → g_succ g' = g_succ g → g_pred g' = g_pred g → GInv g → GInv g'.
  Proof.
    intros Hn Hs Hp [C L]. split; [by eapply Consistent_ext|].
    unfold Layered, node_attrs, edge_attrs, keydict_of in *. by rewrite Hn, Hs.
  Qed.
  Lemma GInv_tok g n a t : node_attrs g n = Some a → GInv g →
    GInv (set_node (dset n (dset (g_ns g +:+ ":token") t a) (g_node g)) g).
  Proof.
    intros Ha H. assert (Hn : n ∈ nodes g) by (apply node_mem; by eexists).
    pose proof (put_node_in g n (dset (g_ns g +:+ ":token") t a) Hn) as [= Heq].
    change (set_node _ g) with (upd_node g n (dset (g_ns g +:+ ":token") t a)). rewrite Heq.
    apply GInv_put_node; [done|]. destruct (proj1 (proj2 H) _ _ Ha) as [l Hl]. exists l.
    rewrite dget_dset_ne; [done|]. intros Hx. by apply (token_key_ne (g_ns g)).
  Qed.
  Lemma NInv_tok g n a t : node_attrs g n = Some a → NInv g →
    NInv (set_node (dset n (dset (g_ns g +:+ ":token") t a) (g_node g)) g).
  Proof.
    intros Ha H. split; [apply GInv_tok; [done|apply H]|].
    assert (Hn : n ∈ nodes g) by (apply node_mem; by eexists).
    pose proof (put_node_in g n (dset (g_ns g +:+ ":token") t a) Hn) as [= Heq].
    change (set_node _ g) with (upd_node g n (dset (g_ns g +:+ ":token") t a)). rewrite Heq.
    apply NLayered_put_node; [apply H|apply H|].
    destruct (proj1 (proj2 H) _ _ Ha) as (x & l & Hl). exists x, l.
    rewrite dget_dset_ne; [done|]. intros Hx. by apply (token_key_ne (g_ns g)).
  Qed.
  Lemma tuples_not_bare (d : dict nid attrs) :
    ¬ ∃ s, s ∈ ((λ p : nid * attrs, NTup p.1 p.2) <$> d) ∧ is_bare s.
  Proof. intros (s & Hs & Hb). apply elem_of_list_fmap in Hs as ([n a] & -> & _). done. Qed.

  Lemma reach_consistent P g : reachable P g → Consistent g.
  Proof.
    apply (lift_reachable Consistent (λ _, True)); try done.
    - intros g0 o _. apply Consistent_step.
    - apply Consistent_ext.
    - intros g0 n a t Ha C. apply Consistent_upd; [done|]. apply node_mem. by eexists.
    - intros. apply GInv_init.
  Qed.
  Lemma reach_GInv g : reachable no_bare_layers g → GInv g.
  Proof.
    apply (lift_reachable GInv no_bare_layers); try done.
    - intros g0 o. apply GInv_step.
    - apply GInv_ext.
    - apply GInv_tok.
    - intros. apply GInv_init.
  Qed.
  Lemma reach_NInv g : reachable (λ o, no_bare_layers o ∧ no_empty_tuple o) g → NInv g.
  Proof.
    apply (lift_reachable NInv (λ o, no_bare_layers o ∧ no_empty_tuple o)); try done.
    - intros g0 o []. by apply NInv_step.
    - apply NInv_ext.
    - apply NInv_tok.
    - intros og Ho. split.
      + done.
      + intros n d Hd. apply elem_of_list_fmap in Hd as ([n' a] & [= -> ->] & Hd). simpl.
        intros Hl. apply elem_dget in Hd; [|apply Ho].
        destruct (proj1 (proj2 Ho) _ _ Hd) as (x & l & Hl'). congruence.
    - intros. apply NInv_init.
  Qed.
End reach.
