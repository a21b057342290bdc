(** * Effects: what each call changes and what it leaves alone (proofs) *)
From Verif Require Import PyBase DocGraph DocGraphFacts History.

Section edges_list.
  Implicit Types (g : graph) (n u v k : nid) (a : attrs).
  Lemma elem_edges g u v k a :
    Consistent g → (u, v, k, a) ∈ edges g ↔ edge_attrs g u v k = Some a.
  Proof.
    intros C. unfold edges. rewrite elem_of_list_bind. split.
    - intros ([u' nb] & Hin & Hp). apply elem_of_list_bind in Hin as ([v' kd] & Hin & Hq).
      apply elem_of_list_bind in Hin as ([k' a'] & Hin & Hr). simpl in *.
      apply elem_of_list_singleton in Hin as [= -> -> -> ->].
      assert (Hu : dget u' (g_succ g) = Some nb).
      { apply elem_dget; [|done]. rewrite (c_succ_dom g C). apply C. }
      destruct (c_adj g C _ _ Hu) as [H1 H2].
      assert (Hv : dget v' nb = Some kd) by (by apply elem_dget).
      destruct (H2 _ _ Hv) as [_ H3].
      unfold edge_attrs, keydict_of. rewrite Hu. simpl. rewrite Hv. simpl. by apply elem_dget.
    - unfold edge_attrs, keydict_of. intros Ha.
      destruct (dget u (g_succ g)) as [nb|] eqn:Hu; [|done]. simpl in Ha.
      destruct (dget v nb) as [kd|] eqn:Hv; [|done]. simpl in Ha.
      exists (u, nb). split; [|by apply dget_Some_elem]. apply elem_of_list_bind.
      exists (v, kd). split; [|by apply dget_Some_elem]. apply elem_of_list_bind.
      exists (k, a). split; [|by apply dget_Some_elem]. by apply elem_of_list_singleton.
  Qed.
  Lemma NoDup_bind {A B} (f : A → list B) (l : list A) :
    NoDup l → (∀ x, x ∈ l → NoDup (f x)) →
    (∀ x y z, x ∈ l → y ∈ l → z ∈ f x → z ∈ f y → x = y) → NoDup (l ≫= f).
  Proof.
    induction l as [|x l IH]; intros Hl Hf Hd; simpl; [constructor|].
    apply NoDup_cons in Hl as [Hx Hl]. apply NoDup_app. split_and!.
    - apply Hf. left.
    - intros z Hz Hz'. apply elem_of_list_bind in Hz' as (y & Hzy & Hy).
      assert (x = y) as ->; [|done]. eapply Hd; eauto; [left|by right].
    - apply IH; [done| |].
      + intros y Hy. apply Hf. by right.
      + intros y y' z Hy Hy'. apply Hd; by right.
  Qed.
  Lemma NoDup_edges g : Consistent g → NoDup (edges g).
  Proof.
    intros C. unfold edges.
    assert (Hs : NoDup (g_succ g)).
    { eapply (NoDup_fmap_1 fst). change (NoDup (dkeys (g_succ g))).
      rewrite (c_succ_dom g C). apply C. }
    apply NoDup_bind; [done| |].
    - intros [u nb] Hu. simpl.
      assert (Hu' : dget u (g_succ g) = Some nb).
      { apply elem_dget; [|done]. rewrite (c_succ_dom g C). apply C. }
      destruct (c_adj g C _ _ Hu') as [H1 H2].
      apply NoDup_bind; [by eapply (NoDup_fmap_1 fst)| |].
      + intros [v kd] Hv. simpl. assert (Hv' : dget v nb = Some kd) by (by apply elem_dget).
        destruct (H2 _ _ Hv') as [_ H3].
        apply NoDup_bind; [by eapply (NoDup_fmap_1 fst)| |].
        * intros [k a] _. apply NoDup_singleton.
        * intros [k a] [k' a'] z _ _ ->%elem_of_list_singleton [= <- <-]%elem_of_list_singleton. done.
      + intros [v kd] [v' kd'] z Hv Hv' Hz Hz'.
        apply elem_of_list_bind in Hz as ([k a] & ->%elem_of_list_singleton & _).
        apply elem_of_list_bind in Hz' as ([k' a'] & [= <- <- <-]%elem_of_list_singleton & _).
        apply elem_dget in Hv; [|done]. apply elem_dget in Hv'; [|done]. simpl in *. congruence.
    - intros [u nb] [u' nb'] z Hu Hu' Hz Hz'.
      apply elem_of_list_bind in Hz as ([v kd] & Hz & _).
      apply elem_of_list_bind in Hz as ([k a] & ->%elem_of_list_singleton & _).
      apply elem_of_list_bind in Hz' as ([v' kd'] & Hz' & _).
      apply elem_of_list_bind in Hz' as ([k' a'] & [= <- <- <- <-]%elem_of_list_singleton & _).
      apply elem_dget in Hu; [|rewrite (c_succ_dom g C); apply C].
      apply elem_dget in Hu'; [|rewrite (c_succ_dom g C); apply C]. simpl in *. congruence.
  Qed.
  (** inserting one keyed edge inserts one element of [edges] *)
  Lemma edges_insert g g' u v k a :
    Consistent g → Consistent g' → edge_attrs g u v k = None →
    (∀ u' v' k', edge_attrs g' u' v' k' =
       if decide (u' = u ∧ v' = v ∧ k' = k) then Some a else edge_attrs g u' v' k') →
    edges g' ≡ₚ (u, v, k, a) :: edges g.
  Proof.
    intros C C' Hn He. apply NoDup_Permutation.
    - by apply NoDup_edges.
    - apply NoDup_cons. split; [|by apply NoDup_edges]. rewrite elem_edges by done. congruence.
    - intros [[[u' v'] k'] a']. rewrite elem_of_cons, !elem_edges by done. rewrite He.
      case_decide; [|naive_solver]. destruct_and!; subst. naive_solver.
  Qed.
  Lemma edges_same g g' :
    Consistent g → Consistent g' →
    (∀ u' v' k', edge_attrs g' u' v' k' = edge_attrs g u' v' k') → edges g' ≡ₚ edges g.
  Proof.
    intros C C' He. apply NoDup_Permutation; [by apply NoDup_edges|by apply NoDup_edges|].
    intros [[[u' v'] k'] a']. rewrite !elem_edges by done. by rewrite He.
  Qed.
End edges_list.

(** ** Layers only grow *)
Section grow.
  Implicit Types (g : graph) (n u v k : nid) (a : attrs).
  Lemma layers_le_refl g : layers_le g g.
  Proof. split; naive_solver. Qed.
  Lemma layers_le_trans g1 g2 g3 : layers_le g1 g2 → layers_le g2 g3 → layers_le g1 g3.
  Proof.
    intros [A1 A2] [B1 B2]. split.
    - intros n a Ha. destruct (A1 _ _ Ha) as (b & Hb & ?). destruct (B1 _ _ Hb) as (c & Hc & ?). eauto.
    - intros u v k a Ha. destruct (A2 _ _ _ _ Ha) as (b & Hb & ?).
      destruct (B2 _ _ _ _ Hb) as (c & Hc & ?). eauto.
  Qed.
  Lemma layers_le_put_node g n a :
    Consistent g → (∀ x, ohas_layer (node_attrs g n) x → has_layer a x) → layers_le g (put_node g n a).
  Proof.
    intros C H. split.
    - intros m b Hb. rewrite node_attrs_put_node. case_decide; [|eauto]. subst.
      exists a. split; [done|]. intros x Hx. apply H. exists b. done.
    - intros u v k b Hb. rewrite edge_attrs_put_node by done. eauto.
  Qed.
  Lemma layers_le_with_node g n : Consistent g → layers_le g (with_node g n).
  Proof.
    intros C. split.
    - intros m b Hb. rewrite node_attrs_with_node, Hb. eauto.
    - intros u v k b Hb. rewrite edge_attrs_with_node by done. eauto.
  Qed.
  Lemma layers_le_put_edge g u v k a :
    Consistent g → u ∈ nodes g → (∀ x, ohas_layer (edge_attrs g u v k) x → has_layer a x) →
    layers_le g (put_edge g u v k a).
  Proof.
    intros C Hu H. split.
    - intros m b Hb. rewrite node_attrs_put_edge. eauto.
    - intros u' v' k' b Hb. rewrite edge_attrs_put_edge by done. case_decide; [|eauto].
      destruct_and!; subst. exists a. split; [done|]. intros x Hx. apply H. exists b. done.
  Qed.

  Lemma layers_le_add_node g n layers ad attr : GInv g → layers_le g (add_node g n layers ad attr).1.
  Proof.
    intros H. pose proof (add_node_eff g n layers ad attr (proj1 H) (proj2 H)) as He.
    destruct (check_layers _ _) as [l|e]; [|rewrite He; apply layers_le_refl].
    destruct He as (a & -> & Hm). apply layers_le_put_node; [apply H|].
    intros x Hx. eapply attr_merge_has_layer; [done|]. by right.
  Qed.
  Lemma layers_le_add_edge g u v layers key ad attr :
    GInv g → layers_le g (add_edge g u v layers key ad attr).1.
  Proof.
    intros H. pose proof (add_edge_eff g u v layers key ad attr H) as He.
    destruct (check_layers _ _) as [l|e]; [|rewrite He; apply layers_le_refl].
    destruct He as (k & a & -> & _ & Hm). simpl.
    pose proof (GInv_with_node g u H) as H1. pose proof (GInv_with_node _ v H1) as H2.
    eapply layers_le_trans; [apply (layers_le_with_node _ u), H|].
    eapply layers_le_trans; [apply (layers_le_with_node _ v), H1|].
    apply layers_le_put_edge; [apply H2|rewrite !nodes_with_node; naive_solver|].
    rewrite !edge_attrs_with_node by (apply H || apply H1).
    intros x Hx. eapply attr_merge_has_layer; [done|]. by right.
  Qed.
  Lemma layers_le_add_nodes_from1 g attr s :
    (is_bare s → dget "layers" attr = None) →
    GInv g → layers_le g (add_nodes_from1 g attr s).1.
  Proof.
    intros Hb H. destruct s as [n|n d].
    - destruct (add_nodes_from1_bare_eff g n attr H) as (a & -> & Ha). simpl.
      apply layers_le_put_node; [apply H|]. intros x (b & Hnb & Hx). case_decide as Hn.
      + destruct Hx as (l & Hl & Hxl). exists l. split; [|done].
        rewrite Ha, Hb by done. by rewrite Hnb.
      + apply node_nmem in Hn. congruence.
    - pose proof (add_nodes_from1_tup_eff g n d attr H) as He.
      destruct (tup_layers _ _) as [| | | |l| |]; try (rewrite He; apply layers_le_refl).
      destruct He as (a & -> & Hm). apply layers_le_put_node; [apply H|].
      intros x Hx. eapply attr_merge_has_layer; [done|]. by right.
  Qed.
  Lemma layers_le_add_edges_from1 g ad e : GInv g → layers_le g (add_edges_from1 g ad e).1.
  Proof.
    intros H. pose proof (add_edges_from1_eff g ad e H) as He.
    destruct (tup_layers _ _) as [| | | |l| |]; try (rewrite He; apply layers_le_refl).
    destruct (additional_layers ad) as [l'|x]; [|rewrite He; apply layers_le_refl].
    destruct He as (k & a & g1 & -> & Hg1 & _ & L & _ & Hm). simpl.
    destruct (edges_from1_cases g e k g1 H Hg1) as (H1 & Hu & Hv & Hna & Hea & _).
    split.
    - intros n b Hb. rewrite node_attrs_put_edge, Hna, !node_attrs_with_node, Hb. eauto.
    - intros u v k' b Hb. rewrite edge_attrs_put_edge; [|apply H1|done]. case_decide as Hd.
      + destruct Hd as (-> & -> & ->). exists a. split; [done|]. intros x Hx.
        eapply attr_merge_has_layer; [done|]. right. exists b. done.
      + rewrite Hea; [eauto|]. naive_solver.
  Qed.
  Lemma for_each_le {A} (f : graph → A → outcome) l : ∀ g,
    GInv g → (∀ g x, x ∈ l → GInv g → GInv (f g x).1 ∧ layers_le g (f g x).1) →
    layers_le g (for_each f l g).1.
  Proof.
    intros g Hg Hf. assert (GInv (for_each f l g).1 ∧ layers_le g (for_each f l g).1) as [_ ?]; [|done].
    apply (for_each_inv (λ g', GInv g' ∧ layers_le g g')).
    - split; [done|apply layers_le_refl].
    - intros g0 x Hx [H0 Hle]. destruct (Hf g0 x Hx H0). split; [done|]. by eapply layers_le_trans.
  Qed.
  Lemma layers_le_step g o :
    (∀ n, o ≠ ORemoveNode n) → no_bare_layers o → GInv g → layers_le g (step g o).1.
  Proof.
    intros Hr Hb H. destruct o; cbn [step].
    - by apply layers_le_add_node.
    - unfold add_nodes_from. apply for_each_le; [done|]. intros g0 x Hx H0.
      assert (is_bare x → dget "layers" attr = None) by (intros ?; apply Hb; eauto).
      split; [by apply GInv_add_nodes_from1|by apply layers_le_add_nodes_from1].
    - by apply layers_le_add_edge.
    - unfold add_edges_from. apply for_each_le; [done|]. intros g0 x Hx H0.
      split; [by apply GInv_add_edges_from1|by apply layers_le_add_edges_from1].
    - pose proof (add_layer_node_eff g n layer H) as He.
      destruct (node_attrs g n) eqn:E; [|rewrite He; apply layers_le_refl].
      destruct He as (a' & -> & Hm). apply layers_le_put_node; [apply H|]. rewrite E.
      intros x Hx. eapply attr_merge_has_layer; [done|]. by right.
    - pose proof (add_layer_edge_eff g u v layer H) as He.
      case_decide; [|rewrite He; apply layers_le_refl].
      destruct He as (g' & -> & _ & Hn & He & _). simpl. split.
      + intros n a Ha. rewrite Hn. eauto.
      + intros u' v' k a Ha. specialize (He u' v' k). rewrite Ha in He.
        destruct He as (a' & Ha' & Hc). exists a'. split; [done|]. intros x Hx.
        case_decide; [|by subst]. eapply attr_merge_has_layer; [done|]. right. exists a. done.
    - by destruct (Hr n).
    - apply (layers_le_refl g).
    - apply (layers_le_refl g).
    - unfold add_precedence_relations. destruct (g_tokens g) as [|t0 [|t1 ts]];
        try apply layers_le_refl.
      apply for_each_le; [done|]. intros g0 x _ H0.
      split; [by apply GInv_add_edge|by apply layers_le_add_edge].
  Qed.
  Lemma layers_le_run g os :
    Forall (λ o, (∀ n, o ≠ ORemoveNode n) ∧ no_bare_layers o) os → GInv g →
    layers_le g (run g os).
  Proof.
    unfold run. intros Hf. revert g. induction Hf as [|o os [Ho1 Ho2] Hf IH]; intros g H.
    - apply layers_le_refl.
    - simpl. eapply layers_le_trans; [by apply layers_le_step|]. apply IH. by apply GInv_step.
  Qed.

  (** ** Layers stay non-empty *)
  Lemma NLayered_put_node g n a : Consistent g → NLayered g → nlayered a → NLayered (put_node g n a).
  Proof.
    intros C [L1 L2] Ha. split.
    - intros m b. rewrite node_attrs_put_node. case_decide; naive_solver.
    - intros u v k b. rewrite edge_attrs_put_node by done. apply L2.
  Qed.
  Lemma NLayered_with_node g n : Consistent g → NLayered g → NLayered (with_node g n).
  Proof.
    intros C N. unfold with_node. case_decide; [done|]. apply NLayered_put_node; [done|done|].
    eexists _, _. done.
  Qed.
  Lemma NLayered_put_edge g u v k a :
    Consistent g → u ∈ nodes g → NLayered g → nlayered a → NLayered (put_edge g u v k a).
  Proof.
    intros C Hu [L1 L2] Ha. split.
    - intros m b. rewrite node_attrs_put_edge. apply L1.
    - intros u' v' k' b. rewrite edge_attrs_put_edge by done. case_decide; naive_solver.
  Qed.
  Definition NInv g := GInv g ∧ NLayered g.
  Lemma NLayered_add_edge g u v layers key ad attr :
    GInv g → NLayered g → NLayered (add_edge g u v layers key ad attr).1.
  Proof.
    intros H N. pose proof (add_edge_eff g u v layers key ad attr H) as He.
    destruct (check_layers _ _) as [l|e] eqn:Ec; [|by rewrite He].
    destruct He as (k & a & -> & _ & Hm). simpl.
    pose proof (GInv_with_node g u H) as H1. pose proof (GInv_with_node _ v H1) as H2.
    apply NLayered_put_edge; [apply H2|rewrite !nodes_with_node; naive_solver| |].
    - apply NLayered_with_node; [apply H1|]. apply NLayered_with_node; [apply H|done].
    - apply check_layers_Ok in Ec as [? _]. by eapply attr_merge_nlayered.
  Qed.
  Lemma NLayered_nodes_from1 g attr s :
    (is_bare s → dget "layers" attr = None) →
    (∀ n d, s = NTup n d → dget "layers" d ≠ Some (VSet [])) →
    GInv g → NLayered g → NLayered (add_nodes_from1 g attr s).1.
  Proof.
    intros Hb Ht H N. destruct s as [n|n d].
    - destruct (add_nodes_from1_bare_eff g n attr H) as (a & -> & Ha). simpl.
      apply NLayered_put_node; [apply H|done|]. case_decide as Hn.
      + apply node_mem in Hn as [o Ho]. destruct (proj1 N _ _ Ho) as (x & l & Hl).
        exists x, l. rewrite Ha, Hb by done. by rewrite Ho.
      + destruct Ha as [Ha _]. by eexists _, _.
    - pose proof (add_nodes_from1_tup_eff g n d attr H) as He.
      destruct (tup_layers _ _) as [| | | |l| |] eqn:Et; try by rewrite He.
      destruct He as (a & -> & Hm). apply NLayered_put_node; [apply H|done|].
      eapply attr_merge_nlayered; [|done]. intros ->. apply (Ht n d eq_refl).
      unfold tup_layers in Et. destruct (dget "layers" d); simpl in Et; congruence.
  Qed.
  Lemma NLayered_edges_from1 g ad e : GInv g → NLayered g → NLayered (add_edges_from1 g ad e).1.
  Proof.
    intros H N. pose proof (add_edges_from1_eff g ad e H) as He.
    destruct (tup_layers _ _) as [| | | |l| |]; try by rewrite He.
    destruct (additional_layers ad) as [l'|x]; [|by rewrite He].
    destruct He as (k & a & g1 & -> & Hg1 & _ & L & HL & Hm). simpl.
    destruct (edges_from1_cases g e k g1 H Hg1) as (H1 & Hu & Hv & Hna & Hea & _).
    assert (Hn : nlayered a).
    { apply nlayered_has_layer; [by eapply attr_merge_layered|].
      assert (∃ x, x ∈ L ∨ ohas_layer (edge_attrs g (e_u e) (e_v e) k) x) as (x & Hx).
      { destruct l as [|x l]; [|exists x; left; apply HL; left; left].
        destruct l' as [|x l']; [|exists x; left; apply HL; right; left; left].
        destruct (edge_attrs g (e_u e) (e_v e) k) as [o|] eqn:Eo.
        - destruct (proj2 N _ _ _ _ Eo) as (x & lo & Hlo). exists x. right. exists o.
          split; [done|]. exists (x :: lo). split; [done|left].
        - exists (g_ns g). left. apply HL. right; right. split_and!; try done.
          intros y (b & ? & _). done. }
      exists x. eapply attr_merge_has_layer; [done|]. done. }
    split.
    - intros n b. rewrite node_attrs_put_edge, Hna.
      assert (NLayered (with_node (with_node g (e_u e)) (e_v e))) as [N1 _]; [|apply N1].
      apply NLayered_with_node; [apply GInv_with_node, H|]. apply NLayered_with_node; [apply H|done].
    - intros u v k' b. rewrite edge_attrs_put_edge; [|apply H1|done]. case_decide as Hd; [naive_solver|].
      rewrite Hea; [apply N|]. naive_solver.
  Qed.
  Lemma for_each_ninv {A} (f : graph → A → outcome) l : ∀ g,
    NInv g → (∀ g x, x ∈ l → NInv g → NInv (f g x).1) → NInv (for_each f l g).1.
  Proof. intros g. apply for_each_inv. Qed.
  Lemma NInv_step g o : no_bare_layers o → no_empty_tuple o → NInv g → NInv (step g o).1.
  Proof.
    intros Hb Ht [H N]. split; [by apply GInv_step|]. destruct o; cbn [step].
    - pose proof (add_node_eff g n layers attr_dict attr (proj1 H) (proj2 H)) as He.
      destruct (check_layers _ _) as [l|e] eqn:Ec; [|by rewrite He].
      destruct He as (a & -> & Hm). apply NLayered_put_node; [apply H|done|].
      apply check_layers_Ok in Ec as [? _]. by eapply attr_merge_nlayered.
    - unfold add_nodes_from. apply for_each_ninv; [done|]. intros g0 x Hx [H0 N0].
      assert (is_bare x → dget "layers" attr = None) by (intros ?; apply Hb; eauto).
      split; [by apply GInv_add_nodes_from1|apply NLayered_nodes_from1; try done].
      intros n d ->. by apply (Ht n d).
    - by apply NLayered_add_edge.
    - unfold add_edges_from. apply for_each_ninv; [done|]. intros g0 x Hx [H0 N0].
      split; [by apply GInv_add_edges_from1|by apply NLayered_edges_from1].
    - pose proof (add_layer_node_eff g n layer H) as He.
      destruct (node_attrs g n) eqn:E; [|by rewrite He].
      destruct He as (a' & -> & Hm). apply NLayered_put_node; [apply H|done|].
      eapply attr_merge_nlayered; [|done]; done.
    - pose proof (add_layer_edge_eff g u v layer H) as He.
      case_decide; [|by rewrite He].
      destruct He as (g' & -> & _ & Hn & He & _). simpl. split.
      + intros n a. rewrite Hn. apply N.
      + intros u' v' k a Ha. specialize (He u' v' k).
        destruct (edge_attrs g u' v' k) as [b|] eqn:Eb; [|congruence].
        destruct He as (a' & Ha' & Hc). rewrite Ha' in Ha. injection Ha as <-.
        case_decide; [eapply attr_merge_nlayered; [|done]; done|]. subst. by eapply (proj2 N).
    - pose proof (remove_node_eff g n (proj1 H)) as He. case_decide; [|by rewrite He].
      destruct He as (g' & -> & C' & Hn & Hk & _). simpl. split.
      + intros m a. rewrite Hn. case_decide; [done|]. apply N.
      + intros u v k a. unfold edge_attrs. rewrite Hk. case_decide; [done|]. apply (proj2 N).
    - done.
    - done.
    - unfold add_precedence_relations. destruct (g_tokens g) as [|t0 [|t1 ts]]; try done.
      apply for_each_ninv; [done|]. intros g0 x _ [H0 N0].
      split; [by apply GInv_add_edge|by apply NLayered_add_edge].
  Qed.
  Lemma NInv_run g os :
    Forall (λ o, no_bare_layers o ∧ no_empty_tuple o) os → NInv g → NInv (run g os).
  Proof.
    unfold run. intros Hf. revert g. induction Hf as [|o os [Ho Ho'] Hf IH]; intros g H; [done|].
    simpl. apply IH. by apply NInv_step.
  Qed.
  Lemma NInv_init name ns root : NInv (init_graph name ns root).
  Proof.
    split; [apply GInv_init|]. unfold init_graph.
    match goal with |- context [add_node _ ?R _ _ _] => set (r := R) end.
    unfold add_node. simpl. split.
    - intros n a. unfold node_attrs. simpl. case_decide; [|done]. intros [= <-]. by eexists _, _.
    - intros u v k a. unfold edge_attrs, keydict_of. simpl. by case_decide.
  Qed.
End grow.

(** ** add_precedence_relations *)
Section precedence.
  Implicit Types (g : graph) (n u v k : nid) (a : attrs).
  (** precedence edges in call order, each with the key it got *)
  (** A loop that adds one fresh edge per pair. *)
  Lemma prec_loop l : ∀ g, GInv g →
    ∃ g' new, for_each add_prec_edge l g = (g', None) ∧ GInv g' ∧
      edges g' ≡ₚ new ++ edges g ∧
      Forall2 (λ p e, e.1.1 = p ∧ prec_attrs (g_ns g) e.2) l new ∧
      (∀ n a, node_attrs g n = Some a → node_attrs g' n = Some a) ∧
      (∀ n, node_attrs g n = None → node_attrs g' n =
         if decide (n ∈ (l.*1 ++ l.*2)) then Some [("layers", VSet [g_ns g])] else None) ∧
      g_name g' = g_name g ∧ g_ns g' = g_ns g ∧ g_root g' = g_root g ∧
      g_tokens g' = g_tokens g ∧ g_sentences g' = g_sentences g ∧ g_meta g' = g_meta g.
  Proof.
    induction l as [|[u v] l IH]; intros g H; cbn [for_each].
    { exists g, []. split_and!; try done. }
    unfold add_prec_edge at 1. cbn [fst snd].
    pose proof (add_edge_eff g u v (VSet [g_ns g; g_ns g +:+ ":precedence"]) None None
        [("edge_type", VStr precedes)] H) as He.
    assert (Hc : check_layers (g_ns g) (VSet [g_ns g; g_ns g +:+ ":precedence"]) =
                 Ok [g_ns g; g_ns g +:+ ":precedence"]) by done.
    rewrite Hc in He. destruct He as (k & a & -> & [Hk _] & Hm).
    set (g1 := put_edge _ u v k a).
    pose proof (GInv_with_node g u H) as H1. pose proof (GInv_with_node _ v H1) as H2.
    assert (Hu : u ∈ nodes (with_node (with_node g u) v)) by (rewrite !nodes_with_node; naive_solver).
    assert (Hv : v ∈ nodes (with_node (with_node g u) v)) by (rewrite !nodes_with_node; naive_solver).
    assert (Hg1 : GInv g1).
    { apply GInv_put_edge; try done. by eapply attr_merge_layered. }
    destruct (IH g1 Hg1) as (g' & new & -> & Hg' & Hed & Hall & Hn1 & Hn2 & Ho).
    pose proof (with_node_other g u) as (?&?&?&?&?&?).
    pose proof (with_node_other (with_node g u) v) as (?&?&?&?&?&?).
    pose proof (put_edge_other (with_node (with_node g u) v) u v k a) as Hpo.
    change (put_edge (with_node (with_node g u) v) u v k a) with g1 in Hpo.
    destruct Hpo as (?&?&?&?&?&?&?).
    assert (Hns : g_ns g1 = g_ns g) by congruence.
    assert (Hpe : prec_attrs (g_ns g) a).
    { destruct Hm as [(L & HL & HLx) Hm2]. split_and!.
      - by rewrite Hm2.
      - intros x. unfold has_layer. rewrite HL. rewrite Hk in HLx. split.
        + intros (l' & [= <-] & Hx). apply HLx in Hx as [Hx|(b & ? & _)]; [|done].
          by rewrite !elem_of_cons, elem_of_nil in Hx; naive_solver.
        + intros Hx. exists L. split; [done|]. apply HLx. left.
          rewrite !elem_of_cons, elem_of_nil. naive_solver.
      - intros key Hk1 Hk2. rewrite Hm2 by done. rewrite Hk. simpl. by rewrite decide_False. }
    assert (Hed1 : edges g1 ≡ₚ (u, v, k, a) :: edges g).
    { apply edges_insert; [apply H|apply Hg1|done|].
      intros u' v' k'. unfold g1. rewrite edge_attrs_put_edge; [|apply H2|done].
      rewrite !edge_attrs_with_node; [done|apply H|apply H1]. }
    exists g', (((u, v, k), a) :: new). split_and!; try done; try (destruct_and!; congruence).
    - rewrite Hed, Hed1. by rewrite <-Permutation_middle.
    - constructor; [done|]. by rewrite Hns in Hall.
    - intros n b Hb. apply Hn1. unfold g1. rewrite node_attrs_put_edge, !node_attrs_with_node.
      by rewrite Hb.
    - intros n Hb. rewrite !fmap_cons. cbn [fst snd].
      destruct (decide (n = u ∨ n = v)) as [Hd|Hd].
      + rewrite decide_True.
        2:{ rewrite elem_of_app, !elem_of_cons. naive_solver. }
        apply Hn1. unfold g1. rewrite node_attrs_put_edge, !node_attrs_with_node, Hb.
        pose proof (with_node_other g u) as (_&Hwn&_). rewrite Hwn.
        destruct (decide (n = u)); [done|]. by rewrite decide_True by naive_solver.
      + rewrite Hn2.
        * rewrite Hns. apply decide_ext. rewrite !elem_of_app, !elem_of_cons. naive_solver.
        * unfold g1. rewrite node_attrs_put_edge, !node_attrs_with_node, Hb.
          by rewrite !decide_False by naive_solver.
  Qed.
End precedence.
