(** * AliasFrame: which dictionaries the mutators write to *)
From Verif Require Import PyBase DocGraph Alias SpecAlias AliasFacts AliasOps AliasEdges AliasEdges2 AliasStep.

Section frame.
  (** addresses below [N] that satisfy [P] may be written to, and all from [N] on *)
  Context (N : nat) (P : nat → Prop).
  Definition safe (l : nat) : Prop := P l ∨ N ≤ l.
  Definition gsafe (g : hgraph) : Prop := ∀ l, l ∈ locs g → safe l.
  Record keeps (h h' : heap) : Prop := {
    k_sets : hp_sets h `prefix_of` hp_sets h';
    k_len : length (hp_dicts h) ≤ length (hp_dicts h');
    k_at : ∀ l, ¬ safe l → dict_at h' l = dict_at h l;
  }.
  Lemma keeps_refl h : keeps h h.
  Proof. by split. Qed.
  Lemma keeps_trans h1 h2 h3 : keeps h1 h2 → keeps h2 h3 → keeps h1 h3.
  Proof. intros [A1 A2 A3] [B1 B2 B3]. split; [by etrans|lia|]. intros l Hl. by rewrite B3, A3. Qed.
  Lemma keeps_new_set h s : keeps h (new_set h s).1.
  Proof. split; [by apply prefix_app_r|done|done]. Qed.
  Lemma keeps_new_dict h d : N ≤ length (hp_dicts h) → keeps h (new_dict h d).1.
  Proof.
    intros HN. split; [done|cbn; rewrite app_length; lia|]. intros l Hl. unfold dict_at. cbn.
    destruct (decide (l < length (hp_dicts h))).
    - by rewrite lookup_app_l.
    - exfalso. apply Hl. right. lia.
  Qed.
  Lemma keeps_put h l d : safe l → keeps h (put_dict h l d).
  Proof.
    intros Hl. split; [done|cbn; by rewrite insert_length|]. intros l' Hl'. apply dict_at_put_ne. by intros ->.
  Qed.
  Lemma keeps_N h h' : keeps h h' → N ≤ length (hp_dicts h) → N ≤ length (hp_dicts h').
  Proof. intros [_ ? _]. lia. Qed.
  Lemma new_safe h : N ≤ length (hp_dicts h) → safe (length (hp_dicts h)).
  Proof. intros. by right. Qed.

  (** the result of an operation *)
  Definition fine (h : heap) (o : houtcome) : Prop := keeps h o.1.1 ∧ gsafe o.1.2.
  Lemma fine_intro h h' g e : keeps h h' → gsafe g → fine h (h', g, e).
  Proof. done. Qed.
  Lemma fine_trans h h1 o : keeps h h1 → fine h1 o → fine h o.
  Proof. intros H [A B]. split; [by eapply keeps_trans|done]. Qed.

  Lemma union_keeps h v l h' r : h_union h v l = (h', r) → keeps h h' ∧ hp_dicts h' = hp_dicts h.
  Proof.
    unfold h_union. destruct v; intros [= <- <-]; try (split; [apply keeps_refl|done]).
    split; [apply (keeps_new_set h)|done].
  Qed.
  Lemma check_keeps h ns v h' r : h_check_layers h ns v = (h', r) → keeps h h' ∧ hp_dicts h' = hp_dicts h.
  Proof.
    unfold h_check_layers. destruct (truthy (val h v)); intros [= <- <-].
    - split; [apply keeps_refl|done].
    - split; [apply (keeps_new_set h)|done].
  Qed.
  Lemma attr_object_keeps h ad a h' o : safe a → (∀ d, ad = Some d → safe d) → attr_object h ad a = (h', o) →
    keeps h h' ∧ safe o ∧ length (hp_dicts h') = length (hp_dicts h).
  Proof.
    intros Ha Hd. unfold attr_object. destruct ad as [d|]; intros [= <- <-].
    - split; [apply keeps_put; by apply Hd|]. split; [by apply Hd|apply put_dict_len].
    - split; [apply keeps_refl|done].
  Qed.
  Lemma new_node_safe g n a : gsafe g → safe a → dget n (h_succ g) = None → gsafe (with_new_node g n a).
  Proof.
    intros Hg Ha Hs l Hl. assert (Hl' : l ∈ a :: locs g).
    { rewrite <-(locs_new_node g n a Hs). apply elem_of_app. by right. }
    apply elem_of_cons in Hl' as [->|?]; [done|by apply Hg].
  Qed.
  Lemma node_safe g n l : gsafe g → dget n (h_node g) = Some l → safe l.
  Proof. intros Hg Hn. apply Hg. apply elem_of_app. left. apply dl_one_elem. exists n. by apply dget_Some_elem. Qed.
  Lemma dmem_None {V} n (d : dict nid V) : dmem n d = false → dget n d = None.
  Proof. unfold dmem. by destruct (dget n d). Qed.

  Lemma add_node_fine h g n lay ad a : N ≤ length (hp_dicts h) → gsafe g → safe a → (∀ d, ad = Some d → safe d) →
    fine h (h_add_node h g n lay ad a).
  Proof.
    intros HN Hg Ha Hd. unfold h_add_node. destruct (h_check_layers h (h_ns g) lay) as [h1 r] eqn:E1.
    destruct (check_keeps _ _ _ _ _ E1) as [K1 L1]. destruct r as [l|e]; [|by apply fine_intro].
    set (h2 := put_dict h1 a _). assert (K2 : keeps h h2) by (eapply keeps_trans; [exact K1|by apply keeps_put]).
    destruct (attr_object h2 ad a) as [h3 o] eqn:E3. destruct (attr_object_keeps _ _ _ _ _ Ha Hd E3) as (K3 & Ho & L3).
    assert (K03 : keeps h h3) by by eapply keeps_trans.
    destruct (dmem n (h_succ g)) eqn:Em.
    - destruct (dget n (h_node g)) as [b|] eqn:Eb; [|by apply fine_intro].
      destruct (dget "layers" (dict_at h3 b)) as [ex|]; [|by apply fine_intro].
      destruct (h_union h3 ex l) as [h4 r] eqn:E4. destruct (union_keeps _ _ _ _ _ E4) as [K4 _].
      assert (K04 : keeps h h4) by by eapply keeps_trans.
      destruct r as [all|e]; [|by apply fine_intro].
      pose proof (node_safe _ _ _ Hg Eb) as Hb.
      apply fine_intro; [|done]. eapply keeps_trans; [exact K04|]. eapply keeps_trans; [by apply (keeps_put h4)|by apply keeps_put].
    - apply fine_intro; [done|]. apply new_node_safe; [done|done|by apply dmem_None].
  Qed.
  Lemma for_each_fine {A} (f : heap → hgraph → A → houtcome) (ok : A → Prop) l :
    (∀ h g x, N ≤ length (hp_dicts h) → gsafe g → ok x → fine h (f h g x)) →
    ∀ h g, N ≤ length (hp_dicts h) → gsafe g → Forall ok l → fine h (h_for_each f l h g).
  Proof.
    intros Hf. induction l as [|x l IH]; intros h g HN Hg Hl; cbn [h_for_each]; [by apply fine_intro; [apply keeps_refl|]|].
    apply List.Forall_cons_iff in Hl as [Hx Hl].
    pose proof (Hf h g x HN Hg Hx) as [K G]. destruct (f h g x) as [[h1 g1] e1]. cbn in K, G.
    destruct e1 as [e1|]; [by apply fine_intro|]. eapply fine_trans; [exact K|]. apply IH; [by eapply keeps_N|done|done].
  Qed.
  Lemma ensure_fine h g n : N ≤ length (hp_dicts h) → gsafe g → fine h (h_ensure_node h g n).
  Proof.
    intros HN Hg. unfold h_ensure_node. destruct (dmem n (h_node g)); [by apply fine_intro; [apply keeps_refl|]|].
    cbn [new_set new_dict].
    eapply (fine_trans h (mkHeap (hp_sets h ++ [[h_ns g]]) (hp_dicts h ++ [[]]))).
    - eapply keeps_trans; [apply (keeps_new_set h [h_ns g])|]. by apply (keeps_new_dict (new_set h [h_ns g]).1 []).
    - apply add_node_fine; [cbn; rewrite app_length; lia|done|by apply new_safe|done].
  Qed.
  Lemma insert_edge_fine h g u v l key a : N ≤ length (hp_dicts h) → gsafe g →
    fine h (h_insert_edge h g u v l key a).
  Proof.
    intros HN Hg. unfold h_insert_edge. destruct (dget u (h_succ g)) as [nbrs|] eqn:Eu; [|by apply fine_intro; [apply keeps_refl|]].
    destruct (dget v nbrs) as [kd|] eqn:Ev.
    - destruct (match key with Some k => Some k | None => fresh_key kd end) as [k|]; [|by apply fine_intro; [apply keeps_refl|]].
      assert (Hin : ∀ x, x ∈ dl one kd → x ∈ locs g).
      { intros x Hx. apply elem_of_app. right. apply dl_elem. exists (u, nbrs). split; [by apply dget_Some_elem|].
        apply dl_elem. exists (v, kd). split; [by apply dget_Some_elem|done]. }
      destruct (match dget k kd with Some o => (h, o) | None => new_dict h [] end) as [h1 o] eqn:E1.
      assert (K1 : keeps h h1 ∧ safe o).
      { destruct (dget k kd) as [o'|] eqn:Ek.
        - injection E1 as <- <-. split; [apply keeps_refl|]. apply Hg. by eapply edge_loc.
        - injection E1 as <- <-. split; [by apply (keeps_new_dict h)|by apply new_safe]. }
      destruct K1 as [K1 Ho].
      destruct (match dget "layers" (dict_at h1 o) with Some v0 => (h1, v0) | None => _ end) as [h2 ex] eqn:E2.
      assert (K2 : keeps h1 h2).
      { destruct (dget "layers" (dict_at h1 o)); injection E2 as <- <-; [apply keeps_refl|apply (keeps_new_set h1)]. }
      destruct (h_union h2 ex l) as [h3 r] eqn:E3. destruct (union_keeps _ _ _ _ _ E3) as [K3 _].
      assert (K03 : keeps h h3) by (eapply keeps_trans; [exact K1|by eapply keeps_trans]).
      destruct r as [all|e]; [|by apply fine_intro].
      apply fine_intro.
      + eapply keeps_trans; [exact K03|]. eapply keeps_trans; [by apply (keeps_put h3)|by apply keeps_put].
      + intros x. unfold locs. cbn [h_node h_succ hset_succ]. rewrite elem_of_app. intros [Hx|Hx].
        { apply Hg. apply elem_of_app. by left. }
        assert (Hx' : x ∈ dl (dl one) (dset v (dset k o kd) nbrs) ++ succ_locs (h_succ g)).
        { unfold succ_locs. rewrite <-(dl_dset (dl (dl one))). apply elem_of_app. by right. }
        apply elem_of_app in Hx' as [Hx'|Hx']; [|apply Hg; apply elem_of_app; by right].
        assert (Hx2 : x ∈ dl one (dset k o kd) ++ dl (dl one) nbrs).
        { rewrite <-(dl_dset (dl one)). apply elem_of_app. by right. }
        apply elem_of_app in Hx2 as [Hx2|Hx2].
        * assert (Hx3 : x ∈ one o ++ dl one kd).
          { rewrite <-(dl_dset one). apply elem_of_app. by right. }
          apply elem_of_app in Hx3 as [->%elem_of_list_singleton|Hx3]; [done|apply Hg; by apply Hin].
        * apply Hg. apply elem_of_app. right. apply dl_elem. exists (u, nbrs). split; [by apply dget_Some_elem|done].
    - cbn [new_dict].
      assert (K1 : keeps h (mkHeap (hp_sets h) (hp_dicts h ++ [dict_at h a]))) by by apply (keeps_new_dict h).
      assert (Hk : gsafe (hset_succ (dset u (dset v [(default (NInt 0) key, length (hp_dicts h))] nbrs) (h_succ g)) g)).
      { intros x Hx. pose proof (locs_new_edge g u v (default (NInt 0) key) (length (hp_dicts h)) nbrs Eu) as Hp.
        rewrite Ev in Hp. specialize (Hp eq_refl). cbn [default dset] in Hp.
        change (dset (default (NInt 0) key) (length (hp_dicts h)) []) with [(default (NInt 0) key, length (hp_dicts h))] in Hp.
        rewrite Hp in Hx. apply elem_of_cons in Hx as [->|Hx]; [by apply new_safe|by apply Hg]. }
      destruct (dget v (h_pred g)) as [ps|]; by apply fine_intro.
  Qed.
  Lemma add_edge_fine h g u v lay key ad a : N ≤ length (hp_dicts h) → gsafe g → safe a → (∀ d, ad = Some d → safe d) →
    fine h (h_add_edge h g u v lay key ad a).
  Proof.
    intros HN Hg Ha Hd. unfold h_add_edge. destruct (h_check_layers h (h_ns g) lay) as [h1 r] eqn:E1.
    destruct (check_keeps _ _ _ _ _ E1) as [K1 L1]. destruct r as [l|e]; [|by apply fine_intro].
    set (h2 := put_dict h1 a _). assert (K2 : keeps h h2) by (eapply keeps_trans; [exact K1|by apply keeps_put]).
    destruct (attr_object h2 ad a) as [h3 o] eqn:E3. destruct (attr_object_keeps _ _ _ _ _ Ha Hd E3) as (K3 & Ho & L3).
    assert (K03 : keeps h h3) by by eapply keeps_trans.
    destruct (for_each_fine h_ensure_node (λ _, True) [u; v] (λ h g n HN Hg _, ensure_fine h g n HN Hg) h3 g (keeps_N _ _ K03 HN) Hg) as [K4 G4].
    { by repeat constructor. }
    destruct (h_for_each h_ensure_node [u; v] h3 g) as [[h4 g4] e4]. cbn in K4, G4.
    assert (K04 : keeps h h4) by by eapply keeps_trans.
    destruct e4 as [e4|]; [by apply fine_intro|].
    eapply fine_trans; [exact K04|]. apply insert_edge_fine; [by eapply keeps_N|done].
  Qed.
  Lemma add_edges_from1_fine h g ad x : N ≤ length (hp_dicts h) → gsafe g →
    is_Some (dget "layers" (dict_at h (he_d x))) →
    fine h (h_add_edges_from1 h g ad x).
  Proof.
    intros HN Hg Hx. unfold h_add_edges_from1. cbv zeta.
    set (h1 := if dmem "layers" (dict_at h (he_d x)) then h else _).
    assert (K1 : keeps h h1).
    { unfold h1, dmem. destruct Hx as [vl ->]. apply keeps_refl. }
    clearbody h1.
    destruct (dget "layers" (dict_at h1 (he_d x))) as [vl|]; [|by apply fine_intro].
    destruct vl as [| | | |layers| |]; try by apply fine_intro.
    destruct (h_additional_layers h1 ad) as [add_l|e]; [|by apply fine_intro]. cbn [new_set].
    set (h2 := mkHeap (hp_sets h1 ++ [set_union (set_at h1 layers) add_l]) (hp_dicts h1)).
    assert (K2 : keeps h h2) by (eapply keeps_trans; [exact K1|apply (keeps_new_set h1)]).
    set (nbrs := default [] (dget (he_u x) (h_succ g))). set (kd := default [] (dget (he_v x) nbrs)).
    destruct (match he_key x with Some k => Some k | None => fresh_key kd end) as [k|]; [|by apply fine_intro].
    destruct (match dget k kd with Some o => (h2, o) | None => new_dict h2 [] end) as [h3 o] eqn:E3.
    assert (K3 : keeps h2 h3 ∧ safe o).
    { destruct (dget k kd) as [o'|] eqn:Ek; injection E3 as <- <-.
      - split; [apply keeps_refl|]. unfold kd, nbrs in Ek.
        destruct (dget (he_u x) (h_succ g)) as [nb|] eqn:Eu; [|done]. cbn in Ek.
        destruct (dget (he_v x) nb) as [kd'|] eqn:Ev; [|done]. cbn in Ek. apply Hg. by eapply edge_loc.
      - split; [apply (keeps_new_dict h2); by eapply keeps_N|apply new_safe; by eapply keeps_N]. }
    destruct K3 as [K3 Ho].
    destruct (match dget "layers" (dict_at h3 o) with Some v0 => (h3, v0) | None => _ end) as [h4 ex] eqn:E4.
    assert (K4 : keeps h3 h4).
    { destruct (dget "layers" (dict_at h3 o)); injection E4 as <- <-; [apply keeps_refl|apply (keeps_new_set h3)]. }
    assert (K04 : keeps h h4) by (eapply keeps_trans; [exact K2|by eapply keeps_trans]).
    set (h5 := put_dict h4 o _). assert (K5 : keeps h h5) by (eapply keeps_trans; [exact K04|by apply keeps_put]).
    set (h6 := put_dict h5 o _). assert (K6 : keeps h h6) by (eapply keeps_trans; [exact K5|by apply keeps_put]).
    clearbody h5 h6. cbn [new_dict].
    set (h7 := mkHeap (hp_sets h6) (hp_dicts h6 ++ [ddel "layers" (dict_at h6 o)])).
    assert (K7 : keeps h h7) by (eapply keeps_trans; [exact K6|apply (keeps_new_dict h6); by eapply keeps_N]).
    destruct (h_union h7 ex (length (hp_sets h1))) as [h8 r] eqn:E8. destruct (union_keeps _ _ _ _ _ E8) as [K8 L8].
    assert (K08 : keeps h h8) by by eapply keeps_trans.
    destruct r as [all|e]; [|by apply fine_intro].
    assert (HN8 : N ≤ length (hp_dicts h8)) by by eapply keeps_N.
    assert (HN6 : N ≤ length (hp_dicts h6)) by by eapply keeps_N.
    eapply fine_trans; [eapply keeps_trans; [exact K08|by apply (keeps_new_dict h8 [])]|].
    apply add_edge_fine; [cbn; rewrite app_length; lia|done|by apply new_safe|].
    intros d [= <-]. by apply new_safe.
  Qed.
  Lemma add_nodes_from1_fine h g attr n d : N ≤ length (hp_dicts h) → gsafe g → is_Some (dget "layers" (dict_at h d)) →
    fine h (h_add_nodes_from1 h g attr (HTup n d)).
  Proof.
    intros HN Hg [vl Hl]. unfold h_add_nodes_from1.
    assert (Hm : dmem "layers" (dict_at h d) = true) by (unfold dmem; by rewrite Hl). rewrite Hm. cbv zeta. rewrite Hl.
    destruct vl as [| | | |layers| |]; try (apply fine_intro; [apply keeps_refl|done]).
    destruct (dmem n (h_succ g)) eqn:Em.
    - destruct (dget n (h_node g)) as [o|] eqn:Eo; [|by apply fine_intro; [apply keeps_refl|]].
      destruct (dget "layers" (dict_at h o)) as [ex|]; [|by apply fine_intro; [apply keeps_refl|]].
      destruct (h_union h ex layers) as [h1 r] eqn:E1. destruct (union_keeps _ _ _ _ _ E1) as [K1 _].
      destruct r as [all|e]; [|by apply fine_intro].
      pose proof (node_safe _ _ _ Hg Eo) as Ho. apply fine_intro; [|done].
      eapply keeps_trans; [exact K1|]. eapply keeps_trans; [by apply (keeps_put h1)|].
      eapply keeps_trans; by apply keeps_put.
    - cbn [new_dict]. apply fine_intro; [by apply (keeps_new_dict h)|].
      apply new_node_safe; [done|by apply new_safe|by apply dmem_None].
  Qed.
  Lemma remove_node_fine h g n : gsafe g → fine h (h_remove_node h g n).
  Proof.
    intros Hg. unfold h_remove_node.
    destruct (dget n (h_succ g)) as [nb|]; [|by apply fine_intro; [apply keeps_refl|]].
    destruct (dget n (h_node g)) as [o|]; [|by apply fine_intro; [apply keeps_refl|]].
    apply fine_intro; [apply keeps_refl|]. intros l. unfold locs. cbn [h_node h_succ]. rewrite elem_of_app. intros [Hl|Hl].
    - apply Hg. apply elem_of_app. left. eapply elem_of_submseteq; [exact Hl|apply dl_ddel].
    - apply Hg. apply elem_of_app. right. eapply elem_of_submseteq; [exact Hl|].
      etrans; [apply cut_locs|]. apply dl_ddel.
  Qed.
End frame.
