(** * MergeFacts: relabel_inplace, create_token_mapping, merge_graphs (proofs) *)
From Verif Require Import PyBase DocGraph DocGraphFacts History Effects Relabel RelabelFacts.

Section inplace.
  Implicit Types (g : graph) (n u v k : nid) (a : attrs).

  Lemma vals_inj (m : dict nid nid) o o' n :
    NoDup m.*1 → NoDup m.*2 → dget o m = Some n → dget o' m = Some n → o = o'.
  Proof.
    intros Hk Hv Ho Ho'. apply dget_Some_elem in Ho, Ho'.
    induction m as [|[x y] m IH]; [by apply elem_of_nil in Ho|].
    rewrite !fmap_cons in Hk, Hv. apply NoDup_cons in Hk as [Hx Hk]. apply NoDup_cons in Hv as [Hy Hv].
    simpl in *. apply elem_of_cons in Ho, Ho'.
    destruct Ho as [Ho|Ho], Ho' as [Ho'|Ho'].
    - congruence.
    - injection Ho as -> ->. destruct Hy. apply elem_of_list_fmap. by exists (o', y).
    - injection Ho' as -> ->. destruct Hy. apply elem_of_list_fmap. by exists (o, y).
    - by apply IH.
  Qed.

  Lemma relabel_inplace_iso g m r :
    NInv g → mapping_ok m g → relabel_inplace g m r →
    (∃ g', r = (g', None) ∧ NInv g' ∧ same_doc g g' ∧ iso (mapped m) g g') ∨
    (r = (g, Some NetworkXUnfeasible) ∧ overlap m ∧ ∀ l, ¬ topo_order m l).
  Proof.
    intros H M Hr. destruct M as [Mk Mv Min Mf Mid Ml].
    assert (Hel : ∀ o n, dget o m = Some n → o ∈ m.*1 ∧ n ∈ m.*2 ∧ (o, n) ∈ m).
    { intros o n Hon. apply dget_Some_elem in Hon. split_and!; [| |done].
      - apply elem_of_list_fmap. by exists (o, n).
      - apply elem_of_list_fmap. by exists (o, n). }
    assert (Hsome : ∀ o, o ∈ m.*1 ↔ is_Some (dget o m)) by (intros o; by rewrite dget_is_Some).
    inversion Hr as [order Hno Hp|l Hov Ht|Hov Hnt]; subst.
    - left. destruct (relabel_loop_iso m order g) as (g' & -> & H' & D & I).
      + done.
      + by rewrite Hp.
      + intros o Ho _. apply Min. by rewrite <-Hp.
      + intros o o' n _ _. by apply vals_inj.
      + intros i o n Hi Hon. left. intros Hn. destruct (Hel _ _ Hon) as (? & Hnv & _).
        apply Hno. exists n. split; [by apply Mf|done].
      + intros o n _ Hon. apply Hel in Hon as (_ & _ & Hon). by eapply Ml.
      + exists g'. split_and!; try done. eapply iso_ext; [|apply H|exact I].
        intros x Hx. simpl. case_decide as Hd; [done|].
        unfold mapped. rewrite Hp in Hd. rewrite Hsome in Hd.
        destruct (dget x m); [destruct Hd; by eexists|done].
    - left. destruct Ht as (Hnd & Hall & Hord).
      destruct (relabel_loop_iso m (reverse l) g) as (g' & -> & H' & D & I).
      + done.
      + by rewrite reverse_Permutation.
      + intros o _ Ho. apply Min. by apply Hsome.
      + intros o o' n _ _. by apply vals_inj.
      + intros i o n Hi Hon. destruct (decide (n ∈ nodes g)) as [Hn|Hn]; [|by left]. right.
        destruct (Hel _ _ Hon) as (Ho1 & Hnv & Hpair). pose proof (Mf n Hnv Hn) as Hnk.
        destruct (Hord o n Hpair (Mid _ _ Hpair)) as (p & q & Hp & Hq & Hpq).
        pose proof (lookup_lt_Some _ _ _ Hp) as Hpl. pose proof (lookup_lt_Some _ _ _ Hq) as Hql.
        pose proof (lookup_lt_Some _ _ _ Hi) as Hil. rewrite reverse_length in Hil.
        assert (Hri : reverse l !! i = l !! (length l - S i)) by (by apply reverse_lookup).
        rewrite Hri in Hi.
        assert (p = length l - S i) as Hpi by (by eapply NoDup_lookup).
        exists (length l - S q). split; [lia|]. split; [|by apply Hsome].
        rewrite reverse_lookup by lia. rewrite <-Hq. f_equal. lia.
      + intros o n _ Hon. apply Hel in Hon as (_ & _ & Hon). by eapply Ml.
      + exists g'. split_and!; try done. eapply iso_ext; [|apply H|exact I].
        intros x Hx. simpl. case_decide as Hd; [done|].
        unfold mapped. rewrite elem_of_reverse, Hall in Hd. rewrite Hsome in Hd.
        destruct (dget x m); [destruct Hd; left; by eexists|done].
    - by right.
  Qed.
End inplace.

(** ** create_token_mapping *)
Section tokmap.
  Implicit Types (g : graph).
  Lemma token_mapping_Ok og ng os ns acc m :
    token_mapping og ng os ns acc = Ok m →
    length ns ≤ length os ∧
    m = foldl (λ d p, dset p.1 p.2 d) acc (zip os ns) ∧
    ∀ i o n, os !! i = Some o → ns !! i = Some n →
      ∃ t, get_token og o = Ok t ∧ get_token ng n = Ok t.
  Proof.
    revert os acc. induction ns as [|n ns IH]; intros os acc; simpl.
    { intros [= ->]. split_and!; [lia|by destruct os|]. intros i o n _. by rewrite lookup_nil. }
    destruct (get_token ng n) as [nt|] eqn:En; simpl; [|done].
    destruct os as [|o os]; [done|]. destruct (get_token og o) as [ot|] eqn:Eo; simpl; [|done].
    case_decide as Hd; [|done]. intros Hm. apply IH in Hm as (Hlen & -> & Ht).
    split_and!; [simpl; lia|done|]. intros [|i] x y Hx Hy; simpl in *.
    - injection Hx as <-. injection Hy as <-. exists nt. split; congruence.
    - by eapply Ht.
  Qed.
  Lemma token_mapping_err og ng os ns acc e :
    token_mapping og ng os ns acc = Err e →
    (e = StopIteration ∧ length os < length ns) ∨
    (e = ValueError ∧ ∃ i o n t t', os !! i = Some o ∧ ns !! i = Some n ∧
        get_token og o = Ok t ∧ get_token ng n = Ok t' ∧ t ≠ t') ∨
    (e = KeyError ∧ ((∃ o, o ∈ os ∧ get_token og o = Err KeyError) ∨
                     (∃ n, n ∈ ns ∧ get_token ng n = Err KeyError))).
  Proof.
    assert (Hk : ∀ g n x, get_token g n = Err x → x = KeyError).
    { intros g n x. unfold get_token, of_option. repeat case_match; naive_solver. }
    revert os acc. induction ns as [|n ns IH]; intros os acc; simpl; [done|].
    destruct (get_token ng n) as [nt|x] eqn:En; simpl.
    2:{ intros [= <-]. right; right. split; [by eapply Hk|]. right. exists n. split; [left|].
        by rewrite (Hk _ _ _ En) in En. }
    destruct os as [|o os]; [intros [= <-]; left; split; [done|simpl; lia]|].
    destruct (get_token og o) as [ot|x] eqn:Eo; simpl.
    2:{ intros [= <-]. right; right. split; [by eapply Hk|]. left. exists o. split; [left|].
        by rewrite (Hk _ _ _ Eo) in Eo. }
    case_decide as Hd.
    - intros Hm. apply IH in Hm as [[-> ?]|[(-> & i & x & y & t & t' & ? & ? & ?)|(-> & Hex)]].
      + left. split; [done|lia].
      + right; left. split; [done|]. exists (S i), x, y, t, t'. done.
      + right; right. split; [done|]. destruct Hex as [(x & ? & ?)|(x & ? & ?)].
        * left. exists x. split; [by right|done].
        * right. exists x. split; [by right|done].
    - intros [= <-]. right; left. split; [done|]. exists 0, o, n, ot, nt. naive_solver.
  Qed.
  Lemma foldl_dset_zip (os ns : list nid) : ∀ acc,
    NoDup os → length ns ≤ length os → (∀ o, o ∈ os → o ∉ dkeys acc) →
    foldl (λ d p, dset p.1 p.2 d) acc (zip os ns) = acc ++ zip os ns.
  Proof.
    revert ns. induction os as [|o os IH]; intros ns acc Hnd Hl Ha; simpl.
    { by rewrite app_nil_r. }
    destruct ns as [|n ns]; simpl in *; [by rewrite app_nil_r|].
    apply NoDup_cons in Hnd as [Ho Hnd].
    assert (Hds : ∀ d : dict nid nid, o ∉ dkeys d → dset o n d = d ++ [(o, n)]).
    { induction d as [|[x y] d IHd]; [done|]. intros Hod. simpl.
      unfold dkeys in Hod. rewrite fmap_cons, not_elem_of_cons in Hod. simpl in Hod.
      rewrite decide_False by tauto. simpl. f_equal. apply IHd. unfold dkeys. tauto. }
    rewrite Hds by (apply Ha; left). rewrite IH; [by rewrite <-(assoc_L (++))|done|lia|].
    intros x Hx. unfold dkeys. rewrite fmap_app, not_elem_of_app. split; [apply Ha; by right|].
    simpl. rewrite elem_of_list_singleton. intros ->. done.
  Qed.
End tokmap.

(** ** merge_renamed *)
Section merge.
  Implicit Types (g og : graph) (n u v k : nid) (a : attrs).

  Lemma slength_app (s t : string) : String.length (s +:+ t) = String.length s + String.length t.
  Proof.
    induction s as [|d s IH]; [done|].
    change (S (String.length (s +:+ t)) = S (String.length s + String.length t)). by rewrite IH.
  Qed.
  Lemma token_key_ne ns : ns +:+ ":token" ≠ "layers".
  Proof.
    intros H. assert (Hl : String.length (ns +:+ ":token") = String.length "layers") by (by rewrite H).
    rewrite slength_app in Hl. simpl in Hl. destruct ns as [|c ns]; [done|]. simpl in Hl. lia.
  Qed.

  (** stage 1: add_nodes_from(other.nodes(data=True)) *)
  Lemma merge_nodes l : ∀ g,
    NInv g → NoDup l.*1 → Forall (λ p, nlayered p.2) l →
    ∃ g', add_nodes_from g ((λ p : nid * attrs, NTup p.1 p.2) <$> l) [] = (g', None) ∧
      NInv g' ∧ same_doc g g' ∧
      (∀ u v k, edge_attrs g' u v k = edge_attrs g u v k) ∧
      (∀ n, match dget n l with
            | None => node_attrs g' n = node_attrs g n
            | Some a => ∃ a' L, node_attrs g' n = Some a' ∧ dget "layers" a = Some (VSet L) ∧
                                attr_merge (node_attrs g n) L a a'
            end).
  Proof.
    unfold add_nodes_from. induction l as [|[n a] l IH]; intros g H Hnd Hl; cbn [fmap list_fmap for_each].
    { exists g. split_and!; try done. }
    rewrite fmap_cons in Hnd. apply NoDup_cons in Hnd as [Hn Hnd]. simpl in Hn.
    apply Forall_cons in Hl as [(x0 & l0 & Hl0) Hl]. simpl in Hl0.
    pose proof (add_nodes_from1_tup_eff g n a [] (proj1 H)) as He.
    assert (Ht : tup_layers (g_ns g) a = VSet (x0 :: l0)) by (unfold tup_layers; by rewrite Hl0).
    rewrite Ht in He. destruct He as (a' & He & Hm). cbn [fst snd]. rewrite He.
    assert (Hm' : attr_merge (node_attrs g n) (x0 :: l0) a a').
    { destruct Hm as [Hm1 Hm2]. split; [done|]. intros key Hk. rewrite Hm2 by done.
      case_decide; rewrite dget_dupdate; simpl; [done|]. by destruct (dget key a). }
    set (g1 := put_node g n a').
    assert (H1 : NInv g1).
    { split; [apply GInv_put_node; [apply H|by eapply attr_merge_layered]|].
      apply NLayered_put_node; [apply H|apply H|]. eapply attr_merge_nlayered; [|exact Hm']. done. }
    destruct (IH g1 H1 Hnd Hl) as (g' & -> & H' & D' & E' & N').
    exists g'. split_and!; try done.
    - pose proof (put_node_other g n a') as Hpo. unfold same_doc in *.
      change (put_node g n a') with g1 in Hpo. destruct_and!. split_and!; congruence.
    - intros u v k. rewrite E'. apply edge_attrs_put_node, H.
    - intros m. specialize (N' m). simpl. destruct (decide (m = n)) as [->|Hd].
      + rewrite (proj2 (dget_None l n)) in N' by done.
        exists a', (x0 :: l0). rewrite N'. unfold g1. rewrite node_attrs_put_node, decide_True by done.
        done.
      + assert (Hg1 : node_attrs g1 m = node_attrs g m).
        { unfold g1. rewrite node_attrs_put_node. by rewrite decide_False. }
        rewrite Hg1 in N'. done.
  Qed.

  (** stage 2: the token attribute *)
  Lemma merge_tokattr og l : ∀ g,
    NInv g → NoDup l.*1 → (∀ n, n ∈ l.*1 → n ∈ nodes og ∧ n ∈ nodes g) →
    ∃ g', for_each (merge_token_attr og) l g = (g', None) ∧
      NInv g' ∧ same_doc g g' ∧
      (∀ u v k, edge_attrs g' u v k = edge_attrs g u v k) ∧
      (∀ n, match node_attrs g n with
            | None => node_attrs g' n = None
            | Some a => ∃ a', node_attrs g' n = Some a' ∧
                (∀ key, key ≠ g_ns g +:+ ":token" → dget key a' = dget key a) ∧
                dget (g_ns g +:+ ":token") a' =
                  match dget (g_ns g +:+ ":token") a with
                  | Some t => Some t
                  | None => if decide (n ∈ l.*1) then oget (node_attrs og n) (g_ns og +:+ ":token")
                            else None
                  end
            end) ∧
      (∀ n, n ∉ l.*1 → node_attrs g' n = node_attrs g n).
  Proof.
    induction l as [|[n a0] l IH]; intros g H Hnd Hin; cbn [for_each].
    { exists g. split_and!; try done. intros n. destruct (node_attrs g n) as [a|]; [|done].
      exists a. split_and!; try done. rewrite decide_False by apply not_elem_of_nil.
      by destruct (dget _ a). }
    rewrite fmap_cons in Hnd. apply NoDup_cons in Hnd as [Hn Hnd]. simpl in Hn.
    destruct (Hin n) as [Hno Hng]; [rewrite fmap_cons; left|].
    apply node_mem in Hno as [ao Hao]. apply node_mem in Hng as [ag Hag].
    assert (∃ g1 a1, merge_token_attr og g (n, a0) = (g1, None) ∧ NInv g1 ∧ same_doc g g1 ∧
      (∀ u v k, edge_attrs g1 u v k = edge_attrs g u v k) ∧
      (∀ m, node_attrs g1 m = if decide (m = n) then Some a1 else node_attrs g m) ∧
      (∀ key, key ≠ g_ns g +:+ ":token" → dget key a1 = dget key ag) ∧
      dget (g_ns g +:+ ":token") a1 = match dget (g_ns g +:+ ":token") ag with
                  | Some t => Some t | None => dget (g_ns og +:+ ":token") ao end)
      as (g1 & a1 & Hs & H1 & D1 & E1 & N1 & K1 & T1).
    { unfold merge_token_attr, istoken, get_token. cbn [fst]. rewrite Hao, Hag.
      destruct (dmem (g_ns og +:+ ":token") ao) eqn:Em.
      - destruct (dmem (g_ns g +:+ ":token") ag) eqn:Em2.
        + exists g, ag. split_and!; try done.
          * intros m. by case_decide; subst.
          * unfold dmem in Em2. by destruct (dget (g_ns g +:+ ":token") ag).
        + unfold dmem in Em, Em2. destruct (dget (g_ns og +:+ ":token") ao) as [t|]; [|done].
          simpl. destruct (dget (g_ns g +:+ ":token") ag) eqn:Eg; [done|].
          set (a1 := dset (g_ns g +:+ ":token") t ag).
          assert (Hput : (set_node (dset n a1 (g_node g)) g, @None exc) = (put_node g n a1, None)).
          { apply put_node_in, node_mem. eauto. }
          exists (put_node g n a1), a1. split; [done|].
          assert (Hla : dget "layers" a1 = dget "layers" ag).
          { apply dget_dset_ne. pose proof (token_key_ne (g_ns g)). congruence. }
          split_and!.
          * split.
            -- apply GInv_put_node; [apply H|]. destruct (proj1 (proj2 (proj1 H)) _ _ Hag) as [lx Hlx].
               exists lx. by rewrite Hla.
            -- apply NLayered_put_node; [apply H|apply H|].
               destruct (proj1 (proj2 H) _ _ Hag) as (x & lx & Hlx). exists x, lx. by rewrite Hla.
          * apply put_node_other.
          * intros. apply edge_attrs_put_node, H.
          * intros. apply node_attrs_put_node.
          * intros key Hk. by apply dget_dset_ne.
          * apply dget_dset_eq.
      - exists g, ag. split_and!; try done.
        + intros m. by case_decide; subst.
        + unfold dmem in Em. destruct (dget (g_ns og +:+ ":token") ao); [done|].
          by destruct (dget (g_ns g +:+ ":token") ag). }
    rewrite Hs. destruct (IH g1 H1 Hnd) as (g' & -> & H' & D' & E' & N' & U').
    { intros x Hx. destruct (Hin x) as [? Hx2]; [rewrite fmap_cons; by right|]. split; [done|].
      apply node_mem. rewrite N1. case_decide; [by eexists|]. by apply node_mem. }
    exists g'. split_and!; try done.
    - unfold same_doc in *. destruct_and!. split_and!; congruence.
    - intros u v k. by rewrite E', E1.
    - assert (Hns : g_ns g1 = g_ns g) by (unfold same_doc in D1; naive_solver).
      intros m. specialize (N' m). rewrite N1, Hns in N'. rewrite fmap_cons. cbn [fst].
      destruct (decide (m = n)) as [->|Hd].
      + rewrite Hag. destruct N' as (a' & Ha' & Hk' & Ht'). exists a'. split_and!; [done| |].
        * intros key Hk. by rewrite Hk', K1.
        * rewrite Ht', T1. rewrite (decide_True (P := n ∈ n :: l.*1)) by left. rewrite Hao. simpl.
          destruct (dget _ ag); [done|]. destruct (dget _ ao); [done|]. by rewrite decide_False.
      + destruct (node_attrs g m) as [am|]; [|done]. destruct N' as (a' & Ha' & Hk' & Ht').
        exists a'. split_and!; [done|done|]. rewrite Ht'. case_match; [done|].
        apply decide_ext. rewrite elem_of_cons. naive_solver.
    - intros m. rewrite fmap_cons, not_elem_of_cons. intros [Hm Hml]. rewrite U' by done.
      rewrite N1. by rewrite decide_False.
  Qed.

  (** a loop that adds one fresh edge per element and changes no node *)
  Lemma fresh_edges_loop {A} (f : graph → A → outcome) (R : A → nid * nid * nid * attrs → Prop)
      (P : graph → Prop) l : ∀ g,
    P g →
    (∀ g x, P g → x ∈ l → ∃ g' e, f g x = (g', None) ∧ P g' ∧ edges g' ≡ₚ e :: edges g ∧ R x e ∧
        (∀ n, node_attrs g' n = node_attrs g n) ∧ same_doc g g') →
    ∃ g' new, for_each f l g = (g', None) ∧ P g' ∧ edges g' ≡ₚ edges g ++ new ∧ Forall2 R l new ∧
        (∀ n, node_attrs g' n = node_attrs g n) ∧ same_doc g g'.
  Proof.
    induction l as [|x l IH]; intros g Hg Hf; cbn [for_each].
    { exists g, []. split_and!; try done. by rewrite app_nil_r. }
    destruct (Hf g x Hg) as (g1 & e & -> & H1 & E1 & R1 & N1 & D1); [left|].
    destruct (IH g1 H1) as (g' & new & -> & H' & E' & R' & N' & D').
    { intros g0 y H0 Hy. apply Hf; [done|by right]. }
    exists g', (e :: new). split_and!; try done.
    - rewrite E', E1. simpl. by rewrite Permutation_middle.
    - by constructor.
    - intros n. by rewrite N', N1.
    - unfold same_doc in *. destruct_and!. split_and!; congruence.
  Qed.

  (** stage 3 *)
  Lemma merge_edges (l : list (nid * nid * nid * attrs)) g :
    NInv g → (∀ e, e ∈ l → e.1.1.1 ∈ nodes g ∧ e.1.1.2 ∈ nodes g ∧ nlayered e.2) →
    ∃ g' new, add_edges_from g ((λ e : nid * nid * nid * attrs,
                ESpec e.1.1.1 e.1.1.2 None e.2) <$> l) None [] = (g', None) ∧ NInv g' ∧
      edges g' ≡ₚ edges g ++ new ∧ Forall2 same_edge l new ∧
      (∀ n, node_attrs g' n = node_attrs g n) ∧ same_doc g g'.
  Proof.
    intros H Hl. unfold add_edges_from.
    set (mk := λ e : nid * nid * nid * attrs, ESpec e.1.1.1 e.1.1.2 None e.2).
    destruct (fresh_edges_loop (λ g0 e0, add_edges_from1 g0 [] e0)
      (λ s e', e'.1.1 = (e_u s, e_v s) ∧ attr_eqv (e_d s) e'.2)
      (λ g0, NInv g0 ∧ ∀ n, node_attrs g0 n = node_attrs g n) (mk <$> l) g)
      as (g' & new & -> & [H' _] & E' & R' & N' & D').
    - done.
    - intros g0 s [H0 N0] Hs. apply elem_of_list_fmap in Hs as (e & -> & He).
      destruct (Hl e He) as (Hu & Hv & Hnl). destruct e as [[[u v] k0] b]. unfold mk in *. simpl in *.
      pose proof (add_edges_from1_eff g0 [] (ESpec u v None b) (proj1 H0)) as Hf.
      destruct Hnl as (x0 & l0 & Hl0). simpl in Hf.
      assert (Ht : tup_layers (g_ns g0) b = VSet (x0 :: l0)) by (unfold tup_layers; by rewrite Hl0).
      rewrite Ht in Hf. destruct Hf as (k & a & g1 & -> & Hg1 & [Hk _] & L & HL & Hm).
      destruct (edges_from1_cases g0 (ESpec u v None b) k g1 (proj1 H0) Hg1)
        as (H1 & Hu1 & Hv1 & Hna & Hea & Hdoc). simpl in *.
      assert (Hu0 : u ∈ nodes g0) by (apply node_mem; rewrite N0; by apply node_mem).
      assert (Hv0 : v ∈ nodes g0) by (apply node_mem; rewrite N0; by apply node_mem).
      rewrite Hk in Hm, HL.
      assert (Hab : attr_eqv b a).
      { eapply (attr_merge_eqv None L); [by eexists| |done|].
        - intros x. rewrite HL. rewrite (has_layer_elem _ _ _ Hl0). rewrite elem_of_nil. naive_solver.
        - destruct Hm as [Hm1 Hm2]. split; [done|]. intros key Hkey. rewrite Hm2 by done.
          rewrite dget_dupdate. simpl. by destruct (dget key b). }
      assert (Hn1 : ∀ n, node_attrs (put_edge g1 u v k a) n = node_attrs g0 n).
      { intros n. rewrite node_attrs_put_edge, Hna. by rewrite !with_node_in by (by rewrite ?with_node_in). }
      assert (HE : ∀ u' v' k', edge_attrs (put_edge g1 u v k a) u' v' k' =
         if decide (u' = u ∧ v' = v ∧ k' = k) then Some a else edge_attrs g0 u' v' k').
      { intros u' v' k'. rewrite edge_attrs_put_edge; [|apply H1|done].
        case_decide as Hd; [done|]. apply Hea. naive_solver. }
      assert (HG : GInv (put_edge g1 u v k a)).
      { apply GInv_put_edge; try done. by eapply attr_merge_layered. }
      exists (put_edge g1 u v k a), (u, v, k, a). split_and!; try done.
      + split; [done|]. split.
        * intros n b'. rewrite Hn1. apply H0.
        * intros u' v' k' b'. rewrite HE. case_decide; [|apply H0]. intros [= <-].
          apply nlayered_has_layer; [by eapply attr_merge_layered|]. exists x0. apply Hab.
          apply (has_layer_elem _ _ _ Hl0). left.
      + intros n. by rewrite Hn1.
      + apply edges_insert; [apply H0|apply HG|done|done].
      + pose proof (put_edge_other g1 u v k a) as Hpo. unfold same_doc in *.
        destruct Hpo as (P1&P2&P3&P4&P5&P6&P7). destruct Hdoc as (?&?&?&?&?&?).
        split_and!; congruence.
    - exists g', new. split_and!; try done. rewrite Forall2_fmap_l in R'.
      eapply Forall2_impl; [exact R'|]. intros [[[u v] k0] b] e'. done.
  Qed.

  (** stage 5: moving the edges of the other root *)
  Lemma merge_root_edges (l : list (nid * nid * nid * attrs)) g :
    NInv g → g_root g ∈ nodes g → (∀ e, e ∈ l → e.1.1.2 ∈ nodes g) →
    ∃ g' new, for_each (λ g e, add_edge g (g_root g) e.1.1.2 VNone None (Some e.2) []) l g = (g', None) ∧
      NInv g' ∧ edges g' ≡ₚ edges g ++ new ∧ Forall2 (moved_edge (g_ns g) (g_root g)) l new ∧
      (∀ n, node_attrs g' n = node_attrs g n) ∧ same_doc g g'.
  Proof.
    intros H Hr Hl.
    destruct (fresh_edges_loop (λ g0 e, add_edge g0 (g_root g0) e.1.1.2 VNone None (Some e.2) [])
      (moved_edge (g_ns g) (g_root g))
      (λ g0, NInv g0 ∧ (∀ n, node_attrs g0 n = node_attrs g n) ∧ same_doc g g0) l g)
      as (g' & new & -> & [H' _] & E' & R' & N' & D').
    - split_and!; done.
    - intros g0 [[[u v] k0] b] (H0 & N0 & D0) He. pose proof (Hl _ He) as Hv. simpl in *.
      pose proof (add_edge_eff g0 (g_root g0) v VNone None (Some b) [] (proj1 H0)) as Hf.
      simpl in Hf. destruct Hf as (k & a & -> & [Hk _] & Hm).
      assert (Hroot : g_root g0 = g_root g) by (unfold same_doc in D0; naive_solver).
      assert (Hns : g_ns g0 = g_ns g) by (unfold same_doc in D0; naive_solver).
      assert (Hv0 : v ∈ nodes g0) by (apply node_mem; rewrite N0; by apply node_mem).
      assert (Hr0 : g_root g0 ∈ nodes g0) by (apply node_mem; rewrite N0, Hroot; by apply node_mem).
      rewrite (with_node_in g0 (g_root g0) Hr0). rewrite (with_node_in g0 v Hv0).
      assert (HE : ∀ u' v' k', edge_attrs (put_edge g0 (g_root g0) v k a) u' v' k' =
         if decide (u' = g_root g0 ∧ v' = v ∧ k' = k) then Some a else edge_attrs g0 u' v' k').
      { intros. apply edge_attrs_put_edge; [apply H0|done]. }
      assert (HG : GInv (put_edge g0 (g_root g0) v k a)).
      { apply GInv_put_edge; try done; [apply H0|]. by eapply attr_merge_layered. }
      pose proof (put_edge_other g0 (g_root g0) v k a) as (P1&P2&P3&P4&P5&P6&P7).
      exists (put_edge g0 (g_root g0) v k a), (g_root g0, v, k, a). split_and!; try done.
      + split; [done|]. apply NLayered_put_edge; [apply H0|done|apply H0|].
        eapply attr_merge_nlayered; [|exact Hm]. done.
      + intros n. rewrite node_attrs_put_edge. apply N0.
      + unfold same_doc in *. destruct D0 as (?&?&?&?&?&?). split_and!; congruence.
      + apply edges_insert; [apply H0|apply HG|done|done].
      + rewrite Hk in Hm. split_and!.
        * simpl. by rewrite Hroot.
        * intros x. simpl. rewrite (attr_merge_has_layer _ _ _ _ x Hm).
          rewrite elem_of_list_singleton, Hns. unfold ohas_layer. naive_solver.
        * intros key Hkey. simpl. destruct Hm as [_ Hm]. rewrite Hm by done.
          unfold given_attrs. simpl. by destruct (dget key b).
      + intros n. apply node_attrs_put_edge.
    - exists g', new. split_and!; done.
  Qed.

  Lemma edges_remove g g' n :
    Consistent g → Consistent g' →
    (∀ u v, keydict_of g' u v = if decide (u = n ∨ v = n) then [] else keydict_of g u v) →
    edges g' ≡ₚ filter (λ e, e.1.1.1 ≠ n ∧ e.1.1.2 ≠ n) (edges g).
  Proof.
    intros C C' Hk. apply NoDup_Permutation.
    - by apply NoDup_edges.
    - apply NoDup_filter. by apply NoDup_edges.
    - intros [[[u v] k] a]. rewrite elem_of_list_filter, !elem_edges by done.
      unfold edge_attrs. rewrite Hk. simpl. case_decide; naive_solver.
  Qed.
  Lemma filter_all {A} (P : A → Prop) `{∀ x, Decision (P x)} (l : list A) :
    (∀ x, x ∈ l → P x) → filter P l = l.
  Proof.
    induction l as [|x l IH]; intros Hl; [done|]. rewrite filter_cons, decide_True by (apply Hl; left).
    f_equal. apply IH. intros y Hy. apply Hl. by right.
  Qed.
  Lemma Forall2_filter {A B} (R : A → B → Prop) (P : A → Prop) (Q : B → Prop)
      `{∀ x, Decision (P x)} `{∀ x, Decision (Q x)} (l : list A) (l' : list B) :
    (∀ x y, R x y → P x ↔ Q y) → Forall2 R l l' → Forall2 R (filter P l) (filter Q l').
  Proof.
    intros HPQ. induction 1 as [|x y l l' Hxy Hlk IH]; [constructor|]. rewrite !filter_cons.
    pose proof (HPQ _ _ Hxy). destruct (decide (P x)), (decide (Q y)); try tauto. by constructor.
  Qed.

  Lemma NInv_ext g g' :
    g_node g' = g_node g → g_succ g' = g_succ g → g_pred g' = g_pred g → NInv g → NInv g'.
  Proof.
    intros Hn Hs Hp [[C L] N]. destruct C as [C1 C2 C3 C4 C5 C6].
    unfold NInv, GInv, Layered, NLayered, node_attrs, edge_attrs, keydict_of in *.
    rewrite Hn, Hs. split; [split|]; try done.
    split; unfold nodes, successors, predecessors in *; rewrite ?Hn, ?Hs, ?Hp; done.
  Qed.

  Lemma merge_renamed_ok g og :
    NInv g → NInv og → g_root g ∈ nodes g → g_root og ∈ nodes og → g_root og ∉ nodes g →
    (∀ u k, edge_attrs og u (g_root og) k = None) →
    ∃ g', merge_renamed g og = (g', None) ∧ NInv g' ∧ merged g og g'.
  Proof.
    intros H Ho Hr Hor Hfresh Hin. unfold merge_renamed.
    assert (Hnd : NoDup (g_node og).*1) by apply Ho.
    destruct (merge_nodes (g_node og) g H Hnd) as (g1 & -> & H1 & D1 & E1 & N1).
    { apply Forall_forall. intros [n a] Hna. apply (proj1 (proj2 Ho) n). by apply elem_dget. }
    assert (Hsub1 : ∀ n, n ∈ nodes og → n ∈ nodes g1).
    { intros n Hn. apply node_mem in Hn as [a Ha]. specialize (N1 n). unfold node_attrs in Ha.
      rewrite Ha in N1. destruct N1 as (a' & L & Ha' & _). apply node_mem. eauto. }
    assert (Hsub0 : ∀ n, n ∈ nodes g → n ∈ nodes g1).
    { intros n Hn. destruct (decide (n ∈ nodes og)); [by apply Hsub1|].
      specialize (N1 n). rewrite (proj2 (dget_None (g_node og) n)) in N1 by done.
      apply node_mem. rewrite N1. by apply node_mem. }
    destruct (merge_tokattr og (g_node og) g1 H1 Hnd) as (g2 & -> & H2 & D2 & E2 & N2 & U2).
    { intros n Hn. split; [done|by apply Hsub1]. }
    assert (Hn12 : ∀ n, n ∈ nodes g2 ↔ n ∈ nodes g1).
    { intros n. rewrite !node_mem. specialize (N2 n). destruct (node_attrs g1 n).
      - destruct N2 as (a' & -> & _). split; by eexists.
      - by rewrite N2. }
    destruct (merge_edges (edges og) g2 H2) as (g3 & new3 & -> & H3 & E3 & R3 & N3 & D3).
    { intros [[[u v] k] a] He. apply elem_edges in He; [|apply Ho]. simpl.
      destruct (succ_nodes _ _ _ (proj1 (proj1 Ho)) (edge_succ _ _ _ _ _ He)) as [Hu Hv].
      rewrite !Hn12. split_and!; [by apply Hsub1|by apply Hsub1|by eapply (proj2 (proj2 Ho))]. }
    match goal with |- context [merge_rootnodes ?G og] => set (g6 := G) end.
    assert (Hg6 : g_node g6 = g_node g3 ∧ g_succ g6 = g_succ g3 ∧ g_pred g6 = g_pred g3 ∧
                  g_ns g6 = g_ns g3 ∧ g_root g6 = g_root g3 ∧
                  g_tokens g6 = match g_tokens g with [] => g_tokens og | l => l end ∧
                  g_sentences g6 = match g_sentences g with [] => g_sentences og | l => l end ∧
                  g_name g6 = (if String.eqb (g_name g) "" then g_name og else g_name g)).
    { assert (Ht : g_tokens g3 = g_tokens g) by (unfold same_doc in *; destruct_and!; congruence).
      assert (Hs : g_sentences g3 = g_sentences g) by (unfold same_doc in *; destruct_and!; congruence).
      assert (Hnm : g_name g3 = g_name g) by (unfold same_doc in *; destruct_and!; congruence).
      unfold g6. clear -Ht Hs Hnm. rewrite Hnm.
      destruct (String.eqb (g_name og) "") eqn:Eo; [apply String.eqb_eq in Eo|];
      destruct (String.eqb (g_name g) "") eqn:Eg; [apply String.eqb_eq in Eg| |apply String.eqb_eq in Eg|];
      destruct (g_tokens og) eqn:?, (g_tokens g) eqn:?, (g_sentences og) eqn:?, (g_sentences g) eqn:?;
        simpl; rewrite ?Ht, ?Hs; simpl; rewrite ?Ht, ?Hs; simpl; split_and!; congruence. }
    destruct Hg6 as (Gn & Gs & Gp & Gns & Gr & Gt & Gsn & Gnm).
    assert (H6 : NInv g6) by (by eapply NInv_ext).
    assert (Hr6 : g_root g6 = g_root g) by (unfold same_doc in *; destruct_and!; congruence).
    assert (Hns6 : g_ns g6 = g_ns g) by (unfold same_doc in *; destruct_and!; congruence).
    assert (Hn6 : ∀ n, node_attrs g6 n = node_attrs g2 n).
    { intros n. unfold node_attrs. rewrite Gn. apply N3. }
    assert (Hnd6 : ∀ n, n ∈ nodes g6 ↔ n ∈ nodes g1).
    { intros n. rewrite <-Hn12, !node_mem. by rewrite Hn6. }
    unfold merge_rootnodes.
    assert (Hor' := Hor). apply node_mem in Hor' as [ar Har]. rewrite Har.
    assert (Hr6n : g_root g6 ∈ nodes g6) by (rewrite Hr6, Hnd6; by apply Hsub0).
    assert (Hr6' := Hr6n). apply node_mem in Hr6' as [ar6 Har6]. rewrite Har6.
    set (g7 := set_meta _ g6).
    assert (H7 : NInv g7) by (by apply (NInv_ext g6)).
    assert (Hine : in_edges og (g_root og) = []).
    { destruct (in_edges og (g_root og)) as [|[[[u v] k] a] r] eqn:Ei; [done|].
      assert (He : (u, v, k, a) ∈ in_edges og (g_root og)) by (rewrite Ei; left).
      apply elem_in_edges in He as [_ He]; [|apply Ho]. by rewrite Hin in He. }
    rewrite Hine.
    destruct (merge_root_edges (out_edges og (g_root og)) g7 H7) as (g8 & new8 & -> & H8 & E8 & R8 & N8 & D8).
    { done. }
    { intros [[[u v] k] a] He. apply elem_out_edges in He as [-> He]; [|apply Ho]. simpl.
      destruct (succ_nodes _ _ _ (proj1 (proj1 Ho)) (edge_succ _ _ _ _ _ He)) as [_ Hv].
      change (v ∈ nodes g6). rewrite Hnd6. by apply Hsub1. }
    assert (Hn8 : ∀ n, node_attrs g8 n = node_attrs g2 n).
    { intros n. rewrite N8. change (node_attrs g6 n = node_attrs g2 n). apply Hn6. }
    pose proof (remove_node_eff g8 (g_root og) (proj1 (proj1 H8))) as Hrm.
    rewrite decide_True in Hrm.
    2:{ apply node_mem. rewrite Hn8. apply node_mem. rewrite Hn12. by apply Hsub1. }
    destruct Hrm as (g9 & -> & C9 & N9 & K9 & _ & M9).
    exists g9. split; [done|].
    assert (Hn9 : ∀ n, node_attrs g9 n = if decide (n = g_root og) then None else node_attrs g2 n).
    { intros n. rewrite N9. case_decide; [done|apply Hn8]. }
    assert (Hshared : ∀ n a, node_attrs og n = Some a →
      ∃ a', node_attrs g2 n = Some a' ∧
        (∀ x, has_layer a' x ↔ has_layer a x ∨ ohas_layer (node_attrs g n) x) ∧
        (∀ key, key ≠ "layers" → key ≠ g_ns g +:+ ":token" →
           dget key a' = match dget key a with Some v => Some v | None => oget (node_attrs g n) key end) ∧
        dget (g_ns g +:+ ":token") a' =
          match dget (g_ns g +:+ ":token") a with
          | Some v => Some v
          | None => match oget (node_attrs g n) (g_ns g +:+ ":token") with
                    | Some v => Some v
                    | None => dget (g_ns og +:+ ":token") a
                    end
          end).
    { intros n a Ha. pose proof (N1 n) as Hm. unfold node_attrs in Ha. rewrite Ha in Hm.
      destruct Hm as (a1 & L & Ha1 & HL & Hm). specialize (N2 n). rewrite Ha1 in N2.
      assert (Hns1 : g_ns g1 = g_ns g) by (unfold same_doc in D1; naive_solver).
      rewrite Hns1 in N2. destruct N2 as (a2 & Ha2 & K2 & T2).
      exists a2. split_and!.
      - done.
      - intros x. assert (Hlay : has_layer a2 x ↔ has_layer a1 x).
        { unfold has_layer. rewrite (K2 "layers"); [done|].
          pose proof (token_key_ne (g_ns g)). congruence. }
        rewrite Hlay, (attr_merge_has_layer _ _ _ _ x Hm). by rewrite (has_layer_elem a L x HL).
      - intros key Hk1 Hk2. rewrite K2 by done. destruct Hm as [_ Hm]. by apply Hm.
      - rewrite T2. destruct Hm as [_ Hm]. rewrite Hm by apply token_key_ne.
        rewrite decide_True.
        2:{ change (n ∈ nodes og). apply node_mem. by eexists. }
        unfold node_attrs at 2. rewrite Ha. simpl.
        destruct (dget (g_ns g +:+ ":token") a); [done|].
        by destruct (oget (node_attrs g n) (g_ns g +:+ ":token")). }
    assert (Hown : ∀ n, n ∉ nodes og → node_attrs g2 n = node_attrs g n).
    { intros n Hn. pose proof (N1 n) as Hm. rewrite (proj2 (dget_None (g_node og) n)) in Hm by done.
      assert (Hns1 : g_ns g1 = g_ns g) by (unfold same_doc in D1; naive_solver).
by rewrite U2. }

    assert (Hrne : g_root g ≠ g_root og) by (intros Heq; by rewrite Heq in Hr).
    assert (He9 : edges g9 ≡ₚ edges g ++ filter (λ e, e.1.1.1 ≠ g_root og) new3 ++ new8).
    { rewrite (edges_remove g8 g9 (g_root og)); [|apply H8|done|done].
      assert (E8' : edges g8 ≡ₚ edges g ++ new3 ++ new8).
      { rewrite E8. assert (edges g7 = edges g3) as -> by (unfold edges; by rewrite <-Gs).
        rewrite E3. assert (edges g2 ≡ₚ edges g) as ->.
        { apply edges_same; [apply H|apply H2|]. intros. by rewrite E2, E1. }
        by rewrite (assoc_L (++)). }
      rewrite E8', !filter_app. f_equiv; [|f_equiv].
      - rewrite filter_all; [done|]. intros [[[u v] k] a] He. apply elem_edges in He; [|apply H].
        simpl. destruct (succ_nodes _ _ _ (proj1 (proj1 H)) (edge_succ _ _ _ _ _ He)) as [Hu Hv].
        split; intros ->; done.
      - assert (Hf : Forall (λ e, e.1.1.2 ≠ g_root og) new3).
        { apply Forall_forall. intros e' He'. apply elem_of_list_lookup in He' as [i Hi].
          destruct (Forall2_lookup_r _ _ _ _ _ R3 Hi) as ([[[u v] k] a] & Hx & [Heq _]).
          apply elem_of_list_lookup_2, elem_edges in Hx; [|apply Ho].
          rewrite Heq. simpl. intros ->. by rewrite Hin in Hx. }
        clear -Hf. induction new3 as [|e l IH]; [done|]. apply Forall_cons in Hf as [He Hf].
        rewrite !filter_cons.
        destruct (decide (e.1.1.1 ≠ g_root og ∧ e.1.1.2 ≠ g_root og)), (decide (e.1.1.1 ≠ g_root og));
          try tauto. constructor. by apply IH.
      - rewrite filter_all; [done|]. intros e' He'. apply elem_of_list_lookup in He' as [i Hi].
        destruct (Forall2_lookup_r _ _ _ _ _ R8 Hi) as ([[[u v] k] a] & Hx & [Heq _]).
        apply elem_of_list_lookup_2, elem_out_edges in Hx as [-> Hx]; [|apply Ho].
        rewrite Heq. simpl. change (g_root g7) with (g_root g6). rewrite Hr6. split; [done|].
        intros ->. by rewrite Hin in Hx. }
    assert (HD8 : g_ns g8 = g_ns g6 ∧ g_root g8 = g_root g6 ∧ g_tokens g8 = g_tokens g6 ∧
                  g_sentences g8 = g_sentences g6 ∧ g_name g8 = g_name g6)
      by (unfold same_doc in D8; by destruct_and!).
    destruct HD8 as (D81 & D82 & D83 & D84 & D85). destruct M9 as (M1 & M2 & M3 & M4 & M5 & M6).
    split.
    - split; [split; [done|]|].
      + split.
        * intros n a. rewrite Hn9. case_decide; [done|]. apply (proj2 (proj1 H2)).
        * intros u v k a. unfold edge_attrs. rewrite K9. case_decide; [done|]. apply (proj2 (proj1 H8)).
      + split.
        * intros n a. rewrite Hn9. case_decide; [done|]. apply (proj2 H2).
        * intros u v k a. unfold edge_attrs. rewrite K9. case_decide; [done|]. apply (proj2 H8).
    - constructor.
      + intros n. rewrite Hn9. destruct (decide (n = g_root og)) as [->|Hd]; [naive_solver|].
        rewrite <-node_nmem, Hn12.
        assert (Hn1 : n ∈ nodes g1 ↔ n ∈ nodes g ∨ n ∈ nodes og).
        { split; [|intros [?|?]; auto]. intros Hn. destruct (decide (n ∈ nodes og)); [by right|left].
          specialize (N1 n). rewrite (proj2 (dget_None (g_node og) n)) in N1 by done.
          apply node_mem. rewrite <-N1. by apply node_mem. }
        rewrite Hn1. destruct (decide (n ∈ nodes g)), (decide (n ∈ nodes og)); naive_solver.
      + intros n Hn. rewrite Hn9, decide_False by (intros ->; done). by apply Hown.
      + intros n a Hd Ha. rewrite Hn9, decide_False by done. by apply Hshared.
      + exists (filter (λ e, e.1.1.1 ≠ g_root og) new3), new8. split_and!; [done| |].
        * apply Forall2_filter; [|done]. intros [[[u v] k] a] e' [Heq _]. rewrite Heq. done.
        * change (g_ns g7) with (g_ns g6) in R8. change (g_root g7) with (g_root g6) in R8.
          by rewrite Hns6, Hr6 in R8.
      + congruence.
      + congruence.
      + congruence.
      + congruence.
      + congruence.
  Qed.
End merge.
