(** * TravFacts: the sorted traversal and the tree it spans *)
From Verif Require Import PyBase DocGraph Relabel SpecGraph DocGraphFacts History Effects RelabelFacts StrNum Query SpecQuery Text Tree SpecTree
  SpanFacts SelectFacts BfsFacts TreeFacts.

(** ** order in lists *)
Definition before_in {A} (l : list A) (x y : A) : Prop := ∃ a b c, l = a ++ x :: b ++ y :: c.
Lemma before_lookup {A} (l : list A) i j x y : i < j → l !! i = Some x → l !! j = Some y → before_in l x y.
Proof.
  intros Hij Hi Hj. pose proof (take_drop_middle _ _ _ Hi) as E. exists (take i l).
  assert (Hj' : drop (S i) l !! (j - S i) = Some y) by (rewrite lookup_drop; rewrite <-Hj; f_equal; lia).
  pose proof (take_drop_middle _ _ _ Hj') as E'. rewrite <-E' in E. do 2 eexists. symmetry. exact E.
Qed.
Lemma lookup_before {A} (l : list A) x y : before_in l x y → ∃ i j, i < j ∧ l !! i = Some x ∧ l !! j = Some y.
Proof.
  intros (a & b & c & ->). exists (length a), (length a + S (length b)). split; [lia|]. split; [by apply list_lookup_middle|].
  rewrite lookup_app_r by lia. replace (length a + S (length b) - length a) with (S (length b)) by lia. simpl.
  by apply list_lookup_middle.
Qed.
Lemma before_filter {A} (P : A → Prop) `{∀ x, Decision (P x)} l x y : P x → P y → before_in l x y → before_in (filter P l) x y.
Proof.
  intros Hx Hy (a & b & c & ->). exists (filter P a), (filter P b), (filter P c).
  rewrite filter_app, filter_cons, decide_True by done. rewrite filter_app, filter_cons, decide_True by done. done.
Qed.
Lemma before_fmap {A B} (f : A → B) l x y : before_in l x y → before_in (f <$> l) (f x) (f y).
Proof. intros (a & b & c & ->). exists (f <$> a), (f <$> b), (f <$> c). by rewrite fmap_app, fmap_cons, fmap_app, fmap_cons. Qed.
Lemma before_sublist {A} (l k : list A) x y : sublist l k → before_in l x y → before_in k x y.
Proof.
  intros Hs (a & b & c & ->). apply sublist_app_l in Hs as (k1 & k2 & -> & _ & Hs).
  apply sublist_cons_l in Hs as (k3 & k4 & -> & Hs). apply sublist_app_l in Hs as (k5 & k6 & -> & _ & Hs).
  apply sublist_cons_l in Hs as (k7 & k8 & -> & _).
  exists (k1 ++ k3), (k5 ++ k7), k8. by rewrite <-!(assoc_L (++)).
Qed.

(** ** the traversal *)
Lemma run_kids kids q vis es : bfs_run kids q vis es → ∀ c, c ∈ es.*2 → ∃ l, kids c = Ok l.
Proof.
  induction 1 as [vis|p q vis es H IH|p c cs q vis es Hc H IH|p c cs q vis gc es Hc Hk H IH]; intros d Hd;
    [by apply elem_of_nil in Hd|by apply IH|by apply IH|].
  apply elem_of_cons in Hd as [->|Hd]; [by exists gc|by apply IH].
Qed.
Lemma bfs_edges_ok f1 f2 g sent root es : Consistent g → sorted_bfs_edges f1 f2 g sent root = Ok es →
  bfs_tree (dom g) root es ∧ left_to_right g (tokens_for g sent root) es.
Proof.
  intros C. unfold sorted_bfs_edges. intros (xpos & Hx & (cs & Hcs & H)%rbind_Ok)%rbind_Ok.
  apply bfs_loop_run in H. pose proof (run_bfs_tree _ _ _ _ Hcs H) as [HT Hsib].
  assert (Hkids : ∀ p, p ∈ root :: es.*2 → ∃ l, sorted_children g xpos p = Ok l).
  { intros p [->|Hp]%elem_of_cons; [by exists cs|by eapply run_kids]. }
  assert (Hkd : ∀ p c, kid (sorted_children g xpos) p c → dom g p c).
  { intros p c (l & Hl & Hc). apply sorted_children_ok in Hl as (_ & Hl & _); [|done]. by apply Hl. }
  split.
  - destruct HT as [H1 H2 H3 H4 H5]. split; [done| |done| |done].
    + intros p c Hpc. by apply Hkd, H2.
    + intros n. rewrite H4. split.
      * apply rtc_subrel. intros x y. apply Hkd.
      * intros Hr. apply (rtc_ind_r (R := dom g) (λ n, rtc (kid (sorted_children g xpos)) root n) root); [apply rtc_refl| |done].
        intros x y _ Hxy Hx'. eapply rtc_r; [done|]. apply H4 in Hx'. destruct (Hkids x Hx') as [l Hl].
        exists l. split; [done|]. apply sorted_children_ok in Hl as (_ & Hl & _); [|done]. by apply Hl.
  - intros i j p c d x y Hij Hi Hj Hc Hd.
    assert (Hpc : dom g p c). { apply Hkd, (bt_edge _ _ _ HT). by eapply elem_of_list_lookup_2. }
    assert (Hpd : dom g p d). { apply Hkd, (bt_edge _ _ _ HT). by eapply elem_of_list_lookup_2. }
    assert (Hp : p ∈ root :: es.*2).
    { destruct (bt_parent _ _ _ HT i p c Hi) as [->|(k & p' & _ & Hk)]; [left|]. right.
      apply elem_of_list_fmap. exists (p', p). split; [done|]. by eapply elem_of_list_lookup_2. }
    destruct (Hkids p Hp) as [l Hl]. pose proof (Hsib p l Hp Hl) as Hsub.
    assert (Hbef : before_in l c d).
    { eapply before_sublist; [exact Hsub|]. apply (before_fmap snd _ (p, c) (p, d)). apply before_filter; [done|done|].
      by apply (before_lookup es i j). }
    apply lookup_before in Hbef as (i' & j' & Hij' & Hi' & Hj').
    assert (Hroot : ∀ z k, es !! k = Some (p, z) → z ≠ root).
    { intros z k Hk ->. pose proof (bt_once _ _ _ HT) as Hnd. apply NoDup_cons in Hnd as [Hr _]. apply Hr.
      apply elem_of_list_fmap. exists (p, root). split; [done|]. by eapply elem_of_list_lookup_2. }
    apply sorted_children_ok in Hl as (_ & _ & _ & Hord); [|done].
    apply (Hord i' j' c d x y Hij' Hi' Hj').
    + eapply horizontal_ok; [done|exact Hx|by eapply Hroot|by exists p|done].
    + eapply horizontal_ok; [done|exact Hx|by eapply Hroot|by exists p|done].
Qed.
Lemma sorted_children_in g xpos n l c : Consistent g → sorted_children g xpos n = Ok l → c ∈ l → c ∈ nodes g.
Proof.
  intros C H Hc. apply sorted_children_ok in H as (_ & H & _); [|done]. apply H in Hc. by apply (dom_nodes g n c).
Qed.
Lemma sorted_children_fuel g xpos n : Consistent g → sorted_children g xpos n ≠ Err OutOfFuel.
Proof.
  intros C. unfold sorted_children. intros [H|(l & _ & H)]%rbind_Err.
  - by apply child_nodes_error in H.
  - by apply sort_by_pos_error in H as [? _].
Qed.
Lemma horizontal_ends g sent root : Consistent g → acyclic (dom g) → ∀ f, length (nodes g) < f →
  horizontal_positions f g sent root ≠ Err OutOfFuel.
Proof.
  intros C Hac f Hf. unfold horizontal_positions.
  destruct (decide (root = g_root g)); [by apply positions_ends|]. destruct (dmem root (g_node g)); [|done].
  destruct (dget root sent); by apply positions_ends.
Qed.
Lemma horizontal_mono g sent root f r : horizontal_positions f g sent root = r → r ≠ Err OutOfFuel →
  ∀ f', f ≤ f' → horizontal_positions f' g sent root = r.
Proof.
  unfold horizontal_positions. destruct (decide (root = g_root g)); [intros H Hr f' Hf; by eapply positions_mono|].
  destruct (dmem root (g_node g)); [|done].
  destruct (dget root sent); intros H Hr f' Hf; by eapply positions_mono.
Qed.
Lemma bfs_edges_ends g sent root : Consistent g → acyclic (dom g) →
  ∃ n r, r ≠ Err OutOfFuel ∧ ∀ f1 f2, n ≤ f1 → n ≤ f2 → sorted_bfs_edges f1 f2 g sent root = r.
Proof.
  intros C Hac. destruct (horizontal_positions (S (length (nodes g))) g sent root) as [xpos|e] eqn:E.
  2: { exists (S (length (nodes g))), (Err e). split.
       - intros [= ->]. by eapply horizontal_ends in E; [|done|done|lia].
       - intros f1 f2 H1 _. unfold sorted_bfs_edges.
         rewrite (horizontal_mono g sent root _ _ E) with (f' := f1); [done| |done].
         intros [= ->]. by eapply horizontal_ends in E; [|done|done|lia]. }
  assert (Hf : ∀ f1, S (length (nodes g)) ≤ f1 → horizontal_positions f1 g sent root = Ok xpos).
  { intros f1 H1. by apply (horizontal_mono g sent root _ _ E). }
  destruct (sorted_children g xpos root) as [cs|e] eqn:Ec.
  - destruct (bfs_ends (sorted_children g xpos) (nodes g)) with (q := [(root, cs)]) (vis := [root]) as (n & r & Hr & Hn).
    + intros p l c. by apply sorted_children_in.
    + intros p. by apply sorted_children_fuel.
    + intros p c (l & [= -> ->]%elem_of_list_singleton & Hc). by eapply sorted_children_in.
    + exists (S (length (nodes g)) `max` n), r. split; [done|]. intros f1 f2 H1 H2. unfold sorted_bfs_edges.
      rewrite Hf by lia. cbn [rbind]. rewrite Ec. cbn [rbind]. apply Hn. lia.
  - exists (S (length (nodes g))), (Err e). split; [intros [= ->]; by apply (sorted_children_fuel g xpos root)|].
    intros f1 f2 H1 _. unfold sorted_bfs_edges. rewrite Hf by lia. cbn [rbind]. by rewrite Ec.
Qed.
(** success: a forest whose nodes below the root all cover a token *)
Lemma bfs_edges_total g sent root : Consistent g → typed g → one_parent g → acyclic (dom g) → root ∈ nodes g →
  Forall (λ t, t ∈ nodes g) (tokens_for g sent root) →
  (∀ n, tc (dom g) root n → ∃ t, t ∈ tokens_for g sent root ∧ rtc (dom g) n t) →
  ∃ n es, ∀ f1 f2, n ≤ f1 → n ≤ f2 → sorted_bfs_edges f1 f2 g sent root = Ok es.
Proof.
  intros C HT H1 Hac Hroot Htok Hcov. destruct (bfs_edges_ends g sent root C Hac) as (n & r & Hr & Hn).
  exists n. destruct r as [es|e]; [by exists es|]. exfalso.
  specialize (Hn (n `max` S (length (nodes g))) n). unfold sorted_bfs_edges in Hn.
  set (F := n `max` S (length (nodes g))) in *.
  assert (Hpos : ∃ xpos, horizontal_positions F g sent root = Ok xpos).
  { pose proof (horizontal_ends g sent root C Hac F ltac:(lia)) as Hne. unfold horizontal_positions in *.
    unfold tokens_for in Htok. destruct (decide (root = g_root g)).
    - by destruct (positions_total g C HT H1 F (g_tokens g) 0 [] Htok) as [?|?].
    - assert (dmem root (g_node g) = true) as Hm by by apply dmem_spec. rewrite Hm in *.
      destruct (dget root sent) as [toks|]; simpl in Htok.
      + by destruct (positions_total g C HT H1 F toks 0 [(root, 0)] Htok) as [?|?].
      + by destruct (positions_total g C HT H1 F (g_tokens g) 0 [] Htok) as [?|?]. }
  destruct Hpos as [xpos Hx]. rewrite Hx in Hn. cbn [rbind] in Hn.
  assert (Hc : ∀ n, rtc (dom g) root n → ∃ l, sorted_children g xpos n = Ok l).
  { intros m Hm. assert (Hmn : m ∈ nodes g).
    { apply rtc_inv_r in Hm as [<-|(y & _ & Hy)]; [done|]. by apply (dom_nodes g y m). }
    unfold sorted_children. destruct (child_nodes_ok g m C Hmn) as (l & -> & _ & Hl). cbn [rbind].
    apply sort_by_pos_total. intros x Hxl. apply Hl in Hxl.
    assert (Hrx : tc (dom g) root x) by (apply tc_rtc_l with m; [done|by apply tc_once]).
    assert (Hne : x ≠ root) by (intros ->; by apply (Hac root)).
    destruct (Hcov x Hrx) as (t & Ht & Hxt).
    assert (Hp : has_parent g x) by by exists m.
    assert (∃ i, first_token_of g (tokens_for g sent root) x i) as [i Hi].
    2: { exists i. by eapply horizontal_ok. }
    clear -Ht Hxt C Hx Hne Hp.
    (* the least index: read it off the computed positions *)
    destruct (dget x xpos) as [i|] eqn:E; [exists i; by eapply horizontal_ok|]. exfalso.
    assert (G : ∃ path0, dget x path0 = None ∧ positions_from F g 0 (tokens_for g sent root) path0 = Ok xpos).
    { unfold horizontal_positions in Hx. unfold tokens_for. destruct (decide (root = g_root g)); [by exists []|].
      destruct (dmem root (g_node g)); [|done]. destruct (dget root sent) as [toks|]; [|by exists []].
      exists [(root, 0)]. split; [|done]. simpl. by rewrite decide_False. }
    destruct G as (path0 & Hno & Hpos). clear Hx. revert Hpos Hno. generalize 0 at 1.
    revert path0 Ht. generalize (tokens_for g sent root) as toks. induction toks as [|u toks IH]; intros path0 Ht i Hpos Hno; [by apply elem_of_nil in Ht|].
    pose proof (positions_ok g C _ _ _ _ _ Hpos) as Hall. cbn [positions_from] in Hpos.
    apply rbind_Ok in Hpos as (path1 & Hcl & Hpos). pose proof (climb_ok g C _ _ _ _ _ Hcl) as Hc1.
    destruct (dget x path1) as [z|] eqn:E1.
    - assert (dget x xpos = Some z); [|congruence]. eapply positions_ok; [done|exact Hpos|]. by left.
    - apply elem_of_cons in Ht as [->|Ht]; [|by eapply IH].
      assert (dget x path1 = Some i); [|congruence]. apply Hc1. right. done. }
  destruct (Hc root) as [cs Hcs]; [apply rtc_refl|]. rewrite Hcs in Hn. cbn [rbind] in Hn.
  specialize (Hn ltac:(lia) ltac:(lia)).
  apply bfs_error in Hn as [->|(m & Hm & H)]; [done|].
  assert (Hk : ∀ x y, rtc (kid (sorted_children g xpos)) x y → rtc (dom g) x y).
  { intros x y. apply rtc_subrel. intros a b (l & Hl & Hb). apply sorted_children_ok in Hl as (_ & Hl & _); [|done]. by apply Hl. }
  assert (Hp : ∀ p c, pending [(root, cs)] p c → rtc (dom g) root c).
  { intros p c (l & [= -> ->]%elem_of_list_singleton & Hl). apply sorted_children_ok in Hcs as (_ & Hcs & _); [|done].
    apply rtc_once. by apply Hcs. }
  destruct (Hc m) as [l Hl]; [|congruence].
  destruct H as [(p & H)|(p & x & H & Hx')]; [by eapply Hp|]. etrans; [by eapply Hp|by apply Hk].
Qed.

(** ** the tree of the traversal *)
Section rose_ind.
  Context {A : Type} (P : rose A → Prop) (H : ∀ a ts, Forall P ts → P (Rose a ts)).
  Fixpoint rose_ind' (t : rose A) : P t :=
    match t with
    | Rose a ts => H a ts ((fix go ts : Forall P ts := match ts with
        | [] => List.Forall_nil P
        | t :: ts => @List.Forall_cons _ P t ts (rose_ind' t) (go ts) end) ts)
    end.
End rose_ind.
Lemma preorder_Rose {A} (a : A) ts : preorder (Rose a ts) = a :: concat (preorder <$> ts).
Proof. simpl. f_equal. induction ts as [|t ts IH]; [done|]. cbn [fmap list_fmap concat]. by rewrite IH. Qed.
Fixpoint height {A} (t : rose A) : nat :=
  match t with Rose _ ts => S ((fix go ts := match ts with [] => 0 | t :: ts => height t `max` go ts end) ts) end.
Lemma height_child {A} (a : A) ts t : t ∈ ts → height t < height (Rose a ts).
Proof.
  intros Ht. simpl. apply Nat.lt_succ_r. induction ts as [|u ts IH]; [by apply elem_of_nil in Ht|].
  apply elem_of_cons in Ht as [->|Ht]; [lia|]. specialize (IH Ht). lia.
Qed.
Lemma height_preorder {A} (t : rose A) : height t ≤ length (preorder t).
Proof.
  induction t as [a ts IH] using rose_ind'. rewrite preorder_Rose. simpl. apply le_n_S.
  induction IH as [|t ts Ht HF IHF]; simpl; [lia|].
  cbn [fmap list_fmap concat] in *. rewrite app_length. unfold fmap in *. lia.
Qed.
Lemma trees_of_Forall2 {A} `{EqDecision A} (es : list (A * A)) ns ts : trees_of es ns ts ↔ Forall2 (tree_of es) ns ts.
Proof.
  split.
  - revert ns. induction ts as [|t ts IH]; intros ns; inversion 1; subst; constructor; [done|by apply IH].
  - induction 1; by constructor.
Qed.
Lemma tree_of_inv {A} `{EqDecision A} (es : list (A * A)) n t : tree_of es n t →
  ∃ ts, t = Rose n ts ∧ Forall2 (tree_of es) ((filter (λ e, e.1 = n) es).*2) ts.
Proof. inversion 1; subst. eexists. split; [done|]. by apply trees_of_Forall2. Qed.
Lemma elem_kids {A} `{EqDecision A} (es : list (A * A)) n c : c ∈ (filter (λ e, e.1 = n) es).*2 ↔ (n, c) ∈ es.
Proof.
  rewrite elem_of_list_fmap. split.
  - intros ([n' c'] & -> & [Hn Hin]%elem_of_list_filter). simpl in *. by subst.
  - intros H. exists (n, c). split; [done|]. by apply elem_of_list_filter.
Qed.
Section tree.
  Context {A : Type} `{EqDecision A} (R : A → A → Prop) (source : A) (es : list (A * A)).
  Context (HT : bfs_tree R source es).
  Notation order := (source :: es.*2).
  Lemma order_target i p c : es !! i = Some (p, c) → order !! S i = Some c.
  Proof. intros Hi. simpl. by rewrite list_lookup_fmap, Hi. Qed.
  Lemma order_parent i p c : es !! i = Some (p, c) → ∃ k, k ≤ i ∧ order !! k = Some p.
  Proof.
    intros Hi. destruct (bt_parent _ _ _ HT i p c Hi) as [->|(j & p' & Hj & Hp)].
    - exists 0. split; [lia|done].
    - exists (S j). split; [lia|]. by eapply order_target.
  Qed.
  Lemma tree_exists k n : order !! k = Some n → ∃ t, tree_of es n t.
  Proof.
    remember (length es - k) as m eqn:E. revert k n E. induction (lt_wf m) as [m _ IH]. intros k n -> Hk.
    assert (G : ∃ ts, Forall2 (tree_of es) ((filter (λ e, e.1 = n) es).*2) ts).
    2: { destruct G as [ts Hts]. exists (Rose n ts). constructor. by apply trees_of_Forall2. }
    assert (Hall : ∀ c, c ∈ (filter (λ e, e.1 = n) es).*2 → ∃ t, tree_of es c t).
    { intros c Hc%elem_kids. apply elem_of_list_lookup in Hc as [i Hi].
      destruct (order_parent i n c Hi) as (k' & Hk' & Hn').
      assert (k' = k) as -> by (eapply NoDup_lookup; [apply (bt_once _ _ _ HT)|done|done]).
      pose proof (lookup_lt_Some _ _ _ Hi). pose proof (order_target _ _ _ Hi) as Ht.
      apply (IH (length es - S i)) with (k := S i); [lia|done|done]. }
    clear -Hall. induction ((filter (λ e, e.1 = n) es).*2) as [|c cs IH]; [exists []; constructor|].
    destruct (Hall c) as [t Ht]; [left|]. destruct IH as [ts Hts]; [intros; apply Hall; by right|].
    exists (t :: ts). by constructor.
  Qed.
  Definition E (u v : A) : Prop := (u, v) ∈ es.
  Lemma E_acyclic : acyclic E.
  Proof.
    assert (Hrank : ∀ u v, E u v → ∃ i j, i < j ∧ order !! i = Some u ∧ order !! j = Some v).
    { intros u v [i Hi]%elem_of_list_lookup. destruct (order_parent _ _ _ Hi) as (k & Hk & Hu).
      exists k, (S i). split; [lia|]. split; [done|]. by eapply order_target. }
    assert (Htc : ∀ u v, tc E u v → ∃ i j, i < j ∧ order !! i = Some u ∧ order !! j = Some v).
    { induction 1 as [u v H|u v w H _ (i & j & Hij & Hi & Hj)]; [by apply Hrank|].
      apply Hrank in H as (i' & j' & Hij' & Hi' & Hj').
      assert (j' = i) as -> by (eapply NoDup_lookup; [apply (bt_once _ _ _ HT)|done|done]).
      exists i', j. split; [lia|done]. }
    intros x Hx. apply Htc in Hx as (i & j & Hij & Hi & Hj).
    assert (i = j) by (eapply NoDup_lookup; [apply (bt_once _ _ _ HT)|done|done]). lia.
  Qed.
  Lemma E_unique u u' v : E u v → E u' v → u = u'.
  Proof.
    intros [i Hi]%elem_of_list_lookup [j Hj]%elem_of_list_lookup.
    assert (S i = S j) as [= ->].
    { eapply NoDup_lookup; [apply (bt_once _ _ _ HT)|by eapply order_target|by eapply order_target]. }
    rewrite Hi in Hj. by injection Hj.
  Qed.
  Lemma tree_elem t : ∀ n, tree_of es n t → ∀ x, x ∈ preorder t ↔ rtc E n x.
  Proof.
    induction t as [a ts IH] using rose_ind'. intros n Ht. apply tree_of_inv in Ht as (ts' & [= -> <-] & Hts).
    intros x. rewrite preorder_Rose, elem_of_cons, elem_concat. rewrite Forall_forall in IH. split.
    - intros [->|(l & Hx & Hl)]; [apply rtc_refl|]. apply elem_of_list_fmap in Hl as (t & -> & Ht).
      pose proof Ht as [i Hi]%elem_of_list_lookup. destruct (Forall2_lookup_r _ _ _ _ _ Hts Hi) as (c & Hc & Hct).
      apply elem_of_list_lookup_2, elem_kids in Hc. eapply rtc_l; [exact Hc|]. by apply (IH t Ht c Hct).
    - intros [->|(c & Hc & Hr)]%rtc_inv; [by left|right].
      apply elem_kids, elem_of_list_lookup in Hc as [i Hi]. destruct (Forall2_lookup_l _ _ _ _ _ Hts Hi) as (t & Ht & Hct).
      apply elem_of_list_lookup_2 in Ht. exists (preorder t). split; [by apply (IH t Ht c Hct)|]. by apply elem_of_list_fmap_1.
  Qed.
  Lemma comparable' u v x : rtc E u x → rtc E v x → rtc E u v ∨ rtc E v u.
  Proof.
    intros Hu. revert v. apply (rtc_ind_r (R := E) (λ x, ∀ v, rtc E v x → rtc E u v ∨ rtc E v u) u); [by right| |done].
    intros y z Hy Hyz IH v [->|(w & Hw & Hwz)]%rtc_inv_r; [left; by eapply rtc_r|].
    assert (w = y) as -> by by eapply E_unique. by apply IH.
  Qed.
  Lemma tree_nodup t : ∀ n, tree_of es n t → NoDup (preorder t).
  Proof.
    induction t as [a ts IH] using rose_ind'. intros n Ht. pose proof Ht as (ts' & [= -> <-] & Hts)%tree_of_inv.
    rewrite preorder_Rose. rewrite Forall_forall in IH.
    assert (Hdown : ∀ c t x, (c, t) ∈ zip ((filter (λ e, e.1 = n) es).*2) ts → x ∈ preorder t ↔ rtc E c x).
    { intros c t x Hin. apply elem_of_list_lookup in Hin as [i Hi]. apply lookup_zip_with_Some in Hi as (c' & t' & [= -> ->] & Hc & Htt).
      eapply tree_elem. by eapply Forall2_lookup_lr. }
    constructor.
    - intros (l & Hx & Hl)%elem_concat. apply elem_of_list_fmap in Hl as (t & -> & [i Hi]%elem_of_list_lookup).
      destruct (Forall2_lookup_r _ _ _ _ _ Hts Hi) as (c & Hc & Hct). apply (tree_elem t c Hct) in Hx.
      apply elem_of_list_lookup_2, elem_kids in Hc. apply (E_acyclic n). eapply tc_rtc_r; [by apply tc_once|done].
    - assert (Hkn : NoDup ((filter (λ e, e.1 = n) es).*2)).
      { eapply NoDup_sub; [apply (sublist_fmap snd), sublist_filter|]. pose proof (bt_once _ _ _ HT) as [_ H]%NoDup_cons. exact H. }
      assert (Hkin : ∀ c, c ∈ (filter (λ e, e.1 = n) es).*2 → E n c) by (intros c; by rewrite elem_kids).
      clear Ht Hdown. revert Hkn Hkin IH. generalize dependent ts. generalize ((filter (λ e, e.1 = n) es).*2) as cs.
      intros cs ts HF. induction HF as [|c t cs ts Hct HF IHF]; intros Hkn Hkin IH; [apply NoDup_nil_2|].
      apply NoDup_cons in Hkn as [Hc Hkn]. cbn [fmap list_fmap concat]. apply NoDup_app. split; [by eapply IH; [left|]|]. split.
      + intros x Hx (l & Hxl & Hl)%elem_concat. apply elem_of_list_fmap in Hl as (t' & -> & [i Hi]%elem_of_list_lookup).
        destruct (Forall2_lookup_r _ _ _ _ _ HF Hi) as (d & Hd & Hdt).
        apply (tree_elem t c Hct) in Hx. apply (tree_elem t' d Hdt) in Hxl. apply elem_of_list_lookup_2 in Hd.
        assert (Hnc : E n c) by (apply Hkin; left). assert (Hnd : E n d) by (apply Hkin; by right).
        assert (Hcd : c ≠ d) by (intros ->; done).
        assert (Hcyc : ∀ c d, E n c → E n d → c ≠ d → rtc E c d → False).
        { clear -HT. intros c d Hnc Hnd Hcd Hr. apply rtc_inv_r in Hr as [->|(w & Hw & Hwd)]; [done|].
          assert (w = n) as -> by by eapply E_unique. apply (E_acyclic n). eapply tc_rtc_r; [apply tc_once; exact Hnc|done]. }
        destruct (comparable' c d x Hx Hxl) as [Hr|Hr]; [by apply (Hcyc c d)|by apply (Hcyc d c)].
      + apply IHF; [done| |].
        * intros; apply Hkin; by right.
        * intros t' Ht'. apply IH. by right.
  Qed.
  Lemma tree_nodes t : tree_of es source t → preorder t ≡ₚ source :: es.*2.
  Proof.
    intros Ht. apply NoDup_Permutation; [by eapply tree_nodup|apply (bt_once _ _ _ HT)|].
    intros x. rewrite (tree_elem t source Ht). split.
    - intros Hr. apply (rtc_ind_r (R := E) (λ x, x ∈ source :: es.*2) source); [left| |done].
      intros y z _ Hyz _. right. apply elem_of_list_fmap. by exists (y, z).
    - intros [->|Hx]%elem_of_cons; [apply rtc_refl|]. apply elem_of_list_fmap in Hx as ([p c] & -> & [i Hi]%elem_of_list_lookup).
      simpl. revert p c Hi. induction (lt_wf i) as [i _ IHi]. intros p c Hi.
      assert (Hpc : E p c) by by eapply elem_of_list_lookup_2.
      destruct (bt_parent _ _ _ HT i p c Hi) as [->|(j & p' & Hj & Hp)]; [by apply rtc_once|].
      eapply rtc_r; [by apply (IHi j Hj p')|done].
  Qed.
End tree.
(** the successors dict *)
Lemma successors_dict_get es n : dget n (successors_dict es) =
  match (filter (λ e, e.1 = n) es).*2 with [] => None | l => Some l end.
Proof.
  unfold successors_dict.
  assert (G : ∀ d, dget n (foldl (λ d e, dset e.1 (default [] (dget e.1 d) ++ [e.2]) d) d es) =
    match (filter (λ e, e.1 = n) es).*2 with [] => dget n d | l => Some (default [] (dget n d) ++ l) end).
  2: { rewrite G. by destruct ((filter _ es).*2). }
  induction es as [|[u v] es IH]; intros d; [done|]. cbn [foldl fst snd]. rewrite IH, filter_cons. cbn [fst].
  rewrite !dget_dset. destruct (decide (u = n)) as [->|Hne].
  - rewrite decide_True by done. cbn [fmap list_fmap snd]. unfold default at 3. unfold from_option, id.
    destruct ((filter (λ e, e.1 = n) es).*2); [done|]. by rewrite <-(assoc_L (++)).
  - rewrite decide_False by congruence. done.
Qed.
(** ** a token below a dominance cycle *)
Lemma positions_climb f g t : ∀ toks i path p, t ∈ toks → positions_from f g i toks path = Ok p →
  ∃ j q r, climb f g j t q = Ok r.
Proof.
  induction toks as [|u toks IH]; intros i path p Ht; [by apply elem_of_nil in Ht|]. cbn [positions_from].
  intros (q & Hq & H)%rbind_Ok. apply elem_of_cons in Ht as [->|Ht]; [by exists i, path, q|by eapply IH].
Qed.
Lemma bfs_edges_hang g sent root t : Consistent g → typed g → one_parent g → root ∈ nodes g →
  Forall (λ t, t ∈ nodes g) (tokens_for g sent root) → t ∈ tokens_for g sent root →
  (∀ m, rtc (dom g) m t → ∃ u, dom g u m) → ∀ f1 f2, sorted_bfs_edges f1 f2 g sent root = Err OutOfFuel.
Proof.
  intros C HT H1 Hr Htoks Ht Hc f1 f2.
  assert (Htn : t ∈ nodes g) by (rewrite Forall_forall in Htoks; by apply Htoks).
  assert (G : ∀ i path, positions_from f1 g i (tokens_for g sent root) path = Err OutOfFuel).
  { intros i path. destruct (positions_total g C HT H1 f1 _ i path Htoks) as [[p Hp]|]; [|done].
    destruct (positions_climb _ _ _ _ _ _ _ Ht Hp) as (j & q & r & Hq).
    by rewrite (climb_cycle g C HT H1 t Htn Hc) in Hq. }
  assert (H : horizontal_positions f1 g sent root = Err OutOfFuel).
  { unfold horizontal_positions. unfold tokens_for in G. destruct (decide (root = g_root g)); [apply G|].
    apply dmem_spec in Hr. rewrite Hr. destruct (dget root sent); apply G. }
  unfold sorted_bfs_edges. by rewrite H.
Qed.
