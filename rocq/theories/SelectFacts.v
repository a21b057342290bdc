(** * SelectFacts: selections, keyword in context, token indices *)
From Verif Require Import PyBase DocGraph Relabel SpecGraph DocGraphFacts History Effects
  RelabelFacts MergeFacts AllHist MergeAll GraphThms StrNum Query SpecQuery NatSort SpanFacts.

Lemma sublist_fmap {A B} (f : A → B) l k : sublist l k → sublist (f <$> l) (f <$> k).
Proof. induction 1; simpl; by constructor. Qed.
Lemma sublist_filter {A} (P : A → Prop) `{∀ x, Decision (P x)} l : sublist (filter P l) l.
Proof.
  induction l as [|x l IH]; [constructor|]. rewrite filter_cons.
  destruct (decide (P x)); by constructor.
Qed.

Lemma NoDup_sub {A} (l k : list A) : sublist l k → NoDup k → NoDup l.
Proof.
  induction 1 as [|x l k H IH|x l k H IH]; [done| |]; intros [Hx Hk]%NoDup_cons; [|by apply IH].
  apply NoDup_cons. split; [|by apply IH]. intros Hin. apply Hx.
  clear -H Hin. induction H; [done| |]; apply elem_of_cons in Hin || idtac.
  - destruct Hin as [-> |?]; [left|right; auto].
  - right. auto.
Qed.
Section sel.
  Implicit Types g : graph.
  Lemma in_layers_ok a l : layered a → ∃ b, in_layers a l = Ok b ∧ (b = true ↔ has_layer a l).
  Proof.
    intros [ls Hls]. unfold in_layers. rewrite Hls. eexists. split; [done|]. rewrite bool_decide_eq_true.
    split; [intros ?; exists ls; done|]. intros (ls' & E & ?). congruence.
  Qed.
  Lemma layer_cond_ok a s : layered a → ∃ b, layer_cond a s = Ok b ∧ (b = true ↔ layer_ok a s).
  Proof.
    intros Ha. destruct s as [|l|ls]; simpl.
    - by exists true.
    - by apply in_layers_ok.
    - induction ls as [|l ls (b & Hb & IH)].
      + exists false. split; [done|]. split; [done|]. by intros (l & Hl%elem_of_nil & _).
      + destruct (in_layers_ok a l Ha) as (b' & Hb' & Hl). rewrite Hb'. simpl. destruct b'.
        * exists true. split; [done|]. split; [|done]. intros _. exists l. split; [left|by apply Hl].
        * exists b. split; [done|]. rewrite IH. split.
          -- intros (x & ? & ?). exists x. split; [by right|done].
          -- intros (x & [-> |?]%elem_of_cons & Hx); [by apply Hl in Hx|eauto].
  Qed.
  Lemma elem_g_node g n a : Consistent g → (n, a) ∈ g_node g ↔ node_attrs g n = Some a.
  Proof.
    intros C. unfold node_attrs. split.
    - intros H. by apply elem_dget; [apply C|].
    - apply dget_Some_elem.
  Qed.
  Lemma nodes_by_layer_ok g s : Consistent g → Layered g →
    ∃ r, select_nodes_by_layer g s = Ok r ∧ sublist r (nodes g) ∧
      ∀ n, n ∈ r ↔ ∃ a, node_attrs g n = Some a ∧ layer_ok a s.
  Proof.
    intros C [L _]. unfold select_nodes_by_layer.
    rewrite rfilter_total.
    2: { apply Forall_forall. intros [n a] Hn%elem_g_node; [|done]. destruct (layer_cond_ok a s) as (b & Hb & _); eauto. }
    simpl. eexists. split; [done|]. split.
    - apply (sublist_fmap fst). apply sublist_filter.
    - intros n. rewrite elem_of_list_fmap. split.
      + intros ([n' a] & -> & [Hs Hn]%elem_of_list_filter). apply elem_g_node in Hn; [|done].
        exists a. split; [done|]. destruct (layer_cond_ok a s) as (b & Hb & Hiff); [by eapply L|].
        simpl in Hs. rewrite Hb in Hs. injection Hs as ->. by apply Hiff.
      + intros (a & Hn & Ha). exists (n, a). split; [done|]. apply elem_of_list_filter.
        split; [|by apply elem_g_node]. destruct (layer_cond_ok a s) as (b & Hb & Hiff); [by eapply L|].
        simpl. rewrite Hb. f_equal. by apply Hiff.
  Qed.
  Lemma neighbors_by_layer_ok g n s : Consistent g → Layered g → n ∈ nodes g → s ≠ LAll →
    ∃ r, select_neighbors_by_layer g n s = Ok r ∧ sublist r (successors g n) ∧
      ∀ m, m ∈ r ↔ m ∈ successors g n ∧ ∃ a, node_attrs g m = Some a ∧ layer_ok a s.
  Proof.
    intros C [L _] Hn Hs. unfold select_neighbors_by_layer, successors.
    assert (is_Some (dget n (g_succ g))) as [nbrs Hnb].
    { apply dget_is_Some. by rewrite (c_succ_dom _ C). }
    rewrite Hnb.
    assert (Hin : ∀ m, m ∈ dkeys nbrs → ∃ a, node_attrs g m = Some a).
    { intros m Hm. apply node_mem.
      assert (m ∈ successors g n) as Hms by (unfold successors; by rewrite Hnb).

      pose proof (c_sp _ C n m) as Hsp. unfold predecessors in Hsp. apply Hsp in Hms.
      rewrite <-(c_pred_dom _ C). apply dget_is_Some. destruct (dget m (g_pred g)); [by eexists|].
      by apply elem_of_nil in Hms. }
    assert (Hc : ∀ m a, node_attrs g m = Some a → ∃ b,
       match node_attrs g m with
       | None => Err KeyError
       | Some a => match s with LAll => Err TypeError | _ => layer_cond a s end end = Ok b ∧ (b = true ↔ layer_ok a s)).
    { intros m a Hm. rewrite Hm. destruct (layer_cond_ok a s) as (b & Hb & Hiff); [by eapply L|].
      exists b. split; [|done]. by destruct s. }
    rewrite rfilter_total.
    2: { apply Forall_forall. intros m Hm. destruct (Hin m Hm) as [a Ha]. destruct (Hc m a Ha) as (b & Hb & _). eauto. }
    eexists. split; [done|]. split; [apply sublist_filter|]. intros m. rewrite elem_of_list_filter. split.
    - intros [Hm Hk]. split; [done|]. destruct (Hin m Hk) as [a Ha]. exists a. split; [done|].
      destruct (Hc m a Ha) as (b & Hb & Hiff). apply Hiff. rewrite Hb in Hm. by injection Hm.
    - intros [Hk (a & Ha & Hok)]. split; [|done]. destruct (Hc m a Ha) as (b & Hb & Hiff). rewrite Hb.
      f_equal. by apply Hiff.
  Qed.
  Lemma attr_cond_ok a k s : attr_cond a (Some k) s = true ↔ attr_ok a k s.
  Proof.
    unfold attr_cond, attr_ok, dmem. destruct (dget k a) as [v|]; simpl.
    - split.
      + intros H. exists v. split; [done|]. destruct s; [done| |]; by apply bool_decide_eq_true in H.
      + intros (v' & [= <-] & H). destruct s; [done| |]; by apply bool_decide_eq_true.
    - split; [done|]. by intros (v & ? & _).
  Qed.
  Lemma nodes_by_attribute_ok g k s : Consistent g →
    sublist (select_nodes_by_attribute g (Some k) s) (nodes g) ∧
    ∀ n, n ∈ select_nodes_by_attribute g (Some k) s ↔ ∃ a, node_attrs g n = Some a ∧ attr_ok a k s.
  Proof.
    intros C. unfold select_nodes_by_attribute. split.
    - apply (sublist_fmap fst). apply sublist_filter.
    - intros n. rewrite elem_of_list_fmap. split.
      + intros ([n' a] & -> & [Hs Hn]%elem_of_list_filter). apply elem_g_node in Hn; [|done].
        exists a. split; [done|]. by apply attr_cond_ok.
      + intros (a & Hn & Ha). exists (n, a). split; [done|]. apply elem_of_list_filter.
        split; [|by apply elem_g_node]. by apply attr_cond_ok.
  Qed.
  Lemma nodes_by_attribute_all g : select_nodes_by_attribute g None VAny = nodes g.
  Proof.
    unfold select_nodes_by_attribute, nodes, dkeys. f_equal. induction (g_node g) as [|p l IH]; [done|].
    rewrite filter_cons, decide_True by done. by f_equal.
  Qed.
  Lemma edges_cond_ok es k s : edges_cond es (Some k) s = true ↔
    match s with
    | VEq x => ∃ a, a ∈ es ∧ dget k a = Some (VStr x)
    | VAny => ∃ a, a ∈ es ∧ is_Some (dget k a)
    | VIn vs => (∃ a, a ∈ es ∧ is_Some (dget k a)) ∧
                ∃ a, a ∈ es ∧ default VNone (dget k a) ∈ vs
    end.
  Proof.
    unfold edges_cond. rewrite andb_true_iff, existsb_exists.
    assert (Hk : (∃ x, In x es ∧ dmem k x = true) ↔ ∃ a, a ∈ es ∧ is_Some (dget k a)).
    { split; intros (a & Ha & Hd); exists a; rewrite <-?elem_of_list_In in *; (split; [done|]);
      unfold dmem in *; destruct (dget k a); try done; by destruct Hd. }
    rewrite Hk. clear Hk. destruct s as [|x|vs].
    - naive_solver.
    - rewrite existsb_exists. split.
      + intros [_ (a & Ha & Hv)]. apply bool_decide_eq_true in Hv. exists a. rewrite elem_of_list_In. split; [done|].
        destruct (dget k a); simpl in Hv; [by subst|done].
      + intros (a & Ha & Hv). rewrite elem_of_list_In in Ha. split.
        * exists a. rewrite elem_of_list_In, Hv. eauto.
        * exists a. split; [done|]. apply bool_decide_eq_true. by rewrite Hv.
    - rewrite existsb_exists. f_equiv. split; intros (a & Ha & Hv); exists a.
      + apply bool_decide_eq_true in Hv. by rewrite elem_of_list_In.
      + rewrite elem_of_list_In in Ha. split; [done|]. by apply bool_decide_eq_true.
  Qed.

  Lemma plain_lit_ok s : plain_str s → plain_lit s = true.
  Proof.
    intros H. unfold plain_lit. apply forallb_forall. intros c Hc%elem_of_list_In.
    apply negb_true_iff, bool_decide_eq_false. by apply H.
  Qed.
  Lemma select_edges_ok g cs (P : attrs → Prop) : Consistent g →
    (∀ u v k a, edge_attrs g u v k = Some a → ∃ b, eval_all a cs = Ok b ∧ (b = true ↔ P a)) →
    ∃ r, select_edges g cs = Ok r ∧ sublist r (edges g) ∧
      ∀ u v k a, (u, v, k, a) ∈ r ↔ edge_attrs g u v k = Some a ∧ P a.
  Proof.
    intros C H. unfold select_edges. pose proof (elem_edges g) as He.
    rewrite rfilter_total.
    2: { apply Forall_forall. intros [[[u v] k] a] Hin. apply He in Hin; [|done].
         destruct (H _ _ _ _ Hin) as (b & Hb & _). eauto. }
    eexists. split; [done|]. split; [apply sublist_filter|]. intros u v k a. rewrite elem_of_list_filter, He by done.
    simpl. split.
    - intros [Hc Hin]. split; [done|]. destruct (H _ _ _ _ Hin) as (b & Hb & Hiff). apply Hiff. rewrite Hb in Hc. by injection Hc.
    - intros [Hin HP]. split; [|done]. destruct (H _ _ _ _ Hin) as (b & Hb & Hiff). rewrite Hb. f_equal. by apply Hiff.
  Qed.
  Lemma select_edges_by_ok g layer ty : Consistent g → Layered g →
    (ty ≠ None → typed g) → (∀ l, layer = Some l → plain_str l) → (∀ t, ty = Some t → plain_str t) →
    ∃ r, select_edges_by g layer ty = Ok r ∧ sublist r (edges g) ∧
      ∀ u v k a, (u, v, k, a) ∈ r ↔ edge_attrs g u v k = Some a ∧ edge_ok a layer ty.
  Proof.
    intros C [_ L] T Pl Pt. unfold select_edges_by, edge_ok.
    assert (Hl : ∀ l a, layer = Some l → layered a → ∃ b, eval_cond a (CInLayers l) = Ok b ∧ (b = true ↔ has_layer a l)).
    { intros l a E Ha. simpl. rewrite plain_lit_ok by by apply Pl. by apply in_layers_ok. }
    assert (Ht : ∀ t u v k a, ty = Some t → edge_attrs g u v k = Some a →
      ∃ b, eval_cond a (CValEq "edge_type" t) = Ok b ∧ (b = true ↔ dget "edge_type" a = Some (VStr t))).
    { intros t u v k a E Ha. cbn [eval_cond]. rewrite (plain_lit_ok t) by by apply Pt.
      assert (plain_lit "edge_type" = true) as -> by (vm_compute; reflexivity). cbn [andb].
      destruct (T ltac:(by subst) _ _ _ _ Ha) as [x Hx]. rewrite Hx. simpl. eexists. split; [done|].
      rewrite bool_decide_eq_true. split; [by intros ->|by intros [= ->]]. }
    destruct layer as [l|], ty as [t|].
    - apply select_edges_ok; [done|]. intros u v k a Ha.
      destruct (Ht t _ _ _ _ eq_refl Ha) as (b & Hb & Hib). destruct (Hl l a eq_refl) as (b' & Hb' & Hib'); [by eapply L|].
      cbn [eval_all]. rewrite Hb. cbn [rbind]. destruct b.
      + rewrite Hb'. cbn [rbind]. exists b'. split; [by destruct b'|]. rewrite Hib'. naive_solver.
      + exists false. split; [done|]. naive_solver.
    - apply select_edges_ok; [done|]. intros u v k a Ha. destruct (Hl l a eq_refl) as (b' & Hb' & Hib'); [by eapply L|].
      cbn [eval_all]. rewrite Hb'. cbn [rbind]. exists b'. split; [by destruct b'|]. rewrite Hib'. naive_solver.
    - apply select_edges_ok; [done|]. intros u v k a Ha. destruct (Ht t _ _ _ _ eq_refl Ha) as (b & Hb & Hib).
      cbn [eval_all]. rewrite Hb. cbn [rbind]. exists b. split; [by destruct b|]. rewrite Hib. naive_solver.
    - eexists. split; [done|]. split; [done|]. intros u v k a. rewrite elem_edges by done. naive_solver.
  Qed.
  Lemma attr_conds g k val : plain_str k → (∀ v, val = Some v → plain_str v) →
    ∀ a, ∃ b, eval_all a (CHasKey k :: match val with None => [] | Some v => [CValEq k v] end) = Ok b ∧
      (b = true ↔ attr_ok a k match val with None => VAny | Some v => VEq v end).
  Proof.
    intros Pk Pv a. cbn [eval_all eval_cond]. rewrite (plain_lit_ok k Pk). cbn [rbind]. unfold dmem, attr_ok.
    destruct (dget k a) as [x|] eqn:E; cbn [rbind].
    - destruct val as [v|]; cbn [eval_all eval_cond].
      + rewrite (plain_lit_ok k Pk), (plain_lit_ok v) by by apply Pv. cbn [andb]. rewrite E. cbn [of_option rbind].
        exists (bool_decide (x = VStr v)). split; [by case_bool_decide|]. rewrite bool_decide_eq_true. naive_solver.
      + exists true. split; [done|]. naive_solver.
    - exists false. split; [done|]. split; [done|]. by intros (? & ? & _).
  Qed.
  Lemma edges_by_attribute_ok g k val : Consistent g → k ≠ "" → plain_str k → (∀ v, val = Some v → plain_str v) →
    ∃ r, select_edges_by_attribute g (Some k) match val with None => EAny | Some v => EEq v end = Ok r ∧
      sublist r (edges g) ∧
      ∀ u v key a, (u, v, key, a) ∈ r ↔ edge_attrs g u v key = Some a ∧
        attr_ok a k match val with None => VAny | Some v => VEq v end.
  Proof.
    intros C Hk Pk Pv.
    destruct (select_edges_ok g (CHasKey k :: match val with None => [] | Some v => [CValEq k v] end)
      (λ a, attr_ok a k match val with None => VAny | Some v => VEq v end) C) as (r & Hr & Hrest).
    { intros. by apply attr_conds. }
    exists r. split; [|done]. rewrite <-Hr. unfold select_edges_by_attribute. destruct k; [done|]. by destruct val.
  Qed.
  Lemma edges_by_attribute_many g k vs : Consistent g → k ≠ "" → plain_str k → (∀ v, v ∈ vs → plain_str v) →
    ∃ r, select_edges_by_attribute g (Some k) (EIn vs) = Ok r ∧ (NoDup vs → NoDup r) ∧
      ∀ u v key a, (u, v, key, a) ∈ r ↔ edge_attrs g u v key = Some a ∧ ∃ x, x ∈ vs ∧ dget k a = Some (VStr x).
  Proof.
    intros C Hk Pk Pv.
    assert (E : select_edges_by_attribute g (Some k) (EIn vs) =
                rconcat (λ v, select_edges g [CHasKey k; CValEq k v]) vs) by (by destruct k).
    rewrite E. clear E. induction vs as [|x vs IH].
    - exists []. split; [done|]. split; [intros _; apply NoDup_nil_2|]. intros. split; [by intros ?%elem_of_nil|].
      by intros (_ & ? & ?%elem_of_nil & _).
    - destruct IH as (r & Hr & Hnd & He); [intros; apply Pv; by right|].
      destruct (edges_by_attribute_ok g k (Some x) C Hk Pk) as (r' & Hr' & Hsub & He').
      { intros v [= <-]. apply Pv. left. }
      assert (E' : select_edges g [CHasKey k; CValEq k x] = Ok r').
      { rewrite <-Hr'. by destruct k. }
      cbn [rconcat]. rewrite E'. cbn [rbind]. rewrite Hr. cbn [rbind]. exists (r' ++ r). split; [done|]. split.
      + intros [Hx Hv]%NoDup_cons. apply NoDup_app. split; [|split; [|by apply Hnd]].
        * eapply NoDup_sub; [exact Hsub|]. by apply NoDup_edges.
        * intros [[[u v] key] a] [Ha (y & Hy & Hyx)]%He' (_ & z & Hz & Hyz)%He.
          simpl in Hyx. assert (z = x) by congruence. by subst.
      + intros u v key a. rewrite elem_of_app, He', He. unfold attr_ok. setoid_rewrite elem_of_cons. naive_solver.
  Qed.

  (** ** Keyword in context *)
  Lemma slice_nat {A} (l : list A) (i j : nat) : i ≤ length l → j ≤ length l →
    slice l (Z.of_nat i) (Z.of_nat j) = take (j - i) (drop i l).
  Proof.
    intros Hi Hj. unfold slice, norm_idx.
    destruct (Z.ltb_spec (Z.of_nat i) 0); [lia|]. destruct (Z.ltb_spec (Z.of_nat j) 0); [lia|].
    rewrite !Z.min_l by lia. by rewrite !Nat2Z.id.
  Qed.
  Lemma kwic_ok {A} (l : list A) (i w : nat) x : l !! i = Some x →
    get_kwic l (Z.of_nat i) (Z.of_nat w) = Ok (take (min i w) (drop (i - w) l), x, take w (drop (S i) l)).
  Proof.
    intros Hi. pose proof (lookup_lt_Some _ _ _ Hi) as Hlt. unfold get_kwic.
    assert (E1 : slice l (Z.max 0 (Z.of_nat i - Z.of_nat w)) (Z.max 0 (Z.of_nat i)) = take (min i w) (drop (i - w) l)).
    { replace (Z.max 0 (Z.of_nat i - Z.of_nat w)) with (Z.of_nat (i - w)) by lia.
      replace (Z.max 0 (Z.of_nat i)) with (Z.of_nat i) by lia. rewrite slice_nat by lia. f_equal. lia. }
    assert (E2 : slice l (Z.min (Z.of_nat (length l)) (Z.of_nat i + 1))
              (Z.min (Z.of_nat (length l)) (Z.of_nat i + Z.of_nat w + 1)) = take w (drop (S i) l)).
    { replace (Z.min (Z.of_nat (length l)) (Z.of_nat i + 1)) with (Z.of_nat (S i)) by lia.
      replace (Z.min (Z.of_nat (length l)) (Z.of_nat i + Z.of_nat w + 1)) with (Z.of_nat (min (length l) (i + w + 1))) by lia.
      rewrite slice_nat by lia. destruct (decide (i + w + 1 ≤ length l)).
      - f_equal. lia.
      - rewrite !take_ge; [done| |]; rewrite drop_length; lia. }
    assert (E3 : index l (Z.of_nat i) = Ok x).
    { unfold index. destruct (Z.ltb_spec (Z.of_nat i) 0); [lia|]. destruct (Z.ltb_spec (Z.of_nat i) 0); [lia|].
      by rewrite Nat2Z.id, Hi. }
    by rewrite E1, E2, E3.
  Qed.
  Lemma kwic_out {A} (l : list A) (i : nat) w : length l ≤ i → get_kwic l (Z.of_nat i) w = Err IndexError.
  Proof.
    intros H. unfold get_kwic, index. destruct (Z.ltb_spec (Z.of_nat i) 0); [lia|]. destruct (Z.ltb_spec (Z.of_nat i) 0); [lia|].
    rewrite Nat2Z.id. apply lookup_ge_None in H. by rewrite H.
  Qed.

  (** ** Token indices *)
  Lemma token_mapper_gen toks : ∀ st d1 d2, NoDup toks → (∀ t, t ∈ toks → dget t d1 = None) →
    (∀ j, st ≤ j → dget j d2 = None) →
    let r := foldl (λ d p, (dset p.2 p.1 d.1, dset p.1 p.2 d.2)) (d1, d2)
       (zip (seq st (length toks)) toks : list (nat * nid)) in
    (∀ t i, dget t r.1 = Some i ↔ dget t d1 = Some i ∨ ∃ k, toks !! k = Some t ∧ i = st + k) ∧
    (∀ i t, dget i r.2 = Some t ↔ dget i d2 = Some t ∨ ∃ k, toks !! k = Some t ∧ i = st + k).
  Proof.
    induction toks as [|x toks IH]; intros st d1 d2 Hnd H1 H2.
    - simpl. split; intros; (split; [by left|]); intros [?|(k & ? & _)]; done.
    - apply NoDup_cons in Hnd as [Hx Hnd]. cbn [length seq zip zip_with foldl fst snd].
      destruct (IH (S st) (dset x st d1) (dset st x d2) Hnd) as [I1 I2].
      { intros t Ht. rewrite dget_dset_ne; [apply H1; by right|]. intros ->. done. }
      { intros j Hj. rewrite dget_dset_ne; [apply H2; lia|lia]. }
      split.
      + intros t i. rewrite I1. destruct (decide (t = x)) as [-> |Hne].
        * rewrite dget_dset_eq. split.
          -- intros [[= <-]|(k & Hk & ->)].
             ++ right. exists 0. split; [done|lia].
             ++ by apply elem_of_list_lookup_2 in Hk.
          -- intros [Hd|([|k] & Hk & ->)].
             ++ rewrite H1 in Hd; [done|left].
             ++ left. f_equal. lia.
             ++ simpl in Hk. by apply elem_of_list_lookup_2 in Hk.
        * rewrite dget_dset_ne by done. split.
          -- intros [?|(k & Hk & ->)]; [by left|]. right. exists (S k). split; [done|lia].
          -- intros [?|([|k] & Hk & ->)]; [by left| |].
             ++ simpl in Hk. congruence.
             ++ right. exists k. split; [done|lia].
      + intros i t. rewrite I2. destruct (decide (i = st)) as [-> |Hne].
        * rewrite dget_dset_eq. split.
          -- intros [[= <-]|(k & Hk & ?)]; [|lia]. right. exists 0. split; [done|lia].
          -- intros [Hd|([|k] & Hk & ?)]; [|by left|lia]. rewrite H2 in Hd; [done|lia].
        * rewrite dget_dset_ne by done. split.
          -- intros [?|(k & Hk & ->)]; [by left|]. right. exists (S k). split; [done|lia].
          -- intros [?|([|k] & Hk & ->)]; [by left|lia|]. right. exists k. split; [done|lia].
  Qed.
  Lemma token_mapper_ok toks : NoDup toks →
    (∀ t i, dget t (token_mapper toks).1 = Some i ↔ toks !! i = Some t) ∧
    (∀ i t, dget i (token_mapper toks).2 = Some t ↔ toks !! i = Some t).
  Proof.
    intros Hnd. destruct (token_mapper_gen toks 0 [] [] Hnd) as [I1 I2]; [done|done|].
    split; [intros t i; rewrite (I1 t i)|intros i t; rewrite (I2 i t)].
    all: split; [intros [?|(k & ? & ->)]; done|]; intros ?; right; by exists i.
  Qed.
  Lemma min_list_ok x l : (idx_min x l = x ∨ idx_min x l ∈ l) ∧ idx_min x l ≤ x ∧ ∀ y, y ∈ l → idx_min x l ≤ y.
  Proof.
    induction l as [|z l (I1 & I2 & I3)]; simpl.
    - split; [by left|]. split; [lia|]. intros y Hy. by apply elem_of_nil in Hy.
    - split_and!.
      + destruct (Nat.min_spec z (idx_min x l)) as [[_ ->]|[_ ->]]; [right; left|].
        destruct I1 as [?|?]; [by left|right; by right].
      + lia.
      + intros y [-> |Hy]%elem_of_cons; [lia|]. specialize (I3 y Hy). lia.
  Qed.
  Lemma max_list_ok x l : (idx_max x l = x ∨ idx_max x l ∈ l) ∧ x ≤ idx_max x l ∧ ∀ y, y ∈ l → y ≤ idx_max x l.
  Proof.
    induction l as [|z l (I1 & I2 & I3)]; simpl.
    - split; [by left|]. split; [lia|]. intros y Hy. by apply elem_of_nil in Hy.
    - split_and!.
      + destruct (Nat.max_spec z (idx_max x l)) as [[_ ->]|[_ ->]]; [|right; left].
        destruct I1 as [?|?]; [by left|right; by right].
      + lia.
      + intros y [-> |Hy]%elem_of_cons; [lia|]. specialize (I3 y Hy). lia.
  Qed.
  Lemma segment_offsets_ok toks seg : NoDup toks → seg ≠ [] → seg ⊆ toks →
    ∃ i j, get_segment_token_offsets seg (token_mapper toks).1 = Ok (i, j) ∧ i ≤ j ∧
      (∃ t, toks !! i = Some t ∧ t ∈ seg) ∧ (∃ t, toks !! j = Some t ∧ t ∈ seg) ∧
      (∀ t k, t ∈ seg → toks !! k = Some t → i ≤ k ≤ j).
  Proof.
    intros Hnd Hne Hsub. destruct (token_mapper_ok toks Hnd) as [M _].
    assert (∃ is, rmap (λ t, of_option KeyError (dget t (token_mapper toks).1)) seg = Ok is) as [is His].
    { clear Hne. setoid_rewrite rmap_Ok. induction seg as [|t seg IH]; [by exists []|].
      destruct IH as [is His]; [intros x ?; apply Hsub; by right|].
      destruct (elem_of_list_lookup_1 toks t) as [i Hi]; [apply Hsub; left|].
      exists (i :: is). constructor; [|done]. apply M in Hi. by rewrite Hi. }
    unfold get_segment_token_offsets. rewrite His. cbn [rbind]. apply rmap_Ok in His.
    assert (HF : Forall2 (λ t i, toks !! i = Some t) seg is).
    { eapply Forall2_impl; [exact His|]. intros t i. simpl. destruct (dget t _) eqn:E; [|done]. intros [= <-]. by apply M. }
    destruct is as [|i is]; [by apply Forall2_nil_inv_r in HF|].
    destruct (min_list_ok i is) as (A1 & A2 & A3). destruct (max_list_ok i is) as (B1 & B2 & B3).
    exists (idx_min i is), (idx_max i is). split; [done|]. split; [lia|].
    assert (Hex : ∀ k, k ∈ i :: is → ∃ t, toks !! k = Some t ∧ t ∈ seg).
    { intros k [x Hx]%elem_of_list_lookup. destruct (Forall2_lookup_r _ _ _ _ _ HF Hx) as (t & Ht & ?).
      exists t. split; [done|]. by eapply elem_of_list_lookup_2. }
    split_and!.
    - apply Hex. destruct A1 as [-> |?]; [left|by right].
    - apply Hex. destruct B1 as [-> |?]; [left|by right].
    - intros t k Ht Hk. apply elem_of_list_lookup in Ht as [x Hx].
      destruct (Forall2_lookup_l _ _ _ _ _ HF Hx) as (k' & Hk' & Ht').
      assert (k' = k) as -> by by eapply NoDup_lookup. apply elem_of_list_lookup_2 in Hk'.
      apply elem_of_cons in Hk' as [-> |Hin]; [done|]. split; [by apply A3|by apply B3].
  Qed.
End sel.
