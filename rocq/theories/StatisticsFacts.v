(** * StatisticsFacts: counters *)
From stdpp Require Import sorting.
From Verif Require Import PyBase DocGraph Relabel StrNum Query SpecGraph SpanFacts DocGraphFacts Effects OutlineSpan Statistics SpecStatistics.

Section Count.
  Context {K : Type} `{EqDecision K}.
  Definition occ (k : K) (l : list K) : nat := length (filter (λ x, x = k) l).
  Lemma occ_cons k x l : occ k (x :: l) = (if decide (x = k) then 1 else 0) + occ k l.
  Proof. unfold occ. rewrite filter_cons. by destruct (decide (x = k)). Qed.
  Lemma occ_app k l l' : occ k (l ++ l') = occ k l + occ k l'.
  Proof. unfold occ. by rewrite filter_app, app_length. Qed.
  Lemma occ_nodup k l : NoDup l → occ k l = if decide (k ∈ l) then 1 else 0.
  Proof.
    induction 1 as [|x l Hx H IH]; [done|]. rewrite occ_cons, IH. destruct (decide (x = k)) as [->|Hne].
    - rewrite (decide_True (P := k ∈ k :: l)) by left. by rewrite decide_False.
    - destruct (decide (k ∈ l)) as [Hk|Hk]; [by rewrite decide_True by (by right)|]. rewrite decide_False; [done|]. by intros [->|?]%elem_of_cons.
  Qed.
  Definition bump (d : dict K nat) (k : K) : dict K nat := dset k (S (default 0 (dget k d))) d.
  Lemma bump_get (l : list K) d k : dget k (foldl bump d l) = if decide (occ k l = 0) then dget k d else Some (default 0 (dget k d) + occ k l).
  Proof.
    revert d. induction l as [|x l IH]; intros d; [done|]. cbn [foldl]. rewrite IH, occ_cons. unfold bump at 1 2. rewrite dget_dset.
    destruct (decide (x = k)) as [->|Hne].
    - rewrite (decide_True (P := k = k)) by done. rewrite (decide_False (P := 1 + occ k l = 0)) by lia. cbn [default]. unfold id. destruct (decide (occ k l = 0)) as [->|]; f_equal; lia.
    - rewrite (decide_False (P := k = x)) by congruence. done.
  Qed.
  Lemma bump_nodup l d : NoDup (dkeys d) → NoDup (dkeys (foldl bump d l)).
  Proof. revert d. induction l as [|x l IH]; intros d H; [done|]. cbn [foldl]. apply IH. by apply NoDup_dset. Qed.
  Lemma count_all_nodup (l : list K) : NoDup (count_all l).*1.
  Proof. apply (bump_nodup l []). exact NoDup_nil_2. Qed.
  Lemma count_all_elem (l : list K) k c : (k, c) ∈ count_all l ↔ 0 < c ∧ c = occ k l.
  Proof.
    assert (HI : (k, c) ∈ count_all l ↔ dget k (count_all l) = Some c) by (split; [apply elem_dget, count_all_nodup|apply dget_Some_elem]). rewrite HI. clear HI. change (count_all l) with (foldl bump [] l). rewrite bump_get. cbn [dget default]. unfold id.
    destruct (decide (occ k l = 0)) as [->|H]; split.
    - done.
    - lia.
    - intros [= <-]. lia.
    - intros [_ ->]. done.
  Qed.
  Context {X : Type} (items : list X) (keys : X → list K).
  Lemma occ_items f k : (∀ x, x ∈ items → NoDup (f x) ∧ ∀ y, y ∈ f x ↔ y ∈ keys x) → occ k (items ≫= f) = length (filter (λ x, k ∈ keys x) items).
  Proof.
    induction items as [|x l IH]; intros H; [done|]. cbn [mbind list_bind]. rewrite occ_app, filter_cons, IH by (intros y Hy; apply H; by right). destruct (H x) as [HD HE]; [left|].
    rewrite occ_nodup by done. destruct (decide (k ∈ f x)) as [Hk|Hk]; rewrite HE in Hk; [by rewrite decide_True|by rewrite decide_False].
  Qed.
  Lemma more_first_ok (p q r : K * nat) : cle more_first p q ↔ q.2 ≤ p.2.
  Proof. unfold cle, more_first. by rewrite Nat.compare_ngt_iff, Nat.nlt_ge. Qed.
  Lemma counts_sorted f ord : (∀ x, x ∈ items → NoDup (f x) ∧ ∀ y, y ∈ f x ↔ y ∈ keys x) → ord ≡ₚ count_all (items ≫= f) → counts_of items keys (isort more_first ord).
  Proof.
    intros H HP. assert (HQ : isort more_first ord ≡ₚ count_all (items ≫= f)) by (by rewrite isort_perm). split.
    - rewrite HQ. apply count_all_nodup.
    - intros k c. rewrite HQ, count_all_elem, (occ_items f k H). done.
    - assert (HS : StrNum.sorted more_first (isort more_first ord)).
      { apply isort_sorted.
        - intros x y z. rewrite !more_first_ok by done. lia.
        - intros x y Hxy. apply more_first_ok; [done|]. unfold more_first in Hxy. apply Nat.compare_gt_iff in Hxy. lia. }
      clear HQ HP. revert HS. generalize (isort more_first ord) as L. induction L as [|p L IH]; intros HS; [constructor|]. apply sorted_cons in HS as [HF HS]. constructor; [by apply IH|].
      eapply Forall_impl; [exact HF|]. intros q Hq. by apply more_first_ok in Hq.
  Qed.
End Count.
Lemma iter_layers_layered a : layered a → iter_layers a = Ok (remove_dups (layers_of a)).
Proof. intros [l Hl]. unfold iter_layers, layers_of. by rewrite Hl. Qed.
Lemma rconcat_all {A B} (f : A → res (list B)) (h : A → list B) l : Forall (λ a, f a = Ok (h a)) l → rconcat f l = Ok (l ≫= h).
Proof.
  intros HF. apply rconcat_Ok. exists (h <$> l). split; [by apply Forall2_fmap_r, Forall_Forall2_diag|]. clear HF. induction l as [|a l IH]; [done|]. rewrite fmap_cons. cbn [concat mbind list_bind]. by rewrite IH.
Qed.
Lemma bind_fmap {A B C} (f : A → B) (h : B → list C) l : ((f <$> l) ≫= h) = (l ≫= λ a, h (f a)).
Proof. induction l as [|a l IH]; [done|]. rewrite fmap_cons. cbn [mbind list_bind]. by f_equal. Qed.
Lemma node_items_eq g : Consistent g → (λ p : nid * attrs, p.2) <$> g_node g = node_items g.
Proof.
  intros C. unfold node_items, nodes, dkeys. rewrite <-list_fmap_compose. apply list_fmap_ext. intros i [n a] Hi. cbn. unfold node_attrs.
  assert (H : dget n (g_node g) = Some a) by (apply elem_dget; [apply C|by eapply elem_of_list_lookup_2]). by rewrite H.
Qed.
Lemma node_items_layered g : GInv g → Forall layered (node_items g).
Proof.
  intros [C [L _]]. apply Forall_fmap, Forall_forall. intros n Hn. apply node_mem in Hn as [a Ha]. cbn. rewrite Ha. by eapply L.
Qed.
Lemma edge_items_layered g : GInv g → Forall layered (edge_items g).
Proof. intros [C [_ L]]. apply Forall_fmap, Forall_forall. intros [[[u v] k] a] He. apply elem_edges in He; [|done]. cbn. by eapply L. Qed.
Lemma dups_ok {A} `{EqDecision A} (l : list A) : NoDup (remove_dups l) ∧ ∀ y, y ∈ remove_dups l ↔ y ∈ l.
Proof. split; [apply NoDup_remove_dups|]. intros y. apply elem_of_remove_dups. Qed.
Lemma line_eq (L : list (string * nat)) : counter_line (λ s, s) <$> L = line_of <$> L.
Proof. apply list_fmap_ext. intros i [s c] _. reflexivity. Qed.
Lemma id_line_eq (L : list (nid * nat)) : counter_line id_format <$> L = id_line <$> L.
Proof. apply list_fmap_ext. intros i [n c] _. destruct n; reflexivity. Qed.
Lemma node_thm o1 o2 g : (∀ l, o1 l ≡ₚ l) → (∀ l, o2 l ≡ₚ l) → GInv g → ∃ L A, node_statistics o1 o2 g = Ok (["Node statistics"; "==============="; ""; "number of nodes with layers"] ++ (line_of <$> L) ++ [""; "number of nodes with attributes"] ++ (line_of <$> A)) ∧
  counts_of (node_items g) layers_of L ∧ counts_of (node_items g) dkeys A.
Proof.
  intros H1 H2 I. pose proof (node_items_layered g I) as HL. pose proof (node_items_eq g (proj1 I)) as HE. unfold node_statistics.
  rewrite (rconcat_all _ (λ p : nid * attrs, remove_dups (layers_of p.2))).
  2: { apply Forall_forall. intros p Hp. apply iter_layers_layered. rewrite Forall_forall in HL. apply HL. rewrite <-HE. by apply (elem_of_list_fmap_1 (λ p : nid * attrs, p.2)). }
  cbn [rbind]. eexists _, _. split; [unfold print_sorted_counter; rewrite !line_eq; reflexivity|]. rewrite <-HE. split.
  - eapply (counts_sorted _ _ (λ a, remove_dups (layers_of a))); [intros x _; apply dups_ok|]. rewrite bind_fmap. apply H1.
  - eapply (counts_sorted _ _ iter_keys); [intros x _; apply dups_ok|]. rewrite bind_fmap. apply H2.
Qed.
Lemma edge_thm o1 o2 o3 o4 g : (∀ l, o1 l ≡ₚ l) → (∀ l, o2 l ≡ₚ l) → (∀ l, o3 l ≡ₚ l) → (∀ l, o4 l ≡ₚ l) → GInv g → ∃ L A S T,
  edge_statistics o1 o2 o3 o4 g = Ok (["Edge statistics"; "==============="; ""; "number of edges with layers"] ++ (line_of <$> L) ++ [""; "number of edges with attributes"] ++ (line_of <$> A) ++
    [""; "most common source edges"] ++ (id_line <$> take 5 S) ++ [""; "most common target edges"] ++ (id_line <$> take 5 T)) ∧
  counts_of (edge_items g) layers_of L ∧ counts_of (edge_items g) dkeys A ∧ counts_of (edges g) (λ e, [source_of e]) S ∧ counts_of (edges g) (λ e, [target_of e]) T.
Proof.
  intros H1 H2 H3 H4 I. pose proof (edge_items_layered g I) as HL. unfold edge_statistics.
  rewrite (rconcat_all _ (λ e : nid * nid * nid * attrs, remove_dups (layers_of e.2))).
  2: { apply Forall_forall. intros p Hp. apply iter_layers_layered. rewrite Forall_forall in HL. apply HL. by apply (elem_of_list_fmap_1 (λ e : nid * nid * nid * attrs, e.2)). }
  cbn [rbind]. eexists _, _, _, _. split; [unfold print_sorted_counter, print_most_common; rewrite !line_eq, !id_line_eq; reflexivity|].
  assert (HS : ∀ (f : nid * nid * nid * attrs → nid), (f <$> edges g) = edges g ≫= λ e, [f e]) by (intros f; induction (edges g) as [|e l IH]; [done|]; rewrite fmap_cons; cbn [mbind list_bind]; by rewrite IH).
  split; [|split; [|split]].
  - eapply (counts_sorted _ _ (λ a, remove_dups (layers_of a))); [intros x _; apply dups_ok|]. unfold edge_items. rewrite bind_fmap. apply H1.
  - eapply (counts_sorted _ _ iter_keys); [intros x _; apply dups_ok|]. unfold edge_items. rewrite bind_fmap. apply H2.
  - eapply (counts_sorted _ _ (λ e, [source_of e])); [intros x _; split; [apply NoDup_singleton|done]|]. rewrite <-(HS source_of). apply H3.
  - eapply (counts_sorted _ _ (λ e, [target_of e])); [intros x _; split; [apply NoDup_singleton|done]|]. rewrite <-(HS target_of). apply H4.
Qed.
(** ** Sums *)
Lemma counts_unique {X K} `{EqDecision K} (items : list X) (keys : X → list K) L L' : counts_of items keys L → counts_of items keys L' → L ≡ₚ L'.
Proof.
  intros [D1 N1 _] [D2 N2 _]. apply NoDup_Permutation; [by eapply NoDup_fmap_1|by eapply NoDup_fmap_1|]. intros [k c]. by rewrite N1, N2.
Qed.
Lemma counts_sum {X K} `{EqDecision K} (items : list X) (f : X → K) L : counts_of items (λ x, [f x]) L → sum_list L.*2 = length items.
Proof.
  intros HC. assert (HP : L ≡ₚ count_all (f <$> items)).
  { assert (HC' := counts_sorted items (λ x, [f x]) (λ x, [f x]) (count_all (items ≫= λ x, [f x])) ltac:(intros x _; split; [apply NoDup_singleton|done]) ltac:(done)).
    pose proof (counts_unique _ _ _ _ HC HC') as HP. rewrite isort_perm in HP. rewrite HP. clear. replace (f <$> items) with (items ≫= λ x, [f x]); [done|]. induction items as [|x l IH]; [done|]. rewrite fmap_cons. cbn [mbind list_bind]. by rewrite IH. }
  rewrite HP. clear. assert (HB : ∀ (l : list K) (d : dict K nat), sum_list (foldl bump d l).*2 = sum_list d.*2 + length l).
  { assert (HO : ∀ (d : dict K nat) k, sum_list (bump d k).*2 = S (sum_list d.*2)).
    { intros d k. unfold bump. induction d as [|[k' c] d IH]; [done|]. cbn [dget dset]. destruct (decide (k = k')) as [->|Hne].
      - cbn. lia.
      - cbn in *. lia. }
    induction l as [|k l IH]; intros d; [cbn; lia|]. cbn [foldl]. rewrite IH, HO. cbn [length]. lia. }
  change (count_all (f <$> items)) with (foldl bump [] (f <$> items)). rewrite HB, fmap_length. done.
Qed.
