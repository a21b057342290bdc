(** * ConvertFacts: integer labels *)
From Verif Require Import PyBase DocGraph SpecGraph DocGraphFacts History Effects RelabelFacts MergeFacts AllHist MergeAll GraphThms Relabel StrNum NatSort Query Convert SpecConvert.

Lemma Z_cmp_good : good_cmp Z.compare.
Proof. split; [apply Z.compare_eq_iff|intros; apply Z.compare_antisym|]. intros x y z. rewrite !Z.compare_lt_iff. lia. Qed.
Lemma nat_compare_good : good_cmp Nat.compare.
Proof. split; [apply Nat.compare_eq_iff|intros; apply Nat.compare_antisym|]. intros x y z. rewrite !Nat.compare_lt_iff. lia. Qed.
Lemma label_cmp_good : good_cmp label_cmp.
Proof.
  pose proof (lexcmp_good _ ascii_cmp_good) as [He Ho Ht]. pose proof Z_cmp_good as [He' Ho' Ht']. split.
  - intros [n|s] [m|t]; simpl; try done.
    + rewrite He'. naive_solver.
    + rewrite He. split; [by intros ->%chs_inj|by intros [= ->]].
  - intros [n|s] [m|t]; simpl; first [done|apply Ho'|apply Ho].
  - intros [n|s] [m|t] [k|u]; simpl; first [done|apply Ht'|apply Ht].
Qed.
Lemma pair_cmp_good : good_cmp pair_cmp.
Proof.
  destruct label_cmp_good as [He Ho Ht], nat_compare_good as [He' Ho' Ht']. unfold pair_cmp. split.
  - intros [a x] [b y]. cbn. destruct (a ?= b)%nat eqn:E.
    + apply He' in E as ->. rewrite He. naive_solver.
    + split; [done|]. intros [= -> _]. rewrite (proj2 (He' b b) eq_refl) in E. done.
    + split; [done|]. intros [= -> _]. rewrite (proj2 (He' b b) eq_refl) in E. done.
  - intros [a x] [b y]. cbn. rewrite (Ho' a b). destruct (a ?= b)%nat; cbn; [apply Ho|done|done].
  - intros [a x] [b y] [c z]. cbn. destruct (a ?= b)%nat eqn:E1; [| |done].
    + apply He' in E1 as ->. destruct (b ?= c)%nat; [apply Ht|done|done].
    + intros _. destruct (b ?= c)%nat eqn:E2; [|intros _|done].
      * apply He' in E2 as ->. by rewrite E1.
      * by rewrite (Ht' _ _ _ E1 E2).
Qed.
Section sorting.
  Context {A : Type} (cmp : A → A → comparison) (G : good_cmp cmp).
  Lemma good_cle_trans x y z : cle cmp x y → cle cmp y z → cle cmp x z.
  Proof.
    destruct G as [He Ho Ht]. unfold cle. destruct (cmp x y) eqn:E1; [| |done].
    - apply He in E1 as ->. done.
    - intros _. destruct (cmp y z) eqn:E2; [| |done]; intros _.
      + apply He in E2 as ->. by rewrite E1.
      + by rewrite (Ht _ _ _ E1 E2).
  Qed.
  Lemma good_cle_total x y : cmp x y = Gt → cle cmp y x.
  Proof. intros H. unfold cle. rewrite (gc_opp _ G x y), H. done. Qed.
  Lemma good_refl x : cmp x x = Eq.
  Proof. by apply G. Qed.
  Lemma sorted_before l i j x y : NoDup l → sorted cmp l → l !! i = Some x → l !! j = Some y → (i < j ↔ cmp x y = Lt).
  Proof.
    intros HD HS Hi Hj. split.
    - intros H. pose proof (HS i j x y H Hi Hj) as Hc. destruct (cmp x y) eqn:E; [|done|done]. apply G in E as ->. assert (i = j) by (by eapply NoDup_lookup). lia.
    - intros H. destruct (decide (i = j)) as [->|Hij]; [rewrite Hi in Hj; injection Hj as ->; by rewrite good_refl in H|].
      destruct (decide (i < j)); [done|]. pose proof (HS j i y x ltac:(lia) Hj Hi) as Hc. unfold cle in Hc. rewrite (gc_opp _ G x y), H in Hc. done.
  Qed.
  Lemma isort_before l i j x y : NoDup l → isort cmp l !! i = Some x → isort cmp l !! j = Some y → (i < j ↔ cmp x y = Lt).
  Proof.
    intros HD. apply sorted_before; [|apply isort_sorted; [apply good_cle_trans|apply good_cle_total]]. by rewrite isort_perm.
  Qed.
End sorting.
Lemma lex_before s t : lexcmp ascii_cmp s t = Lt ↔ (∃ c r, t = s ++ c :: r) ∨ ∃ p c d r r', s = p ++ c :: r ∧ t = p ++ d :: r' ∧ (N_of_ascii c < N_of_ascii d)%N.
Proof.
  revert t. induction s as [|a s IH]; intros [|b t]; cbn.
  - split; [done|]. intros [(c & r & [=])|(p & c & d & r & r' & E & _)]. by destruct p.
  - split; [|done]. intros _. left. by exists b, t.
  - split; [done|]. intros [(c & r & [=])|(p & c & d & r & r' & _ & E & _)]. by destruct p.
  - destruct (ascii_cmp a b) eqn:E.
    + apply ascii_cmp_good in E as ->. rewrite IH. split.
      * intros [(c & r & ->)|(p & c & d & r & r' & -> & -> & H)]; [left; by exists c, r|]. right. by exists (b :: p), c, d, r, r'.
      * intros [(c & r & [= ->])|([|b' p] & c & d & r & r' & E1 & E2 & H)]; [left; by exists c, r| |].
        -- cbn in E1, E2. injection E1 as <- <-. injection E2 as <- <-. lia.
        -- cbn in E1, E2. injection E1 as <- ->. injection E2 as ->. right. by exists p, c, d, r, r'.
    + split; [|done]. intros _. right. exists [], a, b, s, t. split; [done|]. split; [done|]. by apply N.compare_lt_iff.
    + split; [done|]. intros [(c & r & [= -> ->])|([|b' p] & c & d & r & r' & E1 & E2 & H)].
      * rewrite (proj2 (gc_eq _ ascii_cmp_good _ _) eq_refl) in E. done.
      * cbn in E1, E2. injection E1 as <- <-. injection E2 as <- <-. apply N.compare_lt_iff in H. unfold ascii_cmp in E. congruence.
      * cbn in E1, E2. injection E1 as -> ->. injection E2 as -> ->. rewrite (proj2 (gc_eq _ ascii_cmp_good b' b') eq_refl) in E. done.
Qed.
Lemma label_cmp_before x y : label_cmp x y = Lt ↔ label_before x y.
Proof.
  destruct x as [x|s], y as [y|t]; cbn.
  - rewrite Z.compare_lt_iff. split; [by constructor|]. by inversion 1.
  - split; [constructor|done].
  - split; [done|]. by inversion 1.
  - rewrite lex_before. split.
    + intros [(c & r & E)|(p & c & d & r & r' & E1 & E2 & H)]; [by eapply LB_prefix|by eapply LB_char].
    + inversion 1; subst; [left; by eexists _, _|right; by eexists _, _, _, _, _].
Qed.
Lemma pair_cmp_before (a b : nat) x y : pair_cmp (a, x) (b, y) = Lt ↔ a < b ∨ (a = b ∧ label_before x y).
Proof.
  unfold pair_cmp. cbn. destruct (a ?= b)%nat eqn:E.
  - apply Nat.compare_eq_iff in E as ->. rewrite label_cmp_before. split; [by right|]. intros [?|[_ ?]]; [lia|done].
  - apply Nat.compare_lt_iff in E. split; [by left|done].
  - apply Nat.compare_gt_iff in E. split; [done|]. intros [?|[? _]]; lia.
Qed.
(** ** Degrees *)
Lemma NoDup_out g n : Consistent g → NoDup (out_edges g n).
Proof.
  intros C. unfold out_edges. destruct (dget n (g_succ g)) as [nb|] eqn:En; [|apply NoDup_nil_2]. cbn [default]. unfold id. destruct (c_adj g C _ _ En) as [H1 H2].
  apply NoDup_bind; [by eapply (NoDup_fmap_1 fst)| |].
  - intros [v kd] Hv. simpl. assert (Hv' : dget v nb = Some kd) by (by apply elem_dget). destruct (H2 _ _ Hv') as [_ H3].
    apply NoDup_bind; [by eapply (NoDup_fmap_1 fst)| |].
    + intros [k a] _. apply NoDup_singleton.
    + intros [k a] [k' a'] z _ _ ->%elem_of_list_singleton [= <- <-]%elem_of_list_singleton. done.
  - intros [v kd] [v' kd'] z Hv Hv' Hz Hz'.
    apply elem_of_list_bind in Hz as ([k a] & ->%elem_of_list_singleton & _).
    apply elem_of_list_bind in Hz' as ([k' a'] & [= <- <- <-]%elem_of_list_singleton & _).
    apply elem_dget in Hv; [|done]. apply elem_dget in Hv'; [|done]. simpl in *. congruence.
Qed.
Lemma NoDup_in g n : Consistent g → NoDup (in_edges g n).
Proof.
  intros C. unfold in_edges. apply NoDup_bind.
  - unfold predecessors. destruct (dget n (g_pred g)) as [ps|] eqn:E; [by eapply (c_prednodup g C)|apply NoDup_nil_2].
  - intros u _. apply NoDup_bind.
    + eapply (NoDup_fmap_1 fst). apply (keydict_NoDup g u n C).
    + intros [k a] _. apply NoDup_singleton.
    + intros [k a] [k' a'] z _ _ ->%elem_of_list_singleton [= <- <-]%elem_of_list_singleton. done.
  - intros u u' z _ _ Hz Hz'. apply elem_of_list_bind in Hz as ([k a] & ->%elem_of_list_singleton & _).
    by apply elem_of_list_bind in Hz' as ([k' a'] & [= <- <- <-]%elem_of_list_singleton & _).
Qed.
Lemma degree_ok g n : Consistent g → node_degree g n = degree g n.
Proof.
  intros C. unfold node_degree, degree. f_equal; apply Permutation_length, NoDup_Permutation.
  - by apply NoDup_in.
  - apply NoDup_filter. by apply NoDup_edges.
  - intros [[[u v] k] a]. rewrite elem_in_edges, elem_of_list_filter, elem_edges by done. cbn. naive_solver.
  - by apply NoDup_out.
  - apply NoDup_filter. by apply NoDup_edges.
  - intros [[[u v] k] a]. rewrite elem_out_edges, elem_of_list_filter, elem_edges by done. cbn. naive_solver.
Qed.
(** ** Numbers *)
Definition numbered (first : Z) (l : list nid) (n : nid) : Z := match list_find (λ y, y = n) l with Some (i, _) => (first + Z.of_nat i)%Z | None => 0%Z end.
Lemma numbered_at first l i n : NoDup l → l !! i = Some n → numbered first l n = (first + Z.of_nat i)%Z.
Proof.
  intros HD Hi. unfold numbered. assert (H : is_Some (list_find (λ y, y = n) l)) by (apply (list_find_elem_of _ l n); [by eapply elem_of_list_lookup_2|done]).
  destruct H as [[j y] Hj]. rewrite Hj. apply list_find_Some in Hj as (Hj & -> & _). by rewrite (NoDup_lookup l i j n HD Hi Hj).
Qed.
Lemma int_mapping_dget first l i n : NoDup l → l !! i = Some n → dget n (int_mapping first l) = Some (NInt (first + Z.of_nat i)).
Proof.
  unfold int_mapping. intros HD Hi. assert (E : (n, NInt (first + Z.of_nat i)) ∈ zip l (NInt <$> seqZ first (Z.of_nat (length l)))).
  { apply elem_of_list_lookup. exists i. rewrite lookup_zip_with, Hi. cbn. rewrite list_lookup_fmap.
    pose proof (lookup_lt_Some _ _ _ Hi). rewrite lookup_seqZ_lt by lia. done. }
  apply elem_dget; [|done]. change (NoDup (zip l (NInt <$> seqZ first (Z.of_nat (length l)))).*1). rewrite fst_zip; [done|]. rewrite fmap_length, seqZ_length, Nat2Z.id. done.
Qed.
Lemma int_mapping_fst first l : (int_mapping first l).*1 = l.
Proof. unfold int_mapping. apply fst_zip. rewrite fmap_length, seqZ_length, Nat2Z.id. done. Qed.
Lemma int_mapping_snd first l : (int_mapping first l).*2 = NInt <$> seqZ first (Z.of_nat (length l)).
Proof. unfold int_mapping. apply snd_zip. rewrite fmap_length, seqZ_length, Nat2Z.id. done. Qed.
Lemma order_perm g ordering l : label_order g ordering = Ok l → l ≡ₚ nodes g.
Proof.
  unfold label_order. assert (HP : ∀ l', l' ≡ₚ ((λ n, (node_degree g n, n)) <$> nodes g) → l'.*2 ≡ₚ nodes g).
  { intros l' ->. rewrite <-list_fmap_compose. by rewrite list_fmap_id. }
  repeat (destruct (decide _); [intros [= <-]|]); [done|apply isort_perm|apply HP, isort_perm|apply HP; rewrite reverse_Permutation; apply isort_perm|done].
Qed.
Lemma order_known g ordering : (∃ l, label_order g ordering = Ok l) ↔ ordering ∈ orderings.
Proof.
  unfold label_order, orderings. repeat (destruct (decide _) as [->|?]; [split; [intros _; rewrite !elem_of_cons; tauto|by eexists]|]). split; [by intros [? [=]]|]. rewrite !elem_of_cons, elem_of_nil. tauto.
Qed.
Lemma order_in_order g first ordering l : Consistent g → label_order g ordering = Ok l → in_order g ordering (numbered first l).
Proof.
  intros C HO x y Hx Hy. pose proof (order_perm _ _ _ HO) as HP. assert (HD : NoDup l) by (rewrite HP; apply C).
  rewrite <-HP in Hx, Hy. apply elem_of_list_lookup in Hx as [i Hi]. apply elem_of_list_lookup in Hy as [j Hj].
  rewrite (numbered_at first l i x HD Hi), (numbered_at first l j y HD Hj).
  assert (E : (first + Z.of_nat i < first + Z.of_nat j)%Z ↔ i < j) by lia. rewrite E. clear E.
  assert (HDp : NoDup ((λ n, (node_degree g n, n)) <$> nodes g)) by (apply NoDup_fmap_2; [by intros ? ? [=]|apply C]).
  assert (Hpair : ∀ l' i x, l' ≡ₚ ((λ n, (node_degree g n, n)) <$> nodes g) → l'.*2 !! i = Some x → l' !! i = Some (degree g x, x)).
  { intros l' i' x' HP' H. rewrite list_lookup_fmap in H. destruct (l' !! i') as [[d z]|] eqn:Ez; [|done]. cbn in H. injection H as ->.
    apply elem_of_list_lookup_2 in Ez as H. rewrite HP' in H. apply elem_of_list_fmap in H as (z & [= -> ->] & _). by rewrite degree_ok. }
  unfold label_order in HO. repeat (destruct (decide _); [injection HO as <-|]); [..|done].
  - split; [intros H; by exists i, j|]. intros (i' & j' & H & Hi' & Hj'). by rewrite (NoDup_lookup _ _ _ _ HD Hi Hi'), (NoDup_lookup _ _ _ _ HD Hj Hj').
  - rewrite <-label_cmp_before. apply (isort_before _ label_cmp_good (nodes g)); [apply C|done|done].
  - rewrite <-pair_cmp_before. apply (isort_before _ pair_cmp_good ((λ n, (node_degree g n, n)) <$> nodes g)); [done|by apply Hpair; [apply isort_perm|]..].
  - assert (Hr : ∀ i x, (reverse (isort pair_cmp ((λ n, (node_degree g n, n)) <$> nodes g))).*2 !! i = Some x → i < length (isort pair_cmp ((λ n, (node_degree g n, n)) <$> nodes g)) ∧
      isort pair_cmp ((λ n, (node_degree g n, n)) <$> nodes g) !! (length (isort pair_cmp ((λ n, (node_degree g n, n)) <$> nodes g)) - S i) = Some (degree g x, x)).
    { intros i' x' H. apply Hpair in H; [|rewrite reverse_Permutation; apply isort_perm]. pose proof (lookup_lt_Some _ _ _ H) as Hl. rewrite reverse_length in Hl. split; [done|]. rewrite reverse_lookup in H by done. done. }
    apply Hr in Hi as [Hi1 Hi], Hj as [Hj1 Hj]. pose proof (isort_before _ pair_cmp_good _ _ _ _ _ HDp Hj Hi) as HB. rewrite pair_cmp_before in HB.
    assert (E : i < j ↔ degree g y < degree g x ∨ (degree g y = degree g x ∧ label_before y x)) by (rewrite <-HB; lia). rewrite E. naive_solver.
Qed.
Lemma numbered_numbering g first ordering l : Consistent g → label_order g ordering = Ok l → numbering g first ordering (numbered first l).
Proof.
  intros C HO. pose proof (order_perm _ _ _ HO) as HP. assert (HD : NoDup l) by (rewrite HP; apply C). split_and!; [| |by apply order_in_order].
  - intros x y Hx Hy. rewrite <-HP in Hx, Hy. apply elem_of_list_lookup in Hx as [i Hi]. apply elem_of_list_lookup in Hy as [j Hj].
    rewrite (numbered_at first l i x HD Hi), (numbered_at first l j y HD Hj). intros E. assert (i = j) as -> by lia. congruence.
  - intros z. rewrite <-(Permutation_length HP). split.
    + intros Hz. destruct (lookup_lt_is_Some_2 l (Z.to_nat (z - first))) as [n Hn]; [lia|]. exists n. rewrite <-HP. split; [by eapply elem_of_list_lookup_2|].
      rewrite (numbered_at first l _ n HD Hn). lia.
    + intros (n & Hn & <-). rewrite <-HP in Hn. apply elem_of_list_lookup in Hn as [i Hi]. rewrite (numbered_at first l i n HD Hi). apply lookup_lt_Some in Hi. lia.
Qed.
Lemma int_mapping_elem first l o n : NoDup l → (o, n) ∈ int_mapping first l ↔ o ∈ l ∧ n = NInt (numbered first l o).
Proof.
  intros HD. split.
  - intros H. assert (Hd : dget o (int_mapping first l) = Some n) by (apply elem_dget; [change (NoDup (int_mapping first l).*1); by rewrite int_mapping_fst|done]).
    assert (Ho : o ∈ l). { rewrite <-(int_mapping_fst first l). by apply (elem_of_list_fmap_1 fst _ (o, n)). } split; [done|].
    apply elem_of_list_lookup in Ho as [i Hi]. rewrite (int_mapping_dget first l i o HD Hi) in Hd. rewrite (numbered_at first l i o HD Hi). congruence.
  - intros [Ho ->]. apply elem_of_list_lookup in Ho as [i Hi]. apply dget_Some_elem. rewrite (int_mapping_dget first l i o HD Hi). by rewrite (numbered_at first l i o HD Hi).
Qed.
Lemma int_mapping_mapped first l o : NoDup l → o ∈ l → mapped (int_mapping first l) o = NInt (numbered first l o).
Proof.
  intros HD Ho. apply elem_of_list_lookup in Ho as [i Hi]. unfold mapped. rewrite (int_mapping_dget first l i o HD Hi). by rewrite (numbered_at first l i o HD Hi).
Qed.
Lemma int_mapping_values first l z : NoDup l → z ∈ (int_mapping first l).*2 ↔ ∃ n, n ∈ l ∧ z = NInt (numbered first l n).
Proof.
  intros HD. rewrite elem_of_list_fmap. split.
  - intros ([o n] & -> & H). apply int_mapping_elem in H as [? ->]; [|done]. eauto.
  - intros (n & Hn & ->). exists (n, NInt (numbered first l n)). split; [done|]. by apply int_mapping_elem.
Qed.
Lemma int_mapping_ok g first ordering l : Consistent g → label_order g ordering = Ok l →
  (∀ n, n ∈ nodes g → n ≠ NInt (numbered first l n)) → (∀ n k, n ∈ nodes g → numbered first l n = 0%Z → edge_attrs g n n k = None) →
  mapping_ok (int_mapping first l) g.
Proof.
  intros C HO Hid Hloop. pose proof (order_perm _ _ _ HO) as HP. assert (HD : NoDup l) by (rewrite HP; apply C). split.
  - by rewrite int_mapping_fst.
  - rewrite int_mapping_snd. apply NoDup_fmap_2; [by intros ? ? [=]|apply NoDup_seqZ].
  - intros o Ho. change (o ∈ (int_mapping first l).*1) in Ho. rewrite int_mapping_fst, HP in Ho. done.
  - intros n _ Hn. change (n ∈ (int_mapping first l).*1). by rewrite int_mapping_fst, HP.
  - intros o n [Ho ->]%int_mapping_elem; [|done]. apply Hid. by rewrite <-HP.
  - intros o n [Ho ->]%int_mapping_elem Ht k; [|done]. apply Hloop; [by rewrite <-HP|]. cbn in Ht. apply negb_false_iff, Z.eqb_eq in Ht. done.
Qed.
Lemma iso_set_name f s g h : iso f g h → iso f g (set_name s h).
Proof. intros [? ? ? ? ?]. by split. Qed.
Lemma renumber_any g first ordering r : NInv g → ordering ∈ orderings → convert_labels g first ordering None r →
  ∃ f, numbering g first ordering f ∧
    ((∀ n, n ∈ nodes g → n ≠ NInt (f n)) → (∀ n k, n ∈ nodes g → f n = 0%Z → edge_attrs g n n k = None) →
     (∃ g', r = Ok g' ∧ renumbered f g g') ∨ (r = Err NetworkXUnfeasible ∧ ¬ numbers_free g first)).
Proof.
  intros H HO Hc. apply order_known with (g := g) in HO as [l HO]. assert (C : Consistent g) by apply H.
  exists (numbered first l). pose proof (numbered_numbering g first _ _ C HO) as HN. split; [done|]. intros Hid Hloop.
  pose proof (order_perm _ _ _ HO) as HP. assert (HD : NoDup l) by (rewrite HP; apply C).
  pose proof (int_mapping_ok g first _ _ C HO Hid Hloop) as HM.
  assert (Hcase : ∀ out, relabel_inplace g (int_mapping first l) out →
    (∃ h, out = (h, None) ∧ iso (λ n, NInt (numbered first l n)) g h ∧ same_doc g h) ∨ (out = (g, Some NetworkXUnfeasible) ∧ ¬ numbers_free g first)).
  { intros out Ho. destruct (relabel_inplace_iso g _ out H HM Ho) as [(h & -> & _ & HS & HI)|(-> & (x & Hx1 & Hx2) & _)].
    - left. exists h. split; [done|]. split; [|done]. eapply iso_ext; [|done|exact HI]. intros n Hn. apply int_mapping_mapped; [done|by rewrite HP].
    - right. split; [done|]. intros HF. rewrite int_mapping_fst, HP in Hx1. rewrite int_mapping_values in Hx2 by done. destruct Hx2 as (n & Hn & ->).
      apply (HF (numbered first l n)); [|done]. apply HN. exists n. split; [by rewrite <-HP|done]. }
  inversion Hc as [e He|l' h e Hl Hr|l' h Hl Hr]; subst.
  - congruence.
  - rewrite HO in Hl. injection Hl as <-. destruct (Hcase _ Hr) as [(h' & [=] & _)|([= -> ->] & ?)]. by right.
  - rewrite HO in Hl. injection Hl as <-. destruct (Hcase _ Hr) as [(h' & [= <-] & HI & HS)|([=] & ?)]. left. eexists. split; [reflexivity|].
    destruct HS as (E1 & E2 & E3 & E4 & E5 & E6). split; [by apply iso_set_name|]. by split_and!.
Qed.
Lemma set_old_labels_ok key m : ∀ h, NoDup m.*2 → (∀ p, p ∈ m → is_Some (node_attrs h p.2)) →
  ∃ h', set_old_labels key m h = (h', None) ∧ nodes h' = nodes h ∧ edges h' = edges h ∧ same_doc h h' ∧
    (∀ o n a, (o, n) ∈ m → node_attrs h n = Some a → node_attrs h' n = Some (dset key (nid_val o) a)) ∧
    (∀ n, n ∉ m.*2 → node_attrs h' n = node_attrs h n).
Proof.
  unfold set_old_labels. induction m as [|[o n] m IH]; intros h HD Hh.
  - exists h. cbn. split_and!; try done. by intros o n a H%elem_of_nil.
  - cbn [fmap list_fmap] in HD. apply NoDup_cons in HD as [Hn HD]. destruct (Hh (o, n)) as [a Ha]; [left|]. cbn in Ha. cbn [for_each].
    unfold node_attrs in Ha. cbn [fst snd]. rewrite Ha.
    set (h1 := set_node (dset n (dset key (nid_val o) a) (g_node h)) h).
    assert (Hna : ∀ x, node_attrs h1 x = if decide (x = n) then Some (dset key (nid_val o) a) else node_attrs h x).
    { intros x. unfold node_attrs, h1. cbn [g_node set_node]. destruct (decide (x = n)) as [->|Hx]; [by rewrite dget_dset_eq|by rewrite dget_dset_ne]. }
    destruct (IH h1 HD) as (h' & E1 & E2 & E3 & E4 & E5 & E6).
    { intros [o' n'] Hp. rewrite Hna. case_decide; [by eexists|]. apply (Hh (o', n')). by right. }
    exists h'. split; [exact E1|]. split_and!.
    + rewrite E2. unfold nodes, h1. cbn [g_node set_node]. change (dkeys (dset n (dset key (nid_val o) a) (g_node h)) = dkeys (g_node h)). rewrite dkeys_dset, decide_True; [done|]. apply dget_is_Some. by eexists.
    + rewrite E3. done.
    + unfold same_doc in *. exact E4.
    + intros o' n' a' Hin Ha'. apply elem_of_cons in Hin as [[= -> ->]|Hin].
      * rewrite E6 by done. rewrite Hna, decide_True by done. unfold node_attrs in Ha'. congruence.
      * apply (E5 o' n' a' Hin). rewrite Hna, decide_False; [done|]. intros ->. apply Hn. by apply (elem_of_list_fmap_1 snd _ (o', n)).
    + intros x Hx. rewrite fmap_cons, not_elem_of_cons in Hx. destruct Hx as [Hx1 Hx2]. rewrite E6 by done. rewrite Hna, decide_False by done. done.
Qed.
Lemma renumber_label g first ordering key r : NInv g → ordering ∈ orderings → numbers_free g first →
  ((first ≤ 0 < first + Z.of_nat (length (nodes g)))%Z → ∀ n k, edge_attrs g n n k = None) →
  convert_labels g first ordering (Some key) r →
  ∃ f h h', numbering g first ordering f ∧ convert_labels g first ordering None (Ok h) ∧ renumbered f g h ∧ r = Ok h' ∧
    nodes h' = nodes h ∧ edges h' = edges h ∧ same_doc h h' ∧
    (∀ n a, n ∈ nodes g → node_attrs h (NInt (f n)) = Some a → node_attrs h' (NInt (f n)) = Some (dset key (nid_val n) a)).
Proof.
  intros H Hord HF Hloop Hc. assert (HO := Hord). apply order_known with (g := g) in HO as [l HO]. assert (C : Consistent g) by apply H.
  pose proof (numbered_numbering g first _ _ C HO) as HN.
  pose proof (order_perm _ _ _ HO) as HP. assert (HD : NoDup l) by (rewrite HP; apply C).
  assert (HM : mapping_ok (int_mapping first l) g).
  { apply (int_mapping_ok _ _ _ _ C HO).
    - intros n Hn Hid. apply (HF (numbered first l n)); [apply HN; by exists n|]. by rewrite <-Hid.
    - intros n k Hn H0. apply Hloop. rewrite <-H0. apply HN. by exists n. }
  inversion Hc as [e He|l' h e Hl Hr|l' h Hl Hr]; subst.
  - congruence.
  - rewrite HO in Hl. injection Hl as <-. destruct (relabel_inplace_iso g _ _ H HM Hr) as [(h' & [=] & _)|(_ & (x & Hx1 & Hx2) & _)].
    exfalso. rewrite int_mapping_fst, HP in Hx1. rewrite int_mapping_values in Hx2 by done. destruct Hx2 as (n & Hn & ->).
    apply (HF (numbered first l n)); [|done]. apply HN. exists n. split; [by rewrite <-HP|done].
  - rewrite HO in Hl. injection Hl as <-. destruct (relabel_inplace_iso g _ _ H HM Hr) as [(h' & [= <-] & _ & HS & HI)|([=] & _)].
    assert (HI' : iso (λ n, NInt (numbered first l n)) g h).
    { eapply iso_ext; [|done|exact HI]. intros n Hn. apply int_mapping_mapped; [done|by rewrite HP]. }
    set (h0 := set_name ("(" +:+ g_name g +:+ ")_with_int_labels") h).
    destruct (set_old_labels_ok key (int_mapping first l) h0) as (h' & E1 & E2 & E3 & E4 & E5 & E6).
    { apply HM. }
    { intros [o n] [Ho ->]%int_mapping_elem; [|done]. rewrite HP in Ho. apply node_mem in Ho as [a Ha]. destruct (iso_node _ _ _ HI' _ _ Ha) as (a' & Ha' & _). by exists a'. }
    exists (numbered first l), h0, h'. split; [done|]. split; [exact (CL_done g first ordering None l h HO Hr)|]. split; [|split; [|split_and!; try done]].
    + destruct HS as (S1 & S2 & S3 & S4 & S5 & S6). split; [by apply iso_set_name|]. by split_and!.
    + cbn zeta. fold h0. by rewrite E1.
    + intros n a Hn Ha. apply (E5 n _ a); [|done]. apply int_mapping_elem; [done|]. split; [by rewrite HP|done].
Qed.
Lemma convert_runs g first ordering lab : Consistent g → numbers_free g first → ∃ r, convert_labels g first ordering lab r.
Proof.
  intros C HF. destruct (label_order g ordering) as [l|e] eqn:HO; [|by eexists; apply CL_ordering].
  pose proof (order_perm _ _ _ HO) as HP. assert (HD : NoDup l) by (rewrite HP; apply C).
  assert (Hr : relabel_inplace g (int_mapping first l) (relabel_loop g (int_mapping first l) (int_mapping first l).*1)).
  { apply RI_disjoint; [|done]. intros (x & Hx1 & Hx2). rewrite int_mapping_fst, HP in Hx1. rewrite int_mapping_values in Hx2 by done. destruct Hx2 as (n & Hn & ->).
    apply (HF (numbered first l n)); [|done]. apply (numbered_numbering g first _ _ C HO). exists n. split; [by rewrite <-HP|done]. }
  destruct (relabel_loop _ _ _) as [h [e|]]; [by eexists; eapply CL_relabel|by eexists; eapply CL_done].
Qed.
(** ** Runs on concrete documents *)
Definition run_convert (g : graph) (first : Z) (ordering : string) (order : list nid) : graph :=
  match label_order g ordering with
  | Ok l => set_name ("(" +:+ g_name g +:+ ")_with_int_labels") (relabel_loop g (int_mapping first l) order).1
  | Err _ => g
  end.
Lemma run_free g first ordering l : label_order g ordering = Ok l → Forall (λ x, x ∉ (int_mapping first l).*2) (int_mapping first l).*1 →
  (relabel_loop g (int_mapping first l) l).2 = None → convert_labels g first ordering None (Ok (run_convert g first ordering l)).
Proof.
  intros HO HF HR. unfold run_convert. rewrite HO. apply (CL_done g first ordering None l); [done|].
  assert (E : relabel_inplace g (int_mapping first l) (relabel_loop g (int_mapping first l) l)).
  { apply RI_disjoint; [|by rewrite int_mapping_fst]. intros (x & Hx1 & Hx2). rewrite Forall_forall in HF. by apply (HF x). }
  destruct (relabel_loop _ _ _) as [h o]. cbn in *. by subst.
Qed.
Lemma run_topo g first ordering l order : label_order g ordering = Ok l → overlap (int_mapping first l) → topo_order (int_mapping first l) order →
  (relabel_loop g (int_mapping first l) (reverse order)).2 = None → convert_labels g first ordering None (Ok (run_convert g first ordering (reverse order))).
Proof.
  intros HO HV HT HR. unfold run_convert. rewrite HO. apply (CL_done g first ordering None l); [done|].
  pose proof (RI_topo g (int_mapping first l) order HV HT) as E. destruct (relabel_loop _ _ _) as [h o]. cbn in *. by subst.
Qed.
