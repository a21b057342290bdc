(** * SaltDone: linguistic documents, outcome and nodes (proofs) *)
From Verif Require Import PyBase DocGraph Relabel StrNum Query Text SpanFacts Rst Nltk ConllRead Conano Decour Conll Salt SpecSalt SaltFacts SaltDoc SaltLing.

(** ** Elements that are read *)
Definition read_elem (e : selem) : Prop :=
  se_class e ∉ [CToken; CSpan; CStructure; CSpanning] ∧ (se_class e = CTextual → positions e ∧ has_int "source" e) ∧ (se_class e = CDominance → has_int "source" e ∧ has_int "target" e).
Lemma reads_elem x e : element_reads x e → read_elem e.
Proof.
  intros [_ _ _ _ HC]. unfold read_elem. destruct (se_class e); try done.
  all: split; [apply (bool_decide_unpack _); vm_compute; exact I|]. all: split; try discriminate; intros _.
  - destruct HC as (_ & _ & (? & a & _ & _ & Ha) & _ & (? & on & _ & _ & Hon) & (? & off & _ & _ & Hoff) & _). split; [by exists on, off|by exists a].
  - destruct HC as (_ & _ & (? & a & _ & _ & Ha) & (? & b & _ & _ & Hb) & _). split; [by exists a|by exists b].
Qed.
Lemma reads_all xs es : Forall2 element_reads xs es → Forall read_elem es.
Proof. induction 1 as [|x e xs es H HF IH]; [apply List.Forall_nil|]. apply List.Forall_cons; [by eapply reads_elem|exact IH]. Qed.
Lemma class_none es c : Forall read_elem es → c ∈ [CToken; CSpan; CStructure; CSpanning] → Forall (λ e, se_class e ≠ c) es.
Proof. intros H Hc. eapply Forall_impl; [exact H|]. intros e (H1 & _) <-. done. Qed.
Lemma edges_of_read d c : Forall read_elem (sd_edges d) → Forall (λ e, read_elem e ∧ se_class e = c) (edges_of d c).
Proof. intros H. apply Forall_forall. intros e [Hc He]%elem_of_list_filter. rewrite Forall_forall in H. split; [by apply H|exact Hc]. Qed.

(** ** Groups *)
Lemma group_keys ps k : k ∈ dkeys (group ps) ↔ k ∈ ps.*1.
Proof.
  induction ps as [|p ps IH] using rev_ind; [done|]. unfold group in *. rewrite foldl_app. cbn [foldl]. rewrite dkeys_dset_elem, IH, fmap_app, elem_of_app. change ([p].*1) with [p.1]. rewrite elem_of_list_singleton. tauto.
Qed.
Lemma dget_elem_iff (L : list (Z * list Z)) k v : NoDup L.*1 → dget k L = Some v ↔ (k, v) ∈ L.
Proof. intros H. split; [apply dget_Some_elem|]. intros Hin. by apply elem_dget. Qed.
Lemma dget_same (L L' : list (Z * list Z)) k : NoDup L.*1 → L' ≡ₚ L → dget k L' = dget k L.
Proof.
  intros H HP. assert (H' : NoDup L'.*1) by (by rewrite HP). destruct (dget k L) as [v|] eqn:E.
  - apply dget_elem_iff; [exact H'|]. rewrite HP. by apply dget_elem_iff.
  - destruct (dget k L') as [v|] eqn:E'; [|reflexivity]. apply dget_elem_iff in E'; [|exact H']. rewrite HP in E'. apply dget_elem_iff in E'; [|exact H]. congruence.
Qed.
Lemma group_last name (L : list (Z * list Z)) i : NoDup L.*1 → Forall (λ p, (0 ≤ p.1)%Z) L →
  last (filter (λ w, w.1.2 = name) (filter (λ w, at_node w = i) (group_writes name L))) = match dget (Z.of_nat i) L with Some l => Some (i, name, FInts l) | None => None end.
Proof.
  unfold group_writes. induction L as [|p L IH]; intros HN HF; [reflexivity|]. rewrite fmap_cons in HN. apply NoDup_cons in HN as [Hp HN]. apply Forall_cons in HF as [Hz HF]. rewrite fmap_cons, filter_cons. cbn [at_node fst snd]. destruct p as [z l]. cbn [fst snd] in *. cbn [dget]. 
  destruct (decide (Z.to_nat z = i)) as [<-|Hi].
  - rewrite Z2Nat.id by exact Hz. rewrite (decide_True (P := z = z)) by reflexivity. rewrite filter_cons. cbn [fst snd]. rewrite (decide_True (P := name = name)) by reflexivity.
    assert (filter (λ w, at_node w = Z.to_nat z) ((λ p : Z * list Z, (Z.to_nat p.1, name, FInts p.2)) <$> L) = []) as ->; [|reflexivity]. clear -Hp HF Hz. induction L as [|q L IH]; [reflexivity|]. rewrite fmap_cons in *. apply Forall_cons in HF as [Hq HF]. apply not_elem_of_cons in Hp as [Hpq Hp]. rewrite filter_cons. cbn [at_node fst snd]. rewrite decide_False by (unfold at_node; cbn [fst]; lia). by apply IH.
  - rewrite (decide_False (P := Z.of_nat i = z)) by lia. by apply IH.
Qed.
Lemma filter_name_other (ws : list write) k : (∀ w, w ∈ ws → w.1.2 ≠ k) → ∀ i, filter (λ w, w.1.2 = k) (filter (λ w, at_node w = i) ws) = [].
Proof.
  intros H i. induction ws as [|w ws IH]; [reflexivity|]. rewrite filter_cons. assert (HT : filter (λ w, w.1.2 = k) (filter (λ w, at_node w = i) ws) = []) by (apply IH; intros w' Hw'; apply H, elem_of_cons; by right). destruct (decide (at_node w = i)); [|exact HT]. rewrite filter_cons. rewrite decide_False by (apply H, elem_of_cons; by left). exact HT.
Qed.
Lemma group_names name L w : w ∈ group_writes name L → w.1.2 = name.
Proof. unfold group_writes. intros (p & -> & _)%elem_of_list_fmap. reflexivity. Qed.
Lemma offset_names xs w : w ∈ concat (offset_writes <$> xs) → w.1.2 ∈ ["onset"; "offset"].
Proof.
  intros (l & Hl & Hw)%elem_of_list_In%in_concat. apply elem_of_list_In in Hl, Hw. apply elem_of_list_fmap in Hl as (e & -> & _). unfold offset_writes in Hw. apply elem_of_cons in Hw as [->|Hw]; [apply in1|]. apply elem_of_list_singleton in Hw as ->. apply in2, in1.
Qed.

Section doc.
  Context (ord : list (Z * list Z) → list (Z * list Z)) (Hord : ∀ l, ord l ≡ₚ l) (d : sdoc).
  Context (Hn : Forall read_elem (sd_nodes d)) (He : Forall read_elem (sd_edges d)) (Hnamed : ends_named d).
  Let T := edges_of d CTextual.
  Let D := edges_of d CDominance.
  Let g1 := group (pair_of "source" "target" <$> D).
  Let g2 := group (pair_of "target" "source" <$> D).
  Definition all_writes : list write := concat (offset_writes <$> T) ++ group_writes "dominates" (ord g1) ++ group_writes "dominated_by" (ord g2).
  Lemma textual_source : Forall (λ e, ∃ i, field e "source" (FInt (Z.of_nat i))) T.
  Proof using Hnamed. apply Hnamed. Qed.
  Lemma dominance_ends : Forall (λ e, ∃ i j, field e "source" (FInt (Z.of_nat i)) ∧ field e "target" (FInt (Z.of_nat j))) D.
  Proof using Hnamed. apply Hnamed. Qed.
  Lemma textual_positions : Forall positions T.
  Proof using He. eapply Forall_impl; [apply (edges_of_read d CTextual He)|]. intros e ((_ & H & _) & Hc). by apply H. Qed.
  Lemma group_range (key val : string) : (∀ e, e ∈ D → ∃ i, field e key (FInt (Z.of_nat i))) → Forall (λ p : Z * list Z, (0 ≤ p.1)%Z) (ord (group (pair_of key val <$> D))) ∧
    ∀ m, Forall (λ p : Z * list Z, Z.to_nat p.1 < m) (ord (group (pair_of key val <$> D))) ↔ ∀ e i, e ∈ D → field e key (FInt (Z.of_nat i)) → i < m.
  Proof using Hord.
    intros HD. assert (HK : ∀ p, p ∈ ord (group (pair_of key val <$> D)) → ∃ e i, e ∈ D ∧ field e key (FInt (Z.of_nat i)) ∧ p.1 = Z.of_nat i).
    { intros p Hp. rewrite Hord in Hp. assert (p.1 ∈ dkeys (group (pair_of key val <$> D))) as Hk by (unfold dkeys; apply elem_of_list_fmap; by exists p). apply group_keys in Hk. rewrite <-list_fmap_compose in Hk. apply elem_of_list_fmap in Hk as (e & E & He'). destruct (HD e He') as [i Hi]. exists e, i. split; [exact He'|]. split; [exact Hi|]. rewrite E. unfold compose, pair_of, int_of_field. cbn [fst]. unfold field in Hi. by rewrite Hi. }
    split; [apply Forall_forall; intros p Hp; destruct (HK p Hp) as (e & i & _ & _ & ->); lia|]. intros m. split.
    - intros HF e i He' Hi. rewrite Forall_forall in HF. assert (Z.of_nat i ∈ dkeys (group (pair_of key val <$> D))) as Hk. { apply group_keys. rewrite <-list_fmap_compose. apply elem_of_list_fmap. exists e. split; [|exact He']. unfold compose, pair_of, int_of_field. cbn [fst]. unfold field in Hi. by rewrite Hi. }
      unfold dkeys in Hk. apply elem_of_list_fmap in Hk as (p & E & Hp). rewrite <-(Hord (group _)) in Hp. specialize (HF p Hp). cbn beta in HF. rewrite <-E, Nat2Z.id in HF. exact HF.
    - intros H. apply Forall_forall. intros p Hp. destruct (HK p Hp) as (e & i & He' & Hi & ->). rewrite Nat2Z.id. by eapply H.
  Qed.
  Lemma source_named e : e ∈ D → ∃ i, field e "source" (FInt (Z.of_nat i)).
  Proof using Hnamed. intros H. pose proof dominance_ends as HF. rewrite Forall_forall in HF. destruct (HF e H) as (i & j & Hi & _). by exists i. Qed.
  Lemma target_named e : e ∈ D → ∃ i, field e "target" (FInt (Z.of_nat i)).
  Proof using Hnamed. intros H. pose proof dominance_ends as HF. rewrite Forall_forall in HF. destruct (HF e H) as (i & j & _ & Hj). by exists j. Qed.
  Lemma range_iff : Forall (λ e, source_nat e < length (sd_nodes d)) T ∧ Forall (λ p : Z * list Z, Z.to_nat p.1 < length (sd_nodes d)) (ord g1) ∧ Forall (λ p : Z * list Z, Z.to_nat p.1 < length (sd_nodes d)) (ord g2) ↔ ends_exist d.
  Proof using Hord Hnamed.
    pose proof (proj2 (group_range "source" "target" source_named) (length (sd_nodes d))) as G1. pose proof (proj2 (group_range "target" "source" target_named) (length (sd_nodes d))) as G2. unfold g1, g2. rewrite G1, G2. unfold ends_exist. fold T D. pose proof textual_source as HT. pose proof dominance_ends as HD. rewrite Forall_forall in HT, HD. rewrite !Forall_forall. split.
    - intros (H1 & H2 & H3). split.
      + intros e He'. destruct (HT e He') as [i Hi]. exists i. split; [exact Hi|]. specialize (H1 e He'). unfold source_nat in H1. unfold field in Hi. rewrite Hi, Nat2Z.id in H1. exact H1.
      + intros e He'. destruct (HD e He') as (i & j & Hi & Hj). exists i, j. split; (split; [assumption|]); [by eapply H2|by eapply H3].
    - intros (H1 & H2). assert (HI : ∀ e k i i', field e k (FInt (Z.of_nat i)) → field e k (FInt (Z.of_nat i')) → i = i') by (unfold field; intros e k i i' E1 E2; rewrite E1 in E2; injection E2; lia). split; [|split].
      + intros e He'. destruct (H1 e He') as (i & Hi & Hl). unfold source_nat. unfold field in Hi. by rewrite Hi, Nat2Z.id.
      + intros e i He' Hi. destruct (H2 e He') as (i' & j & (Hi' & Hl) & _). by rewrite (HI _ _ _ _ Hi Hi').
      + intros e i He' Hi. destruct (H2 e He') as (i' & j & _ & (Hi' & Hl)). by rewrite (HI _ _ _ _ Hi Hi').
  Qed.
  Lemma sentences_none l s : rfold (λ (p : nat * selem) (st : list (list Z) * list Z),
    if decide (Z.of_nat p.1 ∈ ([] : list Z)) then
      let! pos := tiger_pos p.2 in
      if decide (pos = "$.") then Ok (st.1 ++ [st.2 ++ [Z.of_nat p.1]], []) else Ok (st.1, st.2 ++ [Z.of_nat p.1])
    else Ok st) l s = Ok s.
  Proof. induction l as [|p l IH]; [reflexivity|]. rewrite rfold_cons. rewrite decide_False by (apply not_elem_of_nil). exact IH. Qed.
  Lemma ord_nil : ord [] = [].
  Proof using Hord. apply Permutation_nil_r. by rewrite Hord. Qed.
  Lemma outcome s : first_text d s → ends_exist d → linguistic_document ord d = Ok (LDoc (sd_id d) (apply_writes all_writes (sd_nodes d)) (sd_edges d) (sd_layers d) s []).
  Proof using Hord Hn He Hnamed.
    intros (n & ns & E & Hs) HX. apply range_iff in HX as (X1 & X2 & X3). unfold linguistic_document. rewrite E at 1. cbn [head of_option rbind]. unfold field in Hs. rewrite Hs. cbn [rbind]. cbv zeta. unfold add_offsets.
    rewrite (rfold_get (elem_at (sd_edges d)) step_offsets _ _ (subtype_elems (sd_edges d) CTextual)). change (filter (λ e, se_class e = CTextual) (sd_edges d)) with T. rewrite (offsets_fold T textual_source textual_positions). rewrite decide_True by exact X1. cbn [rbind].
    rewrite (subtype_none (sd_nodes d) CToken) by (apply class_none; [exact Hn|apply in1]). unfold extract_sentences. rewrite sentences_none. cbn [rbind fst].
    rewrite (subtype_none (sd_edges d) CSpanning) by (apply class_none; [exact He|apply in2, in2, in2, in1]). unfold group_edges at 1. change (rfold _ [] ([] : dict Z (list Z))) with (Ok ([] : dict Z (list Z))). cbn [rbind]. unfold set_groups at 1. rewrite ord_nil. change (rfold _ [] ?x) with (Ok x). cbn [rbind].
    unfold group_edges at 1. change (rfold _ [] ([] : dict Z (list Z))) with (Ok ([] : dict Z (list Z))). cbn [rbind]. unfold set_groups at 1. rewrite ord_nil. change (rfold _ [] ?x) with (Ok x). cbn [rbind].
    assert (HI : Forall (λ e, has_int "source" e ∧ has_int "target" e) (filter (λ e, se_class e = CDominance) (sd_edges d))). { pose proof dominance_ends as HD. eapply Forall_impl; [exact HD|]. intros e (i & j & Hi & Hj). split; by eexists. }
    assert (HI' : Forall (λ e, has_int "target" e ∧ has_int "source" e) (filter (λ e, se_class e = CDominance) (sd_edges d))). { eapply Forall_impl; [exact HI|]. intros e []. done. }
    rewrite (group_fold _ _ _ _ HI). cbn [rbind]. rewrite (group_fold _ _ _ _ HI'). cbn [rbind]. change (filter (λ e, se_class e = CDominance) (sd_edges d)) with D. fold g1 g2. unfold set_groups at 1. rewrite (groups_fold "dominates" (ord g1)) by apply (group_range "source" "target" source_named). rewrite writes_length, decide_True by exact X2. cbn [rbind].
    unfold set_groups. rewrite (groups_fold "dominated_by" (ord g2)) by apply (group_range "target" "source" target_named). rewrite !writes_length, decide_True by exact X3. cbn [rbind]. rewrite <-!writes_app. reflexivity.
  Qed.
  Lemma outcome_only l : linguistic_document ord d = Ok l → first_text d (ld_text l) ∧ ends_exist d.
  Proof using Hord Hn He Hnamed.
    intros H. assert (HT : ∃ s, first_text d s). { unfold linguistic_document in H. destruct (sd_nodes d) as [|n ns] eqn:E; [done|]. cbn [head of_option rbind] in H. destruct (dget "text" (se_fields n)) as [[]|] eqn:Et; try done. eexists. exists n, ns. split; [exact E|exact Et]. }
    destruct HT as [s HT]. destruct (decide (Forall (λ e, source_nat e < length (sd_nodes d)) T ∧ Forall (λ p : Z * list Z, Z.to_nat p.1 < length (sd_nodes d)) (ord g1) ∧ Forall (λ p : Z * list Z, Z.to_nat p.1 < length (sd_nodes d)) (ord g2))) as [X|X].
    - apply range_iff in X. rewrite (outcome s HT X) in H. injection H as <-. done.
    - exfalso. destruct HT as (n & ns & E & Hs). unfold linguistic_document in H. rewrite E in H at 1. cbn [head of_option rbind] in H. unfold field in Hs. rewrite Hs in H. cbn [rbind] in H. cbv zeta in H. unfold add_offsets in H.
      rewrite (rfold_get (elem_at (sd_edges d)) step_offsets _ _ (subtype_elems (sd_edges d) CTextual)) in H. change (filter (λ e, se_class e = CTextual) (sd_edges d)) with T in H. rewrite (offsets_fold T textual_source textual_positions) in H.
      destruct (decide (Forall (λ e, source_nat e < length (sd_nodes d)) T)) as [X1|X1]; [|done]. cbn [rbind] in H.
      rewrite (subtype_none (sd_nodes d) CToken) in H by (apply class_none; [exact Hn|apply in1]). unfold extract_sentences in H. rewrite sentences_none in H. cbn [rbind fst] in H.
      rewrite (subtype_none (sd_edges d) CSpanning) in H by (apply class_none; [exact He|apply in2, in2, in2, in1]). unfold group_edges at 1 in H. change (rfold _ [] ([] : dict Z (list Z))) with (Ok ([] : dict Z (list Z))) in H. cbn [rbind] in H. unfold set_groups at 1 in H. rewrite ord_nil in H. change (rfold _ [] ?x) with (Ok x) in H. cbn [rbind] in H.
      unfold group_edges at 1 in H. change (rfold _ [] ([] : dict Z (list Z))) with (Ok ([] : dict Z (list Z))) in H. cbn [rbind] in H. unfold set_groups at 1 in H. rewrite ord_nil in H. change (rfold _ [] ?x) with (Ok x) in H. cbn [rbind] in H.
      assert (HI : Forall (λ e, has_int "source" e ∧ has_int "target" e) (filter (λ e, se_class e = CDominance) (sd_edges d))). { pose proof dominance_ends as HD. eapply Forall_impl; [exact HD|]. intros e (i & j & Hi & Hj). split; by eexists. }
      assert (HI' : Forall (λ e, has_int "target" e ∧ has_int "source" e) (filter (λ e, se_class e = CDominance) (sd_edges d))). { eapply Forall_impl; [exact HI|]. intros e []. done. }
      rewrite (group_fold _ _ _ _ HI) in H. cbn [rbind] in H. rewrite (group_fold _ _ _ _ HI') in H. cbn [rbind] in H. change (filter (λ e, se_class e = CDominance) (sd_edges d)) with D in H. fold g1 g2 in H. unfold set_groups at 1 in H. rewrite (groups_fold "dominates" (ord g1)) in H by apply (group_range "source" "target" source_named). rewrite writes_length in H.
      destruct (decide (Forall (λ p : Z * list Z, Z.to_nat p.1 < length (sd_nodes d)) (ord g1))) as [X2|X2]; [|done]. cbn [rbind] in H. unfold set_groups in H. rewrite (groups_fold "dominated_by" (ord g2)) in H by apply (group_range "target" "source" target_named). rewrite !writes_length in H.
      destruct (decide (Forall (λ p : Z * list Z, Z.to_nat p.1 < length (sd_nodes d)) (ord g2))) as [X3|X3]; [|done]. by apply X.
  Qed.

  (** ** The nodes *)
  Lemma node_field i k n : dget k (se_fields (foldl set_one n (filter (λ w, at_node w = i) all_writes))) =
    match last (filter (λ w, w.1.2 = k) (filter (λ w, at_node w = i) all_writes)) with Some w => Some w.2 | None => dget k (se_fields n) end.
  Proof. apply fold_field. Qed.
  Lemma split_writes i k : filter (λ w, w.1.2 = k) (filter (λ w, at_node w = i) all_writes) =
    filter (λ w, w.1.2 = k) (filter (λ w, at_node w = i) (concat (offset_writes <$> T))) ++ filter (λ w, w.1.2 = k) (filter (λ w, at_node w = i) (group_writes "dominates" (ord g1))) ++ filter (λ w, w.1.2 = k) (filter (λ w, at_node w = i) (group_writes "dominated_by" (ord g2))).
  Proof. unfold all_writes. by rewrite !filter_app. Qed.
  Lemma no_offset k : k ∉ ["onset"; "offset"] → ∀ i, filter (λ w, w.1.2 = k) (filter (λ w, at_node w = i) (concat (offset_writes <$> T))) = [].
  Proof. intros H. apply filter_name_other. intros w Hw <-. apply H. by eapply offset_names. Qed.
  Lemma no_group name L k : k ≠ name → ∀ i, filter (λ w, w.1.2 = k) (filter (λ w, at_node w = i) (group_writes name L)) = [].
  Proof. intros H. apply filter_name_other. intros w Hw <-. apply H. by eapply group_names. Qed.
  Lemma group_partners (key val : string) i : Forall (λ e, has_int key e ∧ has_int val e) D →
    dget (Z.of_nat i) (group (pair_of key val <$> D)) = match partners d CDominance key val i with [] => None | l => Some l end.
  Proof.
    intros HI. rewrite group_get. assert (E : (filter (λ p : Z * Z, p.1 = Z.of_nat i) (pair_of key val <$> D)).*2 = partners d CDominance key val i).
    { unfold partners. fold D. clear -HI. induction HI as [|e xs [[k Hk] [v Hv]] HF IH]; [reflexivity|]. assert (E1 : pair_of key val e = (k, v)) by (unfold pair_of, int_of_field; unfold field in Hk, Hv; by rewrite Hk, Hv). rewrite fmap_cons, E1, !filter_cons. cbn [fst]. unfold field in Hk. destruct (decide (k = Z.of_nat i)) as [->|Hi].
      - destruct (decide (dget key (se_fields e) = Some (FInt (Z.of_nat i)))) as [_|X]; [|congruence]. rewrite fmap_cons, IH. cbn [omap list_omap]. unfold field in Hv. rewrite Hv. reflexivity.
      - destruct (decide (dget key (se_fields e) = Some (FInt (Z.of_nat i)))) as [X|_]; [congruence|]. exact IH. }
    rewrite <-E. destruct (filter _ _) as [|p ps]; reflexivity.
  Qed.
  Lemma group_last_is name (key val : string) i : (∀ e, e ∈ D → ∃ i, field e key (FInt (Z.of_nat i))) → Forall (λ e, has_int key e ∧ has_int val e) D →
    last (filter (λ w, w.1.2 = name) (filter (λ w, at_node w = i) (group_writes name (ord (group (pair_of key val <$> D)))))) = match partners d CDominance key val i with [] => None | l => Some (i, name, FInts l) end.
  Proof using Hord.
    intros HK HI. assert (HN : NoDup (group (pair_of key val <$> D)).*1) by apply group_nodup. rewrite group_last; [|by rewrite Hord|by apply (group_range key val)]. rewrite (dget_same (group (pair_of key val <$> D)) (ord _) (Z.of_nat i) HN) by apply Hord. rewrite group_partners by exact HI. by destruct (partners d CDominance key val i).
  Qed.
  Lemma ends_ints : Forall (λ e, has_int "source" e ∧ has_int "target" e) D ∧ Forall (λ e, has_int "target" e ∧ has_int "source" e) D.
  Proof using Hnamed. pose proof dominance_ends as HD. split; (eapply Forall_impl; [exact HD|]); intros e (i & j & Hi & Hj); split; by eexists. Qed.
  Lemma offset_filter i e : field e "source" (FInt (Z.of_nat i)) → filter (λ w, at_node w = i) (offset_writes e) = offset_writes e.
  Proof. intros H. assert (E : source_nat e = i) by (unfold source_nat; unfold field in H; rewrite H; apply Nat2Z.id). unfold offset_writes. rewrite E. rewrite !filter_cons, filter_nil. rewrite !decide_True by reflexivity. reflexivity. Qed.
  Lemma offset_other xs i : Forall (λ e, ∃ i, field e "source" (FInt (Z.of_nat i))) xs → Forall (λ e, ¬ field e "source" (FInt (Z.of_nat i))) xs → filter (λ w, at_node w = i) (concat (offset_writes <$> xs)) = [].
  Proof.
    induction 1 as [|e xs [j Hj] HF IH]; intros HN; [reflexivity|]. apply Forall_cons in HN as [Hi HN]. rewrite fmap_cons. cbn [concat]. rewrite filter_app, (IH HN), app_nil_r. assert (j ≠ i) by (intros ->; done). assert (E : source_nat e = j) by (unfold source_nat; unfold field in Hj; rewrite Hj; apply Nat2Z.id). unfold offset_writes. rewrite E. rewrite !filter_cons, filter_nil. rewrite !decide_False by (unfold at_node; cbn [fst]; done). reflexivity.
  Qed.
  Lemma nodes_completed i n n' : sd_nodes d !! i = Some n → apply_writes all_writes (sd_nodes d) !! i = Some n' → completed d i n n'.
  Proof using Hord Hn He Hnamed.
    intros Hi H. rewrite writes_at, Hi in H. cbn [fmap option_fmap option_map] in H. injection H as <-. destruct ends_ints as [HI HI']. split.
    - apply fold_same.
    - intros e k (pre & post & ET & Hs & Hpost) Hk. rewrite node_field, split_writes. assert (k ≠ "dominates" ∧ k ≠ "dominated_by") as [K1 K2] by (apply elem_of_cons in Hk as [->|Hk]; [done|apply elem_of_list_singleton in Hk as ->; done]).
      rewrite (no_group "dominates") by exact K1. rewrite (no_group "dominated_by") by exact K2. rewrite !app_nil_r. fold T in ET. pose proof textual_source as HT. pose proof textual_positions as HP. rewrite ET in HT, HP. apply Forall_app in HT as [_ HT]. apply Forall_cons in HT as [_ HT]. apply Forall_app in HP as [_ HP]. apply Forall_cons in HP as [(on & off & Hon & Hoff) _].
      rewrite ET, fmap_app, fmap_cons, concat_app. cbn [concat]. rewrite !filter_app. rewrite (offset_other post) by done. rewrite (offset_filter i e Hs). rewrite filter_nil, app_nil_r. unfold offset_writes, int_of_field. unfold field in Hon, Hoff. rewrite Hon, Hoff. rewrite !filter_cons, filter_nil. cbn [fst snd].
      apply elem_of_cons in Hk as [->|Hk].
      + rewrite (decide_True (P := "onset" = "onset")) by reflexivity. rewrite (decide_False (P := "offset" = "onset")) by done. by rewrite last_snoc.
      + apply elem_of_list_singleton in Hk as ->. rewrite (decide_False (P := "onset" = "offset")) by done. rewrite (decide_True (P := "offset" = "offset")) by reflexivity. by rewrite last_snoc.
    - intros k HF Hk. rewrite node_field, split_writes. assert (k ≠ "dominates" ∧ k ≠ "dominated_by") as [K1 K2] by (apply elem_of_cons in Hk as [->|Hk]; [done|apply elem_of_list_singleton in Hk as ->; done]).
      rewrite (no_group "dominates") by exact K1. rewrite (no_group "dominated_by") by exact K2. rewrite offset_other; [reflexivity|apply textual_source|exact HF].
    - rewrite node_field, split_writes. rewrite no_offset by (apply (bool_decide_unpack _); vm_compute; exact I). rewrite (no_group "dominated_by") by done. rewrite app_nil_r. cbn [app]. unfold g1. rewrite (group_last_is "dominates" "source" "target" i source_named HI). by destruct (partners d CDominance "source" "target" i).
    - rewrite node_field, split_writes. rewrite no_offset by (apply (bool_decide_unpack _); vm_compute; exact I). rewrite (no_group "dominates") by done. cbn [app]. unfold g2. rewrite (group_last_is "dominated_by" "target" "source" i target_named HI'). by destruct (partners d CDominance "target" "source" i).
    - intros k Hk. apply not_elem_of_cons in Hk as [K1 Hk]. apply not_elem_of_cons in Hk as [K2 Hk]. apply not_elem_of_cons in Hk as [K3 Hk]. apply not_elem_of_cons in Hk as [K4 _]. rewrite node_field, split_writes. rewrite no_offset by (intros [->|H%elem_of_list_singleton]%elem_of_cons; done). rewrite !no_group by done. reflexivity.
  Qed.
End doc.
Lemma linguistic_thm ord d s l : (∀ l, ord l ≡ₚ l) → Forall read_elem (sd_nodes d) → Forall read_elem (sd_edges d) → ends_named d → linguistic_document ord d = Ok l → s = ld_text l → linguistic d l.
Proof.
  intros Ho Hn He HN H ->. destruct (outcome_only ord Ho d Hn He HN l H) as [HT HX]. rewrite (outcome ord Ho d Hn He HN _ HT HX) in H. injection H as E. split; cbn.
  - by rewrite <-E.
  - exact HT.
  - rewrite <-E. cbn [ld_nodes]. apply writes_length.
  - intros i n n' Hi Hi'. rewrite <-E in Hi'. cbn [ld_nodes] in Hi'. by eapply (nodes_completed ord Ho d Hn He HN).
Qed.
(** ** Classes never change *)
Definition plain_class (e : selem) : Prop := se_class e ∉ [CToken; CSpan; CStructure; CSpanning].
Lemma set_node_plain z k v ns ns' : Forall plain_class ns → set_node_field z k v ns = Ok ns' → Forall plain_class ns'.
Proof.
  intros H. unfold set_node_field. destruct (py_index ns z) as [i|]; [|done]. cbn [of_option rbind]. intros [= <-]. apply Forall_forall. intros e Hx. apply elem_of_list_lookup in Hx as [j Hj]. destruct (decide (i = j)) as [->|Hij].
  - rewrite list_lookup_alter in Hj. destruct (ns !! j) as [e0|] eqn:E; [|done]. injection Hj as <-. rewrite Forall_forall in H. apply (H e0). by eapply elem_of_list_lookup_2.
  - rewrite list_lookup_alter_ne in Hj by exact Hij. rewrite Forall_forall in H. apply H. by eapply elem_of_list_lookup_2.
Qed.
Lemma set_groups_plain ord k g ns ns' : Forall plain_class ns → set_groups ord k g ns = Ok ns' → Forall plain_class ns'.
Proof. intros H. apply rfold_inv; [|exact H]. intros p s s' Hs. by apply set_node_plain. Qed.
Lemma no_sentences ord d l : Forall plain_class (sd_nodes d) → linguistic_document ord d = Ok l → ld_sentences l = [] ∧ Forall plain_class (ld_nodes l).
Proof.
  intros Hn H. unfold linguistic_document in H. apply bind_ok in H as (n & _ & H). apply bind_ok in H as (text & _ & H). cbv zeta in H. apply bind_ok in H as (ns1 & H1 & H). apply bind_ok in H as (sents & Hs & H). apply bind_ok in H as (ga & _ & H). apply bind_ok in H as (ns2 & H2 & H). apply bind_ok in H as (gb & _ & H). apply bind_ok in H as (ns3 & H3 & H).
  apply bind_ok in H as (gc & _ & H). apply bind_ok in H as (gd & _ & H). apply bind_ok in H as (ns4 & H4 & H). apply bind_ok in H as (ns5 & H5 & H). injection H as <-. cbn [ld_sentences ld_nodes]. split.
  - rewrite (subtype_none (sd_nodes d) CToken) in Hs by (eapply Forall_impl; [exact Hn|]; intros e Hc E; apply Hc; rewrite E; apply in1). unfold extract_sentences in Hs. rewrite sentences_none in Hs. by injection Hs as <-.
  - assert (Forall plain_class ns1) as P1. { revert H1. apply rfold_inv; [|exact Hn]. intros i s s' Hs' HH. apply bind_ok in HH as (e & _ & HH). apply bind_ok in HH as (m & _ & HH). apply bind_ok in HH as (on & _ & HH). apply bind_ok in HH as (s1 & HH1 & HH). apply bind_ok in HH as (off & _ & HH). eapply set_node_plain; [|exact HH]. by eapply set_node_plain. }
    eapply set_groups_plain; [|exact H5]. eapply set_groups_plain; [|exact H4]. eapply set_groups_plain; [|exact H3]. eapply set_groups_plain; [|exact H2]. exact P1.
Qed.
Lemma print_plain l i s : Forall plain_class (ld_nodes l) → print_token l i ≠ Ok s.
Proof.
  intros H HP. unfold print_token in HP. apply bind_ok in HP as (n & Hn & HP). unfold elem_at in Hn. destruct (py_index (ld_nodes l) i) as [j|]; [|done]. cbn [mbind option_bind] in Hn. destruct (ld_nodes l !! j) as [n'|] eqn:E; [|done]. injection Hn as <-. apply elem_of_list_lookup_2 in E. rewrite Forall_forall in H. specialize (H _ E). rewrite decide_False in HP; [done|]. intros Hc. apply H. rewrite Hc. apply in1.
Qed.
