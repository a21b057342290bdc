(** * RstWrite: what the rs3 writer writes for a tree *)
From stdpp Require Import relations.
From Verif Require Import PyBase DocGraph Relabel StrNum Query Text Rst SpecRst SpanFacts RstLayout.

(** ** the relations of a tree *)
Lemma dict_update_app {V} (d e1 e2 : dict string V) : dict_update d (e1 ++ e2) = dict_update (dict_update d e1) e2.
Proof. unfold dict_update. apply foldl_app. Qed.
Lemma extract_body r : Forall (λ p, rel_ok p.1) (relations r) → ∀ d, extract_relations (body r) d = Ok (dict_update d (relations r)).
Proof.
  induction r as [s|rel nf n s IHn IHs|rel l IH] using rst_ind'; intros Hn d; [done| |].
  - assert (Hok : rel_ok rel) by (rewrite Forall_forall in Hn; apply (Hn (rel, "rst")); destruct nf; left).
    destruct Hok as (H1 & H2 & H3 & H4).
    destruct nf; apply Forall_cons in Hn as [_ Hn]; apply Forall_app in Hn as [Ha Hb];
      cbn [body extract_relations]; rewrite decide_False by done; rewrite decide_False by naive_solver;
      cbn [rmap nlabel rbind relations].
    + change (dict_update d ((rel, "rst") :: relations n ++ relations s)) with (dict_update (dset rel "rst" d) (relations n ++ relations s)).
      rewrite dict_update_app. simpl. rewrite IHn by done. simpl. by rewrite IHs.
    + change (dict_update d ((rel, "rst") :: relations s ++ relations n)) with (dict_update (dset rel "rst" d) (relations s ++ relations n)).
      rewrite dict_update_app. simpl. rewrite IHs by done. simpl. by rewrite IHn.
  - rewrite relations_Multi in *. apply Forall_cons in Hn as [(H1 & H2 & H3 & H4) Hn]. simpl in H1, H2, H3, H4.
    cbn [body extract_relations]. rewrite decide_False by done. rewrite decide_False by naive_solver.
    assert (El : rmap nlabel (map (λ c, NTree "N" [body c]) l) = Ok ((λ _, "N") <$> l)).
    { clear. induction l as [|c l IH]; [done|]. simpl. by rewrite IH. }
    rewrite El. cbn [rbind].
    match goal with |- context [forallb ?f ?l] => assert (Ef : forallb f l = true) end.
    { apply forallb_forall. intros x Hx. apply bool_decide_eq_true. left. apply in_map_iff in Hx as (? & <- & _). done. }
    rewrite Ef. rewrite decide_False.
    2: { intros (c & [=] & _)%elem_of_list_fmap. }
    change (dict_update d ((rel, "multinuc") :: concat (relations <$> l))) with (dict_update (dset rel "multinuc" d) (concat (relations <$> l))).
    generalize (dset rel "multinuc" d) as e. clear El Ef. induction IH as [|c l Hc HF IHF]; intros e; [done|].
    cbn [fmap list_fmap concat] in Hn |- *. apply Forall_app in Hn as [Ha Hb]. rewrite dict_update_app. cbn [map]. simpl. rewrite Hc by done. simpl.
    by apply IHF.
Qed.
Lemma extract_tree r : Forall (λ p, rel_ok p.1) (relations r) → extract_relations (rst_tree r) [] = Ok (dict_update [] (relations r)).
Proof. destruct r as [s|rel nf n s|rel l]; [done|exact (λ H, extract_body _ H [])|exact (λ H, extract_body _ H [])]. Qed.
Lemma dget_dict_update_notin {V} (e d : dict string V) x : x ∉ e.*1 → dget x (dict_update d e) = dget x d.
Proof.
  revert d. induction e as [|[y v] e IH]; intros d Hx; [done|]. simpl in *. apply not_elem_of_cons in Hx as [? Hx].
  rewrite IH by done. by rewrite dget_dset_ne.
Qed.
Lemma dget_dict_update_in {V} (e d : dict string V) x v : (x, v) ∈ e → (∀ a b, (x, a) ∈ e → (x, b) ∈ e → a = b) → dget x (dict_update d e) = Some v.
Proof.
  revert d. induction e as [|[y w] e IH]; intros d Hx Hu; [by apply elem_of_nil in Hx|]. simpl.
  destruct (decide (x ∈ e.*1)) as [Hin|Hin].
  - apply elem_of_list_fmap in Hin as ([z u] & -> & Hin). simpl in *. apply IH.
    + assert (v = u) as -> by (apply Hu; [done|by right]). done.
    + intros a b Ha Hb. apply Hu; by right.
  - rewrite dget_dict_update_notin by done. apply elem_of_cons in Hx as [[= -> ->]|Hx]; [by rewrite dget_dset_eq|].
    destruct Hin. apply elem_of_list_fmap. by exists (x, v).
Qed.
Lemma dget_dict_update_nil {V} (e d : dict string V) x v : NoDup e.*1 → dget x e = Some v → dget x (dict_update d e) = Some v.
Proof.
  intros Hnd Hx. apply dget_dict_update_in; [by apply dget_Some_elem|]. intros a b Ha Hb. apply elem_dget in Ha, Hb; [congruence|done..].
Qed.
Lemma NoDup_dict_update {V} (e d : dict string V) : NoDup d.*1 → NoDup (dict_update d e).*1.
Proof. revert d. induction e as [|[y v] e IH]; intros d Hd; [done|]. simpl. apply IH. by apply NoDup_dset. Qed.
Definition header (defaults : dict string string) (r : rst) : dict string string := dict_update defaults (dict_update [] (relations r)).
Lemma header_own defaults r rel ty : one_type (relations r) → (rel, ty) ∈ relations r → dget rel (header defaults r) = Some ty.
Proof.
  intros H1 Hin. apply dget_dict_update_nil; [apply NoDup_dict_update, NoDup_nil_2|]. apply dget_dict_update_in; [done|]. intros a b. apply H1.
Qed.
Lemma header_other defaults r rel : rel ∉ (relations r).*1 → dget rel (header defaults r) = dget rel defaults.
Proof.
  intros Hn. unfold header. apply dget_dict_update_notin. intros Hin. apply elem_of_list_fmap in Hin as ([x v] & -> & Hin). simpl in *.
  assert (Hx : dget x (dict_update [] (relations r)) = Some v) by (apply elem_dget; [apply NoDup_dict_update, NoDup_nil_2|done]).
  rewrite dget_dict_update_notin in Hx by done. done.
Qed.

(** ** the document *)
Definition start (r : rst) : nat := match r with Edu _ => 2 | _ => 1 end.
Definition arrange (els : list xelem) : list xelem := filter (λ x, is_seg x = true) els ++ filter (λ x, is_seg x = false) els.
Definition sort_header (d : dict string string) : list (string * string) := isort (λ x y : string * string, String.compare x.1 y.1) d.
Lemma write_ok defaults r : rst_ok r → write_rs3 defaults (rst_tree r) =
  (header defaults r, Ok {| d_rels := sort_header (header defaults r); d_body := arrange (lay (start r) None r) |}).
Proof.
  intros [Hm Hn Ht]. unfold write_rs3. rewrite extract_tree by done. fold (header defaults r). f_equal.
  assert (E : gen_body (rst_tree r) (header defaults r) = Ok (lay (start r) None r)).
  { unfold gen_body. destruct r as [s|rel nf n s|rel l].
    - pose proof (block_root (rst_tree (Edu s))) as B. pose proof (block_child _ _ _ _ _ 0 _ B eq_refl) as B0. simpl in B0.
      cbn [rst_tree treepositions map app rconcat] in *.
      rewrite (gen_nuc _ (header defaults (Edu s)) _ _ _ _ B) by by left. cbn [rbind]. rewrite (gen_leaf _ (header defaults (Edu s)) _ _ _ None B0) by done. done.
    - rewrite <-(gen_block (rst_tree (Mono rel nf n s)) (header defaults (Mono rel nf n s)) _ Hm Hn) with (pos := []) (k := 1);
        [|by intros; apply header_own|apply block_root|done].
      f_equal. cbn [rst_tree]. change (app []) with (λ x : list nat, x). by rewrite list_fmap_id.
    - rewrite <-(gen_block (rst_tree (Multi rel l)) (header defaults (Multi rel l)) _ Hm Hn) with (pos := []) (k := 1);
        [|by intros; apply header_own|apply block_root|done].
      f_equal. cbn [rst_tree]. change (app []) with (λ x : list nat, x). by rewrite list_fmap_id. }
  rewrite E. done.
Qed.
Lemma arrange_perm els : arrange els ≡ₚ els.
Proof.
  unfold arrange. induction els as [|x els IH]; [done|]. rewrite !filter_cons. destruct (is_seg x) eqn:E.
  - rewrite decide_True, decide_False by done. simpl. by rewrite IH.
  - rewrite decide_False, decide_True by done. by rewrite <-Permutation_middle, IH.
Qed.

(** ** facts about the layout *)
Lemma numbered_in j l p : p ∈ numbered j l → p.2 ∈ l ∧ j < p.1 ∧ p.1 + nsize (body p.2) ≤ j + sum_list ((λ c, S (nsize (body c))) <$> l).
Proof.
  revert j. induction l as [|c l IH]; intros j; [by intros ?%elem_of_nil|]. cbn [numbered].
  intros [->|(H1 & H2 & H3)%IH]%elem_of_cons; cbn [fmap list_fmap sum_list fst snd].
  - split; [left|]. simpl. lia.
  - split; [by right|]. change (list_fmap rst nat ?f l) with (f <$> l). simpl in *. lia.
Qed.
Lemma lay_ids k ro r x : x ∈ lay k ro r → ∃ j, xid x = idn j ∧ k ≤ j < k + nsize (body r).
Proof.
  revert k ro. induction r as [s|rel nf n s IHn IHs|rel l IH] using rst_ind'; intros k ro Hx.
  - apply elem_of_list_singleton in Hx as ->. exists k. split; [done|]. pose proof (nsize_pos (body (Edu s))). lia.
  - rewrite nsize_Mono. cbn [lay] in Hx. apply elem_of_cons in Hx as [->|Hx]; [exists k; split; [done|lia]|].
    assert (x ∈ lay (nuc_at k nf s) (Some ("span", idn k)) n ∨ x ∈ lay (sat_at k nf n) (Some (rel, idn (nuc_at k nf s))) s) as [H|H].
    { destruct nf; apply elem_of_app in Hx; tauto. }
    + apply IHn in H as (j & ? & ?). exists j. split; [done|]. unfold nuc_at in *. destruct nf; lia.
    + apply IHs in H as (j & ? & ?). exists j. split; [done|]. unfold sat_at in *. destruct nf; lia.
  - rewrite nsize_Multi, lay_Multi in *. apply elem_of_cons in Hx as [->|Hx]; [exists k; split; [done|lia]|].
    apply elem_concat in Hx as (L & Hx & HL). apply elem_of_list_fmap in HL as (p & -> & Hp).
    apply numbered_in in Hp as (Hp & H1 & H2). rewrite Forall_forall in IH. apply (IH _ Hp) in Hx as (j & ? & ?).
    exists j. split; [done|]. lia.
Qed.
Lemma lay_head k ro r : ∃ x l, lay k ro r = x :: l ∧ xid x = idn k ∧ xparent x = snd <$> ro ∧ xrelname x = fst <$> ro.
Proof. destruct r as [s|rel nf n s|rel l]; simpl; eauto 10. Qed.
Lemma numbered_NoDup ro l j : Forall (λ r, ∀ k ro, NoDup (xid <$> lay k ro r)) l →
  NoDup (xid <$> concat ((λ p, lay p.1 ro p.2) <$> numbered j l)).
Proof.
  intros H. revert j. induction H as [|c l Hc HF IH]; intros j; [apply NoDup_nil_2|].
  cbn [numbered fmap list_fmap concat fst snd]. rewrite fmap_app. apply NoDup_app. split; [apply Hc|]. split; [|apply IH].
  intros y Hy Hz. apply elem_of_list_fmap in Hy as (x & -> & Hx). apply lay_ids in Hx as (i & Ei & Hi).
  apply elem_of_list_fmap in Hz as (z & Ez & Hz). apply elem_concat in Hz as (L & Hz & HL).
  apply elem_of_list_fmap in HL as (p & -> & Hp). apply numbered_in in Hp as (_ & Hp & _). apply lay_ids in Hz as (i' & Ei' & Hi').
  rewrite Ei, Ei' in Ez. apply idn_inj in Ez. lia.
Qed.
Lemma lay_NoDup r : ∀ k ro, NoDup (xid <$> lay k ro r).
Proof.
  induction r as [s|rel nf n s IHn IHs|rel l IH] using rst_ind'; intros k ro; [apply NoDup_singleton| |].
  - cbn [lay]. rewrite fmap_cons. apply NoDup_cons. split.
    + intros Hin. apply elem_of_list_fmap in Hin as (x & Ex & Hx). cbn [xid] in Ex.
      assert (x ∈ lay (nuc_at k nf s) (Some ("span", idn k)) n ∨ x ∈ lay (sat_at k nf n) (Some (rel, idn (nuc_at k nf s))) s) as [H|H].
      { destruct nf; apply elem_of_app in Hx; tauto. }
      * apply lay_ids in H as (j & Ej & Hj). rewrite Ej in Ex. apply idn_inj in Ex. unfold nuc_at in Hj. destruct nf; lia.
      * apply lay_ids in H as (j & Ej & Hj). rewrite Ej in Ex. apply idn_inj in Ex. unfold sat_at in Hj. destruct nf; lia.
    + assert (Hd : ∀ y, y ∈ xid <$> lay (nuc_at k nf s) (Some ("span", idn k)) n → y ∈ xid <$> lay (sat_at k nf n) (Some (rel, idn (nuc_at k nf s))) s → False).
      { intros y (x & -> & Hx)%elem_of_list_fmap (z & E & Hz)%elem_of_list_fmap. apply lay_ids in Hx as (i & Ei & Hi). apply lay_ids in Hz as (j & Ej & Hj).
        rewrite Ei, Ej in E. apply idn_inj in E. unfold nuc_at, sat_at in *. destruct nf; lia. }
      destruct nf; rewrite fmap_app; apply NoDup_app; (split; [done|split; [|done]]); intros y Hy Hz; by eapply Hd.
  - rewrite lay_Multi, fmap_cons. apply NoDup_cons. split; [|by apply numbered_NoDup].
    intros Hin. apply elem_of_list_fmap in Hin as (x & Ex & Hx). apply elem_concat in Hx as (L & Hx & HL).
    apply elem_of_list_fmap in HL as (p & -> & Hp). apply numbered_in in Hp as (_ & Hp & _). apply lay_ids in Hx as (j & Ej & Hj).
    rewrite Ej in Ex. apply idn_inj in Ex. lia.
Qed.
(** units in text order *)
Lemma lay_texts r : ∀ k ro, concat (xtext <$> filter (λ x, is_seg x = true) (lay k ro r)) = edus r.
Proof.
  induction r as [s|rel nf n s IHn IHs|rel l IH] using rst_ind'; intros k ro; [done| |].
  - cbn [lay]. rewrite filter_cons, decide_False by done.
    destruct nf; rewrite filter_app, fmap_app, concat_app, IHn, IHs; done.
  - rewrite lay_Multi, edus_Multi, filter_cons, decide_False by done. generalize (S k) as j.
    induction IH as [|c l Hc HF IHF]; intros j; [done|]. cbn [numbered fmap list_fmap concat fst snd].
    rewrite filter_app, fmap_app, concat_app, Hc. f_equal. apply IHF.
Qed.
Lemma arrange_texts els : concat (xtext <$> arrange els) = concat (xtext <$> filter (λ x, is_seg x = true) els).
Proof.
  unfold arrange. rewrite fmap_app, concat_app. rewrite <-(app_nil_r (concat (xtext <$> filter _ els))) at 2. f_equal.
  induction els as [|x els IH]; [done|]. rewrite filter_cons. case_decide as H; [|done]. destruct x; [done|]. simpl. done.
Qed.
(** everything below the top has its parent in the block *)
Lemma lay_parents r : ∀ k ro, ∃ x l, lay k ro r = x :: l ∧
  ∀ y, y ∈ l → ∃ z rel, z ∈ lay k ro r ∧ xparent y = Some (xid z) ∧ xrelname y = Some rel ∧ (rel = "span" ∨ ∃ ty, (rel, ty) ∈ relations r).
Proof.
  induction r as [s|rel nf n s IHn IHs|rel l IH] using rst_ind'; intros k ro.
  - simpl. eexists _, []. split; [done|]. by intros y ?%elem_of_nil.
  - cbn [lay]. eexists _, _. split; [done|]. intros y Hy.
    set (A := lay (nuc_at k nf s) (Some ("span", idn k)) n) in *. set (B := lay (sat_at k nf n) (Some (rel, idn (nuc_at k nf s))) s) in *.
    assert (HAB : ∀ z, z ∈ (if nf then A ++ B else B ++ A) ↔ z ∈ A ∨ z ∈ B) by (intros z; destruct nf; rewrite elem_of_app; tauto).
    assert (Hrel : ∀ p, p ∈ relations (Mono rel nf n s) ↔ p = (rel, "rst") ∨ p ∈ relations n ∨ p ∈ relations s).
    { intros p. destruct nf; cbn [relations]; rewrite elem_of_cons, elem_of_app; tauto. }
    apply HAB in Hy as [Hy|Hy].
    + destruct (IHn (nuc_at k nf s) (Some ("span", idn k))) as (x & l & E & Hl).
      destruct (lay_head (nuc_at k nf s) (Some ("span", idn k)) n) as (x' & l' & E' & Hid & Hp & Hr).
      unfold A in Hy. rewrite E in Hy. apply elem_of_cons in Hy as [->|Hy].
      * rewrite E in E'. injection E' as <- <-. eexists _, "span". split; [left|]. rewrite Hp, Hr. simpl. auto.
      * destruct (Hl y Hy) as (z & rel' & Hz & H1 & H2 & H3). exists z, rel'. split; [right; apply HAB; by left|].
        do 2 (split; [done|]). destruct H3 as [?|[ty ?]]; [by left|right; exists ty; apply Hrel; auto].
    + destruct (IHs (sat_at k nf n) (Some (rel, idn (nuc_at k nf s)))) as (x & l & E & Hl).
      destruct (lay_head (sat_at k nf n) (Some (rel, idn (nuc_at k nf s))) s) as (x' & l' & E' & Hid & Hp & Hr).
      unfold B in Hy. rewrite E in Hy. apply elem_of_cons in Hy as [->|Hy].
      * rewrite E in E'. injection E' as <- <-. destruct (lay_head (nuc_at k nf s) (Some ("span", idn k)) n) as (x1 & l1 & E1 & Hid1 & _).
        exists x1, rel. split; [right; apply HAB; left; unfold A; rewrite E1; left|]. rewrite Hp, Hr, Hid1. simpl.
        do 2 (split; [done|]). right. exists "rst". apply Hrel. by left.
      * destruct (Hl y Hy) as (z & rel' & Hz & H1 & H2 & H3). exists z, rel'. split; [right; apply HAB; by right|].
        do 2 (split; [done|]). destruct H3 as [?|[ty ?]]; [by left|right; exists ty; apply Hrel; auto].
  - rewrite lay_Multi, relations_Multi. eexists _, _. split; [done|]. intros y Hy.
    assert (Hy' := Hy). apply elem_concat in Hy' as (L & HyL & HL). apply elem_of_list_fmap in HL as (p & -> & Hp).
    pose proof (numbered_in _ _ _ Hp) as (Hpl & _ & _). rewrite Forall_forall in IH.
    destruct (IH _ Hpl p.1 (Some (rel, idn k))) as (x & l' & E & Hl).
    destruct (lay_head p.1 (Some (rel, idn k)) p.2) as (x' & l'' & E' & Hid & Hpa & Hr).
    rewrite E in HyL. apply elem_of_cons in HyL as [->|HyL].
    + rewrite E in E'. injection E' as <- <-. eexists _, rel. split; [left|]. rewrite Hpa, Hr. simpl.
      do 2 (split; [done|]). right. exists "multinuc". left.
    + destruct (Hl y HyL) as (z & rel' & Hz & H1 & H2 & H3). exists z, rel'. split.
      { right. apply elem_concat. eexists. split; [exact Hz|]. apply elem_of_list_fmap. by exists p. }
      do 2 (split; [done|]). destruct H3 as [?|[ty ?]]; [by left|right; exists ty]. right. apply elem_concat.
      exists (relations p.2). split; [done|]. apply elem_of_list_fmap. by exists p.2.
Qed.
(** and climbs up to the top *)
Definition up (L : list xelem) (a b : xelem) : Prop := a ∈ L ∧ b ∈ L ∧ xparent a = Some (xid b).
Lemma up_mono L L' a b : L ⊆ L' → rtc (up L) a b → rtc (up L') a b.
Proof. intros HL. apply rtc_subrel. intros x y (H1 & H2 & H3). split; [by apply HL|]. split; [by apply HL|done]. Qed.
Lemma lay_up r : ∀ k ro, ∃ x l, lay k ro r = x :: l ∧ ∀ y, y ∈ lay k ro r → rtc (up (lay k ro r)) y x.
Proof.
  induction r as [s|rel nf n s IHn IHs|rel l IH] using rst_ind'; intros k ro.
  - simpl. eexists _, []. split; [done|]. intros y ->%elem_of_list_singleton. constructor.
  - cbn [lay]. eexists _, _. split; [done|]. intros y Hy.
    set (A := lay (nuc_at k nf s) (Some ("span", idn k)) n) in *. set (B := lay (sat_at k nf n) (Some (rel, idn (nuc_at k nf s))) s) in *.
    set (g := Grp (idn k) (Some "span") (snd <$> ro) (fst <$> ro)) in *.
    assert (HAB : ∀ z, z ∈ (if nf then A ++ B else B ++ A) ↔ z ∈ A ∨ z ∈ B) by (intros z; destruct nf; rewrite elem_of_app; tauto).
    set (W := g :: (if nf then A ++ B else B ++ A)) in *.
    assert (HA : A ⊆ W) by (intros z Hz; right; apply HAB; by left). assert (HB : B ⊆ W) by (intros z Hz; right; apply HAB; by right).
    destruct (IHn (nuc_at k nf s) (Some ("span", idn k))) as (xa & la & Ea & Ha).
    destruct (IHs (sat_at k nf n) (Some (rel, idn (nuc_at k nf s)))) as (xb & lb & Eb & Hb).
    destruct (lay_head (nuc_at k nf s) (Some ("span", idn k)) n) as (x' & l' & E' & Hid & Hp & _). rewrite Ea in E'. injection E' as <- <-.
    destruct (lay_head (sat_at k nf n) (Some (rel, idn (nuc_at k nf s))) s) as (x' & l' & E' & Hid' & Hp' & _). rewrite Eb in E'. injection E' as <- <-.
    fold A in Ea, Ha. fold B in Eb, Hb.
    assert (Hag : ∀ z, z ∈ A → rtc (up W) z g).
    { intros z Hz. apply rtc_r with xa; [apply (up_mono A); [done|by apply Ha]|]. split; [apply HA; rewrite Ea; left|]. split; [left|]. by rewrite Hp. }
    apply elem_of_cons in Hy as [->|Hy]; [constructor|]. apply HAB in Hy as [Hy|Hy]; [by apply Hag|].
    apply rtc_transitive with xb; [apply (up_mono B); [done|by apply Hb]|].
    apply rtc_l with xa; [|apply Hag; rewrite Ea; left].
    split; [apply HB; rewrite Eb; left|]. split; [apply HA; rewrite Ea; left|]. by rewrite Hp', Hid.
  - rewrite lay_Multi. eexists _, _. split; [done|]. intros y Hy. apply elem_of_cons in Hy as [->|Hy]; [constructor|].
    set (W := _ :: concat _) in *. assert (Hy' := Hy). apply elem_concat in Hy' as (L & HyL & HL). apply elem_of_list_fmap in HL as (p & -> & Hp).
    pose proof (numbered_in _ _ _ Hp) as (Hpl & _ & _). rewrite Forall_forall in IH.
    destruct (IH _ Hpl p.1 (Some (rel, idn k))) as (x & l' & E & Hl).
    destruct (lay_head p.1 (Some (rel, idn k)) p.2) as (x' & l'' & E' & Hid & Hpa & Hr). rewrite E in E'. injection E' as <- <-.
    assert (HA : lay p.1 (Some (rel, idn k)) p.2 ⊆ W).
    { intros z Hz. right. apply elem_concat. eexists. split; [exact Hz|]. apply elem_of_list_fmap. by exists p. }
    apply rtc_r with x; [apply (up_mono (lay p.1 (Some (rel, idn k)) p.2)); [done|by apply Hl]|].
    split; [apply HA; rewrite E; left|]. split; [left|]. by rewrite Hpa.
Qed.
