(** * RstLayout: the elements that the rs3 writer makes of a tree *)
From stdpp Require Import relations.
From Verif Require Import PyBase DocGraph Relabel StrNum Query Text Rst SpecRst SpanFacts.

Section rst_ind.
  Context (P : rst → Prop) (HE : ∀ s, P (Edu s)) (HM : ∀ rel nf n s, P n → P s → P (Mono rel nf n s))
    (HX : ∀ rel l, Forall P l → P (Multi rel l)).
  Fixpoint rst_ind' (r : rst) : P r :=
    match r with
    | Edu s => HE s
    | Mono rel nf n s => HM rel nf n s (rst_ind' n) (rst_ind' s)
    | Multi rel l => HX rel l ((fix go l : Forall P l := match l with
        | [] => List.Forall_nil P
        | c :: l => @List.Forall_cons _ P c l (rst_ind' c) (go l) end) l)
    end.
End rst_ind.
Lemma edus_Multi rel l : edus (Multi rel l) = concat (edus <$> l).
Proof. simpl. induction l as [|c l IH]; [done|]. cbn [fmap list_fmap concat]. by rewrite IH. Qed.
Lemma relations_Multi rel l : relations (Multi rel l) = (rel, "multinuc") :: concat (relations <$> l).
Proof. simpl. f_equal. induction l as [|c l IH]; [done|]. cbn [fmap list_fmap concat]. by rewrite IH. Qed.
Lemma multi_ok_Multi rel l : multi_ok (Multi rel l) ↔ 2 ≤ length l ∧ Forall multi_ok l.
Proof.
  simpl. apply and_iff_compat_l. induction l as [|c l IH]; [by split; [constructor|]|]. rewrite Forall_cons, IH. done.
Qed.

(** ** sizes and positions *)
Fixpoint nsize (t : ntree) : nat :=
  match t with NLeaf _ => 1 | NTree _ ts => S ((fix go ts := match ts with [] => 0 | t :: ts => nsize t + go ts end) ts) end.
Section ntree_ind.
  Context (P : ntree → Prop) (HL : ∀ s, P (NLeaf s)) (HT : ∀ l ts, Forall P ts → P (NTree l ts)).
  Fixpoint ntree_ind' (t : ntree) : P t :=
    match t with
    | NLeaf s => HL s
    | NTree l ts => HT l ts ((fix go ts : Forall P ts := match ts with
        | [] => List.Forall_nil P
        | c :: ts => @List.Forall_cons _ P c ts (ntree_ind' c) (go ts) end) ts)
    end.
End ntree_ind.
Lemma nsize_NTree l ts : nsize (NTree l ts) = S (sum_list (nsize <$> ts)).
Proof. simpl. f_equal. induction ts as [|t ts IH]; [done|]. simpl. by rewrite IH. Qed.
Definition tpos_kids (i : nat) (ts : list ntree) : list (list nat) := concat (imap (λ j t, cons (i + j) <$> treepositions t) ts).
Lemma tpos_kids_cons i t ts : tpos_kids i (t :: ts) = (cons i <$> treepositions t) ++ tpos_kids (S i) ts.
Proof.
  unfold tpos_kids. simpl. rewrite Nat.add_0_r. f_equal. f_equal. apply imap_ext. intros j x _. simpl. by rewrite Nat.add_succ_r.
Qed.
Lemma treepositions_NTree l ts : treepositions (NTree l ts) = [] :: tpos_kids 0 ts.
Proof.
  simpl. f_equal. generalize 0 as i. induction ts as [|t ts IH]; intros i; [done|]. rewrite tpos_kids_cons, <-IH. done.
Qed.
Lemma treepositions_head t : ∃ l, treepositions t = [] :: l.
Proof. destruct t as [s|l ts]; [by exists []|]. rewrite treepositions_NTree. by eexists. Qed.
Lemma tpos_kids_app i ts us : tpos_kids i (ts ++ us) = tpos_kids i ts ++ tpos_kids (i + length ts) us.
Proof.
  revert i. induction ts as [|t ts IH]; intros i; [simpl; by rewrite Nat.add_0_r|].
  cbn [app]. rewrite !tpos_kids_cons, IH, <-(assoc_L (++)). simpl. by rewrite Nat.add_succ_r.
Qed.
Lemma length_treepositions t : length (treepositions t) = nsize t.
Proof.
  induction t as [s|l ts IH] using ntree_ind'; [done|]. rewrite treepositions_NTree, nsize_NTree. simpl. f_equal.
  generalize 0 as i. induction IH as [|t ts Ht HF IHF]; intros i; [done|].
  rewrite tpos_kids_cons, app_length, fmap_length, Ht, IHF. done.
Qed.
Lemma tpos_kids_elem i ts p : p ∈ tpos_kids i ts → ∃ j q, i ≤ j ∧ p = j :: q.
Proof.
  revert i. induction ts as [|t ts IH]; intros i; [by intros ?%elem_of_nil|].
  rewrite tpos_kids_cons, elem_of_app. intros [(q & -> & Hq)%elem_of_list_fmap|Hp]; [by exists i, q|].
  apply IH in Hp as (j & q & Hj & ->). exists j, q. split; [lia|done].
Qed.
Lemma NoDup_treepositions t : NoDup (treepositions t).
Proof.
  induction t as [s|l ts IH] using ntree_ind'; [apply NoDup_singleton|]. rewrite treepositions_NTree. constructor.
  - intros (j & q & _ & H)%tpos_kids_elem. done.
  - generalize 0 as i. induction IH as [|t ts Ht HF IHF]; intros i; [apply NoDup_nil_2|].
    rewrite tpos_kids_cons. apply NoDup_app. split; [apply NoDup_fmap_2; [by intros ? ? [= ->]|done]|]. split; [|done].
    intros p (q & -> & Hq)%elem_of_list_fmap (j & q' & Hj & H)%tpos_kids_elem. injection H as -> ->. lia.
Qed.
Lemma subtree_at_app t p q : subtree_at t (p ++ q) = match subtree_at t p with Some u => subtree_at u q | None => None end.
Proof.
  revert t. induction p as [|i p IH]; intros t; [done|]. simpl. destruct t as [|l ts]; [done|]. destruct (ts !! i); [apply IH|done].
Qed.

(** ** the block of a subtree *)
Definition idn (k : nat) : string := str_Z (Z.of_nat k).
Lemma idn_inj i j : idn i = idn j → i = j.
Proof. intros H%str_Z_inj. lia. Qed.
Definition at_block (T : ntree) (pos : list nat) (t : ntree) (k : nat) : Prop :=
  subtree_at T pos = Some t ∧ ∃ pre post, treepositions T = pre ++ (app pos <$> treepositions t) ++ post ∧ S (length pre) = k.
Lemma block_root T : at_block T [] T 1.
Proof. split; [done|]. exists [], []. split; [|done]. rewrite app_nil_r. simpl. rewrite list_fmap_id. done. Qed.
Lemma block_id T pos t k : at_block T pos t k → node_id T pos = Ok (idn k).
Proof.
  intros (_ & pre & post & E & Hk). unfold node_id. destruct (treepositions_head t) as [l Hl].
  rewrite Hl in E. cbn [fmap list_fmap] in E. rewrite app_nil_r in E.
  assert (Hi : treepositions T !! length pre = Some pos) by (rewrite E; by apply list_lookup_middle).
  pose proof (NoDup_treepositions T) as Hnd.
  destruct (list_find (λ p, p = pos) (treepositions T)) as [[i p]|] eqn:Ef.
  - apply list_find_Some in Ef as (Hp & -> & _). assert (i = length pre) as -> by by eapply NoDup_lookup.
    unfold idn. by rewrite Hk.
  - apply list_find_None in Ef. rewrite Forall_forall in Ef. exfalso. apply (Ef pos); [by eapply elem_of_list_lookup_2|done].
Qed.
Lemma block_at T pos t k : at_block T pos t k → at_pos T pos = Ok t.
Proof. intros [H _]. unfold at_pos. by rewrite H. Qed.
Lemma block_child T pos l ts k i u : at_block T pos (NTree l ts) k → ts !! i = Some u →
  at_block T (pos ++ [i]) u (S k + sum_list (nsize <$> take i ts)).
Proof.
  intros (Hs & pre & post & E & Hk) Hi. split.
  - rewrite subtree_at_app, Hs. simpl. by rewrite Hi.
  - pose proof (take_drop_middle _ _ _ Hi) as Ets. pose proof (lookup_lt_Some _ _ _ Hi) as Hlt.
    rewrite treepositions_NTree, <-Ets, tpos_kids_app in E.
    rewrite Nat.add_0_l, take_length_le in E by lia. rewrite tpos_kids_cons in E.
    exists (pre ++ pos :: (app pos <$> tpos_kids 0 (take i ts))), ((app pos <$> tpos_kids (S i) (drop (S i) ts)) ++ post). split.
    + rewrite E. cbn [fmap list_fmap]. rewrite app_nil_r. rewrite !fmap_app, <-!(assoc_L (++)). cbn [app]. f_equal. f_equal.
      rewrite <-!(assoc_L (++)). f_equal. f_equal. rewrite <-list_fmap_compose. apply list_fmap_ext. intros j x _. simpl. by rewrite <-(assoc_L (++)).
    + rewrite app_length. simpl. rewrite fmap_length.
      assert (Hlen : ∀ j us, length (tpos_kids j us) = sum_list (nsize <$> us)).
      { intros j us. revert j. induction us as [|x us IH]; intros j; [done|].
        rewrite tpos_kids_cons, app_length, fmap_length, length_treepositions, IH. done. }
      rewrite Hlen. lia.
Qed.

(** ** the layout *)
Definition nuc_at (k : nat) (nf : bool) (s : rst) : nat := if nf then k + 2 else k + 3 + nsize (body s).
Definition sat_at (k : nat) (nf : bool) (n : rst) : nat := if nf then k + 3 + nsize (body n) else k + 2.
Notation role := (option (string * string)).
Fixpoint lay (k : nat) (ro : role) (r : rst) : list xelem :=
  match r with
  | Edu s => [Seg (idn k) (snd <$> ro) (fst <$> ro) s]
  | Mono rel nf n s =>
    let A := lay (nuc_at k nf s) (Some ("span", idn k)) n in
    let B := lay (sat_at k nf n) (Some (rel, idn (nuc_at k nf s))) s in
    Grp (idn k) (Some "span") (snd <$> ro) (fst <$> ro) :: if nf then A ++ B else B ++ A
  | Multi rel l => Grp (idn k) (Some "multinuc") (snd <$> ro) (fst <$> ro) ::
    (fix go j l := match l with
     | [] => []
     | c :: l => lay (S j) (Some (rel, idn k)) c ++ go (S j + nsize (body c)) l end) (S k) l
  end.
(** the nuclei of a multinuclear relation and their numbers *)
Fixpoint numbered (j : nat) (l : list rst) : list (nat * rst) :=
  match l with [] => [] | c :: l => (S j, c) :: numbered (S j + nsize (body c)) l end.
Lemma lay_Multi k ro rel l : lay k ro (Multi rel l) = Grp (idn k) (Some "multinuc") (snd <$> ro) (fst <$> ro) ::
  concat ((λ p, lay p.1 (Some (rel, idn k)) p.2) <$> numbered (S k) l).
Proof.
  simpl. f_equal. generalize (S k) as j. induction l as [|c l IH]; intros j; [done|]. cbn [numbered fmap list_fmap concat fst snd].
  by rewrite IH.
Qed.
Lemma nsize_Mono rel nf n s : nsize (body (Mono rel nf n s)) = 3 + nsize (body n) + nsize (body s).
Proof. destruct nf; simpl; lia. Qed.
Lemma nsize_Multi rel l : nsize (body (Multi rel l)) = S (sum_list ((λ c, S (nsize (body c))) <$> l)).
Proof.
  cbn [body]. rewrite nsize_NTree. do 2 f_equal. change (map ?f l) with (f <$> l). rewrite <-list_fmap_compose.
  apply list_fmap_ext. intros i c _. simpl. lia.
Qed.
Lemma nsize_pos t : 0 < nsize t.
Proof. destruct t; simpl; lia. Qed.

(** ** the writer produces the layout *)
Lemma rconcat_app {A B} (f : A → res (list B)) l1 l2 :
  rconcat f (l1 ++ l2) = rbind (rconcat f l1) (λ a, rbind (rconcat f l2) (λ b, Ok (a ++ b))).
Proof.
  induction l1 as [|x l1 IH]; simpl; [by destruct (rconcat f l2)|]. destruct (f x); [|done]. simpl. rewrite IH.
  destruct (rconcat f l1); [|done]. simpl. destruct (rconcat f l2); [|done]. simpl. by rewrite (assoc_L (++)).
Qed.
Lemma parent_pos_snoc pos i : parent_pos (pos ++ [i]) = Some pos.
Proof. unfold parent_pos. destruct (pos ++ [i]) eqn:E; [by destruct pos|]. rewrite <-E, removelast_last. done. Qed.
Definition rpair (ro : role) : option string * option string := (fst <$> ro, snd <$> ro).
Section gen.
  Context (T : ntree) (rels : dict string string).
  Lemma gen_leaf pos k s ro : at_block T pos (NLeaf s) k → get_relname_and_parent T rels pos = Ok (rpair ro) →
    gen_elem T rels pos = Ok [Seg (idn k) (snd <$> ro) (fst <$> ro) s].
  Proof.
    intros HB Hr. unfold gen_elem. rewrite (block_at _ _ _ _ HB). cbn [rbind]. rewrite (block_id _ _ _ _ HB). cbn [rbind].
    cbn [get_node_type rbind]. rewrite Hr. cbn [rbind rpair snd fst]. by destruct ro as [[rel p]|].
  Qed.
  Lemma gen_rel pos k l ts ro gt : at_block T pos (NTree l ts) k → rel_ok l → get_relname_and_parent T rels pos = Ok (rpair ro) →
    get_group_type ts = Ok gt → gen_elem T rels pos = Ok [Grp (idn k) (Some gt) (snd <$> ro) (fst <$> ro)].
  Proof.
    intros HB (H1 & H2 & H3 & H4) Hr Hg. unfold gen_elem. rewrite (block_at _ _ _ _ HB). cbn [rbind]. rewrite (block_id _ _ _ _ HB). cbn [rbind].
    cbn [get_node_type]. rewrite decide_False by done. rewrite decide_False by naive_solver. cbn [rbind].
    rewrite Hr. cbn [rbind]. rewrite Hg. cbn [rbind rpair snd fst]. by destruct ro as [[rel p]|].
  Qed.
  Lemma gen_nuc pos k l ts : at_block T pos (NTree l ts) k → l = "N" ∨ l = "S" → gen_elem T rels pos = Ok [].
  Proof.
    intros HB Hl. unfold gen_elem. rewrite (block_at _ _ _ _ HB). cbn [rbind]. rewrite (block_id _ _ _ _ HB). cbn [rbind].
    cbn [get_node_type]. rewrite decide_False by (destruct Hl; congruence). rewrite decide_True by done. done.
  Qed.
  (** the relation of a node below a nuclearity node *)
  Lemma rel_nuc pos k rel ts i u : at_block T pos (NTree rel ts) k → ts !! i = Some (NTree "N" [u]) →
    dget rel rels = Some "rst" → get_relname_and_parent T rels ((pos ++ [i]) ++ [0]) = Ok (Some "span", Some (idn k)).
  Proof.
    intros HB Hi Hr. pose proof (block_child _ _ _ _ _ _ _ HB Hi) as HB1. unfold get_relname_and_parent.
    rewrite !parent_pos_snoc. rewrite (block_at _ _ _ _ HB1). cbn [rbind nlabel]. rewrite (block_id _ _ _ _ HB). cbn [rbind].
    rewrite (block_at _ _ _ _ HB). cbn [rbind nlabel]. rewrite Hr. cbn [default from_option id].
    rewrite !decide_True by done. done.
  Qed.
  Lemma rel_multi pos k rel ts i u l : at_block T pos (NTree rel ts) k → ts !! i = Some (NTree l [u]) →
    dget rel rels = Some "multinuc" → get_relname_and_parent T rels ((pos ++ [i]) ++ [0]) = Ok (Some rel, Some (idn k)).
  Proof.
    intros HB Hi Hr. pose proof (block_child _ _ _ _ _ _ _ HB Hi) as HB1. unfold get_relname_and_parent.
    rewrite !parent_pos_snoc. rewrite (block_at _ _ _ _ HB1). cbn [rbind nlabel]. rewrite (block_id _ _ _ _ HB). cbn [rbind].
    rewrite (block_at _ _ _ _ HB). cbn [rbind nlabel]. rewrite Hr. cbn [default from_option id].
    rewrite decide_False by done. rewrite decide_True by done. done.
  Qed.
  Lemma rel_sat pos k rel nf bn bs i j : at_block T pos (NTree rel (if nf : bool then [NTree "N" [bn]; NTree "S" [bs]] else [NTree "S" [bs]; NTree "N" [bn]])) k →
    i = (if nf then 1 else 0) → j = (if nf then 0 else 1) → dget rel rels = Some "rst" →
    get_relname_and_parent T rels ((pos ++ [i]) ++ [0]) =
      Ok (Some rel, Some (idn (S k + (if nf then 0 else S (nsize bs)) + 1))).
  Proof.
    intros HB -> -> Hr.
    assert (HS : at_block T (pos ++ [if nf then 1 else 0]) (NTree "S" [bs]) (S k + (if nf then S (nsize bn) else 0))).
    { destruct nf; [pose proof (block_child _ _ _ _ _ 1 _ HB eq_refl) as H|pose proof (block_child _ _ _ _ _ 0 _ HB eq_refl) as H];
        simpl in H; rewrite ?Nat.add_0_r in H; simpl; rewrite ?Nat.add_0_r; exact H. }
    assert (HN : at_block T (pos ++ [if nf then 0 else 1]) (NTree "N" [bn]) (S k + (if nf then 0 else S (nsize bs)))).
    { destruct nf; [pose proof (block_child _ _ _ _ _ 0 _ HB eq_refl) as H|pose proof (block_child _ _ _ _ _ 1 _ HB eq_refl) as H];
        simpl in H; rewrite ?Nat.add_0_r in H; simpl; rewrite ?Nat.add_0_r; exact H. }
    assert (HN0 : at_block T ((pos ++ [if nf then 0 else 1]) ++ [0]) bn (S k + (if nf then 0 else S (nsize bs)) + 1)).
    { pose proof (block_child _ _ _ _ _ 0 _ HN eq_refl) as H. simpl in H. rewrite Nat.add_0_r in H.
      replace (S k + (if nf then 0 else S (nsize bs)) + 1) with (S (S (k + (if nf then 0 else S (nsize bs))))) by lia. exact H. }
    unfold get_relname_and_parent. rewrite !parent_pos_snoc.
    rewrite (block_at _ _ _ _ HS). cbn [rbind nlabel]. rewrite (block_id _ _ _ _ HB). cbn [rbind].
    rewrite (block_at _ _ _ _ HB). cbn [rbind nlabel]. rewrite Hr. cbn [default from_option id].
    rewrite decide_True by done. rewrite decide_False by done. rewrite decide_True by done.
    unfold cousins_pos, siblings_pos. rewrite !parent_pos_snoc. unfold children_pos at 1. rewrite (block_at _ _ _ _ HB). cbn [rbind].
    assert (E : filter (λ c, c ≠ pos ++ [if nf then 1 else 0]) ((λ i, pos ++ [i]) <$> seq 0 (length (if nf then [NTree "N" [bn]; NTree "S" [bs]] else [NTree "S" [bs]; NTree "N" [bn]]))) = [pos ++ [if nf then 0 else 1]]).
    { assert (Hne : pos ++ [0] ≠ pos ++ [1]) by (intros [=]%app_inv_head). destruct nf; cbn [length seq fmap list_fmap].
      - rewrite filter_cons, decide_True by done. rewrite filter_cons, decide_False by naive_solver. done.
      - rewrite filter_cons, decide_False by naive_solver. rewrite filter_cons, decide_True by done. done. }
    rewrite E. cbn [rconcat]. unfold children_pos. rewrite (block_at _ _ _ _ HN). cbn [rbind length seq fmap list_fmap app].
    rewrite (block_id _ _ _ _ HN0). done.
  Qed.
End gen.
Lemma gen_block T rels r : multi_ok r → Forall (λ p, rel_ok p.1) (relations r) →
  (∀ rel ty, (rel, ty) ∈ relations r → dget rel rels = Some ty) →
  ∀ pos k ro, at_block T pos (body r) k → get_relname_and_parent T rels pos = Ok (rpair ro) →
  rconcat (gen_elem T rels) (app pos <$> treepositions (body r)) = Ok (lay k ro r).
Proof.
  induction r as [s|rel nf n s IHn IHs|rel l IH] using rst_ind'; intros Hm Hn Hd pos k ro HB Hr.
  - cbn [body treepositions fmap list_fmap rconcat]. rewrite app_nil_r. rewrite (gen_leaf _ _ _ _ _ _ HB Hr). done.
  - assert (Hrel : dget rel rels = Some "rst") by (apply Hd; destruct nf; left).
    assert (Hok : rel_ok rel) by (rewrite Forall_forall in Hn; apply (Hn (rel, "rst")); destruct nf; left).
    destruct Hm as [Hmn Hms].
    assert (Hnn : Forall (λ p, rel_ok p.1) (relations n) ∧ Forall (λ p, rel_ok p.1) (relations s)).
    { destruct nf; simpl in Hn; apply Forall_cons in Hn as [_ Hn]; apply Forall_app in Hn as [? ?]; done. }
    assert (Hdn : ∀ rel ty, (rel, ty) ∈ relations n → dget rel rels = Some ty).
    { intros x ty H. apply Hd. destruct nf; simpl; right; apply elem_of_app; auto. }
    assert (Hds : ∀ rel ty, (rel, ty) ∈ relations s → dget rel rels = Some ty).
    { intros x ty H. apply Hd. destruct nf; simpl; right; apply elem_of_app; auto. }
    set (ts := if nf then [NTree "N" [body n]; NTree "S" [body s]] else [NTree "S" [body s]; NTree "N" [body n]]).
    assert (Eb : body (Mono rel nf n s) = NTree rel ts) by by destruct nf. rewrite Eb in *.
    assert (Hg : get_group_type ts = Ok "span").
    { unfold get_group_type. rewrite decide_True; [done|]. destruct nf; simpl; split; [done| |done|]; [right; left|left]. }
    assert (HNi : ts !! (if nf then 0 else 1) = Some (NTree "N" [body n])) by by destruct nf.
    assert (HSi : ts !! (if nf then 1 else 0) = Some (NTree "S" [body s])) by by destruct nf.
    pose proof (block_child _ _ _ _ _ _ _ HB HNi) as BN. pose proof (block_child _ _ _ _ _ _ _ HB HSi) as BS.
    pose proof (block_child _ _ _ _ _ 0 _ BN eq_refl) as BN0. pose proof (block_child _ _ _ _ _ 0 _ BS eq_refl) as BS0.
    assert (EN : S (S k + sum_list (nsize <$> take (if nf then 0 else 1) ts)) + sum_list (nsize <$> take 0 [body n]) = nuc_at k nf s).
    { unfold nuc_at, ts. destruct nf; simpl; lia. }
    assert (ES : S (S k + sum_list (nsize <$> take (if nf then 1 else 0) ts)) + sum_list (nsize <$> take 0 [body s]) = sat_at k nf n).
    { unfold sat_at, ts. destruct nf; simpl; lia. }
    rewrite EN in BN0. rewrite ES in BS0.
    assert (GN : rconcat (gen_elem T rels) (app ((pos ++ [if nf then 0 else 1]) ++ [0]) <$> treepositions (body n)) =
       Ok (lay (nuc_at k nf s) (Some ("span", idn k)) n)).
    { apply IHn; [done|apply Hnn|done|done|]. by apply (rel_nuc T rels pos k rel ts _ (body n)). }
    assert (GS : rconcat (gen_elem T rels) (app ((pos ++ [if nf then 1 else 0]) ++ [0]) <$> treepositions (body s)) =
       Ok (lay (sat_at k nf n) (Some (rel, idn (nuc_at k nf s))) s)).
    { apply IHs; [done|apply Hnn|done|done|].
      rewrite (rel_sat T rels pos k rel nf (body n) (body s) _ (if nf then 0 else 1) HB eq_refl eq_refl Hrel).
      unfold rpair. cbn [fmap option_fmap option_map fst snd]. do 4 f_equal. unfold nuc_at. destruct nf; lia. }
    assert (Gtop : gen_elem T rels pos = Ok [Grp (idn k) (Some "span") (snd <$> ro) (fst <$> ro)]) by by apply (gen_rel T rels pos k rel ts).
    assert (GNn : gen_elem T rels (pos ++ [if nf then 0 else 1]) = Ok []) by (eapply gen_nuc; [exact BN|by left]).
    assert (GSn : gen_elem T rels (pos ++ [if nf then 1 else 0]) = Ok []) by (eapply gen_nuc; [exact BS|by right]).
    assert (Esub : ∀ i l u, app pos <$> (cons i <$> treepositions (NTree l [u])) = (pos ++ [i]) :: (app ((pos ++ [i]) ++ [0]) <$> treepositions u)).
    { intros i x u. rewrite treepositions_NTree, tpos_kids_cons. cbn [fmap list_fmap]. f_equal. rewrite app_nil_r.
      rewrite <-!list_fmap_compose. apply list_fmap_ext. intros j y _. simpl. by rewrite <-!(assoc_L (++)). }
    rewrite treepositions_NTree. unfold ts. destruct nf.
    + rewrite !tpos_kids_cons. cbn [tpos_kids imap concat]. rewrite app_nil_r. cbn [fmap list_fmap]. rewrite app_nil_r.
      rewrite fmap_app. rewrite !Esub. cbn [rconcat]. rewrite Gtop. cbn [rbind].
      rewrite rconcat_app. cbn [rconcat]. rewrite GNn. cbn [rbind]. rewrite GN. cbn [rbind app]. rewrite GSn. cbn [rbind]. rewrite GS. cbn [rbind app]. done.
    + rewrite !tpos_kids_cons. cbn [tpos_kids imap concat]. rewrite app_nil_r. cbn [fmap list_fmap]. rewrite app_nil_r.
      rewrite fmap_app. rewrite !Esub. cbn [rconcat]. rewrite Gtop. cbn [rbind].
      rewrite rconcat_app. cbn [rconcat]. rewrite GSn. cbn [rbind]. rewrite GS. cbn [rbind app]. rewrite GNn. cbn [rbind]. rewrite GN. cbn [rbind app]. done.
  - rewrite relations_Multi in Hn, Hd. apply multi_ok_Multi in Hm as [Hlen Hm].
    assert (Hrel : dget rel rels = Some "multinuc") by (apply Hd; left).
    apply Forall_cons in Hn as [Hok Hn]. simpl in Hok.
    set (ts := map (λ c, NTree "N" [body c]) l). change (body (Multi rel l)) with (NTree rel ts) in *.
    assert (Hg : get_group_type ts = Ok "multinuc").
    { assert (Hall : Forall (λ x, x = "N") (child_label <$> ts)).
      { unfold ts. apply Forall_fmap. clear. induction l; constructor; [done|done]. }
      unfold get_group_type. rewrite decide_False.
      - rewrite decide_True; [done|]. split; [|done]. unfold ts. rewrite fmap_length, map_length. lia.
      - intros [_ HS]. rewrite Forall_forall in Hall. by apply Hall in HS. }
    rewrite treepositions_NTree, lay_Multi, fmap_cons. cbn [rconcat]. rewrite app_nil_r.
    assert (Gtop : gen_elem T rels pos = Ok [Grp (idn k) (Some "multinuc") (snd <$> ro) (fst <$> ro)]) by by apply (gen_rel T rels pos k rel ts).
    rewrite Gtop. cbn [rbind].
    assert (Esub : ∀ i l u, app pos <$> (cons i <$> treepositions (NTree l [u])) = (pos ++ [i]) :: (app ((pos ++ [i]) ++ [0]) <$> treepositions u)).
    { intros i x u. rewrite treepositions_NTree, tpos_kids_cons. cbn [fmap list_fmap]. f_equal. rewrite app_nil_r.
      rewrite <-!list_fmap_compose. apply list_fmap_ext. intros j y _. simpl. by rewrite <-!(assoc_L (++)). }
    assert (G : ∀ l1 l2, l = l1 ++ l2 → ∀ j, j = S k + sum_list ((λ c, S (nsize (body c))) <$> l1) →
      rconcat (gen_elem T rels) (app pos <$> tpos_kids (length l1) (map (λ c, NTree "N" [body c]) l2)) =
      Ok (concat ((λ p, lay p.1 (Some (rel, idn k)) p.2) <$> numbered j l2))).
    { intros l1 l2. revert l1. induction l2 as [|c l2 IHl]; intros l1 El j Hj; [done|].
      cbn [map]. rewrite tpos_kids_cons, fmap_app, Esub. cbn [app rconcat].
      assert (Hi : ts !! length l1 = Some (NTree "N" [body c])).
      { unfold ts. rewrite El, map_app. rewrite lookup_app_r by by rewrite map_length. rewrite map_length, Nat.sub_diag. done. }
      pose proof (block_child _ _ _ _ _ _ _ HB Hi) as BN.
      assert (Et : sum_list (nsize <$> take (length l1) ts) = sum_list ((λ c, S (nsize (body c))) <$> l1)).
      { unfold ts. rewrite El, map_app, take_app_alt by by rewrite map_length. clear. induction l1 as [|c l IH]; [done|]. simpl. unfold fmap in IH. rewrite IH. lia. }
      rewrite Et, <-Hj in BN.
      pose proof (block_child _ _ _ _ _ 0 _ BN eq_refl) as BN0. cbn [take fmap list_fmap sum_list] in BN0.
      simpl in BN0. rewrite Nat.add_0_r in BN0.
      rewrite (gen_nuc T rels _ _ _ _ BN) by by left. cbn [rbind]. rewrite rconcat_app.
      rewrite El in IH, Hm, Hn, Hd. apply Forall_app in IH as [_ IH]. apply Forall_cons in IH as [IHc _].
      apply Forall_app in Hm as [_ Hm]. apply Forall_cons in Hm as [Hmc _].
      assert (Hin : ∀ p, p ∈ relations c → p ∈ concat (relations <$> (l1 ++ c :: l2))).
      { intros p Hp. apply elem_concat. exists (relations c). split; [done|]. apply elem_of_list_fmap_1, elem_of_app. right. left. }
      rewrite (IHc Hmc) with (k := S j) (ro := Some (rel, idn k)); [| | |exact BN0|].
      - cbn [rbind]. specialize (IHl (l1 ++ [c])). rewrite app_length in IHl. simpl in IHl. rewrite Nat.add_1_r in IHl.
        rewrite (IHl) with (j := S j + nsize (body c)); [done| |].
        + by rewrite <-(assoc_L (++)).
        + rewrite Hj. clear. induction l1 as [|x l1 IH]; simpl in *; [lia|]. unfold fmap in *. lia.
      - rewrite Forall_forall in Hn |- *. intros p Hp. by apply Hn, Hin.
      - intros x ty Hp. apply Hd. right. by apply Hin.
      - by apply (rel_multi T rels pos k rel ts _ (body c) "N"). }
    specialize (G [] l eq_refl (S k)). cbn [length] in G. fold ts in G. rewrite G; [done|]. simpl. lia.
Qed.
