(** * TigerFacts: the nodes a sentence mentions *)
From Verif Require Import PyBase DocGraph Relabel StrNum Query Text Rst Nltk Parsers Anaphora Conano Decour Ptb Convert Tiger.
From Verif Require Import SpecGraph DocGraphFacts History Effects RelabelFacts MergeFacts AllHist MergeAll GraphThms SpecImport ImportFacts PtbFacts AnaphoraFacts ConvertFacts TextFacts SpecTiger.

(** ** Attributes *)
Lemma dget_fmap {V W} (f : V → W) (d : dict string V) k : dget k ((λ p : string * V, (p.1, f p.2)) <$> d) = f <$> dget k d.
Proof. induction d as [|[k' v] d IH]; [done|]. rewrite fmap_cons. cbn [dget fst snd]. by destruct (decide _). Qed.
Lemma dget_in_ns ns x k : dget (ns +:+ ":" +:+ k) (in_ns ns x) = VStr <$> dget k (x_attrib x).
Proof.
  unfold in_ns. induction (x_attrib x) as [|[k' v] d IH]; [done|]. rewrite fmap_cons. cbn [dget fst snd].
  destruct (decide (k = k')) as [->|H]; [by rewrite decide_True|]. rewrite decide_False; [done|].
  intros E. apply H. by apply append_inj_l, append_inj_l in E.
Qed.
Lemma in_ns_None ns x key : (∀ k, key ≠ ns +:+ ":" +:+ k) → dget key (in_ns ns x) = None.
Proof.
  intros H. apply dget_None. unfold in_ns, dkeys. rewrite <-list_fmap_compose. intros ([k v] & E & _)%elem_of_list_fmap. by apply (H k).
Qed.
Lemma feats_get ns x key : NoDup (dkeys (x_attrib x)) → dget key (x_feats ns x) = dget key (in_ns ns x).
Proof.
  intros HN. unfold x_feats. rewrite dget_fmap. destruct (dget key (in_ns ns x)) as [v|] eqn:E.
  - apply dget_Some_elem in E as E'. unfold in_ns in E'. apply elem_of_list_fmap in E' as ([k w] & [= -> ->] & Hin). cbn [fst snd] in *.
    rewrite dget_in_ns in E. change (ns +:+ ":" +:+ k) with (ns +:+ (":" +:+ k)). 
    assert (EQ : ns +:+ ":" +:+ k = (ns +:+ ":") +:+ k) by (apply chs_inj; by rewrite !chs_app, app_assoc).
    rewrite EQ, add_prefix_get by done. exact E.
  - destruct (dget key (add_prefix (x_attrib x) (ns +:+ ":"))) as [w|] eqn:E'; [|done].
    assert (Hk : key ∈ dkeys (add_prefix (x_attrib x) (ns +:+ ":"))) by (apply dget_is_Some; by rewrite E').
    apply add_prefix_keys in Hk as (k & Hk & ->). 
    assert (EQ : (ns +:+ ":") +:+ k = ns +:+ ":" +:+ k) by (apply chs_inj; by rewrite !chs_app, app_assoc).
    rewrite EQ, dget_in_ns in E. apply dget_is_Some in Hk as (z & Hz). by rewrite Hz in E.
Qed.
Lemma no_colon ns k key : ":"%char ∉ chs key → key ≠ ns +:+ String ":" k.
Proof. intros H ->. apply H. rewrite chs_app. apply elem_of_app. right. left. Qed.
Ltac nc := apply no_colon; let H := fresh in intros H; apply elem_of_list_In in H; vm_compute in H; naive_solver.
Lemma in_ns_plain ns x key : ":"%char ∉ chs key → dget key (in_ns ns x) = None.
Proof. intros H. apply in_ns_None. intros k. by apply no_colon. Qed.

(** ** Mentions *)
Lemma distinct_snoc l n : distinct (l ++ [n]) = if decide (n ∈ distinct l) then distinct l else distinct l ++ [n].
Proof. unfold distinct. by rewrite foldl_app. Qed.
Lemma elem_distinct l n : n ∈ distinct l ↔ n ∈ l.
Proof.
  induction l as [|x l IH] using rev_ind; [done|]. rewrite distinct_snoc. destruct (decide _) as [H|H].
  - rewrite elem_of_app, elem_of_list_singleton, IH. split; [by left|]. intros [?| ->]; [done|by apply IH].
  - by rewrite !elem_of_app, IH.
Qed.
Lemma NoDup_distinct l : NoDup (distinct l).
Proof.
  induction l as [|x l IH] using rev_ind; [constructor|]. rewrite distinct_snoc. destruct (decide _) as [H|H]; [done|].
  apply NoDup_app. split; [done|]. split; [|apply NoDup_singleton]. intros y Hy ->%elem_of_list_singleton. done.
Qed.
Lemma ids_described ns M : ids (described ns M) = distinct (who <$> M).
Proof. unfold ids, described. rewrite <-list_fmap_compose. apply list_fmap_id. Qed.
Lemma in_described ns M n : n ∈ ids (described ns M) ↔ n ∈ who <$> M.
Proof. by rewrite ids_described, elem_distinct. Qed.
Lemma about_other n M m : who m ≠ n → about n (M ++ [m]) = about n M.
Proof. intros H. unfold about. rewrite filter_app, filter_cons_False by done. apply app_nil_r. Qed.
Lemma about_same M m : about (who m) (M ++ [m]) = about (who m) M ++ [m].
Proof. unfold about. by rewrite filter_app, filter_cons_True by done. Qed.
Lemma about_none n M : n ∉ who <$> M → about n M = [].
Proof. intros H. unfold about. apply elem_of_nil_inv. intros m [<- Hm]%elem_of_list_filter. apply H. by apply elem_of_list_fmap_1. Qed.
Lemma about_some n M : n ∈ who <$> M → ∃ m l, about n M = m :: l.
Proof.
  intros (m & -> & Hm)%elem_of_list_fmap. destruct (about (who m) M) as [|m' l] eqn:E; [|by eexists _, _].
  assert (Hin : m ∈ about (who m) M) by (by apply elem_of_list_filter). rewrite E in Hin. by apply elem_of_nil in Hin.
Qed.
Notation adding r := (r ∈ [TheRoot; AToken; TheVirtualRoot]).
Lemma layers_other ns n M m : who m ≠ n → layers_given ns n (M ++ [m]) = layers_given ns n M.
Proof. intros H. unfold layers_given. by rewrite about_other. Qed.
Lemma attrs_other n M m : who m ≠ n → attrs_given n (M ++ [m]) = attrs_given n M.
Proof. intros H. unfold attrs_given. by rewrite about_other. Qed.
Lemma attrs_same M m : attrs_given (who m) (M ++ [m]) = dupdate (attrs_given (who m) M) m.2.
Proof. unfold attrs_given. by rewrite about_same, foldl_app. Qed.
Lemma attrs_same' M n r a : attrs_given n (M ++ [(n, r, a)]) = dupdate (attrs_given n M) a.
Proof. exact (attrs_same M (n, r, a)). Qed.
Lemma layers_new ns M n r a z : n ∉ who <$> M → z ∈ layers_given ns n (M ++ [(n, r, a)]) ↔ z ∈ role_layers ns r.
Proof.
  intros H. unfold layers_given. assert (EA : about n (M ++ [(n, r, a)]) = about n M ++ [(n, r, a)]) by exact (about_same M (n, r, a)). rewrite EA, about_none by done. cbn [app head].
  cbn [fst snd]. rewrite elem_of_app. split; [|by left]. intros [?|Hz]; [done|]. apply elem_of_list_bind in Hz as (m & Hz & [_ ->%elem_of_list_singleton]%elem_of_list_filter). done.
Qed.
Lemma layers_old ns M n r a : n ∈ who <$> M →
  layers_given ns n (M ++ [(n, r, a)]) = layers_given ns n M ++ (if decide (adding r) then role_layers ns r else []).
Proof.
  intros (m & l & E)%about_some. unfold layers_given. assert (EA : about n (M ++ [(n, r, a)]) = about n M ++ [(n, r, a)]) by exact (about_same M (n, r, a)). rewrite EA, E.
  cbn [app head]. rewrite <-app_assoc. f_equal. change (m :: l ++ [(n, r, a)]) with ((m :: l) ++ [(n, r, a)]).
  rewrite (filter_app _ (m :: l) [(n, r, a)]), bind_app. f_equal. destruct (decide _) as [H|H].
  - rewrite filter_cons_True by done. cbn. apply app_nil_r.
  - by rewrite filter_cons_False.
Qed.
Lemma described_snoc ns M n r a :
  Forall2 same_info
    (if decide (n ∈ who <$> M) then note n (if decide (adding r) then role_layers ns r else []) a (described ns M)
     else described ns M ++ [(n, role_layers ns r, a)])
    (described ns (M ++ [(n, r, a)])).
Proof.
  unfold described at 3. rewrite fmap_app. change (who <$> [(n, r, a)]) with [n]. rewrite distinct_snoc.
  assert (HD : n ∈ distinct (who <$> M) ↔ n ∈ who <$> M) by apply elem_distinct.
  destruct (decide (n ∈ who <$> M)) as [H|H].
  - rewrite (decide_True (P := n ∈ distinct _)) by tauto. unfold note. rewrite (decide_True (P := n ∈ ids _)) by (by apply in_described). unfold described. rewrite <-list_fmap_compose.
    apply Forall2_fmap, Forall_Forall2_diag, Forall_forall. intros y Hy. cbn. destruct (decide (y = n)) as [->|Hne].
    + split; [done|]. cbn. rewrite layers_old by done. split; [done|]. intros k. by rewrite attrs_same'.
    + split; [done|]. cbn. rewrite layers_other, attrs_other by (cbn; congruence). done.
  - rewrite (decide_False (P := n ∈ distinct _)) by tauto. rewrite fmap_app. apply Forall2_app.
    + unfold described. apply Forall2_fmap, Forall_Forall2_diag, Forall_forall. intros y Hy. rewrite elem_distinct in Hy.
      assert (Hne : y ≠ n) by (by intros ->). split; [done|]. cbn. rewrite layers_other, attrs_other by (cbn; congruence). done.
    + apply List.Forall2_cons; [|constructor]. split; [done|]. cbn. split; [intros z; symmetry; by apply layers_new|].
      intros k. rewrite attrs_same'. unfold attrs_given. rewrite about_none by done. cbn. rewrite dget_dupdate. cbn. by destruct (dget k a).
Qed.
Lemma same_info_trans x y z : same_info x y → same_info y z → same_info x z.
Proof. intros (E & H & K) (E' & H' & K'). split; [congruence|]. split; [intros s; by rewrite H|intros k; by rewrite K]. Qed.
Lemma note_ext n l a b N : (∀ k, dget k a = dget k b) → Forall2 same_info (note n l a N) (note n l b N).
Proof.
  intros H. unfold note. destruct (decide _).
  - apply Forall2_fmap, Forall_Forall2_diag, Forall_forall. intros y Hy. destruct (decide _); [|done]. split; [done|]. split; [done|]. cbn. intros k. by rewrite !dget_dupdate, H.
  - apply Forall2_app; [apply Forall_Forall2_diag, Forall_forall; done|]. apply List.Forall2_cons; [|constructor]. split; [done|]. split; [done|exact H].
Qed.
Definition same_edge (x y : edge_info) : Prop := x.1.1 = y.1.1 ∧ (∀ z, z ∈ x.1.2 ↔ z ∈ y.1.2) ∧ ∀ k, dget k x.2 = dget k y.2.
Lemma built_same_edges g N E E' : built g N E → Forall2 same_edge E E' → built g N E'.
Proof.
  intros [H HN (es & HP & HE)] HS. split; [done|done|]. exists es. split; [done|]. clear -HE HS. revert es HE.
  induction HS as [|x y E E' (Hx & HL & HK) HS IH]; intros es HE; [by inversion HE|].
  apply Forall2_cons_inv_r in HE as (e & es' & (H1 & H2 & H3 & H4) & HE & ->). apply List.Forall2_cons; [|by apply IH].
  split; [by rewrite <-Hx|]. split; [by rewrite <-Hx|]. split; [intros z; by rewrite H3|]. intros key Hk. by rewrite H4.
Qed.
(** ** Steps *)
Lemma add_mention g ns M E n r ad attr : built g (described ns M) E → adding r ∨ n ∉ who <$> M →
  ∃ g', add_node g n (VSet (role_layers ns r)) ad attr = (g', None) ∧ same_doc g g' ∧
    ∀ a, (∀ k, dget k (given_attrs ad attr) = dget k a) → built g' (described ns (M ++ [(n, r, a)])) E.
Proof.
  intros HB Hr. destruct (built_node g _ E n (VSet (role_layers ns r)) ad attr (role_layers ns r) HB) as (g' & E1 & B1 & D1); [left; split; [done|by destruct r]|].
  exists g'. split; [done|]. split; [done|]. intros a Ha. eapply built_same; [|exact (described_snoc ns M n r a)].
  eapply built_same; [exact B1|]. destruct (decide (n ∈ who <$> M)) as [H|H].
  - rewrite decide_True by tauto. by apply note_ext.
  - rewrite note_new by (by rewrite in_described). apply Forall2_app; [apply Forall_Forall2_diag, Forall_forall; done|]. apply List.Forall2_cons; [|constructor]. by repeat split.
Qed.
Lemma update_mention g ns M E n r d : built g (described ns M) E → ¬ adding r → n ∈ who <$> M → dget "layers" d = None →
  ∃ g', node_update g n d = (g', None) ∧ same_doc g g' ∧
    ∀ a, (∀ k, dget k d = dget k a) → built g' (described ns (M ++ [(n, r, a)])) E.
Proof.
  intros HB Hr Hn Hd. destruct (built_update g _ E n d HB) as (g' & E1 & B1 & D1); [by apply in_described|done|].
  exists g'. split; [done|]. split; [done|]. intros a Ha. eapply built_same; [|exact (described_snoc ns M n r a)].
  eapply built_same; [exact B1|]. rewrite decide_True, decide_False by done. by apply note_ext.
Qed.
Lemma old_mention ns M n : n ∈ who <$> M → Forall2 same_info (described ns M) (described ns (M ++ [(n, ATarget, [])])).
Proof.
  intros H. pose proof (described_snoc ns M n ATarget []) as HS. rewrite decide_True in HS by done.
  rewrite (decide_False (P := adding ATarget)) in HS by (rewrite !elem_of_cons, elem_of_nil; naive_solver).
  assert (EQ : Forall2 same_info (described ns M) (note n [] [] (described ns M))).
  { unfold note. rewrite decide_True by (by apply in_described). rewrite <-(list_fmap_id (described ns M)) at 1.
    apply Forall2_fmap, Forall_Forall2_diag, Forall_forall. intros y _. cbn. destruct (decide _); [|done]. split; [done|]. cbn. by rewrite app_nil_r. }
  clear H. revert HS EQ. generalize (note n [] [] (described ns M)), (described ns (M ++ [(n, ATarget, [])])).
  generalize (described ns M). intros N1 N2 N3 H1 H2. revert N3 H1. induction H2 as [|x y N1 N2 Hxy _ IH]; intros N3 H1.
  - apply Forall2_nil_inv_l in H1 as ->. constructor.
  - apply Forall2_cons_inv_l in H1 as (z & N3' & Hyz & H1 & ->). apply List.Forall2_cons; [by eapply same_info_trans|by apply IH].
Qed.
Lemma nodes_built g ns M E n : built g (described ns M) E → n ∈ nodes g ↔ n ∈ who <$> M.
Proof. intros [_ [HN _] _]. rewrite HN. apply (in_described ns M n). Qed.
Lemma target_ok g ns M E n : built g (described ns M) E → g_ns g = ns →
  ∃ g', tiger_target n g = (g', None) ∧ same_doc g g' ∧ built g' (described ns (M ++ [(n, ATarget, [])])) E.
Proof.
  intros HB Hns. unfold tiger_target. rewrite Hns. destruct (decide (n ∈ nodes g)) as [H|H]; rewrite (nodes_built _ _ _ _ _ HB) in H.
  - exists g. split; [done|]. split; [by repeat split|]. eapply built_same; [exact HB|]. by apply old_mention.
  - destruct (add_mention g ns M E n ATarget None [] HB) as (g' & E1 & D1 & B1); [by right|]. exists g'. split; [done|]. split; [done|]. by apply B1.
Qed.
Lemma same_doc_refl g : same_doc g g.
Proof. by repeat split. Qed.
Lemma same_doc_trans g1 g2 g3 : same_doc g1 g2 → same_doc g2 g3 → same_doc g1 g3.
Proof. unfold same_doc. intuition congruence. Qed.
Lemma sd_ns g g' : same_doc g g' → g_ns g' = g_ns g.
Proof. by intros (_ & ? & _). Qed.
Lemma edge_ok g ns M E u v l ad attr : built g (described ns M) E → u ∈ who <$> M → v ∈ who <$> M → l ≠ [] →
  ∃ g', add_edge g u v (VSet l) None ad attr = (g', None) ∧ same_doc g g' ∧
    ∀ a, (∀ k, dget k (given_attrs ad attr) = dget k a) → built g' (described ns M) (E ++ [(u, v, l, a)]).
Proof.
  intros HB Hu Hv Hl. destruct (built_edge_in g _ E u v (VSet l) ad attr l HB) as (g' & E1 & B1 & D1); [by apply in_described..|by left|].
  exists g'. split; [done|]. split; [done|]. intros a Ha. eapply built_same_edges; [exact B1|]. apply Forall2_app; [apply Forall_Forall2_diag, Forall_forall; done|].
  apply List.Forall2_cons; [|constructor]. by repeat split.
Qed.
