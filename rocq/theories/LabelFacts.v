(** * LabelFacts: make_labels_explicit, sort_sentences *)
From Verif Require Import PyBase DocGraph Relabel SpecGraph DocGraphFacts StrNum Query Text SpecText
  SpanFacts NatSort TextFacts AllHist.

Lemma rmap_dict {K V W} `{EqDecision K} (f : K * V → res (K * W)) (d : list (K * V)) l :
  (∀ p q, f p = Ok q → q.1 = p.1) → rmap f d = Ok l →
  dkeys l = dkeys d ∧ ∀ k, match dget k d with
    | Some v => ∃ w, dget k l = Some w ∧ f (k, v) = Ok (k, w)
    | None => dget k l = None end.
Proof.
  intros Hf. revert l. induction d as [|[k v] d IH]; intros l.
  - intros [= <-]. done.
  - cbn [rmap]. intros (q & Hq & (l' & Hl & [= <-])%rbind_Ok)%rbind_Ok.
    destruct (IH l' Hl) as [H1 H2]. pose proof (Hf _ _ Hq) as Hk. destruct q as [k0 w]. simpl in Hk. subst k0.
    split; [unfold dkeys in *; cbn [fmap list_fmap fst]; by f_equal|].
    intros k'. simpl. destruct (decide (k' = k)) as [->|Hne]; [by exists w|]. apply H2.
Qed.
Lemma rmap_total {A B} (f : A → res B) l : (∀ x, x ∈ l → ∃ y, f x = Ok y) → ∃ r, rmap f l = Ok r.
Proof.
  induction l as [|x l IH]; intros H; [by eexists|]. cbn [rmap].
  destruct (H x) as [y ->]; [left|]. destruct IH as [r ->]; [intros z Hz; apply H; by right|]. by eexists.
Qed.

(** ** nodes *)
Lemma explicit_nodes_ok g g' : explicit_nodes g = Ok g' →
  ∃ l, g' = set_node l g ∧ dkeys l = nodes g ∧
  ∀ n, match node_attrs g n with
       | None => dget n l = None
       | Some a => match dget "label" a with
                   | None => dget n l = Some a
                   | Some v => ∃ s, fmt v = Ok s ∧ dget n l = Some (dset "label" (VStr (s +:+ "_" +:+ nid_str n)) a)
                   end
       end.
Proof.
  unfold explicit_nodes. intros (l & Hl & [= <-])%rbind_Ok. exists l. split; [done|].
  eapply rmap_dict in Hl as [H1 H2].
  2: { intros [n a] q. simpl. destruct (dget "label" a) as [v|]; [|by intros [= <-]].
       intros (s & _ & [= <-])%rbind_Ok. done. }
  split; [exact H1|]. intros n. specialize (H2 n). unfold node_attrs. destruct (dget n (g_node g)) as [a|]; [|done].
  destruct H2 as (w & Hw & Hf). simpl in Hf. destruct (dget "label" a) as [v|].
  - apply rbind_Ok in Hf as (s & Hs & [= <-]). by exists s.
  - injection Hf as <-. done.
Qed.
(** ** edges *)
Lemma explicit_edges_ok g g' : explicit_edges g = Ok g' →
  ∃ s, g' = set_succ s g ∧ dkeys s = dkeys (g_succ g) ∧
   ∀ u, match dget u (g_succ g) with
        | None => dget u s = None
        | Some nb => ∃ nb', dget u s = Some nb' ∧ dkeys nb' = dkeys nb ∧
            ∀ v, match dget v nb with
                 | None => dget v nb' = None
                 | Some kd => ∃ kd', dget v nb' = Some kd' ∧ explicit_keydict kd = Ok kd'
                 end
        end.
Proof.
  unfold explicit_edges. intros (s & Hs & [= <-])%rbind_Ok. exists s. split; [done|].
  eapply rmap_dict in Hs as [H1 H2].
  2: { intros p q Hq. by apply rbind_Ok in Hq as (? & _ & [= <-]). }
  split; [done|]. intros u. specialize (H2 u). destruct (dget u (g_succ g)) as [nb|]; [|done].
  destruct H2 as (nb' & Hu & Hf). exists nb'. split; [done|].
  simpl in Hf. apply rbind_Ok in Hf as (nb1 & Hnb & [= ->]).
  eapply rmap_dict in Hnb as [H3 H4].
  2: { intros p q Hq. by apply rbind_Ok in Hq as (? & _ & [= <-]). }
  split; [done|]. intros v. specialize (H4 v). destruct (dget v nb) as [kd|]; [|done].
  destruct H4 as (kd' & Hv & Hk). simpl in Hk. apply rbind_Ok in Hk as (kd1 & Hk & [= ->]). by exists kd'.
Qed.
Definition explicit_edge (a : attrs) : res attrs :=
  let! ty := of_option KeyError (dget "edge_type" a) in
  match dget "label" a with
  | Some lab => let! s := fmt lab in let! t := fmt ty in Ok (dset "label" (VStr (s +:+ "_" +:+ t)) a)
  | None => Ok (dset "label" ty a)
  end.
Lemma explicit_keydict_single k a : explicit_keydict [(k, a)] = let! a' := explicit_edge a in Ok [(k, a')].
Proof.
  unfold explicit_keydict. cbn [dkeys fmap list_fmap fst rfold]. unfold explicit_keydict1, explicit_edge.
  cbn [dget]. rewrite decide_True by done. cbn [default from_option].
  unfold default, id. destruct (dget "edge_type" a) as [ty|]; [|done]. cbn [of_option rbind].
  unfold dmem. destruct (dget "label" a) as [lab|].
  - cbn [of_option rbind]. destruct (fmt lab) as [s|]; [|done]. cbn [rbind]. destruct (fmt ty) as [t|]; [|done].
    cbn [rbind dset]. by rewrite decide_True.
  - cbn [rbind dset]. by rewrite decide_True.
Qed.
Lemma single_keydict (kd : dict nid attrs) : kd ≠ [] → NoDup (dkeys kd) →
  (∀ k k' a a', dget k kd = Some a → dget k' kd = Some a' → k = k') → ∃ k a, kd = [(k, a)].
Proof.
  intros Hne Hnd H. destruct kd as [|[k a] [|[k' a'] kd]]; [done|by exists k, a|]. exfalso.
  apply NoDup_cons in Hnd as [Hk _]. apply Hk.
  assert (k = k') as ->; [|left].
  apply (H k k' a a'); cbn [dget]; [by rewrite decide_True|].
  destruct (decide (k' = k)) as [->|]; [exfalso; apply Hk; left|]. by rewrite decide_True.
Qed.
Lemma labels_ok g g' : Consistent g → single_edges g → make_labels_explicit g = Ok g' →
  nodes g' = nodes g ∧ g_tokens g' = g_tokens g ∧ g_root g' = g_root g ∧ g_ns g' = g_ns g ∧ g_name g' = g_name g ∧
  (∀ n a, node_attrs g n = Some a → ∃ a', node_attrs g' n = Some a' ∧
     match dget "label" a with
     | Some v => ∃ s, fmt v = Ok s ∧ a' = dset "label" (VStr (s +:+ "_" +:+ nid_str n)) a
     | None => a' = a end) ∧
  (∀ u v k, match edge_attrs g u v k with
            | None => edge_attrs g' u v k = None
            | Some a => ∃ a', edge_attrs g' u v k = Some a' ∧ explicit_edge a = Ok a' end).
Proof.
  intros HC HS. unfold make_labels_explicit. intros (g1 & H1 & H2)%rbind_Ok.
  apply explicit_nodes_ok in H1 as (l & -> & Hl & Hn). apply explicit_edges_ok in H2 as (s & -> & Hs & He).
  simpl in *. split; [exact Hl|]. split_and!; try done.
  - intros n a Ha. specialize (Hn n). rewrite Ha in Hn. unfold node_attrs. simpl.
    destruct (dget "label" a) as [v|]; [|by exists a]. destruct Hn as (t & Ht & Hd). eexists. split; [exact Hd|]. by exists t.
  - intros u v k. unfold edge_attrs, keydict_of. simpl. specialize (He u).
    destruct (dget u (g_succ g)) as [nb|] eqn:Eu.
    2: { rewrite He. done. }
    destruct He as (nb' & -> & Hk & Hv). cbn [default from_option]. unfold id. specialize (Hv v).
    unfold default, id, from_option.
    destruct (dget v nb) as [kd|] eqn:Ev; [|by rewrite Hv]. destruct Hv as (kd' & -> & Hkd).
    destruct (c_adj _ HC u nb Eu) as [_ Hadj]. destruct (Hadj v kd Ev) as [Hne Hnd].
    destruct (single_keydict kd Hne Hnd) as (k0 & a & ->).
    { intros k1 k2 a1 a2 Hk1 Hk2. apply (HS u v k1 k2 a1 a2); unfold edge_attrs, keydict_of; rewrite Eu; simpl; rewrite Ev; done. }
    rewrite explicit_keydict_single in Hkd. apply rbind_Ok in Hkd as (a' & Ha & [= <-]). cbn [dget].
    destruct (decide (k = k0)); [|done]. by exists a'.
Qed.
Lemma labels_total g : Consistent g → single_edges g →
  (∀ n a v, node_attrs g n = Some a → dget "label" a = Some v → ∃ s, fmt v = Ok s) →
  (∀ u v k a, edge_attrs g u v k = Some a → ∃ a', explicit_edge a = Ok a') →
  ∃ g', make_labels_explicit g = Ok g'.
Proof.
  intros HC HS Hn He. unfold make_labels_explicit.
  destruct (explicit_nodes g) as [g1|e] eqn:E1.
  2: { exfalso. unfold explicit_nodes in E1.
       destruct (rmap_total (λ p : nid * attrs, match dget "label" p.2 with
         | None => Ok p
         | Some v => let! s := fmt v in Ok (p.1, dset "label" (VStr (s +:+ "_" +:+ nid_str p.1)) p.2) end) (g_node g)) as [r Hr].
       { intros [n a] Hin. simpl. destruct (dget "label" a) as [v|] eqn:Ev; [|by eexists].
         destruct (Hn n a v) as [s ->]; [|done|by eexists]. apply elem_dget; [apply HC|done]. }
       rewrite Hr in E1. done. }
  apply explicit_nodes_ok in E1 as (l & -> & _). cbn [rbind]. unfold explicit_edges. cbn [g_succ set_node].
  destruct (rmap_total (λ p : nid * dict nid (dict nid attrs),
      let! nb := rmap (λ q : nid * dict nid attrs, let! kd := explicit_keydict q.2 in Ok (q.1, kd)) p.2 in
      Ok (p.1, nb)) (g_succ g)) as [r Hr].
  { intros [u nb] Hu. simpl.
    assert (Eu : dget u (g_succ g) = Some nb) by (apply elem_dget; [rewrite (c_succ_dom _ HC); apply HC|done]).
    destruct (c_adj _ HC u nb Eu) as [Hndn Hadj].
    destruct (rmap_total (λ q : nid * dict nid attrs, let! kd := explicit_keydict q.2 in Ok (q.1, kd)) nb) as [r Hr].
    { intros [v kd] Hv. simpl. assert (Ev : dget v nb = Some kd) by by apply elem_dget.
      destruct (Hadj v kd Ev) as [Hne Hnd].
      destruct (single_keydict kd Hne Hnd) as (k0 & a & ->).
      { intros k1 k2 a1 a2 Hk1 Hk2. apply (HS u v k1 k2 a1 a2); unfold edge_attrs, keydict_of; rewrite Eu; simpl; rewrite Ev; done. }
      rewrite explicit_keydict_single. destruct (He u v k0 a) as [a' ->]; [|by eexists].
      unfold edge_attrs, keydict_of. rewrite Eu. simpl. rewrite Ev. simpl. by rewrite decide_True. }
    rewrite Hr. by eexists. }
  rewrite Hr. by eexists.
Qed.

Lemma fmt_label v s : fmt v = Ok s ↔ label_text v s.
Proof.
  split.
  - destruct v; try done; intros [= <-]; constructor.
  - by intros [].
Qed.
Lemma relabelled_dset a v : relabelled a (dset "label" v a) v.
Proof. split; [apply dget_dset_eq|]. intros key Hk. by apply dget_dset_ne. Qed.
Lemma explicit_edge_ok a a' : explicit_edge a = Ok a' → ∃ ty, dget "edge_type" a = Some ty ∧
  match dget "label" a with
  | Some lab => ∃ s t, label_text lab s ∧ label_text ty t ∧ relabelled a a' (VStr (s +:+ "_" +:+ t))
  | None => relabelled a a' ty end.
Proof.
  unfold explicit_edge. destruct (dget "edge_type" a) as [ty|]; [|done]. cbn [of_option rbind]. intros H. exists ty.
  split; [done|]. destruct (dget "label" a) as [lab|].
  - apply rbind_Ok in H as (s & Hs & H). apply rbind_Ok in H as (t & Ht & [= <-]). exists s, t.
    split_and!; [by apply fmt_label..|apply relabelled_dset].
  - injection H as <-. apply relabelled_dset.
Qed.
Lemma explicit_edge_total a ty t : dget "edge_type" a = Some ty → label_text ty t →
  (∀ v, dget "label" a = Some v → ∃ s, label_text v s) → ∃ a', explicit_edge a = Ok a'.
Proof.
  intros Hty Ht Hl. unfold explicit_edge. rewrite Hty. cbn [of_option rbind]. destruct (dget "label" a) as [v|]; [|by eexists].
  destruct (Hl v eq_refl) as [s Hs]. apply fmt_label in Hs as ->, Ht as ->. by eexists.
Qed.

(** ** sentences *)
Lemma sort_sentences_ok roots toks r : sort_sentences roots toks = Ok r →
  r ≡ₚ zip roots toks ∧
  (∀ i j p q a b, i < j → r !! i = Some p → r !! j = Some q → head p.2 = Some a → head q.2 = Some b → cle nat_cmp a b).
Proof.
  unfold sort_sentences. destruct (forallb _ _); [|done]. intros [= <-]. split; [apply isort_perm|].
  intros i j p q a b Hij Hi Hj Ha Hb.
  set (cmp := λ p q : nid * list nid, nat_cmp (first_token p) (first_token q)) in *.
  assert (Hs : sorted cmp (isort cmp (zip roots toks))).
  { apply isort_sorted.
    - intros x y z. unfold cle, cmp. intros H1 H2. eapply nat_cle_trans; [exact H1|exact H2].
    - intros x y. unfold cle, cmp. apply nat_cle_total. }
  specialize (Hs i j p q Hij Hi Hj). unfold cle, cmp, first_token in Hs. rewrite Ha, Hb in Hs. exact Hs.
Qed.
Lemma sort_sentences_total roots toks : Forall (λ l, l ≠ []) toks → ∃ r, sort_sentences roots toks = Ok r.
Proof.
  intros HF. unfold sort_sentences.
  assert (forallb (λ p : nid * list nid, negb (bool_decide (p.2 = []))) (zip roots toks) = true) as ->; [|by eexists].
  apply forallb_forall. intros [x l] Hin%elem_of_list_In. apply elem_of_zip_r in Hin.
  rewrite Forall_forall in HF. specialize (HF l Hin). simpl. by rewrite bool_decide_eq_false_2.
Qed.
Lemma spanstring_resolves g renamed s toks : convert_spanstring s = Ok toks →
  ∃ ls, spanstring2tokens g renamed s = Ok (concat ls) ∧
    Forall2 (λ t, resolves g (default [] renamed) (NStr (str t))) toks ls.
Proof.
  intros H. unfold spanstring2tokens. rewrite H. cbn [rbind]. clear H. set (f := λ t : chars, _ : list nid).
  exists (f <$> toks). split.
  - f_equal. induction toks as [|t toks IH]; [done|]. cbn [mbind list_bind fmap list_fmap concat]. f_equal. exact IH.
  - apply Forall2_fmap_r, Forall_Forall2_diag, Forall_forall. intros t _. subst f. unfold compose. cbv beta zeta.
    match goal with |- context [if ?b then _ else _] => destruct b eqn:E end.
    + apply dmem_spec in E. by constructor.
    + apply dmem_false in E. destruct renamed as [d|]; [|by constructor]. simpl.
      destruct (dget (NStr (str t)) d) as [m|] eqn:Ed; [|constructor; [done|congruence]].
      destruct (dmem m (g_node g)) eqn:Em.
      * apply dmem_spec in Em. by apply Res_renamed.
      * apply dmem_false in Em. constructor; [done|]. intros m'. rewrite Ed. by intros [= <-].
Qed.

(** ** the statements of PropText.v *)
Lemma quote_inj s t : quote_for_pydot s = quote_for_pydot t → s = t.
Proof.
  unfold quote_for_pydot. fold (esc s) (esc t). intros [= H]. apply app_inv_tail in H.
  rewrite <-(unescape_esc s), <-(unescape_esc t). by rewrite H.
Qed.
Lemma xpointer_lookup s i c : s !! i = Some c →
  xpointer_str s !! i = Some (if decide (c = ":"%char) then "_"%char else c).
Proof.
  revert i. induction s as [|x s IH]; intros [|i]; [done|done| |].
  - intros [= ->]. done.
  - exact (IH i).
Qed.
Lemma xpointer_unchanged : (∀ z, ensure_xpointer_compatibility (NInt z) = NInt z) ∧
  (∀ s, ":"%char ∉ chs s → ensure_xpointer_compatibility (NStr s) = NStr s) ∧
  (∀ n, ensure_xpointer_compatibility (ensure_xpointer_compatibility n) = ensure_xpointer_compatibility n).
Proof.
  split; [done|]. split.
  - intros s Hs. simpl. by rewrite xpointer_id, str_chs.
  - intros [z|s]; [done|]. simpl. rewrite chs_str. f_equal. f_equal. apply xpointer_id, xpointer_free.
Qed.
Lemma token_range_chain (i j k : Z) : (i ≤ j)%Z → (j ≤ k)%Z →
  let tli z := "T"%char :: chs (str_Z z) in
  ∃ a b,
  gen_token_range (tli i) (tli j) = Ok a ∧ gen_token_range (tli j) (tli k) = Ok b ∧
  gen_token_range (tli i) (tli k) = Ok (a ++ b) ∧ (∀ t, t ∈ a → t ∉ b).
Proof.
  intros H1 H2 tli. do 2 eexists. split; [apply token_range_ok|]. split; [apply token_range_ok|]. split.
  - unfold tli. rewrite token_range_ok. rewrite <-fmap_app. do 2 f_equal.
    rewrite <-(from_to_app i (j - 1) (k - 1)) by lia. do 2 f_equal. lia.
  - intros t (z & -> & Hz)%elem_of_list_fmap (z' & E & Hz')%elem_of_list_fmap.
    apply elem_from_to in Hz, Hz'. injection E as E.
    assert (Ok z = Ok z') as [= ->]; [|lia]. rewrite <-!py_int_str_Z. by rewrite E.
Qed.
Lemma labels_thm : ∀ P g g', reachable P g → single_edges g → make_labels_explicit g = Ok g' →
  nodes g' = nodes g ∧
  (∀ n a, node_attrs g n = Some a → ∃ a', node_attrs g' n = Some a' ∧
     (∀ v, dget "label" a = Some v → ∃ s, label_text v s ∧ relabelled a a' (VStr (s +:+ "_" +:+ nid_str n))) ∧
     (dget "label" a = None → a' = a)) ∧
  (∀ u v k, edge_attrs g u v k = None → edge_attrs g' u v k = None) ∧
  (∀ u v k a, edge_attrs g u v k = Some a → ∃ a' ty, edge_attrs g' u v k = Some a' ∧ dget "edge_type" a = Some ty ∧
     (∀ lab, dget "label" a = Some lab → ∃ s t, label_text lab s ∧ label_text ty t ∧
        relabelled a a' (VStr (s +:+ "_" +:+ t))) ∧
     (dget "label" a = None → relabelled a a' ty)).
Proof.
  intros P g g' HR HS H. destruct (labels_ok g g' (reach_consistent _ _ HR) HS H) as (H1 & _ & _ & _ & _ & Hn & He).
  split; [done|]. split_and!.
  - intros n a Ha. destruct (Hn n a Ha) as (a' & Ha' & Hm). exists a'. split; [done|].
    destruct (dget "label" a) as [v|]; [|done]. destruct Hm as (s & Hs & ->). split; [|done].
    intros v' [= <-]. exists s. split; [by apply fmt_label|apply relabelled_dset].
  - intros u v k Hk. specialize (He u v k). by rewrite Hk in He.
  - intros u v k a Ha. specialize (He u v k). rewrite Ha in He. destruct He as (a' & Ha' & Hx).
    apply explicit_edge_ok in Hx as (ty & Hty & Hm). exists a', ty. split; [done|]. split; [done|].
    destruct (dget "label" a) as [lab|]; [|done]. split; [|done]. by intros lab' [= <-].
Qed.
Lemma labels_total_thm : ∀ P g, reachable P g → single_edges g →
  (∀ n a v, node_attrs g n = Some a → dget "label" a = Some v → ∃ s, label_text v s) →
  (∀ u v k a, edge_attrs g u v k = Some a → (∃ ty t, dget "edge_type" a = Some ty ∧ label_text ty t) ∧
     ∀ lab, dget "label" a = Some lab → ∃ s, label_text lab s) →
  ∃ g', make_labels_explicit g = Ok g'.
Proof.
  intros P g HR HS Hn He. apply labels_total; [by eapply reach_consistent|done| |].
  - intros n a v Ha Hv. destruct (Hn n a v Ha Hv) as [s Hs]. exists s. by apply fmt_label.
  - intros u v k a Ha. destruct (He u v k a Ha) as [(ty & t & Hty & Ht) Hl]. by eapply explicit_edge_total.
Qed.
Lemma replace_thm : ∀ d s, d ≠ [] → Forall (λ p, p.1 ≠ []) d →
  ∃ r, multiple_replace d s = Ok r ∧ replaced d s r ∧
    (prefix_free d → ∀ r', replaced d s r' → r' = r).
Proof.
  intros d s Hne Hk. exists (xlat d 0 s). split; [|split].
  - unfold multiple_replace. destruct d as [|p d]; [done|].
    destruct (existsb _ _) eqn:E; [|done]. apply existsb_exists in E as (q & Hq%elem_of_list_In & Hb).
    apply bool_decide_eq_true in Hb. rewrite Forall_forall in Hk. by destruct (Hk q Hq).
  - by apply xlat_replaced.
  - intros Hp r' Hr'. eapply replaced_unique; [exact Hp|exact Hr'|by apply xlat_replaced].
Qed.
Lemma replaced_perm d d' s r : (∀ p, p ∈ d ↔ p ∈ d') → replaced d s r → replaced d' s r.
Proof.
  intros HE. induction 1 as [|k v s r Hin Hk HR IH|c s r Hno HR IH]; [constructor| |].
  - constructor; [by apply HE|done|done].
  - constructor; [|done]. intros k v Hin. apply (Hno k v). by apply HE.
Qed.
Lemma replace_order : ∀ d d' s, d ≠ [] → Forall (λ p, p.1 ≠ []) d → prefix_free d → d ≡ₚ d' →
  multiple_replace d' s = multiple_replace d s.
Proof.
  intros d d' s Hne Hk Hp HE.
  assert (HM : ∀ p, p ∈ d ↔ p ∈ d') by (intros p; by rewrite HE).
  destruct (replace_thm d s Hne Hk) as (r & -> & Hr & Hu).
  destruct (replace_thm d' s) as (r' & -> & Hr' & _).
  - intros ->. apply Permutation_nil_r in HE. done.
  - by rewrite <-HE.
  - f_equal. apply Hu; [done|]. eapply replaced_perm; [|exact Hr']. intros p. by rewrite HM.
Qed.
Lemma sentences_thm : ∀ roots toks, length roots = length toks → Forall (λ l, l ≠ []) toks →
  ∃ r, sort_sentences roots toks = Ok r ∧ r ≡ₚ zip roots toks ∧
    ∀ i j p q a b, i < j → r !! i = Some p → r !! j = Some q →
      head p.2 = Some a → head q.2 = Some b → nat_cmp b a ≠ Lt.
Proof.
  intros roots toks _ HF. destruct (sort_sentences_total roots toks HF) as [r Hr]. exists r. split; [done|].
  destruct (sort_sentences_ok roots toks r Hr) as [Hp Hs]. split; [done|].
  intros i j p q a b Hij Hi Hj Ha Hb. specialize (Hs i j p q a b Hij Hi Hj Ha Hb). unfold cle in Hs.
  rewrite nat_cmp_opp. by destruct (nat_cmp a b).
Qed.
Lemma sentence_numbers : ∀ (p : chars) (n m : N), (∀ c, last p = Some c → is_digit c = false) →
  nat_cmp (NStr (str (p ++ chs (str_N n)))) (NStr (str (p ++ chs (str_N m)))) ≠ Lt ↔ (m <= n)%N.
Proof.
  intros p n m Hp. destruct (decide (n = m)) as [->|Hne].
  - rewrite nat_cmp_refl. split; [lia|done].
  - pose proof (nat_cmp_number p [] [] n m) as H. rewrite !app_nil_r in H. rewrite H; [|done|done|done|done].
    rewrite N.compare_lt_iff. lia.
Qed.
Lemma check_single g : forallb (λ p : nid * dict nid (dict nid attrs),
    forallb (λ q : nid * dict nid attrs, Nat.leb (length q.2) 1) p.2) (g_succ g) = true → single_edges g.
Proof.
  intros H u v k k' a a'. unfold edge_attrs, keydict_of.
  destruct (dget u (g_succ g)) as [nb|] eqn:Eu; [|done]. simpl.
  destruct (dget v nb) as [kd|] eqn:Ev; [|done]. simpl.
  rewrite forallb_forall in H. specialize (H (u, nb)). rewrite <-elem_of_list_In in H.
  specialize (H (dget_Some_elem _ _ _ Eu)). simpl in H. rewrite forallb_forall in H. specialize (H (v, kd)).
  rewrite <-elem_of_list_In in H. specialize (H (dget_Some_elem _ _ _ Ev)). simpl in H.
  apply Nat.leb_le in H. destruct kd as [|[k0 a0] [|? ?]]; simpl in *; [done| |lia].
  intros H1 H2. destruct (decide (k = k0)); [|done]. destruct (decide (k' = k0)); [|done]. congruence.
Qed.
