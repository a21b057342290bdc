(** * TreeFacts: children, positions, the sorted traversal *)
From Verif Require Import PyBase DocGraph Relabel SpecGraph DocGraphFacts History Effects RelabelFacts StrNum Query SpecQuery Text Tree SpecTree
  SpanFacts SelectFacts BfsFacts.

(** ** children and parents *)
Lemma dom_nodes g u v : Consistent g → dom g u v → u ∈ nodes g ∧ v ∈ nodes g.
Proof. intros C (k & a & He & _). split; [by eapply edge_node_l|by eapply edge_node_r]. Qed.
Lemma child_nodes_ok g n : Consistent g → n ∈ nodes g →
  ∃ l, get_child_nodes g n = Ok l ∧ NoDup l ∧ ∀ c, c ∈ l ↔ dom g n c.
Proof.
  intros C Hn. unfold get_child_nodes, select_neighbors_by_edge_attribute.
  destruct (dget n (g_succ g)) as [nb|] eqn:En.
  2: { exfalso. apply dget_None in En. apply En. by rewrite (c_succ_dom _ C). }
  destruct (c_adj _ C n nb En) as [Hnd Hadj]. eexists. split; [done|]. split.
  - eapply NoDup_sub; [apply (sublist_fmap fst), sublist_filter|]. exact Hnd.
  - intros c. rewrite elem_of_list_fmap. split.
    + intros ([c' kd] & -> & [Hc Hin]%elem_of_list_filter). cbn [fst snd] in *.
      apply edges_cond_ok in Hc as [_ (a & Ha & Hv)].
      apply elem_of_list_singleton in Hv. apply elem_of_list_fmap in Ha as ([k a'] & -> & Hka). simpl in Hv.
      pose proof (elem_dget _ _ _ Hnd Hin) as Ec. destruct (Hadj c' kd Ec) as [_ Hkd].
      exists k, a'. split.
      * unfold edge_attrs, keydict_of. rewrite En. simpl. rewrite Ec. simpl. by apply elem_dget.
      * destruct (dget "edge_type" a') as [w|]; [|done]. simpl in Hv. by subst.
    + intros (k & a & He & Ht). unfold edge_attrs, keydict_of in He. rewrite En in He. simpl in He.
      destruct (dget c nb) as [kd|] eqn:Ec; [|done]. simpl in He. exists (c, kd). split; [done|].
      apply elem_of_list_filter. split; [|by apply dget_Some_elem]. apply edges_cond_ok.
      assert (Ha : a ∈ kd.*2) by (apply elem_of_list_fmap; exists (k, a); split; [done|by apply dget_Some_elem]).
      cbn [snd]. split; exists a; (split; [done|]).
      * rewrite Ht. by eexists.
      * rewrite Ht. apply elem_of_list_singleton. done.
Qed.
Lemma child_nodes_unknown g n : Consistent g → n ∉ nodes g → get_child_nodes g n = Err NetworkXError.
Proof.
  intros C Hn. unfold get_child_nodes, select_neighbors_by_edge_attribute.
  destruct (dget n (g_succ g)) as [nb|] eqn:En; [|done]. exfalso. apply Hn. rewrite <-(c_succ_dom _ C).
  apply dget_is_Some. by eexists.
Qed.
Lemma child_nodes_error g n e : Consistent g → get_child_nodes g n = Err e → e = NetworkXError.
Proof.
  intros C H. destruct (decide (n ∈ nodes g)) as [Hn|Hn].
  - destruct (child_nodes_ok g n C Hn) as (l & Hl & _). congruence.
  - rewrite child_nodes_unknown in H by done. by injection H.
Qed.
Lemma parents_ok g n ps : Consistent g → get_parents g n = Ok ps →
  n ∈ nodes g ∧ (∀ u, u ∈ ps ↔ dom g u n) ∧ length ps ≤ 1.
Proof.
  intros C. unfold get_parents. destruct (dmem n (g_node g)) eqn:En; [|done]. apply dmem_spec in En.
  intros (l & Hl & Hps)%rbind_Ok. assert (l = ps ∧ length l ≤ 1) as [-> Hlen].
  { destruct l as [|x [|y l]]; [|injection Hps as <-; split; [done|simpl; lia]|done]. injection Hps as <-. split; [done|simpl; lia]. }
  clear Hps. split; [done|]. split; [|done].
  apply rconcat_Ok in Hl as (ls & HF & ->). intros u. rewrite elem_concat. split.
  - intros (l & Hu & Hin). apply elem_of_list_lookup in Hin as [i Hi].
    destruct (Forall2_lookup_r _ _ _ _ _ HF Hi) as ([[[u' v] k] a] & He & Hf). cbn [fst snd] in Hf.
    apply rbind_Ok in Hf as (ty & Hty & [= <-]). case_decide as Hd; [|by apply elem_of_nil in Hu].
    apply elem_of_list_singleton in Hu as ->. apply elem_of_list_lookup_2 in He. apply elem_in_edges in He as [-> He]; [|done].
    exists k, a. split; [done|]. destruct (dget "edge_type" a); [|done]. simpl in Hty. injection Hty as ->. by subst.
  - intros (k & a & He & Ht). assert (Hin : (u, n, k, a) ∈ in_edges g n) by by apply elem_in_edges.
    apply elem_of_list_lookup in Hin as [i Hi].
    destruct (Forall2_lookup_l _ _ _ _ _ HF Hi) as (l & Hl & Hf). cbn [fst snd] in Hf. rewrite Ht in Hf. simpl in Hf.
    injection Hf as <-. exists [u]. split; [left|]. by apply elem_of_list_lookup_2 in Hl.
Qed.
Lemma parents_fuel g n : get_parents g n ≠ Err OutOfFuel.
Proof.
  unfold get_parents. destruct (dmem n (g_node g)); [|done]. intros [H|(l & _ & H)]%rbind_Err.
  - revert H. induction (in_edges g n) as [|e l IH]; [done|]. cbn [rconcat]. intros [H|(x & _ & H)]%rbind_Err.
    + apply rbind_Err in H as [H|(ty & _ & H)]; [|done]. by destruct (dget "edge_type" e.2).
    + apply rbind_Err in H as [H|(y & _ & H)]; [|done]. by apply IH.
  - by destruct l as [|? [|? ?]].
Qed.
Lemma NoDup_in_edges g n : Consistent g → NoDup (in_edges g n).
Proof.
  intros C. unfold in_edges. apply NoDup_bind.
  - unfold predecessors. destruct (dget n (g_pred g)) as [ps|] eqn:E; [|apply NoDup_nil_2]. simpl. by eapply (c_prednodup _ C).
  - intros u _. apply NoDup_bind.
    + eapply (NoDup_fmap_1 fst). by apply keydict_NoDup.
    + intros [k a] _. apply NoDup_singleton.
    + intros [k a] [k' a'] z _ _ ->%elem_of_list_singleton [= <- <-]%elem_of_list_singleton. done.
  - intros u u' z _ _ Hz Hz'.
    apply elem_of_list_bind in Hz as ([k a] & ->%elem_of_list_singleton & _).
    apply elem_of_list_bind in Hz' as ([k' a'] & [= <- <- <-]%elem_of_list_singleton & _). done.
Qed.
Lemma parents_total g n : Consistent g → typed g → one_parent g → n ∈ nodes g → ∃ ps, get_parents g n = Ok ps.
Proof.
  intros C HT H1 Hn. unfold get_parents.
  assert (dmem n (g_node g) = true) as -> by by apply dmem_spec.
  assert (G : ∃ l, rconcat (λ e : nid * nid * nid * attrs,
      let! ty := of_option KeyError (dget "edge_type" e.2) in
      Ok (if decide (ty = VStr dominates) then [e.1.1.1] else [])) (in_edges g n) = Ok l ∧ length l ≤ 1).
  2: { destruct G as (l & -> & Hl). cbn [rbind]. destruct l as [|x [|y l]]; [by eexists|by eexists|simpl in Hl; lia]. }
  assert (Hnd : NoDup (in_edges g n)) by by apply NoDup_in_edges.
  assert (Hin : ∀ e, e ∈ in_edges g n → e.1.1.2 = n ∧ edge_attrs g e.1.1.1 n e.1.2 = Some e.2).
  { intros [[[u v] k] a] He. by apply elem_in_edges in He. }
  revert Hnd Hin. generalize (in_edges g n) as es. induction es as [|e es IH]; intros Hnd Hin; [by exists []; split; [|simpl; lia]|].
  apply NoDup_cons in Hnd as [He Hnd]. destruct IH as (l & Hl & Hlen); [done|intros; apply Hin; by right|].
  cbn [rconcat]. rewrite Hl. destruct (Hin e) as [_ Hea]; [left|]. destruct (HT _ _ _ _ Hea) as [ty Hty]. rewrite Hty.
  cbn [of_option rbind]. case_decide as Hd; [|by exists l]. subst ty. exists ([e.1.1.1] ++ l). split; [done|].
  destruct l as [|x l]; [simpl; lia|]. exfalso.
  assert (Hx : x ∈ x :: l) by left. apply rconcat_Ok in Hl as (ls & HF & E). rewrite E in Hx.
  apply elem_concat in Hx as (l' & Hx & Hl'). apply elem_of_list_lookup in Hl' as [i Hi].
  destruct (Forall2_lookup_r _ _ _ _ _ HF Hi) as (e' & He' & Hf). apply elem_of_list_lookup_2 in He'.
  destruct (Hin e') as [Hv Hea']; [by right|]. apply rbind_Ok in Hf as (ty' & Hty' & [= <-]).
  case_decide as Hd'; [|by apply elem_of_nil in Hx]. subst ty'.
  destruct (dget "edge_type" e'.2) as [w|] eqn:Ew; [|done]. simpl in Hty'. injection Hty' as ->.
  destruct (H1 _ _ _ _ _ _ _ Hea Hty Hea' Ew) as [Hu Hk]. apply He.
  destruct (Hin e) as [Hv0 _]; [left|].
  assert (e = e') as ->; [|done].
  destruct e as [[[u v] k] a], e' as [[[u' v'] k'] a']. simpl in *. subst. rewrite Hea in Hea'. by injection Hea' as ->.
Qed.

(** ** positions *)
Definition has_parent (g : graph) (n : nid) : Prop := ∃ p, dom g p n.
Lemma climb_ok g : Consistent g → ∀ f i n path path', climb f g i n path = Ok path' →
  ∀ m x, dget m path' = Some x ↔
    dget m path = Some x ∨ (dget m path = None ∧ x = i ∧ has_parent g m ∧ rtc (dom g) m n).
Proof.
  intros C. induction f as [|f IH]; intros i n path path'; [done|]. cbn [climb].
  intros (ps & Hps & H)%rbind_Ok. apply parents_ok in Hps as (Hn & Hpar & Hlen); [|done].
  destruct ps as [|p ps].
  - injection H as <-. intros m x. split; [by left|]. intros [?|(_ & _ & [p Hp] & Hr)]; [done|]. exfalso.
    apply rtc_inv_r in Hr as [<-|(y & _ & Hy)]; [apply Hpar in Hp|apply Hpar in Hy]; by eapply elem_of_nil.
  - destruct ps as [|? ?]; [|simpl in Hlen; lia]. assert (Hp : dom g p n) by (apply Hpar; left).
    assert (Huniq : ∀ y, dom g y n → y = p) by (intros y Hy%Hpar; by apply elem_of_list_singleton in Hy).
    assert (Hr : ∀ m, rtc (dom g) m n ↔ m = n ∨ rtc (dom g) m p).
    { intros m. split.
      - intros [->|(y & Hy & Hd)]%rtc_inv_r; [by left|]. apply Huniq in Hd as ->. by right.
      - intros [->|Hm]; [apply rtc_refl|]. by eapply rtc_r. }
    intros m x. rewrite (IH _ _ _ _ H). clear H IH.
    destruct (dmem n path) eqn:E.
    + rewrite Hr. apply dmem_spec, dget_is_Some in E as [z Hz].
      split; [intros [?|(H1 & H2 & H3 & H4)]; [by left|right; naive_solver]|].
      intros [?|(H1 & H2 & H3 & [->|H4])]; [by left|congruence|right; naive_solver].
    + apply dmem_false, dget_None in E. rewrite dget_dset. rewrite Hr. destruct (decide (m = n)) as [->|Hne].
      * split; [|intros [?|(_ & -> & _)]; [congruence|by left]].
        intros [[= <-]|(? & _)]; [|done]. right. split; [done|]. split; [done|]. split; [by exists p|by left].
      * split; [intros [?|(H1 & H2 & H3 & H4)]; [by left|right; naive_solver]|].
        intros [?|(H1 & H2 & H3 & [->|H4])]; [by left|done|right; naive_solver].
Qed.
Lemma positions_ok g : Consistent g → ∀ f toks i path path', positions_from f g i toks path = Ok path' →
  ∀ m x, dget m path' = Some x ↔ dget m path = Some x ∨
    (dget m path = None ∧ has_parent g m ∧ ∃ k t, toks !! k = Some t ∧ x = i + k ∧ rtc (dom g) m t ∧
      ∀ j t', j < k → toks !! j = Some t' → ¬ rtc (dom g) m t').
Proof.
  intros C f. induction toks as [|t toks IH]; intros i path path'.
  - intros [= <-] m x. split; [by left|]. intros [?|(_ & _ & k & t & Hk & _)]; [done|]. by rewrite lookup_nil in Hk.
  - cbn [positions_from]. intros (path1 & Hc & H)%rbind_Ok m x. rewrite (IH _ _ _ H).
    pose proof (climb_ok g C _ _ _ _ _ Hc) as Hcl. clear Hc H IH. split.
    + intros [Hx|(Hno & Hp & k & t' & Hk & -> & Hr & Hmin)].
      * apply Hcl in Hx as [?|(Hno & -> & Hp & Hr)]; [by left|]. right. split; [done|]. split; [done|].
        exists 0, t. split; [done|]. split; [lia|]. split; [done|]. intros j ? Hj. lia.
      * right. assert (Hno' : dget m path = None).
        { destruct (dget m path) as [z|] eqn:E; [|done]. assert (Hz : dget m path1 = Some z) by (apply Hcl; by left). congruence. }
        split; [done|]. split; [done|]. exists (S k), t'. split; [done|]. split; [lia|]. split; [done|].
        intros [|j] t'' Hj Ht''; [|apply (Hmin j); [lia|done]]. injection Ht'' as <-. intros Hrt.
        assert (Hz : dget m path1 = Some i) by (apply Hcl; right; done). congruence.
    + intros [Hx|(Hno & Hp & k & t' & Hk & -> & Hr & Hmin)].
      * left. apply Hcl. by left.
      * destruct k as [|k].
        -- injection Hk as <-. left. apply Hcl. right. split; [done|]. split; [lia|done].
        -- right. split.
           { destruct (dget m path1) as [z|] eqn:E; [|done]. apply Hcl in E as [E|(_ & -> & _ & Hr0)]; [congruence|].
             exfalso. apply (Hmin 0 t); [lia|done|done]. }
           split; [done|]. exists k, t'. split; [done|]. split; [lia|]. split; [done|].
           intros j t'' Hj. apply (Hmin (S j)). lia.
Qed.
Lemma horizontal_ok f g sent root xpos : Consistent g → horizontal_positions f g sent root = Ok xpos →
  ∀ m x, m ≠ root → has_parent g m → dget m xpos = Some x ↔ first_token_of g (tokens_for g sent root) m x.
Proof.
  intros C H m x Hm Hp.
  assert (G : ∃ path0, dget m path0 = None ∧ positions_from f g 0 (tokens_for g sent root) path0 = Ok xpos).
  { unfold horizontal_positions in H. unfold tokens_for. destruct (decide (root = g_root g)); [by exists []|].
    destruct (dmem root (g_node g)); [|done]. destruct (dget root sent) as [toks|]; [|by exists []].
    exists [(root, 0)]. split; [|done]. simpl. by rewrite decide_False. }
  destruct G as (path0 & Hno & Hpos). rewrite (positions_ok g C _ _ _ _ _ Hpos). unfold first_token_of. split.
  - intros [?|(_ & _ & k & t & Hk & -> & Hr & Hmin)]; [congruence|]. split; [by exists t|].
    intros j t' Hj Hr'. destruct (decide (k ≤ j)); [simpl; lia|]. exfalso. apply (Hmin j t'); [lia|done|done].
  - intros [(t & Ht & Hr) Hmin]. right. split; [done|]. split; [done|]. exists x, t. split; [done|]. split; [lia|].
    split; [done|]. intros j t' Hj Ht' Hr'. specialize (Hmin j t' Ht' Hr'). lia.
Qed.
(** termination of the climb *)
Lemma tc_flip' {A} (R : A → A → Prop) x y : tc (flip R) x y → tc R y x.
Proof. induction 1 as [x y H|x y z H _ IH]; [by apply tc_once|]. by eapply tc_r. Qed.
Lemma climb_ends g : Consistent g → acyclic (dom g) → ∀ i n path, ∀ f, length (nodes g) < f →
  climb f g i n path ≠ Err OutOfFuel.
Proof.
  intros C Hac i n path f Hf. revert f n Hf path.
  apply (acyclic_fuel (flip (dom g)) (nodes g) (λ f n, ∀ path, climb f g i n path ≠ Err OutOfFuel)).
  - intros x Hx. apply (Hac x). by apply tc_flip'.
  - intros x y H. by apply (dom_nodes g y x).
  - intros k x IH path. cbn [climb]. intros [H|(ps & Hps & H)]%rbind_Err; [by apply parents_fuel in H|].
    destruct ps as [|p ps]; [done|]. apply parents_ok in Hps as (_ & Hps & _); [|done].
    apply (IH p) in H; [done|]. apply Hps. left.
Qed.
Lemma positions_ends g : Consistent g → acyclic (dom g) → ∀ f, length (nodes g) < f → ∀ toks i path,
  positions_from f g i toks path ≠ Err OutOfFuel.
Proof.
  intros C Hac f Hf. induction toks as [|t toks IH]; intros i path; [done|]. cbn [positions_from].
  intros [H|(p & _ & H)]%rbind_Err; [by apply climb_ends in H|by apply IH in H].
Qed.
Lemma climb_mono g i : ∀ f n path r, climb f g i n path = r → r ≠ Err OutOfFuel → ∀ f', f ≤ f' → climb f' g i n path = r.
Proof.
  induction f as [|f IH]; intros n path r H Hr f' Hf; [simpl in H; congruence|]. destruct f' as [|f']; [lia|]. cbn [climb] in *.
  destruct (get_parents g n) as [ps|e]; [|done]. cbn [rbind] in *. destruct ps as [|p ps]; [done|].
  apply IH; [done|done|lia].
Qed.
Lemma positions_mono g : ∀ toks f i path r, positions_from f g i toks path = r → r ≠ Err OutOfFuel →
  ∀ f', f ≤ f' → positions_from f' g i toks path = r.
Proof.
  induction toks as [|t toks IH]; intros f i path r H Hr f' Hf; [done|]. cbn [positions_from] in *.
  destruct (climb f g i t path) as [p|e] eqn:E; cbn [rbind] in H.
  - rewrite (climb_mono g i f t path _ E) with (f' := f') by done. cbn [rbind]. by apply (IH f).
  - rewrite (climb_mono g i f t path _ E) with (f' := f'); [done| |done]. congruence.
Qed.
Lemma climb_total g : Consistent g → typed g → one_parent g → ∀ f i n path, n ∈ nodes g →
  (∃ p, climb f g i n path = Ok p) ∨ climb f g i n path = Err OutOfFuel.
Proof.
  intros C HT H1. induction f as [|f IH]; intros i n path Hn; [by right|]. cbn [climb].
  destruct (parents_total g n C HT H1 Hn) as [ps Hps]. rewrite Hps. cbn [rbind]. destruct ps as [|p ps]; [left; by eexists|].
  apply IH. apply parents_ok in Hps as (_ & Hps & _); [|done]. apply (dom_nodes g p n C). apply Hps. left.
Qed.
Lemma positions_total g : Consistent g → typed g → one_parent g → ∀ f toks i path, Forall (λ t, t ∈ nodes g) toks →
  (∃ p, positions_from f g i toks path = Ok p) ∨ positions_from f g i toks path = Err OutOfFuel.
Proof.
  intros C HT H1 f. induction toks as [|t toks IH]; intros i path HF; [left; by eexists|].
  apply Forall_cons in HF as [Ht HF]. cbn [positions_from].
  destruct (climb_total g C HT H1 f i t path Ht) as [[p ->]| ->]; [|by right]. cbn [rbind]. by apply IH.
Qed.
(** a token below a dominance cycle: the climb never ends *)
Lemma climb_cycle g : Consistent g → typed g → one_parent g → ∀ n, n ∈ nodes g →
  (∀ m, rtc (dom g) m n → has_parent g m) → ∀ f i path, climb f g i n path = Err OutOfFuel.
Proof.
  intros C HT H1 n Hn Hc f. revert n Hn Hc. induction f as [|f IH]; intros n Hn Hc i path; [done|]. cbn [climb].
  destruct (parents_total g n C HT H1 Hn) as [ps Hps]. rewrite Hps. cbn [rbind].
  apply parents_ok in Hps as (_ & Hps & _); [|done]. destruct (Hc n) as [p Hp]; [apply rtc_refl|].
  destruct ps as [|p' ps]; [apply Hps in Hp; by apply elem_of_nil in Hp|].
  assert (Hp' : dom g p' n) by (apply Hps; left).
  apply IH; [by apply (dom_nodes g p' n)|]. intros m Hm. apply Hc. by eapply rtc_r.
Qed.

(** ** sorted children *)
Lemma sort_by_pos_ok xpos l r : sort_by_pos xpos l = Ok r → r ≡ₚ l ∧ (∀ x, x ∈ l → is_Some (dget x xpos)) ∧
  ∀ i j x y p q, i < j → r !! i = Some x → r !! j = Some y → dget x xpos = Some p → dget y xpos = Some q → p ≤ q.
Proof.
  unfold sort_by_pos. destruct (forallb _ l) eqn:E; [|done]. intros [= <-]. split; [apply isort_perm|]. split.
  - rewrite forallb_forall in E. intros x Hx. apply dget_is_Some, dmem_spec, E. by apply elem_of_list_In.
  - intros i j x y p q Hij Hi Hj Hp Hq. set (cmp := λ x y : nid, _) in *.
    assert (Hs : sorted cmp (isort cmp l)).
    { apply isort_sorted.
      - intros a b c. unfold cle, cmp. rewrite !Nat.compare_gt_iff. lia.
      - intros a b. unfold cle, cmp. rewrite !Nat.compare_gt_iff. lia. }
    specialize (Hs i j x y Hij Hi Hj). unfold cle, cmp in Hs. rewrite Hp, Hq in Hs. simpl in Hs.
    rewrite Nat.compare_gt_iff in Hs. lia.
Qed.
Lemma sort_by_pos_total xpos l : (∀ x, x ∈ l → is_Some (dget x xpos)) → ∃ r, sort_by_pos xpos l = Ok r.
Proof.
  intros H. unfold sort_by_pos. assert (forallb (λ x, dmem x xpos) l = true) as ->; [|by eexists].
  apply forallb_forall. intros x Hx%elem_of_list_In. by apply dmem_spec, dget_is_Some, H.
Qed.
Lemma sort_by_pos_error xpos l e : sort_by_pos xpos l = Err e → e = KeyError ∧ ∃ x, x ∈ l ∧ dget x xpos = None.
Proof.
  unfold sort_by_pos. destruct (forallb _ l) eqn:E; [done|]. intros [= <-]. split; [done|].
  assert (¬ Forall (λ x, is_Some (dget x xpos)) l) as H.
  { intros HF. assert (forallb (λ x, dmem x xpos) l = true); [|congruence].
    apply forallb_forall. intros x Hx%elem_of_list_In. rewrite Forall_forall in HF. by apply dmem_spec, dget_is_Some, HF. }
  clear E. induction l as [|x l IH]; [by destruct H|]. destruct (dget x xpos) as [v|] eqn:Ex; [|exists x; split; [left|done]].
  destruct IH as (y & Hy & Hn); [|exists y; split; [by right|done]]. intros HF. apply H. constructor; [by rewrite Ex; eexists|done].
Qed.
Lemma sorted_children_ok g xpos n l : Consistent g → sorted_children g xpos n = Ok l →
  NoDup l ∧ (∀ c, c ∈ l ↔ dom g n c) ∧ (∀ c, c ∈ l → is_Some (dget c xpos)) ∧
  ∀ i j x y p q, i < j → l !! i = Some x → l !! j = Some y → dget x xpos = Some p → dget y xpos = Some q → p ≤ q.
Proof.
  intros C. unfold sorted_children. intros (cs & Hcs & Hs)%rbind_Ok.
  destruct (decide (n ∈ nodes g)) as [Hn|Hn]; [|rewrite child_nodes_unknown in Hcs; done].
  destruct (child_nodes_ok g n C Hn) as (cs' & Hcs' & Hnd & Hd). rewrite Hcs in Hcs'. injection Hcs' as <-.
  apply sort_by_pos_ok in Hs as (Hperm & Hsome & Hord). split_and!.
  - by rewrite Hperm.
  - intros c. by rewrite Hperm.
  - intros c Hc. apply Hsome. by rewrite <-Hperm.
  - done.
Qed.
