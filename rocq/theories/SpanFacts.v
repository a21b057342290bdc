(** * SpanFacts: recursion over acyclic graphs; get_span *)
From Verif Require Import PyBase DocGraph Relabel SpecGraph DocGraphFacts History Effects
  RelabelFacts MergeFacts AllHist MergeAll GraphThms StrNum Query SpecQuery NatSort.

Global Instance res_eq_dec {A} `{EqDecision A} : EqDecision (res A).
Proof. solve_decision. Defined.

(** ** Lists of results *)
Lemma elem_concat {A} (x : A) ls : x ∈ concat ls ↔ ∃ l, x ∈ l ∧ l ∈ ls.
Proof. rewrite elem_of_list_In, in_concat. setoid_rewrite elem_of_list_In. naive_solver. Qed.
Lemma rmap_Ok {A B} (f : A → res B) l r : rmap f l = Ok r ↔ Forall2 (λ x y, f x = Ok y) l r.
Proof.
  revert r. induction l as [|x l IH]; intros r; simpl.
  - split; [by intros [= <-]|]. by intros ->%Forall2_nil_inv_l.
  - split.
    + intros (y & Hy & H)%rbind_Ok. apply rbind_Ok in H as (ys & Hys & [= <-]).
      constructor; [done|]. by apply IH.
    + intros (y & ys & Hy & Hys & ->)%Forall2_cons_inv_l. rewrite Hy. simpl.
      apply IH in Hys. by rewrite Hys.
Qed.
Lemma rconcat_Ok {A B} (f : A → res (list B)) l r :
  rconcat f l = Ok r ↔ ∃ rs, Forall2 (λ x y, f x = Ok y) l rs ∧ r = concat rs.
Proof.
  revert r. induction l as [|x l IH]; intros r; simpl.
  - split; [intros [= <-]; by exists []|]. by intros (rs & ->%Forall2_nil_inv_l & ->).
  - split.
    + intros (y & Hy & H)%rbind_Ok. apply rbind_Ok in H as (ys & Hys & [= <-]).
      apply IH in Hys as (rs & HF & ->). exists (y :: rs). split; [by constructor|done].
    + intros (rs & HF & ->). apply Forall2_cons_inv_l in HF as (y & ys & Hy & Hys & ->).
      rewrite Hy. simpl. assert (E : rconcat f l = Ok (concat ys)) by (apply IH; eauto). by rewrite E.
Qed.
Lemma rfilter_Ok {A} (f : A → res bool) l r :
  rfilter f l = Ok r → Forall (λ x, ∃ b, f x = Ok b) l ∧ r = filter (λ x, f x = Ok true) l.
Proof.
  revert r. induction l as [|x l IH]; intros r; simpl.
  - intros [= <-]. split; [constructor|done].
  - intros (b & Hb & H)%rbind_Ok. apply rbind_Ok in H as (rs & Hr & [= <-]).
    apply IH in Hr as [HF ->]. split; [constructor; eauto|]. rewrite filter_cons.
    destruct b.
    + by rewrite decide_True.
    + rewrite decide_False; [done|congruence].
Qed.
Lemma rfilter_total {A} (f : A → res bool) l :
  Forall (λ x, ∃ b, f x = Ok b) l → rfilter f l = Ok (filter (λ x, f x = Ok true) l).
Proof.
  induction 1 as [|x l [b Hb] HF IH]; [done|]. simpl. rewrite Hb. simpl. rewrite IH. simpl.
  rewrite filter_cons. destruct b.
  - by rewrite decide_True.
  - rewrite decide_False; [done|congruence].
Qed.

(** ** Recursion over a finite acyclic relation needs at most |L|+1 levels *)
Lemma acyclic_fuel {A} `{EqDecision A} (R : A → A → Prop) (L : list A) (P : nat → A → Prop) :
  acyclic R → (∀ x y, R x y → x ∈ L) →
  (∀ k x, (∀ y, R x y → P k y) → P (S k) x) → ∀ k x, length L < k → P k x.
Proof.
  intros Hac HL Hstep.
  assert (H : ∀ k x p, NoDup p → p ⊆ L → (∀ z, z ∈ p → tc R z x) → length L < k + length p → P k x).
  { intros k. induction k as [|k IH]; intros x p Hnd Hp Hreach Hlen.
    - pose proof (submseteq_length _ _ (NoDup_submseteq _ _ Hnd Hp)). simpl in Hlen. lia.
    - apply Hstep. intros y Hxy. apply (IH y (x :: p)).
      + constructor; [|done]. intros Hx. exact (Hac x (Hreach x Hx)).
      + intros z [->|Hz]%elem_of_cons; [by eapply HL|by apply Hp].
      + intros z [->|Hz]%elem_of_cons; [by apply tc_once|]. eapply tc_r; [by apply Hreach|done].
      + simpl. lia. }
  intros k x Hk. apply (H k x []); [apply NoDup_nil_2|intros ? Hz; by apply elem_of_nil in Hz|intros z Hz; by apply elem_of_nil in Hz|simpl; lia].
Qed.

Section span.
  Implicit Types g : graph.
  Lemma edge_node_l g u v k a : Consistent g → edge_attrs g u v k = Some a → u ∈ nodes g.
  Proof. intros C H%edge_succ. by apply (succ_nodes g u v C) in H as [? ?]. Qed.
  Lemma edge_node_r g u v k a : Consistent g → edge_attrs g u v k = Some a → v ∈ nodes g.
  Proof. intros C H%edge_succ. by apply (succ_nodes g u v C) in H as [? ?]. Qed.
  Lemma istoken_Ok g n b : istoken g n = Ok b → n ∈ nodes g ∧ (b = true ↔ is_token g n).
  Proof.
    unfold istoken, is_token. destruct (node_attrs g n) as [a|] eqn:E; [|done]. intros [= <-].
    split; [apply node_mem; by eexists|]. rewrite dmem_spec, <-dget_is_Some. naive_solver.
  Qed.
  Lemma istoken_total g n : n ∈ nodes g → ∃ b, istoken g n = Ok b.
  Proof. intros [a Ha]%node_mem. unfold istoken. rewrite Ha. eauto. Qed.

  Definition child_span (k : nat) g (n : nid) (e : nid * nid * nid * attrs) : res (list nid) :=
    if decide (e.1.1.2 = n) then Ok []
    else let! ty := of_option KeyError (dget "edge_type" e.2) in
         if decide (ty = VStr points_to) then Ok [] else get_span k g e.1.1.2.
  Lemma get_span_S k g n l : get_span (S k) g n = Ok l ↔
    ∃ b rs, istoken g n = Ok b ∧ Forall2 (λ e r, child_span k g n e = Ok r) (out_edges g n) rs ∧
      l = nat_sorted ((if b then [n] else []) ++ concat rs).
  Proof.
    cbn [get_span]. rewrite rbind_Ok. split.
    - intros (b & Hb & H). apply rbind_Ok in H as (bl & Hbl & [= <-]).
      apply rconcat_Ok in Hbl as (rs & HF & ->). by exists b, rs.
    - intros (b & rs & Hb & HF & ->). exists b. split; [done|]. apply rbind_Ok. exists (concat rs).
      split; [|done]. apply rconcat_Ok. by exists rs.
  Qed.
  Lemma get_span_mono k k' g n l : get_span k g n = Ok l → k ≤ k' → get_span k' g n = Ok l.
  Proof.
    revert k' n l. induction k as [|k IH]; intros k' n l; [done|].
    intros (b & rs & Hb & HF & ->)%get_span_S Hk. destruct k' as [|k']; [lia|].
    apply get_span_S. exists b, rs. split; [done|]. split; [|done].
    eapply Forall2_impl; [done|]. intros e r. unfold child_span. case_decide; [done|].
    destruct (dget "edge_type" e.2) as [ty|]; simpl; [|done]. case_decide; [done|].
    intros Hs. apply (IH k'); [done|lia].
  Qed.
  (** the recursive calls *)
  Lemma child_span_covers k g n e r : Consistent g → e ∈ out_edges g n → child_span k g n e = Ok r →
    (covers g n e.1.1.2 ∧ get_span k g e.1.1.2 = Ok r ∧ dget "edge_type" e.2 ≠ Some (VStr points_to)) ∨ r = [].
  Proof.
    intros C. destruct e as [[[u v] key] a]. simpl. intros [-> He]%elem_out_edges; [|done].
    unfold child_span. simpl. case_decide; [intros [= <-]; by right|].
    destruct (dget "edge_type" a) as [ty|] eqn:Et; simpl; [|done].
    case_decide; [intros [= <-]; by right|]. intros Hs. left. split; [|split; [done|by intros [= ->]]].
    split; [done|]. exists key, a. rewrite Et. split; [done|]. by intros [= ->].
  Qed.
  Lemma covers_child k g n v : Consistent g → covers g n v →
    ∃ e, e ∈ out_edges g n ∧ e.1.1.2 = v ∧
      ∀ r, child_span k g n e = Ok r → get_span k g v = Ok r.
  Proof.
    intros C (Hne & key & a & He & Ht). exists (n, v, key, a). split; [by apply elem_out_edges|].
    split; [done|]. unfold child_span. simpl. rewrite decide_False by done.
    destruct (dget "edge_type" a) as [ty|]; simpl; [|done]. rewrite decide_False; [done|]. intros ->. done.
  Qed.
  Lemma covers_nodes g u v : Consistent g → covers g u v → u ∈ nodes g ∧ v ∈ nodes g.
  Proof.
    intros C (_ & k & a & He & _). split.
    - by eapply edge_node_l.
    - by eapply edge_node_r.
  Qed.
  (** every result of get_span is right, whatever the graph *)
  Lemma get_span_elem g : Consistent g → ∀ k n l, get_span k g n = Ok l →
    ∀ t, t ∈ l ↔ is_token g t ∧ below g n t.
  Proof.
    intros C k. induction k as [|k IH]; intros n l; [done|].
    intros (b & rs & Hb & HF & ->)%get_span_S t. rewrite (nat_sorted_perm _).
    apply istoken_Ok in Hb as [Hn Hb]. rewrite elem_of_app, elem_concat. split.
    - intros [Ht|(r & Ht & Hr)].
      + destruct b; [|by apply elem_of_nil in Ht]. apply elem_of_list_singleton in Ht as ->.
        split; [by apply Hb|constructor].
      + apply elem_of_list_lookup in Hr as [i Hi].
        destruct (Forall2_lookup_r _ _ _ _ _ HF Hi) as (e & He & Hc).
        apply elem_of_list_lookup_2 in He.
        destruct (child_span_covers _ _ _ _ _ C He Hc) as [(Hcov & Hs & _)| ->]; [|by apply elem_of_nil in Ht].
        apply (IH _ _ Hs) in Ht as [? ?]. split; [done|]. by eapply rtc_l.
    - intros [Ht Hbel]. inversion Hbel as [|? v ? Hcov Hbel']; subst.
      + left. destruct b; [left|]. by apply Hb in Ht.
      + right. destruct (covers_child k g n v C Hcov) as (e & He & Hev & Hc).
        apply elem_of_list_lookup in He as [i Hi].
        destruct (Forall2_lookup_l _ _ _ _ _ HF Hi) as (r & Hr & Hcr).
        exists r. split; [|by eapply elem_of_list_lookup_2].
        apply (IH _ _ (Hc r Hcr)). done.
  Qed.
  Lemma get_span_sorted k g n l : get_span k g n = Ok l → sorted nat_cmp l.
  Proof.
    destruct k as [|k]; [done|]. intros (b & rs & _ & _ & ->)%get_span_S. apply nat_sorted_sorted.
  Qed.
  Lemma get_span_total g n : Consistent g → typed g → acyclic (covers g) → n ∈ nodes g →
    ∃ l, ∀ k, length (nodes g) < k → get_span k g n = Ok l.
  Proof.
    intros C T Hac Hn.
    assert (H : ∀ k n, length (nodes g) < k → n ∈ nodes g → ∃ l, get_span k g n = Ok l).
    { apply (acyclic_fuel (covers g) (nodes g) (λ k n, n ∈ nodes g → ∃ l, get_span k g n = Ok l) Hac).
      - intros x y Hxy. by apply (covers_nodes g x y).
      - clear n Hn. intros k n IH Hn. destruct (istoken_total g n Hn) as [b Hb].
        assert (HF : Forall (λ e, ∃ r, child_span k g n e = Ok r) (out_edges g n)).
        { apply Forall_forall. intros [[[u v] key] a] He. apply elem_out_edges in He as [-> He]; [|done].
          unfold child_span. simpl. destruct (decide (v = n)); [eauto|].
          destruct (T _ _ _ _ He) as [ty Ht]. rewrite Ht. simpl.
          destruct (decide (ty = VStr points_to)); [eauto|]. apply IH.
          - split; [done|]. exists key, a. split; [done|]. rewrite Ht. intros [= ->]. done.
          - by eapply edge_node_r. }
        assert (∃ rs, Forall2 (λ e r, child_span k g n e = Ok r) (out_edges g n) rs) as [rs Hrs].
        { clear -HF. induction HF as [|e es [r Hr] HF [rs IH]]; [by exists []|]. exists (r :: rs). by constructor. }
        eexists. apply get_span_S. exists b, rs. done. }
    destruct (H (S (length (nodes g))) n) as [l Hl]; [lia|done|]. exists l. intros k Hk.
    eapply get_span_mono; [exact Hl|lia].
  Qed.
  (** on a cycle get_span never returns *)
  Lemma get_span_cycle g : Consistent g → ∀ k n l, tc (covers g) n n → get_span k g n ≠ Ok l.
  Proof.
    intros C k. induction k as [|k IH]; intros n l Hc; [done|].
    intros (b & rs & Hb & HF & _)%get_span_S.
    assert (∃ v, covers g n v ∧ rtc (covers g) v n) as (v & Hcov & Hv).
    { inversion Hc; subst; eexists; split; eauto using tc_rtc, rtc_refl. }
    destruct (covers_child k g n v C Hcov) as (e & He & Hev & Hs).
    apply elem_of_list_lookup in He as [i Hi].
    destruct (Forall2_lookup_l _ _ _ _ _ HF Hi) as (r & Hr & Hcr).
    apply (IH v r); [|by apply Hs]. eapply tc_rtc_l; [done|by apply tc_once].
  Qed.
  (** no token is listed twice if every node has one covering edge into it *)
  Lemma comparable g : (∀ u1 u2 v, covers g u1 v → covers g u2 v → u1 = u2) →
    ∀ t x y, below g x t → below g y t → below g x y ∨ below g y x.
  Proof.
    intros Hone t x y Hx. revert y. revert t Hx.
    refine (rtc_ind_r _ x _ _); [|intros t t' Hx Hs IH]; intros y Hy.
    - by right.
    - apply rtc_inv_r in Hy as [->|(z & Hyz & Hz)].
      + left. eapply rtc_r; done.
      + assert (z = t) as -> by by eapply Hone. by apply IH.
  Qed.
  Lemma get_span_NoDup g : Consistent g → acyclic (covers g) →
    (∀ u1 u2 v k1 a1 k2 a2, u1 ≠ v → u2 ≠ v →
       edge_attrs g u1 v k1 = Some a1 → dget "edge_type" a1 ≠ Some (VStr points_to) →
       edge_attrs g u2 v k2 = Some a2 → dget "edge_type" a2 ≠ Some (VStr points_to) →
       u1 = u2 ∧ k1 = k2) →
    ∀ k n l, get_span k g n = Ok l → NoDup l.
  Proof.
    intros C Hac Hone.
    assert (Hone' : ∀ u1 u2 v, covers g u1 v → covers g u2 v → u1 = u2).
    { intros u1 u2 v (N1 & k1 & a1 & E1 & T1) (N2 & k2 & a2 & E2 & T2).
      exact (proj1 (Hone u1 u2 v k1 a1 k2 a2 N1 N2 E1 T1 E2 T2)). }
    intros k. induction k as [|k IH]; intros n l; [done|].
    intros (b & rs & Hb & HF & ->)%get_span_S. rewrite (nat_sorted_perm _).
    assert (Hcyc : ∀ v, covers g n v → ¬ below g v n).
    { intros v Hv Hb'. apply (Hac n). eapply tc_rtc_r; [by apply tc_once|done]. }
    assert (Hdisj : ∀ v1 v2 t, covers g n v1 → covers g n v2 → below g v1 t → below g v2 t → v1 = v2).
    { intros v1 v2 t H1 H2 Ht1 Ht2.
      destruct (decide (v1 = v2)) as [|Hne]; [done|]. exfalso.
      destruct (comparable g Hone' t v1 v2 Ht1 Ht2) as [Hr|Hr]; apply rtc_inv_r in Hr as [Hr|(z & Hz & Hz')];
        try congruence.
      - assert (z = n) as -> by by eapply Hone'. by apply (Hcyc v1).
      - assert (z = n) as -> by by eapply Hone'. by apply (Hcyc v2). }
    assert (Hin : Forall (λ e, e ∈ out_edges g n) (out_edges g n)) by by apply Forall_forall.
    assert (Hnd : NoDup (out_edges g n)).
    { apply istoken_Ok in Hb as [Hn _]. rewrite (out_edges_filter g n C Hn). apply NoDup_filter. by apply NoDup_edges. }
    assert (Hcat : NoDup (concat rs) ∧ ∀ t, t ∈ concat rs → ∃ v, covers g n v ∧ below g v t).
    { revert rs HF Hin Hnd. generalize (out_edges g n) at 1 3 4 as es. intros es. induction es as [|e es IHes].
      - intros rs HF _ _. apply Forall2_nil_inv_l in HF as ->. split; [apply NoDup_nil_2|]. intros t Ht. by apply elem_of_nil in Ht.
      - intros rs HF Hin Hnd. apply Forall2_cons_inv_l in HF as (r & rs' & Hr & HF & ->).
        apply Forall_cons in Hin as [He Hin]. apply NoDup_cons in Hnd as [Hni Hnd].
        destruct (IHes rs' HF Hin Hnd) as [IH1 IH2].
        destruct (child_span_covers _ _ _ _ _ C He Hr) as [(Hcov & Hs & Hty)| ->]; [|by split].
        simpl. split.
        + apply NoDup_app. split; [by eapply IH|]. split; [|done]. intros t Ht Ht2.
          apply (get_span_elem g C _ _ _ Hs) in Ht as [_ Ht].
          apply elem_concat in Ht2 as (r' & Ht2 & Hr'). apply elem_of_list_lookup in Hr' as [i Hi].
          destruct (Forall2_lookup_r _ _ _ _ _ HF Hi) as (e' & He' & Hc').
          apply elem_of_list_lookup_2 in He'. rewrite Forall_forall in Hin.
          pose proof (Hin e' He') as Hin'.
          destruct (child_span_covers _ _ _ _ _ C Hin' Hc') as [(Hcov' & Hs' & Hty')| ->]; [|by apply elem_of_nil in Ht2].
          apply (get_span_elem g C _ _ _ Hs') in Ht2 as [_ Ht2].
          pose proof (Hdisj _ _ _ Hcov Hcov' Ht Ht2) as Heq.
          destruct e as [[[u v] key] a], e' as [[[u' v'] key'] a']. simpl in *. subst v'.
          apply elem_out_edges in He as [-> He]; [|done]. apply elem_out_edges in Hin' as [-> Hin']; [|done].
          destruct (Hone n n v key a key' a') as [_ <-]; try done; [apply Hcov|apply Hcov|].
          apply Hni. rewrite He in Hin'. injection Hin' as <-. done.
        + intros t [Ht|Ht]%elem_of_app; [|by apply IH2]. exists e.1.1.2. split; [done|].
          by apply (get_span_elem g C _ _ _ Hs) in Ht as [_ ?]. }
    apply NoDup_app. split; [destruct b; [apply NoDup_singleton|apply NoDup_nil_2]|]. split; [|apply Hcat].
    intros t Ht Ht2. destruct b; [|by apply elem_of_nil in Ht]. apply elem_of_list_singleton in Ht as ->.
    apply Hcat in Ht2 as (v & Hv & Hv2). by apply (Hcyc v).
  Qed.
End span.
