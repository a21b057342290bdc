(** * UrmlCorpusFacts: proofs for C106 *)
From Verif Require Import PyBase DocGraph Relabel StrNum Query Urml UrmlCorpus SpecUrmlCorpus.

Lemma resets_snoc es k a : resets (es ++ [(k, a)]) = resets es + match k with CReset => 1 | _ => 0 end.
Proof. unfold resets. induction es as [|e es IH]; cbn in *; lia. Qed.
Global Instance gen_at_eq_dec : EqDecision gen_at.
Proof. solve_decision. Defined.
Global Instance call_eq_dec : EqDecision call.
Proof. solve_decision. Defined.
Lemma snoc_inv {A} (a b : list A) x y : a ++ [x] = b ++ [y] → a = b ∧ x = y.
Proof. apply app_inj_tail. Qed.
Lemma made_det es l : made es l → ∀ l', made es l' → l = l'.
Proof.
  induction 1 as [|es a l _ IH|es k a l Hk _ IH]; intros l' H; inversion H as [E|es' a' l2 Hm E|es' k' a' l2 Hk' Hm E]; subst;
    try (apply snoc_inv in E as [E1 E2]; simplify_eq); try done; try (by destruct es); try (by destruct es').
  - by rewrite (IH _ Hm).
  - by apply IH.
Qed.
Lemma asks_det es k x y : asks es k x → asks es k y → x = y.
Proof.
  intros [[-> ->]|(i & l & -> & Hm & Hi)] [[E ->]|(j & l' & E & Hm' & Hj)]; try done. injection E as <-.
  rewrite (made_det _ _ Hm _ Hm') in Hi. congruence.
Qed.
Lemma given_det x es l : given x es l → ∀ l', given x es l' → l = l'.
Proof.
  induction 1 as [|es k a l _ IH Ha Hd|es k a l _ IH Hn]; intros l' H; inversion H as [E|es' k' a' l2 Hg Ha' Hd' E|es' k' a' l2 Hg Hn' E]; subst;
    try (apply snoc_inv in E as [E1 E2]; simplify_eq); try done; try (by destruct es); try (by destruct es').
  - by rewrite (IH _ Hg).
  - by destruct Hn'.
  - by destruct Hn.
  - by apply IH.
Qed.
Lemma ended_snoc i es k a : ended i (es ++ [(k, a)]) ↔ ended i es ∨ k = CStep i ∧ (a = AStop ∨ ∃ e, a = AErr e).
Proof.
  unfold ended. split.
  - intros (b & H & Hb). apply elem_of_app in H as [H|H]; [left; by exists b|]. apply elem_of_list_singleton in H. injection H as <- <-. by right.
  - intros [(b & H & Hb)|[-> Ha]]; [exists b|exists a]; (split; [|done]); apply elem_of_app; [by left|right; by left].
Qed.
(** where an iterator waits in debug mode *)
Definition waits (es : list event) (i x k : nat) : Prop :=
  ∃ e1 e2, es = e1 ++ (CStep i, AElem x k) :: e2 ∧ ∀ a, (CStep i, a) ∉ e2.
Lemma waits_snoc_other es i x k c a : c ≠ CStep i → waits (es ++ [(c, a)]) i x k ↔ waits es i x k.
Proof.
  intros Hc. split.
  - intros (e1 & e2 & E & H). destruct e2 as [|y e2' _] using rev_ind; cycle 1.
    + rewrite app_comm_cons, (assoc_L (++)) in E. apply snoc_inv in E as [-> <-]. exists e1, e2'. split; [done|]. intros b Hb. apply (H b), elem_of_app. by left.
    + apply snoc_inv in E as [_ [= -> _]]. done.
  - intros (e1 & e2 & -> & H). exists e1, (e2 ++ [(c, a)]). split; [by rewrite <-(assoc_L (++))|].
    intros b [Hb|Hb%elem_of_list_singleton]%elem_of_app; [by apply (H b)|]. by injection Hb as <- _.
Qed.
Lemma waits_snoc_same es i x k a : waits (es ++ [(CStep i, a)]) i x k ↔ a = AElem x k.
Proof.
  split.
  - intros (e1 & e2 & E & H). destruct e2 as [|y e2' _] using rev_ind; cycle 1.
    + rewrite app_comm_cons, (assoc_L (++)) in E. apply snoc_inv in E as [-> <-]. destruct (H a). apply elem_of_app. right. by left.
    + by apply snoc_inv in E as [_ [= ->]].
  - intros ->. exists es, []. split; [done|]. by intros b ?%elem_of_nil.
Qed.
Lemma passed_snoc es x k c a : passed x k (es ++ [(c, a)]) ↔ passed x k es ∨ ∃ i, c = CStep i ∧ ∃ e1 e2, es = e1 ++ (CStep i, AElem x k) :: e2.
Proof.
  split.
  - intros (i & e1 & e2 & b & E & H). destruct e2 as [|y e2' _] using rev_ind; [by apply elem_of_nil in H|].
    rewrite app_comm_cons, (assoc_L (++)) in E. apply snoc_inv in E as [-> <-]. apply elem_of_app in H as [H|H%elem_of_list_singleton].
    + left. by exists i, e1, e2', b.
    + injection H as <- <-. right. exists i. split; [done|]. by exists e1, e2'.
  - intros [(i & e1 & e2 & b & -> & H)|(i & -> & e1 & e2 & ->)].
    + exists i, e1, (e2 ++ [(c, a)]), b. split; [by rewrite <-(assoc_L (++))|]. apply elem_of_app. by left.
    + exists i, e1, (e2 ++ [(CStep i, a)]), a. split; [by rewrite <-(assoc_L (++))|]. apply elem_of_app. right. by left.
Qed.
Lemma given_by e2 i x k e1 es : es = e1 ++ (CStep i, AElem x k) :: e2 → waits es i x k ∨ passed x k es.
Proof.
  revert es. induction e2 as [|[c a] e2 IH] using rev_ind; intros es ->.
  - left. exists e1, []. split; [done|]. by intros b ?%elem_of_nil.
  - rewrite app_comm_cons, (assoc_L (++)). destruct (decide (c = CStep i)) as [->|Hc].
    + right. apply passed_snoc. right. exists i. split; [done|]. by exists e1, e2.
    + destruct (IH _ eq_refl) as [H|H]; [left; by apply waits_snoc_other|right; apply passed_snoc; by left].
Qed.

Section inv.
Context (F : list urmldoc) (D T P : bool).
Record core (pos : list nat) (es : list event) : Prop := {
  co_len : length pos = S (resets es);
  co_given : ∀ x n, pos !! x = Some n → ∃ l, given x es l ∧ length l = n ∧ n ≤ length F ∧
    ∀ j a, l !! j = Some a → ∃ d, F !! j = Some d ∧ document_is D T P x j d a;
  co_future : ∀ x, resets es < x → given x es [];
}.
Lemma core_other pos es k a : k ≠ CReset → ¬ is_document a → core pos es → core pos (es ++ [(k, a)]).
Proof.
  intros Hk Ha [H1 H2 H3]. assert (E : resets (es ++ [(k, a)]) = resets es) by (rewrite resets_snoc; destruct k; [lia|lia|lia|lia|done]). split.
  - by rewrite E.
  - intros x n Hx. destruct (H2 x n Hx) as (l & Hg & Hl). exists l. split; [|done]. apply G_other; [done|]. by intros [_ ?].
  - intros x. rewrite E. intros Hx. apply G_other; [by apply H3|]. by intros [_ ?].
Qed.
Lemma core_reset pos es : core pos es → core (pos ++ [0]) (es ++ [(CReset, ANone)]).
Proof.
  intros [H1 H2 H3]. assert (E : resets (es ++ [(CReset, ANone)]) = S (resets es)) by (rewrite resets_snoc; lia). split.
  - rewrite E, app_length, H1. cbn. lia.
  - intros x n Hx. apply lookup_app_Some in Hx as [Hx|[Hx Hy]].
    + destruct (H2 x n Hx) as (l & Hg & Hl). exists l. split; [|done]. apply G_other; [done|]. by intros [_ ?].
    + destruct (x - length pos) eqn:E2; [|by destruct n0]. injection Hy as <-. exists []. split; [|split; [done|split; [lia|done]]].
      apply G_other; [apply H3; lia|]. by intros [_ ?].
  - intros x. rewrite E. intros Hx. apply G_other; [apply H3; lia|]. by intros [_ ?].
Qed.
Lemma core_doc pos es k a x n d : k ≠ CReset → asks es k x → x ≤ resets es → pos !! x = Some n → F !! n = Some d → is_document a → document_is D T P x n d a →
  core pos es → core (<[x := S n]> pos) (es ++ [(k, a)]).
Proof.
  intros Hk Hq Hx Hp Hd Ha Hi [H1 H2 H3]. assert (E : resets (es ++ [(k, a)]) = resets es) by (rewrite resets_snoc; destruct k; [lia|lia|lia|lia|done]).
  assert (Ho : ∀ y, y ≠ x → ¬ (asks es k y ∧ is_document a)) by (intros y Hy [Hq' _]; apply Hy; by eapply asks_det). split.
  - by rewrite insert_length, E.
  - intros y m Hy. destruct (decide (y = x)) as [->|Hn].
    + rewrite list_lookup_insert in Hy by by eapply lookup_lt_Some. injection Hy as <-.
      destruct (H2 x n Hp) as (l & Hg & Hl & Hle & Hj). exists (l ++ [a]). split; [by apply G_doc|]. split; [rewrite app_length; cbn; lia|].
      split; [by apply lookup_lt_Some in Hd|]. intros j b Hb. apply lookup_app_Some in Hb as [Hb|[Hb1 Hb2]]; [by apply Hj|].
      destruct (j - length l) eqn:E2; [|by destruct n0]. injection Hb2 as <-. assert (j = n) as -> by lia. by exists d.
    + rewrite list_lookup_insert_ne in Hy by done. destruct (H2 y m Hy) as (l & Hg & Hl). exists l. split; [|done]. apply G_other; [done|]. by apply Ho.
  - intros y. rewrite E. intros Hy. apply G_other; [by apply H3|]. apply Ho. lia.
Qed.
Record inv (c : ucorpus) (es : list event) : Prop := {
  in_const : uc_file c = F ∧ uc_debug c = D ∧ uc_tokenize c = T ∧ uc_precedence c = P;
  in_core : core (uc_pos c) es;
  in_made : made es (uc_gens c).*1;
  in_old : ∀ i x s, uc_gens c !! i = Some (x, s) → x ≤ resets es;
  in_fin : ∀ i x s, uc_gens c !! i = Some (x, s) → s = Finished ↔ ended i es;
  in_new : ∀ i a, (CStep i, a) ∈ es → is_Some (uc_gens c !! i) ∨ a = ANone;
  in_count : uc_count c = None ∨ uc_count c = Some (length F);
  in_wait : D = true → ∀ i x k, uc_gens c !! i = Some (x, Waiting k) ↔ waits es i x k;
  in_empty : D = true → ∀ x k, (x, k) ∈ uc_empty c ↔ passed x k es;
}.
(** what [advance] does *)
Lemma advance_spec c es x c' s a : uc_file c = F ∧ uc_debug c = D ∧ uc_tokenize c = T ∧ uc_precedence c = P → core (uc_pos c) es → x ≤ resets es → advance c x = (c', s, a) →
  ∃ n, uc_pos c !! x = Some n ∧
    ((F !! n = None ∧ c' = c ∧ s = Finished ∧ a = AStop) ∨
     ∃ d, F !! n = Some d ∧ is_document a ∧ document_is D T P x n d a ∧
       c' = UCorpus (uc_file c) (uc_debug c) (uc_tokenize c) (uc_precedence c) (<[x := S n]> (uc_pos c)) (uc_gens c) (uc_count c) (uc_empty c) ∧
       (s = Finished ∧ (∃ e, a = AErr e) ∧ D = false ∨ s = Waiting n ∧ (∀ e, a ≠ AErr e) ∧ (D = true → a = AElem x n))).
Proof.
  intros (H1 & H2 & H3 & H4) I Hx. unfold advance, yield_document. rewrite H1, H2, H3, H4.
  destruct (lookup_lt_is_Some_2 (uc_pos c) x) as [n Hn]; [rewrite (co_len _ _ I); lia|]. rewrite Hn. exists n. split; [done|].
  destruct (F !! n) as [d|] eqn:Ed; [|injection H as <- <- <-; by left]. right. exists d. split; [done|]. destruct D.
  - injection H as <- <- <-. split; [done|]. split; [done|]. split; [done|]. right. done.
  - unfold document_is. destruct (read_urml None "urml" T P d) as [[g edus] [e|]]; injection H as <- <- <-; (split; [done|]); (split; [done|]); (split; [done|]).
    + left. split; [done|]. split; [by exists e|done].
    + right. done.
Qed.
Lemma context_resets c es : inv c es → context c = resets es.
Proof. intros I. unfold context. rewrite (co_len _ _ (in_core c es I)). lia. Qed.
(** a call that does not ask an iterator and leaves the iterators as they are *)
Lemma inv_keep c es c' k a : (∀ i, k ≠ CStep i) → k ≠ CIter → inv c es →
  uc_file c' = F ∧ uc_debug c' = D ∧ uc_tokenize c' = T ∧ uc_precedence c' = P → core (uc_pos c') (es ++ [(k, a)]) →
  uc_gens c' = uc_gens c → uc_empty c' = uc_empty c → uc_count c' = None ∨ uc_count c' = Some (length F) → inv c' (es ++ [(k, a)]).
Proof.
  intros Hk Hk' [I1 I2 I3 I4 I5 I6 I7 I8 I9] H1 H2 H3 H4 H5. split; try done; try rewrite H3.
  - by apply M_other.
  - intros i x s Hi. apply I4 in Hi. rewrite resets_snoc. lia.
  - intros i x s Hi. rewrite ended_snoc, (I5 i x s Hi). naive_solver.
  - intros i b Hb. apply elem_of_app in Hb as [Hb|Hb%elem_of_list_singleton]; [by eapply I6|]. injection Hb as E _. by destruct (Hk i).
  - intros HD i x j. rewrite waits_snoc_other by done. by apply I8.
  - intros HD x j. rewrite H4, passed_snoc, (I9 HD). naive_solver.
Qed.
Lemma step_inv c es k : inv c es → inv (do_call c k).1 (es ++ [(k, (do_call c k).2)]).
Proof.
  intros I. pose proof I as [I1 I2 I3 I4 I5 I6 I7 I8 I9]. destruct k as [|i| | |]; cbn [do_call fst snd].
  - split; cbn; try done.
    + solve [apply core_other; [discriminate|intros []|assumption]].
    + rewrite fmap_app. cbn. rewrite (context_resets c es I). by apply M_iter.
    + intros i x s Hi. rewrite resets_snoc. apply lookup_app_Some in Hi as [Hi|[_ Hi]]; [apply I4 in Hi; lia|].
      destruct (i - length (uc_gens c)) as [|n]; [|by destruct n]. injection Hi as <- _. rewrite (context_resets c es I). lia.
    + intros i x s Hi. rewrite ended_snoc. apply lookup_app_Some in Hi as [Hi|[Hl Hi]]; [rewrite (I5 i x s Hi); naive_solver|].
      destruct (i - length (uc_gens c)) as [|n]; [|by destruct n]. injection Hi as _ <-. split; [done|].
      intros [(a & Ha & Hb)|[? _]]; [|done]. apply I6 in Ha as [Ha|Ha]; [apply lookup_lt_is_Some_1 in Ha; lia|subst a; naive_solver].
    + intros i a Ha. apply elem_of_app in Ha as [Ha|Ha%elem_of_list_singleton]; [|done]. destruct (I6 i a Ha) as [Hi|?]; [left|by right].
      destruct Hi as [y Hy]. exists y. by apply lookup_app_l_Some.
    + intros HD i x k. rewrite waits_snoc_other by done. rewrite <-(I8 HD). split; [|intros; by apply lookup_app_l_Some].
      intros [Hi|[_ Hi]]%lookup_app_Some; [done|]. destruct (i - length (uc_gens c)) as [|n]; [done|by destruct n].
    + intros HD x k. rewrite passed_snoc, (I9 HD). naive_solver.
  - destruct (uc_gens c !! i) as [[x s]|] eqn:Ei.
    2: { cbn [fst snd]. split; try done.
      - solve [apply core_other; [discriminate|intros []|assumption]].
      - by apply M_other.
      - intros j x s Hj. apply I4 in Hj. rewrite resets_snoc. lia.
      - intros j x s Hj. rewrite ended_snoc, (I5 j x s Hj). naive_solver.
      - intros j a Ha. apply elem_of_app in Ha as [Ha|Ha%elem_of_list_singleton]; [by eapply I6|]. injection Ha as _ ->. by right.
      - intros HD j x k. destruct (decide (j = i)) as [->|Hn]; [rewrite waits_snoc_same, Ei; done|]. rewrite waits_snoc_other by congruence. by apply I8.
      - intros HD x k. rewrite passed_snoc, (I9 HD). split; [by left|]. intros [?|(j & [= <-] & e1 & e2 & E)]; [done|].
        destruct (I6 i (AElem x k)) as [[y Hy]|?]; [|congruence|done]. rewrite E. apply elem_of_app. right. by left. }
    destruct (decide (s = Finished)) as [->|Hs].
    { cbn [fst snd]. split; try done.
      - solve [apply core_other; [discriminate|intros []|assumption]].
      - by apply M_other.
      - intros j y s Hj. apply I4 in Hj. rewrite resets_snoc. lia.
      - intros j y s Hj. rewrite ended_snoc, (I5 j y s Hj). split; [by left|]. intros [?|[[= <-] _]]; [done|]. rewrite Ei in Hj. injection Hj as <- <-. by apply (I5 i x Finished).
      - intros j a Ha. apply elem_of_app in Ha as [Ha|Ha%elem_of_list_singleton]; [by eapply I6|]. injection Ha as -> ->. left. by rewrite Ei.
      - intros HD j y k. destruct (decide (j = i)) as [->|Hn]; [rewrite waits_snoc_same, Ei; done|]. rewrite waits_snoc_other by congruence. by apply I8.
      - intros HD y k. rewrite passed_snoc, (I9 HD). split; [by left|]. intros [?|(j & [= <-] & e1 & e2 & E)]; [done|].
        destruct (given_by e2 i y k e1 es E) as [Hw|?]; [|done]. apply (I8 HD) in Hw. congruence. }
    set (c0 := match s with Waiting k => clear_element c x k | _ => c end).
    destruct (advance c0 x) as [[c1 s1] a] eqn:Ea.
    match goal with |- inv (fst ?p) _ => assert (E : p = (set_gens (<[i := (x, s1)]> (uc_gens c1)) c1, a)) end.
    { unfold c0 in Ea. destruct s; cbv beta iota zeta in Ea |- *; first [done|rewrite Ea; reflexivity]. }
    rewrite E. clear E. cbn [fst snd].
    assert (Hx : x ≤ resets es) by by eapply I4.
    assert (Hq : asks es (CStep i) x).
    { right. exists i, (uc_gens c).*1. split; [done|]. split; [done|]. by rewrite list_lookup_fmap, Ei. }
    assert (E0 : uc_pos c0 = uc_pos c ∧ uc_gens c0 = uc_gens c ∧ uc_count c0 = uc_count c) by (unfold c0; by destruct s).
    assert (E0' : uc_file c0 = F ∧ uc_debug c0 = D ∧ uc_tokenize c0 = T ∧ uc_precedence c0 = P) by (unfold c0; by destruct s).
    destruct E0 as (E1 & E2 & E3).
    destruct (advance_spec c0 es x c1 s1 a E0') as (n & Hn & HA); [by rewrite E1|done|exact Ea|].
    assert (HC : core (uc_pos c1) (es ++ [(CStep i, a)]) ∧ uc_gens c1 = uc_gens c ∧ uc_count c1 = uc_count c ∧ uc_empty c1 = uc_empty c0 ∧
      (uc_file c1 = F ∧ uc_debug c1 = D ∧ uc_tokenize c1 = T ∧ uc_precedence c1 = P)).
    { destruct HA as [(Hd & -> & _ & ->)|(d & Hd & Ha1 & Ha2 & -> & _)].
      - split; [rewrite E1; solve [apply core_other; [discriminate|intros []|assumption]]|done].
      - split; [|done]. cbn. rewrite E1 in *. by eapply core_doc. }
    destruct HC as (HC & E4 & E5 & E6 & E7).
    assert (HF : s1 = Finished ↔ a = AStop ∨ ∃ e, a = AErr e).
    { destruct HA as [(_ & _ & -> & ->)|(d & _ & Hd & _ & _ & [(-> & ? & _)|(-> & Hne & _)])]; [by split; [left|]|by split; [right|]|].
      split; [done|]. intros [->|[e ->]]; [done|by destruct (Hne e)]. }
    assert (HW : D = true → ∀ y k, (x, s1) = (y, Waiting k) ↔ a = AElem y k).
    { intros HD y k. destruct HA as [(_ & _ & -> & ->)|(d & _ & Hd & _ & _ & [(-> & _ & ?)|(-> & Hne & He)])]; [done|congruence|]. rewrite (He HD). naive_solver. }
    split; cbn; try done; rewrite ?E4.
    + rewrite list_fmap_insert, list_insert_id; [by apply M_other|]. cbn. by rewrite list_lookup_fmap, Ei.
    + intros j y s' Hj. rewrite resets_snoc. apply list_lookup_insert_Some in Hj as [(_ & [= <- _] & _)|[_ Hj]]; [lia|apply I4 in Hj; lia].
    + intros j y s' Hj. rewrite ended_snoc. apply list_lookup_insert_Some in Hj as [(<- & [= <- <-] & _)|[Hn' Hj]].
      * rewrite HF. split; [by right|]. intros [He|[_ ?]]; [|done]. by apply (I5 i x s Ei) in He.
      * rewrite (I5 j y s' Hj). naive_solver.
    + intros j b Hb. apply elem_of_app in Hb as [Hb|Hb%elem_of_list_singleton].
      * destruct (I6 j b Hb) as [Hj|?]; [left|by right]. apply lookup_lt_is_Some. rewrite insert_length. by apply lookup_lt_is_Some.
      * injection Hb as -> ->. left. rewrite list_lookup_insert; [done|]. by eapply lookup_lt_Some.
    + by rewrite E5.
    + intros HD j y k. destruct (decide (j = i)) as [->|Hn'].
      * rewrite waits_snoc_same, <-(HW HD). rewrite list_lookup_insert by by eapply lookup_lt_Some. naive_solver.
      * rewrite waits_snoc_other by congruence. rewrite list_lookup_insert_ne by done. by apply I8.
    + intros HD y k. rewrite E6, passed_snoc, <-(I9 HD). split.
      * intros H. assert (H' : (y, k) ∈ uc_empty c ∨ s = Waiting k ∧ y = x).
        { unfold c0 in H. destruct s as [|m|]; [by left| |done]. cbn in H. apply elem_of_app in H as [?|H%elem_of_list_singleton]; [by left|]. injection H as -> ->. by right. }
        destruct H' as [?|[-> ->]]; [by left|]. right. exists i. split; [done|]. apply (I8 HD) in Ei as (e1 & e2 & ? & _). by exists e1, e2.
      * intros [H|(j & [= <-] & e1 & e2 & H)]; [unfold c0; destruct s; [done|apply elem_of_app; by left|done]|].
        destruct (given_by e2 i y k e1 es H) as [Hw|Hp].
        -- apply (I8 HD) in Hw. rewrite Ei in Hw. injection Hw as -> ->. unfold c0. cbn. apply elem_of_app. right. by left.
        -- apply (I9 HD) in Hp. unfold c0. destruct s; [done|apply elem_of_app; by left|done].
  - destruct (advance c (context c)) as [[c1 s1] a] eqn:Ea. cbn [fst snd].
    rewrite (context_resets c es I) in Ea.
    destruct (advance_spec c es (resets es) c1 s1 a I1 I2) as (n & Hn & HA); [done|exact Ea|].
    destruct HA as [(Hd & -> & _ & ->)|(d & Hd & Ha1 & Ha2 & -> & _)].
    + apply (inv_keep c); [intros j; discriminate|discriminate|assumption|..|done|done|]; [exact I1|solve [apply core_other; [discriminate|intros []|assumption]]|exact I7].
    + apply (inv_keep c); [intros j; discriminate|discriminate|assumption|..|done|done|]; [exact I1| |exact I7]. cbn. apply (core_doc _ _ _ _ _ n d); try done. by left.
  - destruct (uc_count c) as [n|] eqn:En; cbn [fst snd].
    + apply (inv_keep c); [intros j; discriminate|discriminate|assumption|..|done|done|]; [exact I1|solve [apply core_other; [discriminate|intros []|assumption]]|rewrite En; exact I7].
    + apply (inv_keep c); [intros j; discriminate|discriminate|assumption|..|done|done|]; [exact I1|cbn; solve [apply core_other; [discriminate|intros []|assumption]]|]. right. cbn. by destruct I1 as [-> _].
  - apply (inv_keep c); [intros j; discriminate|discriminate|assumption|..|done|done|]; [exact I1|cbn; by apply core_reset|exact I7].
Qed.
Lemma history_snoc c ks k : history c (ks ++ [k]) =
  ((do_call (history c ks).1 k).1, (history c ks).2 ++ [(k, (do_call (history c ks).1 k).2)]).
Proof. unfold history. by rewrite foldl_app. Qed.
Lemma history_inv ks : let r := history (open_urml F D T P) ks in inv r.1 r.2.
Proof.
  induction ks as [|k ks IH] using rev_ind.
  - cbn. split; cbn; try done.
    + split; cbn; [done| |intros; constructor]. intros x n Hx. exists []. destruct x as [|x]; [|done]. injection Hx as <-. split; [constructor|]. split; [done|]. split; [lia|done].
    + constructor.
    + intros i a H. by apply elem_of_nil in H.
    + by left.
    + intros _ i x k. split; [done|]. by intros ([|] & e2 & ? & _).
    + intros _ x k. split; [by intros ?%elem_of_nil|]. by intros (i & [|] & e2 & a & ? & _).
  - cbn in *. rewrite history_snoc. by apply step_inv.
Qed.
(** what a call that asks for a document answers *)
Lemma next_answer c es x k l : inv c es → asks es k x → given x es l → (∀ i, k = CStep i → ¬ ended i es) →
  let a := (do_call c k).2 in
  match F !! length l with Some d => document_is D T P x (length l) d a | None => a = AStop end.
Proof.
  intros I Hq Hg He. assert (Hx : x ≤ resets es).
  { destruct Hq as [[_ ->]|(i & ls & _ & Hm & Hi)]; [done|]. rewrite (made_det _ _ Hm _ (in_made c es I)) in Hi.
    rewrite list_lookup_fmap in Hi. destruct (uc_gens c !! i) as [[y s]|] eqn:E; [|done]. injection Hi as <-. by eapply (in_old c es I). }
  assert (HA : ∀ c0 c1 s a, uc_pos c0 = uc_pos c → uc_file c0 = F ∧ uc_debug c0 = D ∧ uc_tokenize c0 = T ∧ uc_precedence c0 = P → advance c0 x = (c1, s, a) →
    match F !! length l with Some d => document_is D T P x (length l) d a | None => a = AStop end).
  { intros c0 c1 s a Hp Hc Ea. destruct (advance_spec c0 es x c1 s a Hc) as (n & Hn & HA); [rewrite Hp; apply (in_core c es I)|done|done|].
    rewrite Hp in Hn. destruct (co_given _ _ (in_core c es I) x n Hn) as (l' & Hg' & Hl & _). rewrite (given_det _ _ _ Hg _ Hg'), Hl.
    destruct HA as [(-> & _ & _ & ->)|(d & -> & _ & Hd & _)]; done. }
  destruct Hq as [[-> Ex]|(i & ls & -> & Hm & Hi)]; cbn [do_call].
  - rewrite (context_resets c es I), <-Ex. destruct (advance c x) as [[c1 s] a] eqn:Ea. cbn. eapply HA; [done|apply I|exact Ea].
  - specialize (He i eq_refl). rewrite (made_det _ _ Hm _ (in_made c es I)) in Hi.
    rewrite list_lookup_fmap in Hi. destruct (uc_gens c !! i) as [[y s]|] eqn:E; [|done]. injection Hi as Hi. cbn in Hi. subst y.
    destruct s as [|m|]; cbv beta iota zeta.
    + destruct (advance c x) as [[c1 s] a] eqn:Ea. cbn. eapply HA; [done|apply I|exact Ea].
    + destruct (advance (clear_element c x m) x) as [[c1 s] a] eqn:Ea. cbn. apply (HA (clear_element c x m) c1 s a); [done|apply I|exact Ea].
    + by apply (in_fin c es I) in E as [E _]; destruct He; apply E.
Qed.
Lemma given_some c es k x : inv c es → asks es k x → ∃ l, given x es l ∧ length l ≤ length F ∧
  ∀ j a, l !! j = Some a → ∃ d, F !! j = Some d ∧ document_is D T P x j d a.
Proof.
  intros I Hq. assert (Hx : x ≤ resets es).
  { destruct Hq as [[_ ->]|(i & ls & _ & Hm & Hi)]; [done|]. rewrite (made_det _ _ Hm _ (in_made c es I)) in Hi.
    rewrite list_lookup_fmap in Hi. destruct (uc_gens c !! i) as [[y s]|] eqn:E; [|done]. injection Hi as <-. by eapply (in_old c es I). }
  destruct (lookup_lt_is_Some_2 (uc_pos c) x) as [n Hn]; [rewrite (co_len _ _ (in_core c es I)); lia|].
  destruct (co_given _ _ (in_core c es I) x n Hn) as (l & Hg & <- & Hl). by exists l.
Qed.
Lemma ended_answer c es i : inv c es → ended i es → (do_call c (CStep i)).2 = AStop.
Proof.
  intros I He. cbn [do_call]. destruct (uc_gens c !! i) as [[x s]|] eqn:E.
  - by apply (in_fin c es I) in E as [_ E]; rewrite (E He).
  - destruct He as (a & Ha & Hb). destruct (in_new c es I i a Ha) as [[y Hy]| ->]; [congruence|]. naive_solver.
Qed.
End inv.
