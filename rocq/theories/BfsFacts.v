(** * BfsFacts: the breadth first loop, for any function [kids] *)
From Verif Require Import PyBase DocGraph Relabel SpecGraph StrNum Query SpecQuery Text Tree SpecTree SpanFacts SelectFacts.

Section bfs.
  Context (kids : nid → res (list nid)).
  Notation queue := (list (nid * list nid)).
  Implicit Types (q : queue) (vis : list nid) (es : list (nid * nid)).

  (** p's remaining children *)
  Definition pending q (p c : nid) : Prop := ∃ cs, (p, cs) ∈ q ∧ c ∈ cs.
  Definition kid (p c : nid) : Prop := ∃ l, kids p = Ok l ∧ c ∈ l.

  Lemma bfs_step fuel q vis es : bfs_loop kids (S fuel) q vis = Ok es ↔
    match q with
    | [] => es = []
    | (_, []) :: q => bfs_loop kids fuel q vis = Ok es
    | (p, c :: cs) :: q =>
      if decide (c ∈ vis) then bfs_loop kids fuel ((p, cs) :: q) vis = Ok es
      else ∃ gc es', kids c = Ok gc ∧ bfs_loop kids fuel ((p, cs) :: q ++ [(c, gc)]) (c :: vis) = Ok es' ∧ es = (p, c) :: es'
    end.
  Proof.
    cbn [bfs_loop]. destruct q as [|[p [|c cs]] q]; [naive_solver|done|].
    destruct (decide (c ∈ vis)); [done|]. rewrite rbind_Ok. setoid_rewrite rbind_Ok. split.
    - intros (gc & Hg & es' & He & [= <-]). by exists gc, es'.
    - intros (gc & es' & Hg & He & ->). exists gc. split; [done|]. by exists es'.
  Qed.

  (** one induction for all facts *)
  Inductive bfs_run : queue → list nid → list (nid * nid) → Prop :=
  | BR_nil vis : bfs_run [] vis []
  | BR_pop p q vis es : bfs_run q vis es → bfs_run ((p, []) :: q) vis es
  | BR_skip p c cs q vis es : c ∈ vis → bfs_run ((p, cs) :: q) vis es → bfs_run ((p, c :: cs) :: q) vis es
  | BR_take p c cs q vis gc es : c ∉ vis → kids c = Ok gc → bfs_run ((p, cs) :: q ++ [(c, gc)]) (c :: vis) es →
      bfs_run ((p, c :: cs) :: q) vis ((p, c) :: es).
  Lemma bfs_loop_run fuel q vis es : bfs_loop kids fuel q vis = Ok es → bfs_run q vis es.
  Proof.
    revert q vis es. induction fuel as [|fuel IH]; intros q vis es; [done|]. rewrite bfs_step.
    destruct q as [|[p [|c cs]] q].
    - intros ->. constructor.
    - intros H. constructor. by apply IH.
    - destruct (decide (c ∈ vis)).
      + intros H. apply BR_skip; [done|]. by apply IH.
      + intros (gc & es' & Hg & He & ->). eapply BR_take; [done|done|]. by apply IH.
  Qed.
  Lemma run_bfs_loop q vis es : bfs_run q vis es → ∃ n, ∀ m, n ≤ m → bfs_loop kids m q vis = Ok es.
  Proof.
    induction 1 as [vis|p q vis es H [n IH]|p c cs q vis es Hc H [n IH]|p c cs q vis gc es Hc Hk H [n IH]].
    - exists 1. intros [|m] Hm; [lia|]. done.
    - exists (S n). intros [|m] Hm; [lia|]. apply bfs_step. apply IH. lia.
    - exists (S n). intros [|m] Hm; [lia|]. apply bfs_step. rewrite decide_True by done. apply IH. lia.
    - exists (S n). intros [|m] Hm; [lia|]. apply bfs_step. rewrite decide_False by done. exists gc, es.
      split; [done|]. split; [|done]. apply IH. lia.
  Qed.

  Lemma run_once q vis es : bfs_run q vis es → NoDup es.*2 ∧ ∀ c, c ∈ es.*2 → c ∉ vis.
  Proof.
    induction 1 as [vis|p q vis es H IH|p c cs q vis es Hc H IH|p c cs q vis gc es Hc Hk H [IH1 IH2]]; [|done|done|].
    - split; [apply NoDup_nil_2|]. intros c Hc. by apply elem_of_nil in Hc.
    - simpl. split.
      + constructor; [|done]. intros Hin%IH2. apply Hin. left.
      + intros d [->|Hd]%elem_of_cons; [done|]. apply IH2 in Hd. intros Hv. apply Hd. by right.
  Qed.
  Lemma run_edge q vis es : bfs_run q vis es → ∀ i p c, es !! i = Some (p, c) →
    pending q p c ∨ (∃ j p', j < i ∧ es !! j = Some (p', p) ∧ kid p c).
  Proof.
    induction 1 as [vis|p q vis es H IH|p c cs q vis es Hc H IH|p c cs q vis gc es Hc Hk H IH]; intros i p0 c0.
    - by rewrite lookup_nil.
    - intros Hi. destruct (IH i p0 c0 Hi) as [(cs & Hin & Hc)|?]; [left|by right]. exists cs. split; [by right|done].
    - intros Hi. destruct (IH i p0 c0 Hi) as [(cs' & Hin & Hc')|?]; [left|by right].
      apply elem_of_cons in Hin as [[= -> ->]|Hin].
      + exists (c :: cs). split; [left|by right].
      + exists cs'. split; [by right|done].
    - destruct i as [|i].
      + intros [= <- <-]. left. exists (c :: cs). split; [left|left].
      + simpl. intros Hi. destruct (IH i p0 c0 Hi) as [(cs' & Hin & Hc')|(j & p' & Hj & Hp & Hkid)].
        * apply elem_of_cons in Hin as [[= -> ->]|Hin]; [left; exists (c :: cs); split; [left|by right]|].
          apply elem_of_app in Hin as [Hin|Hin]; [left; exists cs'; split; [by right|done]|].
          apply elem_of_list_singleton in Hin as [= -> ->]. right. exists 0, p. split; [lia|]. split; [done|].
          by exists gc.
        * right. exists (S j), p'. split; [lia|]. done.
  Qed.
  Lemma run_closed q vis es : bfs_run q vis es →
    (∀ p c, pending q p c → c ∈ vis ∨ c ∈ es.*2) ∧
    (∀ p c, p ∈ es.*2 → kid p c → c ∈ vis ∨ c ∈ es.*2).
  Proof.
    induction 1 as [vis|p q vis es H [IH1 IH2]|p c cs q vis es Hc H [IH1 IH2]|p c cs q vis gc es Hc Hk H [IH1 IH2]].
    - split; [intros p c (cs & Hin & _); by apply elem_of_nil in Hin|]. intros p c Hp. by apply elem_of_nil in Hp.
    - split; [|done]. intros p0 c (cs & [[= -> ->]|Hin]%elem_of_cons & Hc); [by apply elem_of_nil in Hc|].
      apply (IH1 p0). by exists cs.
    - split; [|done]. intros p0 c0 (cs' & [[= -> ->]|Hin]%elem_of_cons & Hc0).
      + apply elem_of_cons in Hc0 as [->|Hc0]; [by left|]. apply (IH1 p). exists cs. split; [left|done].
      + apply (IH1 p0). exists cs'. split; [by right|done].
    - assert (G : ∀ x, x ∈ c :: vis ∨ x ∈ es.*2 → x ∈ vis ∨ x ∈ ((p, c) :: es).*2).
      { intros x [[->|Hx]%elem_of_cons|Hx]; [right; left|by left|right; by right]. }
      split.
      + intros p0 c0 (cs' & [[= -> ->]|Hin]%elem_of_cons & Hc0); apply G.
        * apply elem_of_cons in Hc0 as [->|Hc0]; [left; left|]. apply (IH1 p). exists cs. split; [left|done].
        * apply (IH1 p0). exists cs'. split; [|done]. right. apply elem_of_app. by left.
      + intros p0 c0 [->|Hp0]%elem_of_cons Hkid; apply G.
        * destruct Hkid as (l & Hl & Hc0). simpl in Hl. rewrite Hk in Hl. injection Hl as <-.
          apply (IH1 c). exists gc. split; [|done]. right. apply elem_of_app. right. left.
        * by apply (IH2 p0).
  Qed.
  (** the parents, in order: each queue entry, then each new node, some number
      of times *)
  Inductive stutter {A} : list A → list A → Prop :=
  | St_nil l : stutter [] l
  | St_skip x ps l : stutter ps l → stutter ps (x :: l)
  | St_stay x ps l : stutter ps (x :: l) → stutter (x :: ps) (x :: l).
  Lemma run_stutter q vis es : bfs_run q vis es → stutter es.*1 (q.*1 ++ es.*2).
  Proof.
    induction 1 as [vis|p q vis es H IH|p c cs q vis es Hc H IH|p c cs q vis gc es Hc Hk H IH].
    - constructor.
    - simpl. by constructor.
    - exact IH.
    - simpl in *. rewrite fmap_app, <-(assoc_L (++)) in IH. simpl in IH. by constructor.
  Qed.
  Lemma stutter_order {A} (ps l : list A) : NoDup l → stutter ps l → ∀ i j (p p' : A) k m, i ≤ j →
    ps !! i = Some p → ps !! j = Some p' → l !! k = Some p → l !! m = Some p' → k ≤ m.
  Proof.
    intros Hnd. induction 1 as [l|x ps l H IH|x ps l H IH]; intros i j p p' k m Hij Hi Hj Hk Hm.
    - by rewrite lookup_nil in Hi.
    - apply NoDup_cons in Hnd as [Hx Hnd].
      assert (Hin : ∀ i p, ps !! i = Some p → p ∈ l).
      { clear -H. intros i p Hi. revert i Hi. induction H as [l|x ps l H IH|x ps l H IH]; intros i Hi; [by rewrite lookup_nil in Hi| |].
        - right. by eapply IH.
        - destruct i; [injection Hi as ->; left|by eapply IH]. }
      destruct k as [|k].
      + lia.
      + destruct m as [|m]; [injection Hm as ->; exfalso; apply Hx; by eapply Hin|].
        simpl in *. apply le_n_S. by eapply (IH Hnd i j p p').
    - destruct j as [|j].
      + assert (i = 0) as -> by lia. injection Hi as ->. injection Hj as ->.
        assert (k = m) as ->; [|done]. by eapply NoDup_lookup.
      + destruct i as [|i].
        * injection Hi as ->. destruct k as [|k]; [lia|]. exfalso. apply NoDup_cons in Hnd as [Hx _].
          apply Hx. simpl in Hk. by apply elem_of_list_lookup_2 in Hk.
        * apply (IH Hnd i j p p' k m); [lia|done..].
  Qed.
  (** the children of a parent appear in the order of its list *)
  Definition kids_of es (p : nid) : list nid := (filter (λ e, e.1 = p) es).*2.
  Lemma run_siblings q vis es : bfs_run q vis es → NoDup q.*1 → (∀ p, p ∈ q.*1 → p ∈ vis) →
    (∀ p cs, (p, cs) ∈ q → sublist (kids_of es p) cs) ∧
    (∀ p cs, p ∈ es.*2 → kids p = Ok cs → sublist (kids_of es p) cs).
  Proof.
    induction 1 as [vis|p q vis es H IH|p c cs q vis es Hc H IH|p c cs q vis gc es Hc Hk H IH]; intros Hnd Hv.
    - split; [intros ? ? Hin; by apply elem_of_nil in Hin|]. intros ? ? Hin. by apply elem_of_nil in Hin.
    - simpl in *. apply NoDup_cons in Hnd as [Hp Hnd]. destruct IH as [IH1 IH2]; [done|intros; apply Hv; by right|].
      split; [|done]. intros p0 cs [[= -> ->]|Hin]%elem_of_cons; [|by apply IH1].
      assert (E : kids_of es p = []); [|rewrite E; constructor].
      unfold kids_of. destruct (filter (λ e, e.1 = p) es) as [|[p1 c] r] eqn:Ef; [done|]. exfalso.
      assert (Hin : (p1, c) ∈ filter (λ e, e.1 = p) es) by (rewrite Ef; left).
      apply elem_of_list_filter in Hin as [E Hin]. simpl in E. subst p1.
      apply elem_of_list_lookup in Hin as [i Hi]. destruct (run_edge _ _ _ H i p c Hi) as [(cs & Hq & _)|(j & p' & _ & Hj & _)].
      + apply Hp. apply elem_of_list_fmap. by exists (p, cs).
      + apply run_once in H as [_ H]. apply (H p); [|apply Hv; left]. apply elem_of_list_fmap. exists (p', p).
        split; [done|]. by apply elem_of_list_lookup_2 in Hj.
    - destruct IH as [IH1 IH2]; [done|done|]. split; [|done].
      intros p0 cs0 [[= -> ->]|Hin]%elem_of_cons.
      + apply sublist_cons. apply IH1. left.
      + apply IH1. by right.
    - simpl in *. assert (Hcq : c ∉ p :: q.*1) by (intros Hin; apply Hc, Hv, Hin).
      destruct IH as [IH1 IH2].
      + rewrite fmap_app. simpl. apply NoDup_cons in Hnd as [Hp Hnd]. apply not_elem_of_cons in Hcq as [Hcp Hcq].
        constructor; [rewrite elem_of_app, elem_of_list_singleton; by intros [?|?]|].
        apply NoDup_app. split; [done|]. split; [|apply NoDup_singleton].
        intros x Hx ->%elem_of_list_singleton. done.
      + intros x. rewrite fmap_app. simpl. rewrite elem_of_cons, elem_of_app, elem_of_list_singleton.
        intros [->|[Hx| ->]]; [right; apply Hv; left|right; apply Hv; by right|left].
      + assert (Hpc : p ≠ c) by (intros ->; apply Hcq; left).
        split.
        * intros p0 cs0 [[= -> ->]|Hin]%elem_of_cons; unfold kids_of; rewrite filter_cons.
          { rewrite decide_True by done. simpl. apply sublist_skip. apply IH1. left. }
          rewrite decide_False.
          { apply IH1. right. apply elem_of_app. by left. }
          simpl. intros ->. apply NoDup_cons in Hnd as [Hp _]. apply Hp, elem_of_list_fmap. by exists (p0, cs0).
        * intros p0 cs0 [->|Hp0]%elem_of_cons Hcs0; unfold kids_of; rewrite filter_cons; cbn [fst snd].
          { rewrite decide_False by done. simpl in Hcs0. rewrite Hk in Hcs0. injection Hcs0 as <-. apply IH1. right.
            apply elem_of_app. right. left. }
          rewrite decide_False; [by apply IH2|]. intros ->.
          apply run_once in H as [_ H]. apply (H p0 Hp0). right. apply Hv. left.
  Qed.

  (** ** the whole traversal *)
  Lemma run_bfs_tree source cs es : kids source = Ok cs → bfs_run [(source, cs)] [source] es →
    bfs_tree kid source es ∧
    ∀ p l, p ∈ source :: es.*2 → kids p = Ok l → sublist (kids_of es p) l.
  Proof.
    intros Hs H. pose proof (run_once _ _ _ H) as [Hnd Hdisj].
    assert (Hnd' : NoDup (source :: es.*2)).
    { constructor; [|done]. intros Hin. apply (Hdisj source Hin). left. }
    assert (Hpend : ∀ p c, pending [(source, cs)] p c → p = source ∧ kid source c).
    { intros p c (l & [= -> ->]%elem_of_list_singleton & Hc). split; [done|]. by exists cs. }
    split.
    - split; [done| | | |].
      + intros p c [i Hi]%elem_of_list_lookup. destruct (run_edge _ _ _ H i p c Hi) as [[-> ?]%Hpend|(j & p' & _ & _ & Hk)]; done.
      + intros i p c Hi. destruct (run_edge _ _ _ H i p c Hi) as [[-> ?]%Hpend|(j & p' & Hj & Hp & Hk)]; [by left|].
        right. by exists j, p'.
      + intros n. split.
        * intros [->|Hn]%elem_of_cons; [apply rtc_refl|].
          apply elem_of_list_fmap in Hn as ([p c] & -> & Hin). simpl. apply elem_of_list_lookup in Hin as [i Hi].
          revert p c Hi. induction (lt_wf i) as [i _ IH]. intros p c Hi.
          destruct (run_edge _ _ _ H i p c Hi) as [[-> ?]%Hpend|(j & p' & Hj & Hp & Hk)]; [by apply rtc_once|].
          eapply rtc_r; [by apply (IH j Hj p' p Hp)|done].
        * intros Hr. apply (rtc_ind_r (R := kid) (λ n, n ∈ source :: es.*2) source); [left| |done].
          intros x y _ Hk Hx. cbv beta in *. pose proof (run_closed _ _ _ H) as [Hc1 Hc2].
          assert (y ∈ [source] ∨ y ∈ es.*2) as [->%elem_of_list_singleton|?]; [|left|by right].
          apply elem_of_cons in Hx as [->|Hx]; [|by apply (Hc2 x)].
          destruct Hk as (l & Hl & Hy). rewrite Hs in Hl. injection Hl as <-. apply (Hc1 source). exists cs. split; [left|done].
      + intros i j p q c d k l Hij Hi Hj Hk Hl. pose proof (run_stutter _ _ _ H) as Hst. simpl in Hst.
        eapply (stutter_order _ _ Hnd' Hst i j p q k l Hij); [| |done|done]; rewrite list_lookup_fmap; [by rewrite Hi|by rewrite Hj].
    - intros p l Hp Hl. destruct (run_siblings _ _ _ H) as [H1 H2].
      + simpl. apply NoDup_singleton.
      + simpl. intros x ->%elem_of_list_singleton. left.
      + apply elem_of_cons in Hp as [->|Hp]; [|by apply H2]. rewrite Hs in Hl. injection Hl as <-. apply H1. left.
  Qed.

  (** ** termination *)
  Definition unseen (U vis : list nid) : nat := length (filter (λ x, x ∉ vis) U).
  Definition qsize q : nat := sum_list_with (λ e : nid * list nid, S (length e.2)) q.
  Lemma unseen_cons U vis c : c ∈ U → c ∉ vis → unseen U (c :: vis) < unseen U vis.
  Proof.
    intros Hin Hv. unfold unseen. induction U as [|x U IH]; [by apply elem_of_nil in Hin|].
    rewrite !filter_cons.
    assert (Hle : length (filter (λ x, x ∉ c :: vis) U) ≤ length (filter (λ x, x ∉ vis) U)).
    { clear. induction U as [|y U IH]; [done|]. rewrite !filter_cons.
      destruct (decide (y ∉ c :: vis)) as [H1|H1], (decide (y ∉ vis)) as [H2|H2]; simpl; try lia.
      destruct H2. intros Hy. apply H1. by right. }
    destruct (decide (x = c)) as [->|Hne].
    - rewrite decide_False by (intros H; apply H; left). rewrite decide_True by done. simpl. lia.
    - apply elem_of_cons in Hin as [->|Hin]; [done|]. specialize (IH Hin).
      destruct (decide (x ∉ c :: vis)) as [H1|H1], (decide (x ∉ vis)) as [H2|H2]; simpl; try lia.
      destruct H2. intros Hx. apply H1. by right.
  Qed.
  Lemma bfs_ends (U : list nid) : (∀ p l c, kids p = Ok l → c ∈ l → c ∈ U) → (∀ p, kids p ≠ Err OutOfFuel) →
    ∀ q vis, (∀ p c, pending q p c → c ∈ U) →
    ∃ n r, r ≠ Err OutOfFuel ∧ ∀ m, n ≤ m → bfs_loop kids m q vis = r.
  Proof.
    intros HU Hkf q vis.
    remember (unseen U vis) as a eqn:Ea. revert q vis Ea. induction (lt_wf a) as [a _ IHa]. intros q.
    remember (qsize q) as b eqn:Eb. revert q Eb. induction (lt_wf b) as [b _ IHb]. intros q -> vis -> Hq.
    destruct q as [|[p [|c cs]] q].
    - exists 1, (Ok []). split; [done|]. intros [|m] Hm; [lia|done].
    - destruct (IHb (qsize q)) with (q := q) (vis := vis) as (n & r & Hr & Hn); [unfold qsize; simpl; lia|done|done| |].
      { intros p' c (cs & Hin & Hc). apply (Hq p'). exists cs. split; [by right|done]. }
      exists (S n), r. split; [done|]. intros [|m] Hm; [lia|]. simpl. apply Hn. lia.
    - destruct (decide (c ∈ vis)) as [Hc|Hc].
      + destruct (IHb (qsize ((p, cs) :: q))) with (q := (p, cs) :: q) (vis := vis) as (n & r & Hr & Hn);
          [unfold qsize; simpl; lia|done|done| |].
        { intros p' c' (cs' & [[= -> ->]|Hin]%elem_of_cons & Hc').
          - apply (Hq p). exists (c :: cs). split; [left|by right].
          - apply (Hq p'). exists cs'. split; [by right|done]. }
        exists (S n), r. split; [done|]. intros [|m] Hm; [lia|]. cbn [bfs_loop]. rewrite decide_True by done. apply Hn. lia.
      + destruct (kids c) as [gc|e] eqn:Ek.
        * destruct (IHa (unseen U (c :: vis))) with (q := (p, cs) :: q ++ [(c, gc)]) (vis := c :: vis) as (n & r & Hr & Hn).
          { apply unseen_cons; [|done]. apply (Hq p). exists (c :: cs). split; [left|left]. }
          { done. }
          { intros p' c' (cs' & [[= -> ->]|Hin]%elem_of_cons & Hc').
            - apply (Hq p). exists (c :: cs). split; [left|by right].
            - apply elem_of_app in Hin as [Hin|[= -> ->]%elem_of_list_singleton].
              + apply (Hq p'). exists cs'. split; [by right|done].
              + by eapply HU. }
          exists (S n), (let! es := r in Ok ((p, c) :: es)). split; [by destruct r|].
          intros [|m] Hm; [lia|]. cbn [bfs_loop]. rewrite decide_False by done. rewrite Ek. cbn [rbind].
          rewrite Hn by lia. done.
        * exists 1, (Err e). split; [intros [= ->]; by apply (Hkf c)|]. intros [|m] Hm; [lia|].
          cbn [bfs_loop]. rewrite decide_False by done. by rewrite Ek.
  Qed.
  Lemma bfs_error fuel q vis e : bfs_loop kids fuel q vis = Err e → e = OutOfFuel ∨
    ∃ n, kids n = Err e ∧ ((∃ p, pending q p n) ∨ ∃ p x, pending q p x ∧ rtc kid x n).
  Proof.
    revert q vis. induction fuel as [|fuel IH]; intros q vis; [intros [= <-]; by left|]. cbn [bfs_loop].
    destruct q as [|[p [|c cs]] q]; [done| |].
    - intros [?|(n & Hn & H)]%IH; [by left|right]. exists n. split; [done|].
      destruct H as [(p' & cs & Hin & Hc)|(p' & x & (cs & Hin & Hc) & Hx)].
      + left. exists p', cs. split; [by right|done].
      + right. exists p', x. split; [|done]. exists cs. split; [by right|done].
    - destruct (decide (c ∈ vis)) as [Hv|Hv].
      + assert (G : ∀ p' x, pending ((p, cs) :: q) p' x → pending ((p, c :: cs) :: q) p' x).
        { intros p' x (cs' & [[= -> ->]|Hin]%elem_of_cons & Hx); [exists (c :: cs); split; [left|by right]|].
          exists cs'. split; [by right|done]. }
        intros [?|(n & Hn & H)]%IH; [by left|right]. exists n. split; [done|].
        destruct H as [(p' & H)|(p' & x & H & Hx)]; [left; eauto|right; eauto].
      + intros [H|(gc & Hg & H)]%rbind_Err.
        * right. exists c. split; [done|]. left. exists p, (c :: cs). split; [left|left].
        * apply rbind_Err in H as [H|(es & Hes & H)]; [|done]. apply IH in H as [?|(n & Hn & H)]; [by left|right].
          exists n. split; [done|].
          assert (G : ∀ p' x, pending ((p, cs) :: q ++ [(c, gc)]) p' x → ∃ p'' y, pending ((p, c :: cs) :: q) p'' y ∧ rtc kid y x).
          { intros p' x (cs' & [[= -> ->]|Hin]%elem_of_cons & Hx).
            - exists p, x. split; [|apply rtc_refl]. exists (c :: cs). split; [left|by right].
            - apply elem_of_app in Hin as [Hin|[= -> ->]%elem_of_list_singleton].
              + exists p', x. split; [|apply rtc_refl]. exists cs'. split; [by right|done].
              + exists p, c. split; [exists (c :: cs); split; [left|left]|]. apply rtc_once. by exists gc. }
          right. destruct H as [(p' & H)|(p' & x & H & Hx)].
          { apply G in H. naive_solver. }
          apply G in H as (p'' & y & Hy & Hyx). exists p'', y. split; [done|]. by etrans.
  Qed.
End bfs.
