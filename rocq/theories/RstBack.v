(** * RstBack: reading back written documents, the main induction *)
From Verif Require Import PyBase DocGraph Relabel StrNum Query Text Rst SpecRst SpanFacts RstLayout RstWrite RstRead RstRound.

(** ** the first unit *)
Lemma first_leaf_erase d rr : erase d = body rr → multi_ok rr → first_leaf d = head (edus rr).
Proof.
  revert d. induction rr as [s|rel nf n s IHn IHs|rel l IH] using rst_ind'; intros d E Hm.
  - destruct d as [u|]; [|done]. by injection E as ->.
  - destruct Hm as [Hn Hs]. destruct d as [u|lab rid ts]; [by destruct nf|].
    assert (W : ∀ d lab' (x : rst), erase d = NTree lab' [body x] → (∀ d, erase d = body x → multi_ok x → first_leaf d = head (edus x)) → multi_ok x → first_leaf d = head (edus x)).
    { intros e lab' x He Hx Hmx. destruct e as [|? ? [|e [|? ?]]]; [done|done| |done]. injection He as -> He. simpl. rewrite Hx by done.
      destruct (edus x) eqn:Ex; [pose proof (edus_pos _ Hmx) as H; rewrite Ex in H; simpl in H; lia|done]. }
    destruct nf; injection E as -> E; destruct ts as [|t [|u [|? ?]]]; try done; injection E as E1 E2; simpl.
    + rewrite (W _ _ _ E1 IHn Hn). pose proof (edus_pos _ Hn). destruct (edus n); [simpl in *; lia|done].
    + rewrite (W _ _ _ E1 IHs Hs). pose proof (edus_pos _ Hs). destruct (edus s); [simpl in *; lia|done].
  - apply multi_ok_Multi in Hm as [Hl Hm]. destruct l as [|c l]; [simpl in Hl; lia|].
    destruct d as [|lab rid [|t ts]]; [done|done|]. cbn [erase body map] in E. injection E as -> E _.
    apply Forall_cons in IH as [IH _]. apply Forall_cons in Hm as [Hm _]. rewrite edus_Multi, fmap_cons. cbn [concat].
    destruct t as [|? ? [|t [|? ?]]]; [done|done| |done]. injection E as -> E. cbn [first_leaf]. rewrite (IH _ E Hm).
    pose proof (edus_pos _ Hm). destruct (edus c); [simpl in *; lia|done].
Qed.

Section back.
  Context (r : rs3data) (rt : dict string string).
  Hypothesis edus_nodup : NoDup (r_edus r).
  Hypothesis texts_nodup : NoDup (edu_strings r).
  Hypothesis span_undeclared : dget "span" rt = None.
  Notation sub := (sub r rt).
  Definition typed (rr : rst) : Prop := Forall (λ p, rel_ok p.1) (relations rr) ∧ ∀ rel ty, (rel, ty) ∈ relations rr → dget rel rt = Some ty.

  Lemma edu_strings_sub k ro rr lo ext : sub k ro rr lo ext → ∃ pre post, edu_strings r = pre ++ edus rr ++ post ∧ length pre = lo.
  Proof using Type.
    intros H. destruct (s_edus _ _ _ _ _ _ _ H) as (pre & post & E & Hl). unfold edu_strings. rewrite E, !fmap_app.
    exists ((λ e, i_text (inf r e)) <$> pre), ((λ e, i_text (inf r e)) <$> post). split; [|by rewrite fmap_length]. f_equal. f_equal. rewrite <-(lay_texts rr k ro).
    assert (HF : Forall (λ x, inf r (xid x) = info_of rt x) (lay k ro rr)).
    { apply Forall_forall. intros x Hx. by apply (sub_inf _ _ _ _ _ _ _ _ H). }
    clear -HF. induction HF as [|x L Hx HF IH]; [done|]. rewrite filter_cons. destruct (decide (is_seg x = true)) as [Hs|Hs]; [|done].
    rewrite !fmap_cons, IH. cbn [concat]. destruct x; [|done]. rewrite Hx. done.
  Qed.
  Lemma linear_sub k ro rr lo ext d lab rid : sub k ro rr lo ext → multi_ok rr → erase d = body rr →
    linear_position r (DTree lab rid [d]) = Ok lo.
  Proof using texts_nodup.
    intros H Hm Hd. destruct (edu_strings_sub _ _ _ _ _ H) as (pre & post & E & Hl). unfold linear_position. cbn [first_leaf].
    rewrite (first_leaf_erase _ _ Hd Hm). pose proof (edus_pos _ Hm) as Hp. destruct (edus rr) as [|u us] eqn:Eu; [simpl in Hp; lia|]. cbn [head].
    rewrite (find_nodup _ lo); [done|done|]. rewrite E, <-Hl. cbn [app]. by apply list_lookup_middle.
  Qed.
  (** the element at the top of a block *)
  Lemma top_role k rel p rr lo ext : sub k (Some (rel, p)) rr lo ext → i_parent (inf r (idn k)) = Some p ∧ i_relname (inf r (idn k)) = Some rel ∧
    i_reltype (inf r (idn k)) = rt_of rt rel ∧ i_nuc (inf r (idn k)) = if decide (rt_of rt rel = "rst") then "satellite" else "nucleus".
  Proof using Type.
    intros H. destruct (sub_top _ _ _ _ _ _ _ H) as (x & _ & -> & _ & Hp & Hr & _). unfold info_of. cbn [i_parent i_relname i_reltype i_nuc].
    rewrite Hp, Hr. done.
  Qed.
  Lemma top_kind k ro rr lo ext : sub k ro rr lo ext → i_seg (inf r (idn k)) = (match rr with Edu _ => true | _ => false end) ∧
    i_gtype (inf r (idn k)) = (match rr with Edu _ => None | Mono _ _ _ _ => Some "span" | Multi _ _ => Some "multinuc" end) ∧
    i_text (inf r (idn k)) = match rr with Edu s => s | _ => "" end.
  Proof using Type. intros H. destruct (sub_top _ _ _ _ _ _ _ H) as (x & _ & -> & _ & _ & _ & Hs & Hg & Ht). done. Qed.
  Lemma kids_edu k ro s lo ext : sub k ro (Edu s) lo ext → kids_of r (Some (idn k)) ≡ₚ ext.
  Proof using Type.
    intros H. rewrite (s_kids _ _ _ _ _ _ _ H k) by (simpl; lia). rewrite decide_True by done. rewrite (kin_none _ (lay _ _ _)); [by rewrite app_nil_r|].
    intros x ->%elem_of_list_singleton. simpl. apply (s_par _ _ _ _ _ _ _ H). simpl. lia.
  Qed.
  Lemma relname_typed k rel p rr lo ext ty : sub k (Some (rel, p)) rr lo ext → dget rel rt = Some ty → ty = "rst" ∨ ty = "multinuc" →
    get_relname r (idn k) = Some rel.
  Proof using Type.
    intros H Ht Hty. destruct (top_role _ _ _ _ _ _ H) as (_ & Hr & Hrt & _). unfold get_relname. rewrite decide_False; [done|].
    rewrite Hrt. unfold rt_of. rewrite Ht. cbn. intros (_ & _ & [E|E] & _); destruct Hty; congruence.
  Qed.
  Definition wrapped (lab : string) (k : nat) (d : dtree) : dtree := DTree lab (Some (idn k)) [d].

  (** what is known about the satellite [q] of a nucleus at [lo], [n] units long *)
  Record satellite (q : string) (rel : string) (nf : bool) (rs : rst) (lo n : nat) (h : nat) (ls ps : nat) (dq : dtree) : Prop := {
    q_erase : erase dq = body rs;
    q_dt : ev (λ f, dt r f q = Ok (DTree "S" (Some q) [dq]));
    q_rel : get_relname r q = Some rel;
    q_nuc : i_nuc (inf r q) = "satellite";
    q_type : i_reltype (inf r q) = "rst";
    q_height : ev (λ f, node_height r f q = Ok (S h));
    q_pos : ev (λ f, get_position r f q = Ok ps);
    q_lin : linear_position r (DTree "S" (Some q) [dq]) = Ok ls;
    q_order : if nf then lo + n ≤ ls ∧ lo + n ≤ ps else ls < lo ∧ ps < lo;
  }.
  Definition claimA (rr : rst) : Prop := ∀ k rel p ty lo, sub k (Some (rel, p)) rr lo [] → dget rel rt = Some ty → ty = "rst" ∨ ty = "multinuc" →
    (∃ h, ev (λ f, node_height r f (idn k) = Ok h)) →
    ∃ d, erase d = body rr ∧ ev (λ f, dt r f (idn k) = Ok (wrapped (if decide (ty = "rst") then "S" else "N") k d)).
  Definition claimB (rr : rst) : Prop := ∀ k p lo q rel nf rs h ls ps dq, sub k (Some ("span", p)) rr lo [q] → rel_ok rel →
    ev (λ f, node_height r f (idn k) = Ok h) → satellite q rel nf rs lo (length (edus rr)) h ls ps dq →
    ∃ d, erase d = body (Mono rel nf rr rs) ∧ ev (λ f, dt r f (idn k) = Ok d).

  Lemma sorted_pair rr k p lo q rel nf rs h ls ps dq : sub k (Some ("span", p)) rr lo [q] → multi_ok rr →
    ev (λ f, node_height r f (idn k) = Ok h) → satellite q rel nf rs lo (length (edus rr)) h ls ps dq →
    ∀ dn, erase dn = body rr → ∃ d, erase d = body (Mono rel nf rr rs) ∧
      ev (λ f, sorted_nucsat_tree r f (wrapped "N" k dn) (DTree "S" (Some q) [dq]) = Ok d).
  Proof using edus_nodup.
    intros Hs Hm Hh HQ dn Hdn. destruct HQ as [Q1 Q2 Q3 Q4 Q5 Q6 Q7 Q8 Q9].
    destruct (pos_sub r rt edus_nodup rr Hm _ _ _ _ [ps] Hs) as (pn & pn0 & Epn & Rpn & Hpn); [by repeat constructor|].
    exists (DTree rel (Some (idn k)) (if nf then [wrapped "N" k dn; DTree "S" (Some q) [dq]] else [DTree "S" (Some q) [dq]; wrapped "N" k dn])).
    split; [destruct nf; simpl; by rewrite Hdn, Q1|].
    eapply ev_imp; [exact (ev_and _ _ (ev_and _ _ Hh Q6) (ev_and _ _ Epn Q7))|]. intros f [[H1 H2] [H3 H4]].
    unfold sorted_nucsat_tree. rewrite (sort_two r f (wrapped "N" k dn) (DTree "S" (Some q) [dq]) (idn k) q h pn ps) by done. cbn [rbind].
    unfold root_relname. cbn [rid_of]. rewrite Q3. cbn [mk]. unfold wrapped at 2. cbn [rid_of]. do 2 f_equal.
    assert (Hcase : pn = pn0 ∨ (pn = ps ∧ ps ≤ pn0) ∨ (pn = pn0 ∧ pn0 ≤ ps)).
    { destruct Hpn as [?|[Hi Hl]]; [by left|]. rewrite Forall_forall in Hl. cbn [app] in *. apply elem_of_cons in Hi as [->|Hi].
      - right. left. split; [done|]. apply Hl. right. left.
      - apply elem_of_list_singleton in Hi as ->. by left. }
    destruct nf.
    - rewrite decide_True; [done|]. lia.
    - rewrite decide_False; [done|]. lia.
  Qed.

  (** the nucleus and the satellite of a relation *)
  Lemma core_Mono rel nf n s : multi_ok n → multi_ok s → claimB n → claimA s → ∀ k ro lo ext h, sub k ro (Mono rel nf n s) lo ext →
    rel_ok rel → dget rel rt = Some "rst" → ev (λ f, node_height r f (idn k) = Ok h) →
    ∃ d, erase d = body (Mono rel nf n s) ∧ ev (λ f, dt r f (idn (nuc_at k nf s)) = Ok d).
  Proof using edus_nodup texts_nodup.
    intros Hmn Hms HB HA k ro lo ext h Hs Hok Ht Hh. destruct (sub_Mono _ _ _ _ _ _ _ _ _ _ Hs) as (Hn & Hsat & _).
    assert (Hhn : ev (λ f, node_height r f (idn (nuc_at k nf s)) = Ok (S h))).
    { eapply height_child; [|exact Hh]. apply (top_role _ _ _ _ _ _ Hn). }
    assert (Hhs : ev (λ f, node_height r f (idn (sat_at k nf n)) = Ok (S (S h)))).
    { eapply height_child; [|exact Hhn]. apply (top_role _ _ _ _ _ _ Hsat). }
    destruct (HA _ _ _ "rst" _ Hsat) as (dq & Hdq & Eq); [done|by left|eauto|]. rewrite decide_True in Eq by done.
    destruct (pos_sub r rt edus_nodup s Hms _ _ _ _ [] Hsat) as (ps & ps0 & Eps & Rps & Hps); [constructor|].
    assert (ps = ps0) as <- by (destruct Hps as [?|[?%elem_of_list_singleton _]]; done). clear Hps.
    destruct (top_role _ _ _ _ _ _ Hsat) as (_ & _ & Hrt & Hnuc). unfold rt_of in Hrt, Hnuc. rewrite Ht in Hrt, Hnuc. cbn in Hrt, Hnuc.
    eapply HB; [exact Hn|exact Hok|exact Hhn|]. split; [exact Hdq|exact Eq| | | |exact Hhs|exact Eps| |].
    - eapply relname_typed; [exact Hsat|exact Ht|by left].
    - done.
    - done.
    - by eapply linear_sub.
    - pose proof (edus_pos _ Hms). destruct nf; lia.
  Qed.
  (** the nuclei of a multinuclear relation *)
  Lemma core_Multi rel l : Forall multi_ok l → Forall claimA l → ∀ k ro lo ext h, sub k ro (Multi rel l) lo ext →
    dget rel rt = Some "multinuc" → ev (λ f, node_height r f (idn k) = Ok h) →
    ∃ ts, map erase ts = map (λ c, NTree "N" [body c]) l ∧ ev (λ f, ∀ ks, ks ≡ₚ ((λ p, idn p.1.1) <$> places (S k) lo l) →
      ∃ us, rmap (dt r f) ks = Ok us ∧ sort_subtrees r f us = Ok ts ∧ rmap (λ c, let! t := dt r f c in Ok (elem_wrap r t c)) ks = Ok us).
  Proof using edus_nodup.
    intros Hm HA k ro lo ext h Hs Ht Hh. destruct (sub_Multi _ _ _ _ _ _ _ _ Hs) as (Hc & _).
    assert (HQ : ∃ ts ps, map erase ts = map (λ c, NTree "N" [body c]) l ∧
      Forall2 (λ i t, ev (λ f, dt r f i = Ok t)) ((λ p, idn p.1.1) <$> places (S k) lo l) ts ∧
      Forall2 (λ t p, ev (λ f, ∃ i, rid_of t = Some i ∧ (∃ h, node_height r f i = Ok h) ∧ get_position r f i = Ok p)) ts ps ∧
      increasing (λ p, p) ps ∧ Forall (λ p, lo ≤ p) ps ∧
      Forall (λ i, i_nuc (inf r i) = "nucleus") ((λ p, idn p.1.1) <$> places (S k) lo l) ∧ Forall (λ t, ∃ i d, t = DTree "N" i d) ts).
    { clear Hs. revert Hc. generalize (S k) as j. revert lo. induction l as [|c l IH]; intros lo j Hc.
      - exists [], []. repeat split; try constructor.
      - cbn [places] in *. apply Forall_cons in Hm as [Hmc Hm]. apply Forall_cons in HA as [HAc HA]. apply Forall_cons in Hc as [Hc Hcs].
        cbn [fst snd] in Hc. destruct (IH Hm HA _ _ Hcs) as (ts & ps & E1 & E2 & E3 & E4 & E5 & E6 & E7).
        assert (Hhc : ev (λ f, node_height r f (idn (S j)) = Ok (S h))).
        { eapply height_child; [|exact Hh]. apply (top_role _ _ _ _ _ _ Hc). }
        destruct (HAc _ _ _ "multinuc" _ Hc) as (d & Hd & Ed); [done|by right|eauto|]. rewrite decide_False in Ed by done.
        destruct (pos_sub r rt edus_nodup c Hmc _ _ _ _ [] Hc) as (p & p0 & Ep & Rp & Hp); [constructor|].
        assert (p = p0) as <- by (destruct Hp as [?|[?%elem_of_list_singleton _]]; done). clear Hp.
        exists (wrapped "N" (S j) d :: ts), (p :: ps). rewrite fmap_cons. cbn [fst snd]. repeat split.
        + simpl. f_equal; [by rewrite Hd|exact E1].
        + by constructor.
        + constructor; [|done]. eapply ev_imp; [exact (ev_and _ _ Hhc Ep)|]. intros f [? ?]. exists (idn (S j)). eauto.
        + eapply Forall_impl; [exact E5|]. intros x Hx. simpl in Hx. lia.
        + done.
        + constructor; [lia|]. eapply Forall_impl; [exact E5|]. intros x Hx. simpl in Hx. lia.
        + constructor; [|done]. destruct (top_role _ _ _ _ _ _ Hc) as (_ & _ & _ & E). unfold rt_of in E. rewrite Ht in E. exact E.
        + constructor; [|done]. unfold wrapped. eauto. }
    destruct HQ as (ts & ps & E1 & E2 & E3 & E4 & _ & E6 & E7). exists ts. split; [done|].
    eapply ev_imp; [exact (ev_and _ _ (ev_Forall2 _ _ _ E2) (ev_Forall2 _ _ _ E3))|]. intros f [F1 F2] ks Hks.
    apply rmap_Ok in F1. destruct (rmap_perm _ _ _ _ Hks F1) as (us & Hus & Hp). exists us. split; [done|]. split.
    - by eapply sort_many.
    - assert (HN : Forall (λ i, i_nuc (inf r i) = "nucleus") ks) by by rewrite Hks.
      assert (HT : Forall (λ t, ∃ i d, t = DTree "N" i d) us) by by rewrite Hp.
      apply rmap_Ok in Hus. apply rmap_Ok. clear -Hus HN HT. induction Hus as [|i t ks us Ht Hus IH]; [constructor|].
      apply Forall_cons in HN as [Hi HN]. apply Forall_cons in HT as [(j & d & ->) HT]. constructor; [|by apply IH].
      rewrite Ht. cbn [rbind]. unfold elem_wrap. rewrite decide_True by done. unfold n_wrap, wrap. rewrite decide_True by done. done.
  Qed.
  Lemma wrap_body nuc other d k rr : erase d = body rr → (∀ s, rr ≠ Edu s) → Forall (λ p, rel_ok p.1) (relations rr) →
    (nuc = "N" ∧ other = "S") ∨ (nuc = "S" ∧ other = "N") → wrap nuc other d k = DTree nuc k [d].
  Proof using Type.
    intros Hd Hne Hn Hno. destruct rr as [s|rel nf n s|rel l]; [by destruct (Hne s)| |].
    - assert (Hok : rel_ok rel) by (rewrite Forall_forall in Hn; apply (Hn (rel, "rst")); destruct nf; left). destruct Hok as (_ & H1 & H2 & _).
      destruct d as [|lab i ts]; [by destruct nf|]. assert (lab = rel) as -> by (destruct nf; by injection Hd). simpl.
      destruct Hno as [[-> ->]|[-> ->]]; rewrite !decide_False by done; done.
    - rewrite relations_Multi in Hn. apply Forall_cons in Hn as [(_ & H1 & H2 & _) _]. simpl in H1, H2.
      destruct d as [|lab i ts]; [done|]. injection Hd as -> _. simpl.
      destruct Hno as [[-> ->]|[-> ->]]; rewrite !decide_False by done; done.
  Qed.
  Lemma rt_span : rt_of rt "span" = "span".
  Proof using span_undeclared. unfold rt_of. by rewrite span_undeclared. Qed.
  Lemma typed_Mono rel nf n s : typed (Mono rel nf n s) → rel_ok rel ∧ dget rel rt = Some "rst" ∧ typed n ∧ typed s.
  Proof using Type.
    intros [H1 H2]. assert (Hrel : ∀ p, p ∈ relations (Mono rel nf n s) ↔ p = (rel, "rst") ∨ p ∈ relations n ∨ p ∈ relations s).
    { intros p. destruct nf; cbn [relations]; rewrite elem_of_cons, elem_of_app; tauto. }
    rewrite Forall_forall in H1. split; [apply (H1 (rel, "rst")); apply Hrel; auto|]. split; [apply H2, Hrel; auto|].
    split; (split; [apply Forall_forall; intros p Hp; apply H1, Hrel; auto|]); intros x ty Hp; apply H2, Hrel; auto.
  Qed.
  Lemma typed_Multi rel l : typed (Multi rel l) → rel_ok rel ∧ dget rel rt = Some "multinuc" ∧ Forall typed l.
  Proof using Type.
    intros [H1 H2]. rewrite relations_Multi in *. apply Forall_cons in H1 as [Hr H1]. split; [done|]. split; [apply H2; left|].
    apply Forall_forall. intros c Hc. assert (Hin : ∀ p, p ∈ relations c → p ∈ concat (relations <$> l)).
    { intros p Hp. apply elem_concat. exists (relations c). split; [done|]. by apply elem_of_list_fmap_1. }
    split; [rewrite Forall_forall in H1 |- *; intros p Hp; by apply H1, Hin|]. intros x ty Hp. apply H2. right. by apply Hin.
  Qed.
  Lemma dt_seg f id : i_seg (inf r id) = true → dt r (S f) id = segment2tree r f (dt r f) id.
  Proof using Type. intros H. cbn [dt]. by rewrite H. Qed.
  Lemma dt_grp f id : i_seg (inf r id) = false → dt r (S f) id = group2tree r f (dt r f) id.
  Proof using Type. intros H. cbn [dt]. by rewrite H. Qed.
  Lemma filter_all {A} (P : A → Prop) `{!∀ x, Decision (P x)} (L : list A) : Forall P L → filter P L = L.
  Proof using Type. induction 1 as [|x L Hx HF IH]; [done|]. by rewrite filter_cons, decide_True, IH. Qed.
  Lemma filter_none {A} (P : A → Prop) `{!∀ x, Decision (P x)} (L : list A) : Forall (λ x, ¬ P x) L → filter P L = [].
  Proof using Type. induction 1 as [|x L Hx HF IH]; [done|]. by rewrite filter_cons, decide_False, IH. Qed.
  Lemma nuclei_info k ro rel l lo ext : sub k ro (Multi rel l) lo ext → dget rel rt = Some "multinuc" →
    Forall (λ i, i_reltype (inf r i) = "multinuc" ∧ get_relname r i = Some rel) ((λ p, idn p.1.1) <$> places (S k) lo l).
  Proof using Type.
    intros Hs Ht. destruct (sub_Multi _ _ _ _ _ _ _ _ Hs) as (Hc & _). apply Forall_fmap. eapply Forall_impl; [exact Hc|].
    intros p Hp. simpl in Hp. simpl. split; [|eapply relname_typed; [exact Hp|exact Ht|by right]].
    destruct (top_role _ _ _ _ _ _ Hp) as (_ & _ & -> & _). unfold rt_of. by rewrite Ht.
  Qed.
  Lemma places_two j lo l : 2 ≤ length l → 2 ≤ length ((λ p, idn p.1.1) <$> places j lo l).
  Proof using Type. destruct l as [|a [|b l]]; simpl; lia. Qed.

  Lemma read_block rr : multi_ok rr → typed rr → claimA rr ∧ claimB rr.
  Proof using All.
    induction rr as [s|rel nf n s IHn IHs|rel l IH] using rst_ind'; intros Hm Hty.
    - split.
      + intros k rel p ty lo Hs Ht Hor _. exists (DLeaf s). split; [done|]. exists 1. intros [|f] Hf; [lia|].
        destruct (top_kind _ _ _ _ _ Hs) as (Hseg & _ & Htx). destruct (top_role _ _ _ _ _ _ Hs) as (_ & _ & Hrt & _).
        rewrite dt_seg by done. unfold segment2tree. rewrite (proj1 (Permutation_nil_r _) (kids_edu _ _ _ _ _ Hs)).
        rewrite Hrt, Htx. unfold rt_of. rewrite Ht. done.
      + intros k p lo q rel nf rs h ls ps dq Hs Hok Hh HQ.
        destruct (top_kind _ _ _ _ _ Hs) as (Hseg & _ & Htx). destruct (top_role _ _ _ _ _ _ Hs) as (_ & _ & Hrt & _). rewrite rt_span in Hrt.
        destruct (sorted_pair _ _ _ _ _ _ _ _ _ _ _ _ Hs Hm Hh HQ (DLeaf s) eq_refl) as (d & Hd & Ed). exists d. split; [done|].
        eapply ev_S; [exact (ev_and _ _ Ed (q_dt _ _ _ _ _ _ _ _ _ _ HQ))|]. intros f [H1 H2]. rewrite dt_seg by done. unfold segment2tree.
        rewrite (proj1 (Permutation_singleton_r _ _) (kids_edu _ _ _ _ _ Hs)). rewrite H2. cbn [rbind]. rewrite Hrt, Htx. rewrite decide_False by done. exact H1.
    - destruct Hm as [Hmn Hms]. destruct (typed_Mono _ _ _ _ Hty) as (Hok & Ht & Htn & Hts).
      destruct (IHn Hmn Htn) as [_ HB]. destruct (IHs Hms Hts) as [HA _]. split.
      + intros k rel' p ty lo Hs Ht' Hor [h Hh]. destruct (core_Mono rel nf n s Hmn Hms HB HA k _ lo [] h Hs Hok Ht Hh) as (d & Hd & Ed).
        exists d. split; [done|]. destruct (sub_Mono _ _ _ _ _ _ _ _ _ _ Hs) as (_ & _ & Hk). cbn [app] in Hk. apply Permutation_singleton_r in Hk.
        destruct (top_kind _ _ _ _ _ Hs) as (Hseg & _ & _). destruct (top_role _ _ _ _ _ _ Hs) as (_ & _ & Hrt & _). unfold rt_of in Hrt. rewrite Ht' in Hrt. cbn in Hrt.
        eapply ev_S; [exact Ed|]. intros f H1. rewrite dt_grp by done. unfold group2tree. rewrite Hrt, Hk. rewrite decide_True by done.
        rewrite H1. cbn [rbind]. unfold wrapped. destruct (decide (ty = "rst")) as [->|Hne].
        * unfold s_wrap. rewrite (wrap_body "S" "N" d _ (Mono rel nf n s)); [done|done|done|apply Hty|by right].
        * unfold n_wrap. rewrite (wrap_body "N" "S" d _ (Mono rel nf n s)); [done|done|done|apply Hty|by left].
      + intros k p lo q rel' nf' rs h ls ps dq Hs Hok' Hh HQ.
        destruct (core_Mono rel nf n s Hmn Hms HB HA k _ lo [q] h Hs Hok Ht Hh) as (dn & Hdn & Edn).
        destruct (sorted_pair _ _ _ _ _ _ _ _ _ _ _ _ Hs (conj Hmn Hms) Hh HQ dn Hdn) as (d & Hd & Ed). exists d. split; [done|].
        destruct (top_kind _ _ _ _ _ Hs) as (Hseg & Hgt & _). destruct (top_role _ _ _ _ _ _ Hs) as (_ & _ & Hrt & _). rewrite rt_span in Hrt.
        destruct (sub_Mono _ _ _ _ _ _ _ _ _ _ Hs) as (Hn & _ & Hk). cbn [app] in Hk.
        assert (Hnn : i_nuc (inf r (idn (nuc_at k nf s))) = "nucleus").
        { destruct (top_role _ _ _ _ _ _ Hn) as (_ & _ & _ & ->). by rewrite rt_span. }
        pose proof (q_nuc _ _ _ _ _ _ _ _ _ _ HQ) as Hqn.
        eapply ev_S; [exact (ev_and _ _ Ed (ev_and _ _ Edn (q_dt _ _ _ _ _ _ _ _ _ _ HQ)))|]. intros f (H1 & H2 & H3).
        rewrite dt_grp by done. unfold group2tree. rewrite Hrt, Hgt.
        rewrite decide_False by (intros [?|?]; done). rewrite decide_True by by right. rewrite decide_False by done.
        assert (Hw : n_wrap dn (Some (idn k)) = wrapped "N" k dn).
        { unfold n_wrap, wrapped. apply (wrap_body _ _ _ _ (Mono rel nf n s)); [done|done|apply Hty|by left]. }
        apply Permutation_sym, Permutation_length_2_inv in Hk as [-> | ->]; cbn [fst snd]; rewrite Hqn, Hnn.
        * rewrite decide_True by by left. rewrite (decide_True _ _ (eq_refl "satellite")). cbn beta iota. rewrite H3. cbn [rbind]. rewrite H2. cbn [rbind]. rewrite Hw. exact H1.
        * rewrite decide_True by by right. rewrite decide_False by done. cbn beta iota. rewrite H3. cbn [rbind]. rewrite H2. cbn [rbind]. rewrite Hw. exact H1.
    - apply multi_ok_Multi in Hm as [Hlen Hm]. destruct (typed_Multi _ _ Hty) as (Hok & Ht & Htl).
      assert (HA : Forall claimA l).
      { apply Forall_forall. intros c Hc. rewrite Forall_forall in IH, Hm, Htl. by apply IH; [|apply Hm|apply Htl]. }
      split.
      + intros k rel' p ty lo Hs Ht' Hor [h Hh]. destruct (core_Multi rel l Hm HA k _ lo [] h Hs Ht Hh) as (ts & Ets & Ev).
        exists (DTree rel (Some (idn k)) ts). split; [simpl; by rewrite Ets|].
        destruct (sub_Multi _ _ _ _ _ _ _ _ Hs) as (_ & Hk). cbn [app] in Hk.
        pose proof (nuclei_info _ _ _ _ _ _ Hs Ht) as Hinfo. pose proof (places_two (S k) lo l Hlen) as Hlen2. rewrite <-Hk in Hinfo, Hlen2.
        destruct (top_kind _ _ _ _ _ Hs) as (Hseg & _ & _). destruct (top_role _ _ _ _ _ _ Hs) as (_ & _ & Hrt & _). unfold rt_of in Hrt. rewrite Ht' in Hrt. cbn in Hrt.
        eapply ev_S; [exact Ev|]. intros f H1. destruct (H1 _ Hk) as (us & U1 & U2 & U3).
        rewrite dt_grp by done. unfold group2tree. rewrite Hrt. rewrite decide_True by done.
        destruct (kids_of r (Some (idn k))) as [|c [|c' cs]] eqn:Ek; [simpl in Hlen2; lia|simpl in Hlen2; lia|].
        rewrite U3. cbn [rbind]. rewrite U2. cbn [rbind]. apply Forall_cons in Hinfo as [[_ Hc] _]. rewrite Hc. cbn [mk rbind]. unfold wrapped.
        destruct (decide (ty = "rst")) as [->|Hne].
        * unfold s_wrap. rewrite (wrap_body "S" "N" _ _ (Multi rel l)); [done|simpl; by rewrite Ets|done|apply Hty|by right].
        * unfold n_wrap. rewrite (wrap_body "N" "S" _ _ (Multi rel l)); [done|simpl; by rewrite Ets|done|apply Hty|by left].
      + intros k p lo q rel' nf rs h ls ps dq Hs Hok' Hh HQ. destruct (core_Multi rel l Hm HA k _ lo [q] h Hs Ht Hh) as (ts & Ets & Ev).
        set (nuc := wrapped "N" k (DTree rel (Some (idn k)) ts)). set (sat := DTree "S" (Some q) [dq]).
        exists (DTree rel' (Some (idn k)) (if nf then [nuc; sat] else [sat; nuc])).
        pose proof (q_erase _ _ _ _ _ _ _ _ _ _ HQ) as Hdq.
        split. { destruct nf; simpl; rewrite Ets, Hdq; done. }
        destruct (sub_Multi _ _ _ _ _ _ _ _ Hs) as (_ & Hk). cbn [app] in Hk.
        pose proof (nuclei_info _ _ _ _ _ _ Hs Ht) as Hinfo. pose proof (places_two (S k) lo l Hlen) as Hlen2.
        set (N := (λ p, idn p.1.1) <$> places (S k) lo l) in *.
        destruct (top_kind _ _ _ _ _ Hs) as (Hseg & Hgt & _). destruct (top_role _ _ _ _ _ _ Hs) as (_ & _ & Hrt & _). rewrite rt_span in Hrt.
        eapply ev_S; [exact (ev_and _ _ Ev (q_dt _ _ _ _ _ _ _ _ _ _ HQ))|]. intros f [H1 H2].
        rewrite dt_grp by done. unfold group2tree. rewrite Hrt, Hgt.
        rewrite decide_False by (intros [?|?]; done). rewrite decide_True by by right. rewrite decide_True by done.
        set (mult := filter (λ c, i_reltype (inf r c) = "multinuc") (kids_of r (Some (idn k)))).
        assert (Hmult : mult ≡ₚ N).
        { unfold mult. rewrite Hk, filter_cons, decide_False by (by rewrite (q_type _ _ _ _ _ _ _ _ _ _ HQ)).
          rewrite filter_all; [done|]. eapply Forall_impl; [exact Hinfo|]. by intros i [? _]. }
        assert (Hoth : filter (λ c, c ∉ mult) (kids_of r (Some (idn k))) = [q]).
        { apply Permutation_singleton_r. rewrite Hk, filter_cons, decide_True.
          - rewrite filter_none; [done|]. apply Forall_forall. intros x Hx Hn. apply Hn. by rewrite Hmult.
          - unfold mult. intros [Hx _]%elem_of_list_filter. rewrite (q_type _ _ _ _ _ _ _ _ _ _ HQ) in Hx. done. }
        destruct (H1 _ Hmult) as (us & U1 & U2 & _).
        destruct mult as [|m ms] eqn:Em; [rewrite <-Hmult in Hlen2; simpl in Hlen2; lia|]. rewrite <-Em in *.
        rewrite U1. cbn [rbind]. rewrite U2. cbn [rbind].
        assert (Hm1 : get_relname r m = Some rel).
        { assert (Hin : m ∈ N) by (rewrite <-Hmult, Em; left). rewrite Forall_forall in Hinfo. by apply Hinfo. }
        rewrite Hm1. cbn [mk rbind]. rewrite Hoth. cbn [forallb]. rewrite bool_decide_true by apply (q_nuc _ _ _ _ _ _ _ _ _ _ HQ). cbn [andb rmap].
        rewrite H2. cbn [rbind]. fold sat. fold (wrapped "N" k (DTree rel (Some (idn k)) ts)). fold nuc.
        unfold order_schema. unfold nuc at 1, wrapped. rewrite (linear_sub _ _ _ _ _ _ _ _ Hs); [|by apply multi_ok_Multi|simpl; by rewrite Ets].
        cbn [rbind rmap]. unfold sat at 1. rewrite (q_lin _ _ _ _ _ _ _ _ _ _ HQ). cbn [rbind isort insert existsb snd].
        pose proof (q_order _ _ _ _ _ _ _ _ _ _ HQ) as Hord. pose proof (edus_pos (Multi rel l)) as Hpos. rewrite multi_ok_Multi in Hpos. specialize (Hpos (conj Hlen Hm)).
        rewrite bool_decide_false by (destruct nf; lia). cbn [orb].
        assert (Hcs : ∀ L, L = [(sat, ls)] → convert_schema r nuc lo L = Ok (DTree rel' (Some (idn k)) (if nf then [nuc; sat] else [sat; nuc]))).
        { intros L ->. cbn [convert_schema]. unfold root_relname. unfold sat at 1. cbn [rid_of]. rewrite (q_rel _ _ _ _ _ _ _ _ _ _ HQ). cbn [mk].
          unfold nuc at 3, wrapped. cbn [rid_of]. do 2 f_equal. destruct nf; [rewrite decide_False by lia|rewrite decide_True by lia]; done. }
        rewrite !filter_cons. destruct nf.
        * rewrite (decide_False (P := _ < _)) by (simpl; lia). rewrite (decide_True (P := ¬ _)) by (simpl; lia).
          destruct (decide _); apply Hcs; done.
        * rewrite (decide_True (P := _ < _)) by (simpl; lia). rewrite (decide_False (P := ¬ _)) by (simpl; lia).
          destruct (decide _); apply Hcs; done.
  Qed.
End back.
