(** * PaulaDoc: the files of a PAULA document (C83-C86) *)
From Verif Require Import PyBase DocGraph Relabel StrNum Query Text Paula.
From Verif Require Import SpecGraph DocGraphFacts History Effects RelabelFacts MergeFacts GraphThms AllHist SpecQuery SpanFacts SelectFacts OffsetFacts TextFacts AnaphoraFacts NatSort LabelFacts SpecExbWrite ExbWrite SpecPaula PaulaFacts.
From Verif Require TigerTree.

Lemma lit_prefix (l k : string) : is_prefix (chs l) (chs k) = true ↔ ∃ t, k = l +:+ t.
Proof.
  rewrite is_prefix_spec. split.
  - intros [t Ht]. exists (str t). apply chs_inj. by rewrite chs_app, chs_str.
  - intros [t ->]. exists (chs t). apply chs_app.
Qed.
Lemma href_cat (a c : string) : (a +:+ ".xml") +:+ "#" +:+ c = a +:+ ".xml#" +:+ c.
Proof. apply chs_inj. rewrite !chs_app, <-!app_assoc. done. Qed.
Lemma plain_lit_back s : plain_lit s = true → plain_str s.
Proof. unfold plain_lit. rewrite forallb_forall. intros H c Hc. apply elem_of_list_In, H in Hc. by apply negb_true_iff, bool_decide_eq_false in Hc. Qed.
Section Files.
  Context (order : ∀ A, list A → list A) (HO : any_order order).
  Context (g g1 : graph) (C : Consistent g) (I : iso xid g g1) (C1 : Consistent g1) (L1 : Layered g1) (Hns : g_ns g1 = g_ns g).
  Context (Htok : g_tokens g1 = xid <$> g_tokens g) (T : typed g) (V : values_text g) (A : apart_ids g).
  Lemma xnode n a' : node_attrs g1 (xid n) = Some a' → n ∈ nodes g → ∃ a, node_attrs g n = Some a ∧ attr_eqv a a'.
  Proof using I. intros H Hn. apply node_mem in Hn as [a Ha]. destruct (iso_node _ _ _ I _ _ Ha) as (b & Hb & E). rewrite Hb in H. injection H as <-. eauto. Qed.
  Lemma ends_in u v k a : edge_attrs g u v k = Some a → u ∈ nodes g ∧ v ∈ nodes g.
  Proof using C. intros H. apply (succ_nodes _ _ _ C). by eapply edge_succ. Qed.
  Lemma xedge u' v' k a' : edge_attrs g1 u' v' k = Some a' → ∃ u v a, u' = xid u ∧ v' = xid v ∧ edge_attrs g u v k = Some a ∧ attr_eqv a a'.
  Proof using I.
    intros H. destruct (iso_edge_inv _ _ _ I _ _ _ _ H) as (u & v & a & -> & -> & Ha). destruct (iso_edge _ _ _ I _ _ _ _ Ha) as (b & Hb & E). rewrite H in Hb. injection Hb as <-. eauto 10.
  Qed.
  Lemma xtoken n : n ∈ nodes g → ∃ b, istoken g1 (xid n) = Ok b ∧ (b = true ↔ is_token g n).
  Proof using I Hns.
    intros Hn. apply node_mem in Hn as [a Ha]. destruct (iso_node _ _ _ I _ _ Ha) as (a' & Ha' & [_ E]). unfold istoken. rewrite Ha'. eexists. split; [reflexivity|]. rewrite Hns, dmem_spec, <-dget_is_Some, <-E by (intros HE; by apply (key_layers _ _ HE)). unfold is_token. rewrite Ha. split; [eauto|]. intros (b & [= <-] & H). done.
  Qed.
  Lemma typed1 : typed g1.
  Proof using I T. intros u' v' k a' H. apply xedge in H as (u & v & a & _ & _ & Ha & [_ E]). rewrite <-E by done. by eapply T. Qed.
  (** ** Edges *)
  Definition finds (es : list edge) (Q : nid → nid → attrs → Prop) : Prop :=
    (∀ u v a, Q u v a → u ∈ nodes g ∧ v ∈ nodes g ∧ ∃ k a', (xid u, xid v, k, a') ∈ es) ∧
    ∀ u' v' k a', (u', v', k, a') ∈ es → ∃ u v a, u' = xid u ∧ v' = xid v ∧ Q u v a ∧ attr_eqv a a'.
  Lemma link_found layer ty : plain_str layer → plain_str ty → ∃ es, select_edges_by g1 (Some layer) (Some ty) = Ok es ∧ finds es (link g layer ty).
  Proof using I C1 L1 T C.
    intros Pl Pt. destruct (select_edges_by_ok g1 (Some layer) (Some ty) C1 L1) as (es & E & _ & HE); [intros _; apply typed1|by intros l [= <-]|by intros t [= <-]|].
    exists es. split; [exact E|]. split.
    - intros u v a (k & Hk & Hl & Ht). destruct (ends_in _ _ _ _ Hk). split; [done|]. split; [done|]. destruct (iso_edge _ _ _ I _ _ _ _ Hk) as (a' & Ha' & [E1 E2]). exists k, a'. apply HE. split; [done|]. split; [by apply E1|]. by rewrite <-E2.
    - intros u' v' k a' H. apply HE in H as (H & Hl & Ht). apply xedge in H as (u & v & a & -> & -> & Ha & E1 & E2). exists u, v, a. split; [done|]. split; [done|]. split; [|done]. exists k. split; [done|]. split; [by apply E1|]. by rewrite E2.
  Qed.
  Local Notation groups := (list (nid * list (nid * attrs))).
  Definition sourced (Q : nid → nid → attrs → Prop) (es : list edge) (ps : groups) : Prop :=
    by_source Q ((λ p, (p.1, p.2.*1)) <$> ps) ∧
    Forall2 (λ p x, x.1 = xid p.1 ∧ Forall2 (λ q y, y.1 = xid q.1 ∧ Q p.1 q.1 q.2 ∧ attr_eqv q.2 y.2) p.2 x.2) ps (grouped order es).
  Lemma groups_back es Q : finds es Q → ∃ ps, sourced Q es ps.
  Proof using HO I.
    intros [F1 F2]. destruct (grouped_ok order HO es) as (G1 & G2 & G3). set (G := grouped order es) in *.
    assert (HP : Forall (λ x, ∃ p : nid * list (nid * attrs), x.1 = xid p.1 ∧ p.1 ∈ nodes g ∧ Forall2 (λ q y, y.1 = xid q.1 ∧ Q p.1 q.1 q.2 ∧ attr_eqv q.2 y.2) p.2 x.2) G).
    { apply Forall_forall. intros [u' d] Hd. apply G2 in Hd as (Hne & _ & Hd). destruct d as [|[v0 a0] d0] eqn:Ed; [done|]. rewrite <-Ed in *. assert (H0 : (v0, a0) ∈ d) by (rewrite Ed; left).
      apply Hd in H0 as [k H0]. apply F2 in H0 as (u & v & a & -> & -> & HQ & _). pose proof (F1 _ _ _ HQ) as (Hu & _ & _).
      assert (HF : Forall (λ y : nid * attrs, ∃ q : nid * attrs, y.1 = xid q.1 ∧ Q u q.1 q.2 ∧ attr_eqv q.2 y.2) d).
      { apply Forall_forall. intros [v' a'] Hv'. apply Hd in Hv' as [k' Hv']. apply F2 in Hv' as (u1 & v1 & a1 & E1 & E2 & HQ1 & HE). exists (v1, a1). cbn [fst snd]. pose proof (F1 _ _ _ HQ1) as (Hu1 & _ & _). assert (u1 = u) as -> by (apply (iso_inj _ _ _ I); done). done. }
      apply Forall_pre in HF as (qs & HF). exists (u, qs). done. }
    apply Forall_pre in HP as (ps & HP). exists ps. split.
    - assert (K1 : G.*1 = xid <$> ps.*1). { clear - HP. induction HP as [|p x ps G (E & _) _ IH]; [done|]. rewrite !fmap_cons. by rewrite IH, E. }
      split; [|split].
      + rewrite <-list_fmap_compose. change (NoDup ps.*1). rewrite K1 in G1. by apply NoDup_fmap_1 in G1.
      + intros u vs H. apply elem_of_list_fmap in H as ([u1 qs] & [= -> ->] & H). cbn [fst snd]. apply elem_of_list_lookup in H as [i Hi]. destruct (Forall2_lookup_l _ _ _ _ _ HP Hi) as ([u' d] & Hx & E & _ & HF). cbn [fst snd] in *. apply elem_of_list_lookup_2, G2 in Hx as (H1 & H2 & _). split.
        * intros E'. apply H1. apply fmap_nil_inv in E'. subst qs. by inversion HF.
        * assert (K2 : d.*1 = xid <$> qs.*1). { clear - HF. induction HF as [|q y qs d (E & _) _ IH]; [done|]. rewrite !fmap_cons. by rewrite IH, E. } rewrite K2 in H2. by apply NoDup_fmap_1 in H2.
      + intros u v. split.
        * intros [a HQ]. destruct (F1 _ _ _ HQ) as (Hu & Hv & k & a' & He). apply G3 in He as (d & Hd & Hin). apply elem_of_list_lookup in Hd as [i Hi]. destruct (Forall2_lookup_r _ _ _ _ _ HP Hi) as ([u1 qs] & Hx & E & Hu1 & HF). cbn [fst snd] in *. assert (u1 = u) as -> by (apply (iso_inj _ _ _ I); done).
          exists qs.*1. split; [apply elem_of_list_fmap; exists (u, qs); split; [done|by eapply elem_of_list_lookup_2]|]. apply elem_of_list_fmap in Hin as (y & Hy & Hin). apply elem_of_list_lookup in Hin as [j Hj]. destruct (Forall2_lookup_r _ _ _ _ _ HF Hj) as ([v1 a1] & Hq & E1 & HQ1 & _). cbn [fst snd] in *.
          apply elem_of_list_fmap. exists (v1, a1). split; [|by eapply elem_of_list_lookup_2]. cbn [fst]. pose proof (F1 _ _ _ HQ1) as (_ & Hv1 & _). apply (iso_inj _ _ _ I); [done..|congruence].
        * intros (vs & H & Hv). apply elem_of_list_fmap in H as ([u1 qs] & [= -> ->] & H). cbn [fst snd] in *. apply elem_of_list_lookup in H as [i Hi]. destruct (Forall2_lookup_l _ _ _ _ _ HP Hi) as ([u' d] & _ & _ & _ & HF). apply elem_of_list_fmap in Hv as ([v1 a1] & -> & Hq). apply elem_of_list_lookup in Hq as [j Hj]. destruct (Forall2_lookup_l _ _ _ _ _ HF Hj) as (_ & _ & _ & HQ & _). cbn [fst snd] in *. eauto.
    - eapply Forall2_impl; [exact HP|]. intros p x (E & _ & HF). done.
  Qed.
  Definition pairs (ps : groups) : list (nid * nid) := ps ≫= λ p, (p.1,.) <$> p.2.*1.
  Lemma pairs_ok Q (ps : groups) : by_source Q ((λ p, (p.1, p.2.*1)) <$> ps) → by_pair Q (pairs ps).
  Proof using Type.
    intros (S1 & S2 & S3). rewrite <-list_fmap_compose in S1. change (NoDup ps.*1) in S1. unfold pairs. split.
    - assert (HN : ∀ p, p ∈ ps → NoDup p.2.*1). { intros p Hp. apply (S2 p.1). apply elem_of_list_fmap. eauto. } clear S2 S3. induction ps as [|p ps IH]; [apply NoDup_nil_2|]. cbn [mbind list_bind]. rewrite fmap_cons in S1. apply NoDup_cons in S1 as [H1 S1]. apply NoDup_app. split; [|split].
      + apply NoDup_fmap_2; [intros x y [= ->]; done|]. apply HN. left.
      + intros [u v] Hx Hy. apply elem_of_list_fmap in Hx as (w & [= -> ->] & _). apply elem_of_list_bind in Hy as (q & Hy & Hq). apply elem_of_list_fmap in Hy as (w' & [= E _] & _). apply H1. rewrite E. apply elem_of_list_fmap. eauto.
      + apply IH; [done|]. intros q Hq. apply HN. by right.
    - intros u v. rewrite S3. rewrite elem_of_list_bind. split.
      + intros (vs & H & Hv). apply elem_of_list_fmap in H as (p & [= -> ->] & H). exists p. split; [|done]. apply elem_of_list_fmap. eauto.
      + intros (p & H & Hp). apply elem_of_list_fmap in H as (w & [= -> ->] & H). exists p.2.*1. split; [|done]. apply elem_of_list_fmap. eauto.
  Qed.
  (** ** Text and tokens *)
  Lemma tokens_in ss : text_tokens g ss → Forall (λ t, t ∈ nodes g) (g_tokens g).
  Proof using Type. unfold text_tokens. generalize (g_tokens g). induction 1 as [|t s ts ss (a & Ha & _) _ IH]; constructor; [|done]. apply node_mem. eauto. Qed.
  Lemma text1 ss : text_tokens g ss → text_tokens g1 ss.
  Proof using I Hns Htok.
    unfold text_tokens. rewrite Htok. intros H. apply Forall2_fmap_l. eapply Forall2_impl; [exact H|]. intros t s (a & Ha & Hg). destruct (iso_node _ _ _ I _ _ Ha) as (a' & Ha' & [_ E]). exists a'. split; [done|]. rewrite Hns, <-E by (intros HE; by apply (key_layers _ _ HE)). done.
  Qed.
  Lemma text_ok ss : text_tokens g ss → text_file g1 = Ok (PText (str (joined ss))).
  Proof using I Hns Htok. intros H. unfold text_file, get_text. rewrite (tokens2text_is g1 _ ss (text1 ss H)). done. Qed.
  Lemma tokens_ok ss base : text_tokens g ss → ∃ ms, token_file base g1 = Ok (PMarks "tok" (base +:+ ".xml") ms) ∧ marks_words g ss ms.
  Proof using I Hns Htok A.
    intros H. pose proof (text1 ss H) as H1. unfold text_tokens in H1. unfold token_file.
    assert (E1 : rmap (λ n, let! v := get_token g1 n in Ok (n, v)) (g_tokens g1) = Ok (zip (g_tokens g1) (VStr <$> ss))).
    { apply rmap_Ok. clear - H1. induction H1 as [|t s ts ss (a & Ha & Hg) _ IH]; [constructor|]. rewrite fmap_cons. cbn [zip zip_with]. constructor; [|exact IH]. unfold get_token. rewrite Ha, Hg. done. }
    rewrite E1. cbn [rbind]. destruct (onsets_ok ss 0 (g_tokens g1)) as (os & E2 & F1 & F2); [by eapply Forall2_length|]. rewrite E2. cbn [rbind].
    pose proof (tokens_in ss H) as HT. rewrite Htok in F1.
    assert (E3 : ∃ ms, rmap (λ o : nid * nat * nat, match o.1.1 with NStr s => Ok (Some s, range_ref o.1.2 o.2) | NInt _ => Err TypeError end) os = Ok ms ∧ Forall2 (λ o m, m.1 = Some (nid_str o.1.1) ∧ m.2 = range_ref o.1.2 o.2) os ms).
    { clear - F1 HT A. revert F1. generalize dependent (g_tokens g). induction os as [|[[t n] l] os IH]; intros ts HT F1; [exists []; split; [reflexivity|exact (List.Forall2_nil _)]|]. destruct ts as [|t0 ts]; [done|]. rewrite !fmap_cons in F1. cbn [fst snd] in F1. injection F1 as -> F1. apply Forall_cons in HT as [Ht HT]. destruct (IH ts HT F1) as (ms & Em & Fm). destruct (colon_new t0) as (_ & _ & _ & s & Es); [by apply A|].
      exists ((Some s, range_ref n l) :: ms). cbn [rmap fst snd]. rewrite Es, Em. split; [done|]. constructor; [|done]. done. }
    destruct E3 as (ms & E3 & F3). rewrite E3. cbn [rbind]. exists ms. split; [done|]. split.
    - clear - F1 F3. revert F1. generalize (g_tokens g). induction F3 as [|o m os ms (E & _) _ IH]; intros ts F1; destruct ts as [|t ts]; try done. rewrite !fmap_cons in F1. injection F1 as E1 F1. constructor; [|by apply IH]. rewrite E, E1. done.
    - intros i s Hs. destruct (F2 _ _ Hs) as (o & b & a & Ho & J1 & J2 & J3 & J4). destruct (Forall2_lookup_l _ _ _ _ _ F3 Ho) as (m & Hm & _ & Em). exists m, b, a. split; [done|]. split; [done|]. split; [done|]. rewrite Em, J3, J4. done.
  Qed.
  (** ** Annotation of tokens *)
  Lemma kept_iff l k : kept l k = true ↔ k ∉ l.
  Proof using Type. unfold kept. apply bool_decide_eq_true. Qed.
  Lemma token_anno_ok ss tok layer : text_tokens g ss → ∃ l, token_anno_file order tok layer g1 = Ok (PFeats (tok +:+ ".xml") l) ∧ says_tokens g layer l.
  Proof using HO I Htok V.
    intros H. pose proof (tokens_in ss H) as HT. unfold token_anno_file, says_tokens. rewrite Htok.
    assert (E : ∃ l, rmap (λ t, let! a := of_option KeyError (node_attrs g1 t) in let! fs := make_feats order (λ k, kept ignored_token_attribs k && is_prefix (chs layer) (chs k)) a in Ok (ref t, fs)) (xid <$> g_tokens g) = Ok l ∧
      Forall2 (λ t x, x.1 = "#" +:+ xname t ∧ ∃ a, node_attrs g t = Some a ∧ feats_are (of_token layer) a x.2) (g_tokens g) l).
    { clear - HT HO I V. induction HT as [|t ts Ht _ (l & E & F)]; [exists []; split; [reflexivity|exact (List.Forall2_nil _)]|]. apply node_mem in Ht as [a Ha]. destruct (iso_node _ _ _ I _ _ Ha) as (a' & Ha' & EA).
      destruct (feats_ok order (λ k, kept ignored_token_attribs k && is_prefix (chs layer) (chs k)) (of_token layer) a' HO) as (fs & Ef & Ff).
      - intros k. rewrite andb_true_iff, kept_iff, lit_prefix. unfold ignored_token_attribs. rewrite not_elem_of_app. unfold of_token, of_node, ignored_node_attribs. tauto.
      - intros k v Hv (Hk & _). apply (proj1 V t a k v); [done| |done]. destruct EA as [_ EA]. rewrite EA; [done|]. intros ->. apply Hk. left.
      - exists ((ref (xid t), fs) :: l). rewrite fmap_cons. cbn [rmap]. rewrite Ha'. cbn [of_option rbind]. rewrite Ef. cbn [rbind]. rewrite E. split; [done|]. constructor; [|done]. split; [done|]. exists a. split; [done|]. eapply feats_eqv; [|exact EA|exact Ff]. intros (Hk & _). apply Hk. left. }
    destruct E as (l & E & F). rewrite E. exists l. done.
  Qed.
  (** ** Annotation of nodes *)
  Lemma struct_anno_ok base layer : ∃ l, struct_anno_file order base layer g1 = Ok (PFeats (base +:+ ".xml") l) ∧ says_nodes g layer l.
  Proof using HO I V C1 L1 Hns.
    unfold struct_anno_file. destruct (nodes_by_layer_ok g1 (LOne layer) C1 L1) as (r & E & HS & HE). rewrite E. cbn [rbind].
    assert (HD : NoDup r) by (eapply NoDup_sub; [exact HS|apply C1]).
    assert (HR : ∀ n', n' ∈ r → ∃ n, n' = xid n ∧ n ∈ nodes g).
    { intros n' H. apply HE in H as (a & Ha & _). destruct (iso_node_inv _ _ _ I n') as (n & Hn & ->); [apply node_mem; eauto|eauto]. }
    rewrite rfilter_total. 2:{ apply Forall_forall. intros n' H. destruct (HR _ H) as (n & -> & Hn). destruct (xtoken n Hn) as (b & -> & _). eauto. }
    cbn [rbind]. set (r' := filter _ r). assert (HD' : NoDup r') by (by apply NoDup_filter).
    assert (HF : Forall (λ n', ∃ n, n' = xid n ∧ n ∈ nodes g ∧ ¬ is_token g n ∧ n' ∈ r') r').
    { apply Forall_forall. intros n' H. pose proof H as H'. subst r'. apply elem_of_list_filter in H as [H1 H2]. destruct (HR _ H2) as (n & -> & Hn). exists n. split; [done|]. split; [done|]. split; [|done]. destruct (xtoken n Hn) as (b & Eb & Hb). rewrite Eb in H1. cbn in H1. injection H1 as H1. rewrite <-Hb. destruct b; done. }
    apply Forall_pre in HF as (ns & HF).
    assert (EN : r' = xid <$> ns). { clear - HF. induction HF as [|n n' ns l (E & _) _ IH]; [done|]. rewrite fmap_cons. by rewrite E, <-IH. }
    assert (HN : ∀ n, n ∈ ns ↔ ohas_layer (node_attrs g n) layer ∧ ¬ is_token g n).
    { intros n. split.
      - intros H. apply elem_of_list_lookup in H as [i Hi]. destruct (Forall2_lookup_l _ _ _ _ _ HF Hi) as (n' & _ & -> & Hn & Ht & Hin). split; [|done]. subst r'. apply elem_of_list_filter in Hin as [_ Hin]. apply HE in Hin as (a' & Ha' & Hl). destruct (xnode _ _ Ha' Hn) as (a & Ha & [E1 _]). exists a. split; [done|]. by apply E1.
      - intros ((a & Ha & Hl) & Ht). destruct (iso_node _ _ _ I _ _ Ha) as (a' & Ha' & [E1 _]). assert (Hn : n ∈ nodes g) by (apply node_mem; eauto).
        assert (Hin : xid n ∈ r'). { subst r'. apply elem_of_list_filter. split; [|apply HE; exists a'; split; [done|by apply E1]]. destruct (xtoken n Hn) as (b & -> & Hb). cbn. destruct b; [|done]. exfalso. by apply Ht, Hb. }
        apply elem_of_list_lookup in Hin as [i Hi]. destruct (Forall2_lookup_r _ _ _ _ _ HF Hi) as (m & Hm & Em & Hm' & _). assert (n = m) as -> by (apply (iso_inj _ _ _ I); done). by eapply elem_of_list_lookup_2. }
    assert (EL : ∃ l, rmap (λ n, let! a := of_option KeyError (node_attrs g1 n) in let! fs := make_feats order (kept ignored_node_attribs) a in Ok (ref n, fs)) r' = Ok l ∧
      Forall2 (λ n x, x.1 = "#" +:+ xname n ∧ ∃ a, node_attrs g n = Some a ∧ feats_are of_node a x.2) ns l).
    { rewrite EN. clear - HO I V HN. assert (HT : Forall (λ n, ∃ a, node_attrs g n = Some a) ns) by (apply Forall_forall; intros n Hn; apply HN in Hn as ((a & Ha & _) & _); eauto). clear HN. induction HT as [|t ts (a & Ha) _ (l & E & F)]; [exists []; split; [reflexivity|exact (List.Forall2_nil _)]|]. destruct (iso_node _ _ _ I _ _ Ha) as (a' & Ha' & EA).
      destruct (feats_ok order (kept ignored_node_attribs) of_node a' HO) as (fs & Ef & Ff).
      - intros k. apply kept_iff.
      - intros k v Hv Hk. apply (proj1 V t a k v); [done| |done]. destruct EA as [_ EA]. rewrite EA; [done|]. intros ->. apply Hk. left.
      - exists ((ref (xid t), fs) :: l). rewrite fmap_cons. cbn [rmap]. rewrite Ha'. cbn [of_option rbind]. rewrite Ef. cbn [rbind]. rewrite E. split; [done|]. constructor; [|done]. split; [done|]. exists a. split; [done|]. eapply feats_eqv; [|exact EA|exact Ff]. intros Hk. apply Hk. left. }
    destruct EL as (l & EL & FL). rewrite EL. exists l. split; [done|]. exists ns. split; [|done]. rewrite EN in HD'. by apply NoDup_fmap_1 in HD'.
  Qed.
  (** ** Annotation of edges *)
  Lemma edge_anno_ok base es Q : finds es Q → (∀ u v a, Q u v a → ∃ k, edge_attrs g u v k = Some a) →
    ∃ l, edge_anno order base es = Ok (PFeats (base +:+ ".xml") l) ∧
      ∃ ps, by_pair Q ps ∧ Forall2 (λ (p : nid * nid) x, x.1 = "#" +:+ edge_name p.1 p.2 ∧ ∃ a, Q p.1 p.2 a ∧ feats_are of_edge a x.2) ps l.
  Proof using HO I V.
    intros HF HQ. destruct (groups_back es Q HF) as (ps & S1 & S2). unfold edge_anno.
    assert (E : ∃ l, rconcat (λ p : nid * dict nid attrs, rmap (λ q : nid * attrs, let! fs := make_feats order (kept ignored_edge_attribs) q.2 in Ok ("#" +:+ rel_id p.1 q.1, fs)) p.2) (grouped order es) = Ok l ∧
      Forall2 (λ (p : nid * nid) x, x.1 = "#" +:+ edge_name p.1 p.2 ∧ ∃ a, Q p.1 p.2 a ∧ feats_are of_edge a x.2) (pairs ps) l).
    { clear - S2 HO V HQ. induction S2 as [|[u qs] [u' d] ps G (Eu & H) _ (l & E & F)]; [exists []; split; [reflexivity|exact (List.Forall2_nil _)]|]. cbn [fst snd] in *. subst u'.
      assert (E1 : ∃ l1, rmap (λ q : nid * attrs, let! fs := make_feats order (kept ignored_edge_attribs) q.2 in Ok ("#" +:+ rel_id (xid u) q.1, fs)) d = Ok l1 ∧
        Forall2 (λ (p : nid * nid) x, x.1 = "#" +:+ edge_name p.1 p.2 ∧ ∃ a, Q p.1 p.2 a ∧ feats_are of_edge a x.2) ((u,.) <$> qs.*1) l1).
      { induction H as [|[v a] [v' a'] qs d (Ev & Hq & EA) _ (l1 & E1 & F1)]; [exists []; split; [reflexivity|exact (List.Forall2_nil _)]|]. cbn [fst snd] in *. subst v'. destruct (feats_ok order (kept ignored_edge_attribs) of_edge a' HO) as (fs & Ef & Ff).
        - intros k. apply kept_iff.
        - intros k x Hx Hk. destruct (HQ _ _ _ Hq) as [key Hkey]. apply (proj2 V u v key a k x); [done| |done]. destruct EA as [_ EA]. rewrite EA; [done|]. intros ->. apply Hk. left.
        - exists (("#" +:+ rel_id (xid u) (xid v), fs) :: l1). cbn [rmap fst snd]. rewrite Ef. cbn [rbind]. rewrite E1. split; [done|]. rewrite !fmap_cons. constructor; [|done]. split; [done|]. exists a. split; [done|]. eapply feats_eqv; [|exact EA|exact Ff]. intros Hk. apply Hk. left. }
      destruct E1 as (l1 & E1 & F1). exists (l1 ++ l). cbn [rconcat fst snd]. rewrite E1. cbn [rbind]. rewrite E. split; [done|]. unfold pairs. cbn [mbind list_bind]. by apply Forall2_app. }
    destruct E as (l & E & F). rewrite E. exists l. split; [done|]. exists (pairs ps). split; [by apply pairs_ok|done].
  Qed.
  Lemma dominates_plain : plain_str dominates. Proof using Type. apply plain_lit_back. vm_compute. reflexivity. Qed.
  Lemma spans_plain : plain_str spans. Proof using Type. apply plain_lit_back. vm_compute. reflexivity. Qed.
  Lemma points_plain : plain_str points_to. Proof using Type. apply plain_lit_back. vm_compute. reflexivity. Qed.
  (** no node has the name of the root any more *)
  Lemma no_root layer es Q : finds es Q → filter (λ e : edge, e.1.1.1 ≠ NStr (layer +:+ ":root_node")) es = es.
  Proof using A.
    intros [F1 F2]. apply TigerTree.filter_all. apply Forall_forall. intros [[[u' v'] k] a'] H. cbn [fst]. apply F2 in H as (u & v & a & -> & _ & HQ & _). destruct (F1 _ _ _ HQ) as (Hu & _). intros E. destruct (colon_new u) as (Hc & _); [by apply A|]. apply Hc. exists (layer +:+ ":root_node"). split; [exact E|]. rewrite chs_app. apply elem_of_app. right. left.
  Qed.
  Lemma link_edge layer ty u v a : link g layer ty u v a → ∃ k, edge_attrs g u v k = Some a.
  Proof using Type. intros (k & Hk & _). eauto. Qed.
  Lemma rel_anno_ok base layer : plain_str layer → ∃ l, rel_anno_file order base layer g1 = Ok (PFeats (base +:+ ".xml") l) ∧ says_edges g layer "dominates" l.
  Proof using HO I V C C1 L1 T A.
    intros Pl. destruct (link_found layer dominates Pl dominates_plain) as (es & E & HF). unfold rel_anno_file. rewrite E. cbn [rbind]. rewrite (no_root _ _ _ HF). apply (edge_anno_ok base es _ HF). apply link_edge.
  Qed.
  Lemma pointing_anno_ok base layer : plain_str layer → ∃ l, pointing_anno_file order base layer g1 = Ok (PFeats (base +:+ ".xml") l) ∧ says_edges g layer "points_to" l.
  Proof using HO I V C C1 L1 T.
    intros Pl. destruct (link_found layer points_to Pl points_plain) as (es & E & HF). unfold pointing_anno_file. rewrite E. cbn [rbind]. apply (edge_anno_ok base es _ HF). apply link_edge.
  Qed.
  (** ** Pointing relations *)
  Lemma href_ok tok base n : n ∈ nodes g → ∃ h, node_href tok base g1 (xid n) = Ok h ∧ href_is g (tok +:+ ".xml") (base +:+ ".xml") n h.
  Proof using I Hns.
    intros Hn. destruct (xtoken n Hn) as (b & E & Hb). unfold node_href. rewrite E. cbn [rbind]. eexists. split; [reflexivity|]. destruct b.
    - left. split; [by apply Hb|]. symmetry. apply href_cat.
    - right. split; [intros H; by apply Hb in H|]. symmetry. apply href_cat.
  Qed.
  Lemma pointing_ok tok base layer : plain_str layer → ∃ l, pointing_file order tok base layer g1 = Ok (PRels l) ∧ says_pointers g (tok +:+ ".xml") (base +:+ ".xml") layer l.
  Proof using HO I C C1 L1 T Hns.
    intros Pl. destruct (link_found layer points_to Pl points_plain) as (es & E & HF). unfold pointing_file. rewrite E. cbn [rbind]. destruct (groups_back es _ HF) as (ps & S1 & S2).
    assert (EL : ∃ l, rconcat (λ p : nid * dict nid attrs, rmap (λ q : nid * attrs, let! s := node_href tok base g1 p.1 in let! t := node_href tok base g1 q.1 in Ok (rel_id p.1 q.1, s, t)) p.2) (grouped order es) = Ok l ∧
      Forall2 (λ (p : nid * nid) x, x.1.1 = edge_name p.1 p.2 ∧ href_is g (tok +:+ ".xml") (base +:+ ".xml") p.1 x.1.2 ∧ href_is g (tok +:+ ".xml") (base +:+ ".xml") p.2 x.2) (pairs ps) l).
    { destruct HF as [HF _]. clear - S2 I Hns HF. induction S2 as [|[u qs] [u' d] ps G (Eu & H) _ (l & E & F)]; [exists []; split; [reflexivity|exact (List.Forall2_nil _)]|]. cbn [fst snd] in *. subst u'.
      assert (E1 : ∃ l1, rmap (λ q : nid * attrs, let! s := node_href tok base g1 (xid u) in let! t := node_href tok base g1 q.1 in Ok (rel_id (xid u) q.1, s, t)) d = Ok l1 ∧
        Forall2 (λ (p : nid * nid) x, x.1.1 = edge_name p.1 p.2 ∧ href_is g (tok +:+ ".xml") (base +:+ ".xml") p.1 x.1.2 ∧ href_is g (tok +:+ ".xml") (base +:+ ".xml") p.2 x.2) ((u,.) <$> qs.*1) l1).
      { induction H as [|[v a] [v' a'] qs d (Ev & Hq & EA) _ (l1 & E1 & F1)]; [exists []; split; [reflexivity|exact (List.Forall2_nil _)]|]. cbn [fst snd] in *. subst v'. destruct (HF _ _ _ Hq) as (Hu & Hv & _). destruct (href_ok tok base u Hu) as (s & Es & Hs). destruct (href_ok tok base v Hv) as (t & Et & Ht).
        exists ((rel_id (xid u) (xid v), s, t) :: l1). cbn [rmap fst snd]. rewrite Es in E1 |- *. rewrite Et. cbn [rbind] in E1 |- *. rewrite E1. split; [done|]. rewrite !fmap_cons. constructor; [|done]. done. }
      destruct E1 as (l1 & E1 & F1). exists (l1 ++ l). cbn [rconcat fst snd]. rewrite E1. cbn [rbind]. rewrite E. split; [done|]. unfold pairs. cbn [mbind list_bind]. by apply Forall2_app. }
    destruct EL as (l & EL & FL). rewrite EL. exists l. split; [done|]. exists (pairs ps). split; [by apply pairs_ok|done].
  Qed.
  (** ** Spans *)
  Lemma span_ok salt tok layer : plain_str layer → ∃ l, span_file order salt tok layer g1 = Ok (PMarks layer (tok +:+ ".xml") l) ∧ marks_spans salt g layer l.
  Proof using HO I C C1 L1 T.
    intros Pl. destruct (link_found layer spans Pl spans_plain) as (es & E & HF). unfold span_file. rewrite E. cbn [rbind]. eexists. split; [reflexivity|]. destruct (groups_back es _ HF) as (ps & S1 & S2).
    assert (HP : ∃ qs : list (nid * list nid), Forall2 (λ (p : nid * list (nid * attrs)) q, q.1 = p.1 ∧ q.2 ≡ₚ p.2.*1) ps qs ∧ Forall2 (λ q x, xid <$> q.2 = nat_sorted (dkeys x.2)) qs (grouped order es)).
    { clear - S2. induction S2 as [|[u qs] [u' d] ps G (Eu & H) _ (l & F1 & F2)]; [exists []; split; constructor|]. cbn [fst snd] in *.
      assert (EK : dkeys d = xid <$> qs.*1). { clear - H. induction H as [|q y qs d (E & _) _ IH]; [done|]. unfold dkeys in *. rewrite !fmap_cons. by rewrite IH, E. }
      pose proof (nat_sorted_perm (dkeys d)) as HP. rewrite EK in HP at 2. destruct (Permutation_map_inv _ _ HP) as (vs & Ev & Pv). exists ((u, vs) :: l). split; (apply List.Forall2_cons; [|done]); [split; [done|by symmetry]|symmetry; exact Ev]. }
    destruct HP as (qs & P1 & P2). exists qs. split; [|split].
    - destruct S1 as (K1 & K2 & K3). rewrite <-list_fmap_compose in K1. change (NoDup ps.*1) in K1. assert (EK : qs.*1 = ps.*1). { clear - P1. induction P1 as [|p q ps qs (E & _) _ IH]; [done|]. rewrite !fmap_cons. by rewrite IH, E. }
      split; [by rewrite EK|]. split.
      + intros u vs H. apply elem_of_list_lookup in H as [i Hi]. destruct (Forall2_lookup_r _ _ _ _ _ P1 Hi) as ([u1 q1] & Hx & E1 & E2). cbn [fst snd] in *. destruct (K2 u1 q1.*1) as [K4 K5]; [apply elem_of_list_fmap; exists (u1, q1); split; [done|by eapply elem_of_list_lookup_2]|]. split.
        * intros ->. apply K4. apply Permutation_nil. by rewrite E2.
        * by rewrite E2.
      + intros u v. rewrite K3. split.
        * intros (vs & H & Hv). apply elem_of_list_fmap in H as ([u1 q1] & [= -> ->] & H). apply elem_of_list_lookup in H as [i Hi]. destruct (Forall2_lookup_l _ _ _ _ _ P1 Hi) as ([u2 q2] & Hx & E1 & E2). cbn [fst snd] in *. subst u2. exists q2. split; [by eapply elem_of_list_lookup_2|]. by rewrite E2.
        * intros (vs & H & Hv). apply elem_of_list_lookup in H as [i Hi]. destruct (Forall2_lookup_r _ _ _ _ _ P1 Hi) as ([u1 q1] & Hx & E1 & E2). cbn [fst snd] in *. subst u1. exists q1.*1. split; [|by rewrite <-E2]. apply elem_of_list_fmap. exists (u, q1). split; [done|by eapply elem_of_list_lookup_2].
    - clear - P2. induction P2 as [|q x qs G E _ IH]; constructor; [|done]. rewrite E. apply nat_sorted_sorted.
    - apply Forall2_fmap_r. assert (HN : Forall (λ q : nid * list nid, q.2 ≠ []) qs).
      { destruct S1 as (_ & K2 & _). apply Forall_forall. intros q Hq. apply elem_of_list_lookup in Hq as [i Hi]. destruct (Forall2_lookup_r _ _ _ _ _ P1 Hi) as ([u1 q1] & Hx & E1 & E2). destruct (K2 u1 q1.*1) as [K4 _]; [apply elem_of_list_fmap; exists (u1, q1); split; [done|by eapply elem_of_list_lookup_2]|]. intros E0. apply K4. cbn [fst snd] in *. apply Permutation_nil. by rewrite <-E2, E0. }
      clear - P2 HN. revert HN. induction P2 as [|[u vs] x qs G E _ IH]; intros HN; constructor; [|apply Forall_cons in HN as [_ HN]; by apply IH]. cbn [fst snd] in *. split; [done|]. rewrite <-E. apply Forall_cons in HN as [HN _]. cbn [snd] in HN. destruct salt.
      + cbn [snd]. rewrite join_sp_joined. f_equal. by rewrite <-list_fmap_compose.
      + destruct vs as [|a vs]; [done|]. destruct (last (a :: vs)) as [b|] eqn:Eb; [|by apply last_None in Eb]. exists a, b. split; [done|]. split; [done|]. rewrite fmap_cons. cbn [head default]. rewrite <-fmap_cons, fmap_last, Eb. done.
  Qed.
  (** ** Hierarchies *)
  Lemma hierarchy_ok tok layer : plain_str layer → ∃ l, hierarchy_file order tok layer g1 = Ok (PStructs layer l) ∧ says_structs g (tok +:+ ".xml") layer l.
  Proof using HO I C C1 L1 T A Hns.
    intros Pl. destruct (link_found layer dominates Pl dominates_plain) as (ds & E1 & H1). destruct (link_found layer spans Pl spans_plain) as (es & E2 & H2). unfold hierarchy_file. rewrite E1, E2. cbn [rbind]. rewrite (no_root _ _ _ H1).
    rewrite rfilter_total. 2:{ apply Forall_forall. intros [[[u' v'] k] a'] H. apply H2 in H as (u & v & a & -> & -> & HQ & _). apply H2 in HQ as (_ & Hv & _). destruct (xtoken v Hv) as (b & E & _). exists b. exact E. }
    cbn [rbind]. set (fs := filter _ es).
    assert (HF : finds (ds ++ fs) (part_of g layer)).
    { destruct H1 as [F1 F2]. destruct H2 as [F3 F4]. split.
      - intros u v a [H|[H Ht]].
        + apply F1 in H as (Hu & Hv & k & a' & H). split; [done|]. split; [done|]. exists k, a'. apply elem_of_app. by left.
        + apply F3 in H as (Hu & Hv & k & a' & H). split; [done|]. split; [done|]. exists k, a'. apply elem_of_app. right. subst fs. apply elem_of_list_filter. split; [|done]. cbn [fst snd]. destruct (xtoken v Hv) as (b & E & Hb). rewrite E. f_equal. by apply Hb.
      - intros u' v' k a' H. apply elem_of_app in H as [H|H].
        + apply F2 in H as (u & v & a & ? & ? & HQ & ?). exists u, v, a. split; [done|]. split; [done|]. split; [by left|done].
        + subst fs. apply elem_of_list_filter in H as [Ht H]. apply F4 in H as (u & v & a & -> & -> & HQ & ?). exists u, v, a. split; [done|]. split; [done|]. split; [|done]. right. split; [done|]. cbn [fst snd] in Ht. apply F3 in HQ as (_ & Hv & _). destruct (xtoken v Hv) as (b & E & Hb). rewrite E in Ht. injection Ht as ->. by apply Hb. }
    destruct (groups_back _ _ HF) as (ps & S1 & S2).
    assert (EL : ∃ l, rmap (λ p : nid * dict nid attrs, let! rs := rmap (λ q : nid * attrs, let! t := istoken g1 q.1 in
          match dget "edge_type" q.2 with
          | Some (VStr ty) => Ok (rel_id p.1 q.1, Some ty, if t : bool then tok +:+ ".xml#" +:+ nid_str q.1 else ref q.1)
          | _ => Err TypeError
          end) p.2 in Ok (nid_str p.1, rs)) (grouped order (ds ++ fs)) = Ok l ∧
      Forall2 (λ (p : nid * list (nid * attrs)) x, x.1 = xname p.1 ∧
      Forall2 (λ v r, r.1.1 = edge_name p.1 v ∧ href_is g (tok +:+ ".xml") "" v r.2 ∧ ∃ a ty, part_of g layer p.1 v a ∧ dget "edge_type" a = Some (VStr ty) ∧ r.1.2 = Some ty) p.2.*1 x.2) ps l).
    { destruct HF as [HF _]. clear - S2 I Hns HF. induction S2 as [|[u qs] [u' d] ps G (Eu & H) _ (l & E & F)]; [exists []; split; [reflexivity|exact (List.Forall2_nil _)]|]. cbn [fst snd] in *. subst u'.
      assert (E1 : ∃ l1, rmap (λ q : nid * attrs, let! t := istoken g1 q.1 in
          match dget "edge_type" q.2 with
          | Some (VStr ty) => Ok (rel_id (xid u) q.1, Some ty, if t : bool then tok +:+ ".xml#" +:+ nid_str q.1 else ref q.1)
          | _ => Err TypeError
          end) d = Ok l1 ∧ Forall2 (λ v r, r.1.1 = edge_name u v ∧ href_is g (tok +:+ ".xml") "" v r.2 ∧ ∃ a ty, part_of g layer u v a ∧ dget "edge_type" a = Some (VStr ty) ∧ r.1.2 = Some ty) qs.*1 l1).
      { induction H as [|[v a] [v' a'] qs d (Ev & Hq & EA) _ (l1 & E1 & F1)]; [exists []; split; [reflexivity|exact (List.Forall2_nil _)]|]. cbn [fst snd] in *. subst v'. destruct (HF _ _ _ Hq) as (Hu & Hv & _). destruct (xtoken v Hv) as (b & Eb & Hb).
        assert (Hty : ∃ ty, dget "edge_type" a = Some (VStr ty)) by (destruct Hq as [(k & _ & _ & ?)|((k & _ & _ & ?) & _)]; eauto). destruct Hty as [ty Hty]. destruct EA as [_ EA].
        eexists (_ :: l1). cbn [rmap fst snd]. rewrite Eb. cbn [rbind]. rewrite <-EA, Hty by done. cbn [rbind]. rewrite E1. split; [reflexivity|]. rewrite fmap_cons. constructor; [|done]. cbn [fst snd]. split; [done|]. split; [|eauto]. destruct b.
        - left. split; [by apply Hb|]. symmetry. apply href_cat.
        - right. split; [intros Hx; by apply Hb in Hx|]. done. }
      destruct E1 as (l1 & E1 & F1). exists ((nid_str (xid u), l1) :: l). cbn [rmap fst snd]. rewrite E1. cbn [rbind]. rewrite E. split; [done|]. constructor; [|done]. done. }
    destruct EL as (l & EL & FL). rewrite EL. exists l. split; [done|]. exists ((λ p, (p.1, p.2.*1)) <$> ps). split; [exact S1|]. apply Forall2_fmap_l. exact FL.
  Qed.
End Files.
