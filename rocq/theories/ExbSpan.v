(** * ExbSpan: words and spans of Exmaralda documents *)
From stdpp Require Import relations sorting.
From Verif Require Import PyBase DocGraph Relabel StrNum Query Text Rst Nltk Parsers Anaphora Conano Decour Ptb Convert Tiger Exb.
From Verif Require Import SpecGraph DocGraphFacts History Effects RelabelFacts GraphThms SpecImport ImportFacts PtbFacts TextFacts OffsetFacts GeoffFacts DecourFacts AnaphoraFacts TigerFacts TigerTree BuiltFrom ViewFacts NatSort SpecBrackets BracketFacts OutlineSpan ConvertFacts Rs3Facts Rs3Rel SpecQuery SpanFacts SpecUrml UrmlFacts UrmlDoc SpecExb ExbRead ExbDoc.

(** ** The span of a node from the spans of its children *)
Lemma out_edges_of g E n : Consistent g → has_edges g E →
  ∃ es, out_edges g n ≡ₚ es ∧ Forall2 edge_is es (filter (λ e : edge_info, e.1.1.1 = n) E).
Proof.
  intros C (es & HP & HF). exists (filter (λ e : nid * nid * nid * attrs, e.1.1.1 = n) es). split.
  - rewrite <-HP. apply NoDup_Permutation; [by apply NoDup_out|by apply NoDup_filter, NoDup_edges|]. intros [[[u v] k] a]. rewrite elem_of_list_filter, elem_edges, elem_out_edges by done. cbn [fst snd]. naive_solver.
  - apply (filter_Forall2 edge_is); [done|]. intros x y (H & _). by rewrite H.
Qed.
Definition child_edge (n : nid) (e : edge_info) : Prop := e.1.1.2 ≠ n ∧ ∃ t, dget "edge_type" e.2 = Some (VStr t) ∧ t ≠ "points_to".
Lemma span_children g E n b k f : Consistent g → has_edges g E → istoken g n = Ok b → Forall (child_edge n) (filter (λ e : edge_info, e.1.1.1 = n) E) →
  (∀ e, e ∈ filter (λ e : edge_info, e.1.1.1 = n) E → get_span k g e.1.1.2 = Ok (f e.1.1.2)) →
  ∃ l, get_span (S k) g n = Ok l ∧ sorted nat_cmp l ∧ l ≡ₚ (if b then [n] else []) ++ (((λ e : edge_info, e.1.1.2) <$> filter (λ e : edge_info, e.1.1.1 = n) E) ≫= f).
Proof.
  intros C HE Hb HC Hf. destruct (out_edges_of g E n C HE) as (es & HP & HF). set (L := filter _ E) in *. clearbody L.
  assert (HO : Forall (λ e, child_span k g n e = Ok (f e.1.1.2)) (out_edges g n)).
  { rewrite HP. rewrite Forall_forall in HC. apply Forall_forall. intros e He. apply elem_of_list_lookup in He as [i Hi]. destruct (Forall2_lookup_l _ _ _ _ _ HF Hi) as (y & Hy & H1 & H2 & H3 & H4).
    apply elem_of_list_lookup_2 in Hy. destruct (HC y Hy) as (H5 & t & H6 & H7). unfold child_span. rewrite decide_False by congruence. rewrite H4, H6 by done. cbn [of_option rbind]. rewrite decide_False by (by intros [= ?]). rewrite H2. by apply Hf. }
  eexists. split; [apply get_span_S; exists b, ((λ e, f e.1.1.2) <$> out_edges g n); split; [exact Hb|]; split; [|reflexivity]|].
  - apply Forall2_fmap_r, Forall_Forall2_diag. exact HO.
  - split; [apply nat_sorted_sorted|]. rewrite nat_sorted_perm. apply Permutation_app_head. assert (HT : (λ e : nid * nid * nid * attrs, e.1.1.2) <$> out_edges g n ≡ₚ (λ e : edge_info, e.1.1.2) <$> L).
    { rewrite HP. clear -HF. induction HF as [|x y l k (_ & E & _) HF IH]; [done|]. rewrite !fmap_cons, E. by apply perm_skip. }
    assert (HC2 : concat ((λ e : nid * nid * nid * attrs, f e.1.1.2) <$> out_edges g n) = ((λ e : nid * nid * nid * attrs, e.1.1.2) <$> out_edges g n) ≫= f).
    { clear. induction (out_edges g n) as [|x l IH]; [done|]. rewrite !fmap_cons. cbn [concat mbind list_bind]. by rewrite IH. }
    rewrite HC2. by apply bind_Permutation.
Qed.
(** ** Points in order *)
Lemma point_lt i j : (0 ≤ i < j)%Z → nat_cmp (point i) (point j) = Lt.
Proof.
  intros H. assert (HP : ∀ z, (0 ≤ z)%Z → point z = NStr (str (["T"%char] ++ chs (str_N (Z.to_N z)) ++ []))).
  { intros z Hz. unfold point. f_equal. apply chs_inj. rewrite app_nil_r, chs_str, chs_app. destruct z; [done|done|lia]. }
  rewrite !HP by lia. rewrite nat_cmp_number; [apply N.compare_lt_iff; lia|by intros c [= <-]|done|done|lia].
Qed.
Lemma xrange_cons i j : (i < j)%Z → xrange i j = i :: xrange (i + 1) j.
Proof.
  intros H. unfold xrange. destruct (Z.to_nat (j - i)) as [|n] eqn:E; [lia|]. replace (Z.to_nat (j - (i + 1))) with n by lia. cbn [seq fmap list_fmap]. f_equal; [lia|].
  rewrite <-fmap_S_seq, <-list_fmap_compose. apply list_fmap_ext. intros k x _. unfold compose. lia.
Qed.
Lemma elem_xrange i j z : z ∈ xrange i j ↔ (i ≤ z < j)%Z.
Proof.
  unfold xrange. rewrite elem_of_list_fmap. split.
  - intros (n & -> & Hn). apply elem_of_seq in Hn. lia.
  - intros H. exists (Z.to_nat (z - i)). split; [lia|]. apply elem_of_seq. lia.
Qed.
Lemma range_sorted i j : (0 ≤ i)%Z → StronglySorted id_before (point <$> xrange i j).
Proof.
  intros Hi. remember (Z.to_nat (j - i)) as n eqn:Hn. revert i Hi Hn. induction n as [|n IH]; intros i Hi Hn.
  - unfold xrange. rewrite <-Hn. constructor.
  - rewrite xrange_cons by lia. rewrite fmap_cons. constructor; [apply IH; lia|]. apply Forall_forall. intros x (z & -> & Hz)%elem_of_list_fmap. apply elem_xrange in Hz. right. apply point_lt. lia.
Qed.
Lemma filter_ss {A} (R : A → A → Prop) (P : A → Prop) `{!∀ x, Decision (P x)} l : StronglySorted R l → StronglySorted R (filter P l).
Proof.
  induction 1 as [|x l HS IH HF]; [constructor|]. rewrite filter_cons. destruct (decide (P x)); [|done]. constructor; [done|]. rewrite Forall_forall in HF |- *. intros y Hy. apply HF. by apply elem_of_list_filter in Hy as [_ ?].
Qed.
(** ** The document *)
Section Doc.
  Context (ns tt : string) (ts : list tier) (d : exb) (g : graph).
  Local Notation root := (NStr (ns +:+ ":root_node")).
  Local Notation E0 := (exb_edges ns tt ts).
  Context (HG : GInv g) (HN : node_set g (exb_nodes ns tt ts d)) (HE : has_edges g E0) (Hns : g_ns g = ns) (HD : exb_distinct ns tt ts d).
  Local Notation worded := (has_word ns tt ts d).
  Lemma node_in x : x ∈ exb_described ns tt ts d → node_is g x.
  Proof. intros Hx. destruct HN as [_ HF]. rewrite Forall_forall in HF. apply HF. unfold exb_nodes. apply elem_of_app. by left. Qed.
  Lemma point_attr n key : n ∈ timeline d → key ≠ "layers" → ∃ a, node_attrs g n = Some a ∧ dget key a = dget key (point_info ns (ts ≫= marks_of ns tt) n).2.
  Proof.
    intros Hn Hk. destruct (node_in (point_info ns (ts ≫= marks_of ns tt) n)) as (a & Ha & _ & HK).
    - unfold exb_described. right. apply elem_of_app. left. by apply elem_of_list_fmap_1.
    - exists a. split; [done|]. by apply HK.
  Qed.
  Lemma token_point n : n ∈ timeline d → istoken g n = Ok (bool_decide (is_Some (word_at ns tt ts n))).
  Proof.
    intros Hn. destruct (point_attr n (ns +:+ ":token") Hn ltac:(apply key_layers)) as (a & Ha & HK). unfold istoken. rewrite Ha, Hns. f_equal. unfold dmem. unfold word_at. rewrite <-HK. destruct (dget (ns +:+ ":token") a) as [v|]; symmetry; [apply bool_decide_eq_true; exists v; reflexivity|apply bool_decide_eq_false; intros [? ?]; discriminate].
  Qed.
  Lemma token_not x : x ∈ exb_nodes ns tt ts d → dget (ns +:+ ":token") x.2 = None → istoken g x.1.1 = Ok false.
  Proof.
    intros Hx Ht. destruct HN as [_ HF]. rewrite Forall_forall in HF. destruct (HF x Hx) as (a & Ha & _ & HK). unfold istoken. rewrite Ha, Hns. f_equal. unfold dmem. rewrite HK by apply key_layers. by rewrite Ht.
  Qed.
  Lemma span_node_in t x : t ∈ ts → is_span_tier tt t → x ∈ tier_nodes ns t → x ∈ exb_nodes ns tt ts d.
  Proof.
    intros Ht HS Hx. unfold exb_nodes, exb_described. apply elem_of_app. left. right. apply elem_of_app. right. unfold span_nodes, span_tiers. apply elem_of_list_bind. exists t. split; [done|]. by apply elem_of_list_filter.
  Qed.
  Lemma token_tier t : t ∈ ts → is_span_tier tt t → istoken g (NStr (ti_id t)) = Ok false.
  Proof.
    intros Ht HS. apply (token_not (tier_info ns t)); [eapply span_node_in; [done|done|left]|]. cbn [tier_info snd dget].
    pose proof (key_ne' ns ":token" ":category" ltac:(done)). pose proof (key_ne' ns ":token" ":type" ltac:(done)). pose proof (key_ne' ns ":token" ":display-name" ltac:(done)). by rewrite !decide_False.
  Qed.
  Lemma token_span t i e : t ∈ ts → is_span_tier tt t → ti_events t !! i = Some e → istoken g (span_name t i) = Ok false.
  Proof.
    intros Ht HS Hi. apply (token_not (span_info ns t (i, e))).
    - eapply span_node_in; [done|done|]. right. apply elem_of_list_fmap_1. apply elem_of_lookup_imap. by exists i, e.
    - cbn [span_info snd dget]. pose proof (key_ne' ns ":token" ":annotation" ltac:(done)). assert (ns +:+ ":token" ≠ "label") by (intros H'; by apply (label_ne ns "token")). by rewrite !decide_False.
  Qed.
  (** ** Edges *)
  Lemma tier_sources t e : e ∈ tier_edges ns t → e.1.1.1 = root ∨ e.1.1.1 ∈ ids (tier_nodes ns t).
  Proof.
    unfold tier_edges. intros [->|He]%elem_of_cons; [by left|]. right. unfold tier_nodes, ids. rewrite fmap_cons, <-list_fmap_compose. apply elem_of_list_bind in He as (p & He & Hp). unfold span_edges in He. apply elem_of_cons in He as [->|He]; [left|].
    right. apply elem_of_list_fmap in He as (n & -> & _). apply elem_of_list_fmap. by exists p.
  Qed.
  Lemma edge_types : Forall (λ e : edge_info, ∃ t, dget "edge_type" e.2 = Some (VStr t) ∧ t ≠ "points_to") E0.
  Proof.
    apply Forall_forall. intros e He. unfold exb_edges in He. apply elem_of_list_bind in He as (t & He & _). unfold tier_edges in He. apply elem_of_cons in He as [->|He]; [by exists "dominates"|].
    apply elem_of_list_bind in He as (p & He & _). unfold span_edges in He. apply elem_of_cons in He as [->|He]; [by exists "dominates"|]. apply elem_of_list_fmap in He as (n & -> & _). by exists "spans".
  Qed.
  Lemma all_distinct : NoDup (root :: timeline d ++ ids (span_nodes ns tt ts)).
  Proof. apply HD. Qed.
  Lemma sources e : e ∈ E0 → e.1.1.1 = root ∨ e.1.1.1 ∈ ids (span_nodes ns tt ts).
  Proof.
    unfold exb_edges, span_nodes. intros He. apply elem_of_list_bind in He as (t & He & Ht). apply tier_sources in He as [?|He]; [by left|]. right. unfold ids in *. apply elem_of_list_fmap in He as (x & -> & Hx). apply elem_of_list_fmap. exists x. split; [done|]. apply elem_of_list_bind. by exists t.
  Qed.
  Lemma from_point n : n ∈ timeline d → filter (λ e : edge_info, e.1.1.1 = n) E0 = [].
  Proof.
    intros Hn. apply filter_none, Forall_forall. intros e He Hen. pose proof all_distinct as H. apply NoDup_cons in H as [H1 H2]. apply NoDup_app in H2 as (_ & H2 & _). destruct (sources e He) as [Hr|Hr]; rewrite Hen in Hr.
    - rewrite Hr in Hn. apply H1. apply elem_of_app. by left.
    - by apply (H2 _ Hn).
  Qed.
  (** the tiers before and after [t] have other nodes *)
  Lemma tier_split t : t ∈ ts → is_span_tier tt t → ∃ A B, span_tiers tt ts = A ++ t :: B ∧
    (∀ n, n ∈ ids (tier_nodes ns t) → Forall (λ e : edge_info, e.1.1.1 ≠ n) ((A ≫= tier_edges ns) ++ (B ≫= tier_edges ns))) ∧ NoDup (root :: ids (tier_nodes ns t)).
  Proof.
    intros Ht HS. assert (Hin : t ∈ span_tiers tt ts) by (by apply elem_of_list_filter). apply elem_of_list_split in Hin as (A & B & Hsp). exists A, B. split; [done|].
    pose proof all_distinct as H. unfold span_nodes in H. rewrite Hsp, bind_app in H. cbn [mbind list_bind] in H. unfold ids in H. rewrite !fmap_app in H.
    apply NoDup_cons in H as [Hr H]. apply NoDup_app in H as (_ & _ & H). apply NoDup_app in H as (_ & H1 & H). apply NoDup_app in H as (H2 & H3 & _). split.
    - intros n Hn. apply Forall_forall. intros e He Hen. rewrite !elem_of_app in Hr. assert (HX : ∀ L, e ∈ L ≫= tier_edges ns → n = root ∨ n ∈ (λ x : node_info, x.1.1) <$> (L ≫= tier_nodes ns)).
      { intros L HL. apply elem_of_list_bind in HL as (t' & HL & Ht'). apply tier_sources in HL as [?|HL]; [left; congruence|]. right. rewrite Hen in HL. unfold ids in HL. apply elem_of_list_fmap in HL as (x & -> & Hx). apply elem_of_list_fmap. exists x. split; [done|]. apply elem_of_list_bind. by exists t'. }
      apply elem_of_app in He as [He|He]; apply HX in He as [->|He].
      + apply Hr. right. right. by left.
      + apply (H1 _ He). apply elem_of_app. by left.
      + apply Hr. right. right. by left.
      + by apply (H3 _ Hn).
    - apply NoDup_cons. split; [|exact H2]. intros Hn. apply Hr. rewrite !elem_of_app. right. right. by left.
  Qed.
  Lemma from_tier_nodes t n : t ∈ ts → is_span_tier tt t → n ∈ ids (tier_nodes ns t) →
    filter (λ e : edge_info, e.1.1.1 = n) E0 = filter (λ e : edge_info, e.1.1.1 = n) (imap pair (ti_events t) ≫= span_edges ns t).
  Proof.
    intros Ht HS Hn. destruct (tier_split t Ht HS) as (A & B & Hsp & HF & HX). specialize (HF n Hn). apply Forall_app in HF as [HF1 HF2]. unfold exb_edges. rewrite Hsp, bind_app. cbn [mbind list_bind]. rewrite !filter_app.
    rewrite (filter_none _ _ HF1), (filter_none _ _ HF2), app_nil_r. cbn [app]. unfold tier_edges. rewrite filter_cons, decide_False; [done|]. cbn. intros <-. by apply NoDup_cons in HX as [HX _].
  Qed.
  Lemma span_names t i j : NoDup (ids (tier_nodes ns t)) → i < length (ti_events t) → j < length (ti_events t) → span_name t i = span_name t j → i = j.
  Proof.
    intros HX Hi Hj E. unfold tier_nodes, ids in HX. rewrite fmap_cons, <-list_fmap_compose in HX. apply NoDup_cons in HX as [_ HX].
    destruct (lookup_lt_is_Some_2 _ _ Hi) as [e He], (lookup_lt_is_Some_2 _ _ Hj) as [e' He'].
    eapply (NoDup_lookup _ i j (span_name t i) HX); rewrite list_lookup_fmap, list_lookup_imap; [by rewrite He|]. rewrite He'. cbn. by rewrite E.
  Qed.
  Lemma tier_span_ne t i : NoDup (ids (tier_nodes ns t)) → i < length (ti_events t) → NStr (ti_id t) ≠ span_name t i.
  Proof.
    intros HX Hi E. unfold tier_nodes, ids in HX. rewrite fmap_cons, <-list_fmap_compose in HX. apply NoDup_cons in HX as [HX _]. apply HX. cbn [tier_info fst]. rewrite E. destruct (lookup_lt_is_Some_2 _ _ Hi) as [e He].
    apply elem_of_list_fmap. exists (i, e). split; [done|]. apply elem_of_lookup_imap. by exists i, e.
  Qed.
  Lemma imap_pair_lookup {A} (l : list A) i x : (i, x) ∈ imap pair l ↔ l !! i = Some x.
  Proof. rewrite elem_of_lookup_imap. split; [by intros (? & ? & [= -> ->] & ?)|]. intros H. by exists i, x. Qed.
  Lemma from_span t i e : t ∈ ts → is_span_tier tt t → ti_events t !! i = Some e → filter (λ x : edge_info, x.1.1.1 = span_name t i) E0 = spanned ns (span_name t i) <$> points e.
  Proof.
    intros Ht HS Hi. assert (Hin : span_name t i ∈ ids (tier_nodes ns t)).
    { unfold tier_nodes, ids. rewrite fmap_cons, <-list_fmap_compose. right. apply elem_of_list_fmap. exists (i, e). split; [done|]. by apply imap_pair_lookup. }
    rewrite (from_tier_nodes t _ Ht HS Hin). destruct (tier_split t Ht HS) as (_ & _ & _ & _ & HX). apply NoDup_cons in HX as [_ HX]. pose proof (lookup_lt_Some _ _ _ Hi) as Hl.
    assert (HQ : imap pair (ti_events t) !! i = Some (i, e)) by (by rewrite list_lookup_imap, Hi).
    rewrite <-(take_drop_middle _ _ _ HQ), bind_app. cbn [mbind list_bind]. rewrite !filter_app. assert (HO : ∀ L, (∀ p, p ∈ L → p ∈ imap pair (ti_events t) ∧ p.1 ≠ i) → filter (λ x : edge_info, x.1.1.1 = span_name t i) (L ≫= span_edges ns t) = []).
    { intros L HL. apply filter_none, Forall_forall. intros x Hx. apply elem_of_list_bind in Hx as ([j e'] & Hx & Hp). apply HL in Hp as [Hp Hji]. cbn [fst] in Hji. apply imap_pair_lookup, lookup_lt_Some in Hp. unfold span_edges in Hx. apply elem_of_cons in Hx as [->|Hx]; cbn [fst snd dominated].
      - by apply tier_span_ne.
      - apply elem_of_list_fmap in Hx as (n & -> & _). cbn [fst spanned]. intros E. apply Hji. by apply (span_names t j i). }
    rewrite !HO.
    - cbn [app]. rewrite app_nil_r. unfold span_edges. cbn [fst snd]. rewrite filter_cons, decide_False by (cbn; by apply tier_span_ne). apply filter_all, Forall_forall. intros x Hx. apply elem_of_list_fmap in Hx as (n & -> & _). done.
    - intros [j e'] Hp. apply elem_of_list_lookup in Hp as [k Hp]. rewrite lookup_drop in Hp. pose proof (elem_of_list_lookup_2 _ _ _ Hp) as H. split; [done|]. rewrite list_lookup_imap in Hp. destruct (ti_events t !! (S i + k)); [|done]. injection Hp as <- <-. cbn. lia.
    - intros [j e'] Hp. apply elem_of_list_lookup in Hp as [k Hp]. apply lookup_take_Some in Hp as [Hp Hk]. pose proof (elem_of_list_lookup_2 _ _ _ Hp) as H. split; [done|]. rewrite list_lookup_imap in Hp. destruct (ti_events t !! k); [|done]. injection Hp as <- <-. cbn. lia.
  Qed.
  Lemma from_tier t : t ∈ ts → is_span_tier tt t → filter (λ x : edge_info, x.1.1.1 = NStr (ti_id t)) E0 = (λ i, dominated ns (NStr (ti_id t)) (span_name t i)) <$> seq 0 (length (ti_events t)).
  Proof.
    intros Ht HS. assert (Hin : NStr (ti_id t) ∈ ids (tier_nodes ns t)) by (unfold tier_nodes, ids; rewrite fmap_cons; left).
    rewrite (from_tier_nodes t _ Ht HS Hin). destruct (tier_split t Ht HS) as (_ & _ & _ & _ & HX). apply NoDup_cons in HX as [_ HX].
    assert (HF : Forall (λ p : nat * event, p.1 < length (ti_events t)) (imap pair (ti_events t))). { apply Forall_forall. intros [j e] Hj. cbn. by apply imap_pair_lookup, lookup_lt_Some in Hj. }
    assert (HI : seq 0 (length (ti_events t)) = (imap pair (ti_events t)).*1).
    { clear. apply list_eq. intros i. rewrite list_lookup_fmap, list_lookup_imap. destruct (ti_events t !! i) as [e|] eqn:E; cbn.
      - rewrite lookup_seq_lt; [done|]. by eapply lookup_lt_Some.
      - apply lookup_ge_None in E. by apply lookup_seq_ge. }
    rewrite HI. clear HI. revert HF. generalize (imap pair (ti_events t)) as L. intros L HF. induction HF as [|[j e] L Hj HF IH]; [done|]. cbn [mbind list_bind]. rewrite filter_app, !fmap_cons, IH. unfold span_edges. cbn [fst snd] in *. rewrite filter_cons, decide_True by done.
    rewrite filter_none; [done|]. apply Forall_forall. intros x Hx. apply elem_of_list_fmap in Hx as (n & -> & _). cbn. intros E. by apply (tier_span_ne t j).
  Qed.
  Lemma from_root : filter (λ x : edge_info, x.1.1.1 = root) E0 = (λ t, dominated ns root (NStr (ti_id t))) <$> span_tiers tt ts.
  Proof.
    pose proof all_distinct as H. apply NoDup_cons in H as [H _]. rewrite elem_of_app in H. assert (Hr : root ∉ ids (span_nodes ns tt ts)) by tauto. revert Hr. unfold exb_edges, span_nodes. clear. induction (span_tiers tt ts) as [|t L IH]; [done|].
    cbn [mbind list_bind]. rewrite ids_app, elem_of_app. intros Hr. rewrite filter_app, fmap_cons, IH by tauto. unfold tier_edges. rewrite filter_cons, decide_True by done. cbn [app]. f_equal. rewrite filter_none; [done|].
    apply Forall_forall. intros x Hx E. apply Hr. left. apply elem_of_list_bind in Hx as (p & Hx & Hp). unfold span_edges in Hx. unfold tier_nodes, ids. rewrite fmap_cons, <-list_fmap_compose. rewrite <-E. apply elem_of_cons in Hx as [->|Hx]; [left|]. right. apply elem_of_list_fmap in Hx as (n & -> & _). apply elem_of_list_fmap. by exists p.
  Qed.
  (** ** Spans *)
  Context (HI : exb_inside tt ts d).
  Lemma children n : (∀ e, e ∈ filter (λ e : edge_info, e.1.1.1 = n) E0 → e.1.1.2 ≠ n) → Forall (child_edge n) (filter (λ e : edge_info, e.1.1.1 = n) E0).
  Proof. intros H. apply Forall_forall. intros e He. split; [by apply H|]. pose proof edge_types as HT. rewrite Forall_forall in HT. apply HT. by apply elem_of_list_filter in He as [_ ?]. Qed.
  Lemma point_span k n : n ∈ timeline d → get_span (S k) g n = Ok (filter worded [n]).
  Proof.
    intros Hn. pose proof (proj1 HG) as C. destruct (span_children g E0 n _ k (λ _, []) C HE (token_point n Hn)) as (l & Hl & _ & HP).
    - rewrite from_point by done. apply List.Forall_nil.
    - rewrite from_point by done. intros e He. by apply elem_of_nil in He.
    - rewrite from_point in HP by done. cbn in HP. rewrite app_nil_r in HP. rewrite Hl. f_equal. rewrite filter_cons, filter_nil. destruct (bool_decide _) eqn:EB.
      + apply bool_decide_eq_true in EB. rewrite decide_True by done. by apply Permutation_singleton_r in HP.
      + apply bool_decide_eq_false in EB. rewrite decide_False by (intros [_ ?]; done). by apply Permutation_nil_r in HP.
  Qed.
  Lemma single_bind (L : list nid) : (L ≫= λ n, filter worded [n]) = filter worded L.
  Proof. induction L as [|n L IH]; [done|]. cbn [mbind list_bind]. rewrite IH, !filter_cons. by destruct (decide _). Qed.
  Lemma span_span k t i e : t ∈ ts → is_span_tier tt t → ti_events t !! i = Some e →
    ∃ l, get_span (S (S k)) g (span_name t i) = Ok l ∧ sorted nat_cmp l ∧ l ≡ₚ filter worded (points e).
  Proof.
    intros Ht HS Hi. pose proof (proj1 HG) as C. pose proof (from_span t i e Ht HS Hi) as HF. pose proof (elem_of_list_lookup_2 _ _ _ Hi) as He.
    destruct (span_children g E0 (span_name t i) false (S k) (λ n, filter worded [n]) C HE (token_span t i e Ht HS Hi)) as (l & Hl & HSo & HP).
    - apply children. rewrite HF. intros x Hx. apply elem_of_list_fmap in Hx as (n & -> & Hn). cbn. intros ->. pose proof all_distinct as H. apply NoDup_cons in H as [_ H]. apply NoDup_app in H as (_ & H & _).
      apply (H (span_name t i)); [by eapply HI|]. unfold span_nodes, ids. apply elem_of_list_fmap. exists (span_info ns t (i, e)). split; [done|]. apply elem_of_list_bind. exists t. split; [|by apply elem_of_list_filter]. right. apply elem_of_list_fmap_1. by apply imap_pair_lookup.
    - intros x Hx. rewrite HF in Hx. apply elem_of_list_fmap in Hx as (n & -> & Hn). cbn. apply point_span. by eapply HI.
    - exists l. split; [exact Hl|]. split; [exact HSo|]. rewrite HP, HF, <-list_fmap_compose. cbn [app]. unfold compose. cbn [spanned fst snd]. rewrite list_fmap_id. by rewrite single_bind.
  Qed.
  Lemma span_exact k t i e a b : t ∈ ts → is_span_tier tt t → ti_events t !! i = Some e → extent e = Some (a, b) → (0 ≤ a)%Z →
    get_span (S (S k)) g (span_name t i) = Ok (filter worded (points e)).
  Proof.
    intros Ht HS Hi He Ha. destruct (span_span k t i e Ht HS Hi) as (l & Hl & HSo & HP). rewrite Hl. f_equal. apply same_sorted; [by apply sorted_strongly| |done]. apply filter_ss. unfold points. rewrite He. by apply range_sorted.
  Qed.
  Lemma tier_span k t : t ∈ ts → is_span_tier tt t →
    ∃ l, get_span (S (S (S k))) g (NStr (ti_id t)) = Ok l ∧ sorted nat_cmp l ∧ l ≡ₚ ti_events t ≫= (λ e, filter worded (points e)).
  Proof.
    intros Ht HS. pose proof (proj1 HG) as C. pose proof (from_tier t Ht HS) as HF. destruct (tier_split t Ht HS) as (_ & _ & _ & _ & HX). apply NoDup_cons in HX as [_ HX].
    set (f := λ n, match get_span (S (S k)) g n with Ok l => l | Err _ => [] end).
    destruct (span_children g E0 (NStr (ti_id t)) false (S (S k)) f C HE (token_tier t Ht HS)) as (l & Hl & HSo & HP).
    - apply children. rewrite HF. intros x Hx. apply elem_of_list_fmap in Hx as (i & -> & Hn). cbn. apply elem_of_seq in Hn. intros E. apply (tier_span_ne t i HX); [lia|done].
    - intros x Hx. rewrite HF in Hx. apply elem_of_list_fmap in Hx as (i & -> & Hn). cbn. apply elem_of_seq in Hn. destruct (lookup_lt_is_Some_2 (ti_events t) i) as [e He]; [lia|]. destruct (span_span k t i e Ht HS He) as (l & Hl & _). unfold f. by rewrite Hl.
    - exists l. split; [exact Hl|]. split; [exact HSo|]. rewrite HP, HF, <-list_fmap_compose. cbn [app]. unfold compose. cbn [dominated fst snd]. clear -HX HG HE HN HD HI Hns Ht HS.
      assert (HQ : ∀ L s, (∀ i e, L !! i = Some e → ti_events t !! (s + i) = Some e) → (((λ i, span_name t i) <$> seq s (length L)) ≫= f) ≡ₚ (L ≫= λ e, filter worded (points e))).
      { induction L as [|e L IH]; intros s HL; [done|]. cbn [length seq fmap list_fmap mbind list_bind]. apply Permutation_app.
        - destruct (span_span k t s e Ht HS) as (l & Hl & _ & HP); [rewrite <-(Nat.add_0_r s); by apply HL|]. unfold f. by rewrite Hl.
        - apply IH. intros i e' Hi. rewrite Nat.add_succ_comm. by apply HL. }
      apply (HQ (ti_events t) 0). done.
  Qed.
  Lemma root_span k : span_tiers tt ts ≠ [] →
    ∃ l, get_span (S (S (S (S k)))) g root = Ok l ∧ sorted nat_cmp l ∧ l ≡ₚ span_tiers tt ts ≫= (λ t, ti_events t ≫= (λ e, filter worded (points e))).
  Proof.
    intros Hne. pose proof (proj1 HG) as C. pose proof from_root as HF. pose proof all_distinct as HX. apply NoDup_cons in HX as [HX _]. rewrite elem_of_app in HX.
    assert (Hroot : istoken g root = Ok false ∨ False).
    { left. destruct (decide (first_root = root)) as [E|Hn].
      - rewrite <-E. apply (token_not (first_root, ["discoursegraph"], [])); [left|done].
      - apply (token_not (root, [ns], [])); [|done]. unfold exb_nodes. apply elem_of_app. right. apply elem_of_list_fmap. exists root. split; [done|]. unfold exb_undescribed. rewrite elem_of_remove_dups, elem_of_list_filter. split.
        + change (root ∉ ids (exb_described ns tt ts d)). intros Hin. pose proof (known_ids ns (timeline d) (ts ≫= marks_of ns tt) (span_nodes ns tt ts)) as HK. change (root ∈ ids (known ns (timeline d) (ts ≫= marks_of ns tt) (span_nodes ns tt ts))) in Hin. rewrite HK in Hin. rewrite elem_of_cons, elem_of_app in Hin. destruct Hin as [?|?]; [by apply Hn|tauto].
        + destruct (span_tiers tt ts) as [|t L] eqn:Es; [done|]. apply elem_of_list_bind. exists (dominated ns root (NStr (ti_id t))). split; [left|]. unfold exb_edges. rewrite Es. cbn [mbind list_bind]. apply elem_of_app. left. left. }
    destruct Hroot as [Hroot|[]]. set (f := λ n, match get_span (S (S (S k))) g n with Ok l => l | Err _ => [] end).
    assert (HT : ∀ t, t ∈ span_tiers tt ts → t ∈ ts ∧ is_span_tier tt t) by (intros t Ht; by apply elem_of_list_filter in Ht as [? ?]).
    destruct (span_children g E0 root false (S (S (S k))) f C HE Hroot) as (l & Hl & HSo & HP).
    - apply children. rewrite HF. intros x Hx. apply elem_of_list_fmap in Hx as (t & -> & Ht). cbn. intros E. apply HX. right. rewrite <-E. unfold span_nodes, ids. apply elem_of_list_fmap. exists (tier_info ns t). split; [done|]. apply elem_of_list_bind. exists t. split; [left|done].
    - intros x Hx. rewrite HF in Hx. apply elem_of_list_fmap in Hx as (t & -> & Ht). cbn. destruct (HT t Ht) as [H1 H2]. destruct (tier_span k t H1 H2) as (l & Hl & _). unfold f. by rewrite Hl.
    - exists l. split; [exact Hl|]. split; [exact HSo|]. rewrite HP, HF, <-list_fmap_compose. cbn [app]. unfold compose. cbn [dominated fst snd]. revert HT. clear -HG HE HN HD HI Hns. induction (span_tiers tt ts) as [|t L IH]; intros HT; [done|].
      rewrite fmap_cons. cbn [mbind list_bind]. apply Permutation_app; [|apply IH; intros t' Ht'; apply HT; by right]. destruct (HT t ltac:(left)) as [H1 H2]. destruct (tier_span k t H1 H2) as (l & Hl & _ & HP). unfold f. by rewrite Hl.
  Qed.
  (** ** Words *)
  Context (HT : g_tokens g = timeline d).
  Lemma text_iff ss : text_tokens g ss ↔ Forall2 (λ n s, word_at ns tt ts n = Some (VStr s)) (timeline d) ss.
  Proof.
    unfold text_tokens. rewrite HT. assert (HX : ∀ n s, n ∈ timeline d → token_is g n s ↔ word_at ns tt ts n = Some (VStr s)).
    { intros n s Hn. destruct (point_attr n (ns +:+ ":token") Hn ltac:(apply key_layers)) as (a & Ha & HK). unfold token_is. rewrite Hns. unfold word_at. rewrite <-HK. rewrite Ha. naive_solver. }
    revert HX. clear. generalize (timeline d) as L. intros L. revert ss. induction L as [|n L IH]; intros ss HX; split; intros H; inversion H; subst; try apply List.Forall2_nil; apply List.Forall2_cons; try (apply HX; [left|done]); apply IH; try done; intros m s Hm; apply HX; by right.
  Qed.
  Lemma token_missing n : n ∈ timeline d → word_at ns tt ts n = None → token_str g n = Err KeyError.
  Proof. intros Hn Hw. destruct (point_attr n (ns +:+ ":token") Hn ltac:(apply key_layers)) as (a & Ha & HK). unfold token_str, get_token. rewrite Ha, Hns, HK. unfold word_at in Hw. by rewrite Hw. Qed.
End Doc.
