(** * Rs3Spans: the spans of the relations of a file *)
From Verif Require Import PyBase DocGraph Relabel StrNum Query Text Rst Nltk Parsers Anaphora Conano Decour Ptb Convert Tiger Rs3Graph.
From Verif Require Import SpecGraph DocGraphFacts History Effects RelabelFacts GraphThms SpecImport ImportFacts TextFacts AnaphoraFacts SpecQuery SpanFacts SelectFacts LabelFacts ConvertFacts BuiltFrom TigerSpan TigerTree TigerQuery SpecRs3Graph Rs3Facts Rs3Read Rs3Doc Rs3Span Rs3Rel.

Global Instance xelem_eq_dec : EqDecision xelem.
Proof. solve_decision. Defined.
Lemma extent_ext (P Q : nat → Prop) i j : (∀ k, P k ↔ Q k) → is_extent P i j → is_extent Q i j.
Proof. intros H (H1 & H2 & H3). split; [by apply H|]. split; [by apply H|]. intros k Hk. by apply H3, H. Qed.
Lemma extent_union (P Q : nat → Prop) a b c e : is_extent P a b → is_extent Q c e → is_extent (λ k, P k ∨ Q k) (Nat.min a c) (Nat.max b e).
Proof.
  intros (H1 & H2 & H3) (G1 & G2 & G3). split; [|split].
  - destruct (Nat.min_spec a c) as [[_ ->]|[_ ->]]; tauto.
  - destruct (Nat.max_spec b e) as [[_ ->]|[_ ->]]; tauto.
  - intros k [Hk|Hk]; [apply H3 in Hk|apply G3 in Hk]; lia.
Qed.
Lemma extent_all {A} (P : A → nat → Prop) (Q : nat → Prop) a b l os :
  is_extent Q a b → Forall2 (λ y (o : nat * nat), is_extent (P y) o.1 o.2) l os →
  is_extent (λ k, Q k ∨ Exists (λ y, P y k) l) (foldr (λ (p : nat * nat) m, Nat.min p.1 m) a os) (foldr (λ (p : nat * nat) m, Nat.max p.2 m) b os).
Proof.
  intros HQ HF. induction HF as [|y o l os Hy HF IH]; cbn [foldr].
  - eapply extent_ext; [|exact HQ]. intros k. rewrite Exists_nil. tauto.
  - eapply extent_ext; [|exact (extent_union _ _ _ _ _ _ Hy IH)]. intros k. cbn beta. rewrite Exists_cons. tauto.
Qed.
Lemma join_dashed s l : l ≠ [] → s +:+ "-" +:+ join_dash l = dashed (s :: l).
Proof.
  assert (E : join_dash l = dashed l). { clear. induction l as [|u [|v l] IH]; [done..|]. cbn [join_dash dashed] in *. by rewrite <-IH. }
  intros Hl. rewrite E. destruct l as [|t l]; [done|]. reflexivity.
Qed.

Section Spans.
  Context (d : rs3doc) (g : graph) (fuel : nat).
  Context (HO : rs3_ok d) (HPl : plain_ids d) (HT : rst_tree_ok d) (HH : holds "rst" d g) (Hfuel : length (nodes g) < fuel).
  Local Notation els := (elements_of d).
  Local Notation nd := (node_of_el "rst").
  Local Notation span_of := (span_of g fuel).
  Local Notation triple := (triple g fuel).
  Local Notation rel_of := (rel_of d g fuel).
  Local Notation tm := (token_mapper (g_tokens g)).1.
  Lemma toks_nodup : NoDup (g_tokens g).
  Proof.
    rewrite (h_tokens _ _ _ HH). change (doc_tokens "rst" d) with (toks_of "rst" (segments d)). apply toks_NoDup.
    pose proof (ro_ids _ HO) as HD. rewrite <-(elements_perm d) in HD. unfold elements_of in HD. rewrite fmap_app in HD. by apply NoDup_app in HD as (? & _).
  Qed.
  Lemma within_in s x : x ∈ els → within d s x → s ∈ els.
  Proof. intros Hx Hw. destruct Hw as [|s' s x Hs _]; [done|]. destruct Hs as (_ & Hs & _). by apply el_in. Qed.
  Lemma token_at s i w k : s ∈ els → words s !! i = Some w → g_tokens g !! k = Some (token_node "rst" s i) ↔ doc_tokens "rst" d !! k = Some (token_node "rst" s i, w).
  Proof.
    intros Hs Hw. rewrite (h_tokens _ _ _ HH), list_lookup_fmap. split.
    - destruct (doc_tokens "rst" d !! k) as [[t w']|] eqn:E; [|done]. cbn. intros [= ->]. do 2 f_equal. pose proof (elem_of_list_lookup_2 _ _ _ E) as Hin.
      apply elem_of_list_bind in Hin as (s' & Hin & Hs'). unfold segment_tokens in Hin. apply elem_of_lookup_imap in Hin as (i' & w2 & [= Et ->] & Hw2). 
      assert (Et' : token_node "rst" s i = token_node "rst" s' i') by (unfold token_node; by rewrite Et).
      apply token_node_inj in Et' as [E1 <-]. assert (s = s') as <-; [|congruence]. apply (el_inj d HO); [done| |done]. unfold elements_of. apply elem_of_app. by left.
    - intros ->. done.
  Qed.
  Lemma covered_iff y k : y ∈ els → (∃ t, t ∈ span_of y ∧ g_tokens g !! k = Some t) ↔ covered "rst" d y k.
  Proof.
    intros Hy. destruct (span_known d g fuel HO HPl HT HH Hfuel y Hy) as [_ HS]. split.
    - intros (t & Ht & Hk). apply HS in Ht as (s & i & w & Hs & Hw & Hi & ->). pose proof (within_in s y Hy Hw) as Hse. exists s, i, w. repeat (split; [first [done|by apply el_in]|]). by apply token_at.
    - intros (s & i & w & Hs & Hse & Hw & Hi & Hk). exists (token_node "rst" s i). split; [apply HS; by exists s, i, w|]. eapply token_at; [|exact Hi|exact Hk]. by apply el_in.
  Qed.
  Lemma spoken_iff x (ts : list nid) k : x ∈ els → (∀ t, t ∈ ts ↔ ∃ i w, segment x ∧ words x !! i = Some w ∧ t = token_node "rst" x i) →
    (∃ t, t ∈ ts ∧ g_tokens g !! k = Some t) ↔ spoken "rst" d x k.
  Proof.
    intros Hx Hts. split.
    - intros (t & Ht & Hk). apply Hts in Ht as (i & w & Hs & Hi & ->). exists i, w. repeat (split; [done|]). by apply token_at.
    - intros (i & w & Hs & Hi & Hk). exists (token_node "rst" x i). split; [apply Hts; by exists i, w|]. by eapply token_at.
  Qed.
  Lemma offsets_ok l : l ≠ [] → l ⊆ g_tokens g → ∃ o, get_segment_token_offsets l tm = Ok o ∧ is_extent (λ k, ∃ t, t ∈ l ∧ g_tokens g !! k = Some t) o.1 o.2.
  Proof.
    intros Hl Hs. destruct (segment_offsets_ok (g_tokens g) l toks_nodup Hl Hs) as (i & j & E & _ & (t1 & H1 & H2) & (t2 & H3 & H4) & H5). exists (i, j). split; [done|]. cbn [fst snd].
    split; [by exists t1|]. split; [by exists t2|]. intros k (t & Ht & Hk). apply (H5 t k Ht Hk).
  Qed.
  Lemma token_listed s i w : s ∈ els → segment s → words s !! i = Some w → token_node "rst" s i ∈ g_tokens g.
  Proof.
    intros Hs Hseg Hw. rewrite (h_tokens _ _ _ HH). apply elem_of_list_fmap. exists (token_node "rst" s i, w). split; [done|]. apply elem_of_list_bind. exists s. split; [apply elem_of_lookup_imap; by exists i, w|].
    apply elem_of_list_filter. split; [done|]. by apply (el_in d).
  Qed.
  Lemma words_segment s w i : words s !! i = Some w → segment s.
  Proof. by destruct s. Qed.
  Lemma extent_of y : y ∈ els → ∃ o, get_segment_token_offsets (span_of y) tm = Ok o ∧ is_extent (covered "rst" d y) o.1 o.2.
  Proof.
    intros Hy. destruct (span_known d g fuel HO HPl HT HH Hfuel y Hy) as [_ HS]. destruct (offsets_ok (span_of y)) as (o & Ho & He).
    - destruct (rt_words _ HT y) as (s & Hw & Hne); [by apply (el_in d)|]. destruct (words s) as [|w ws] eqn:Ew; [done|]. assert (H0 : words s !! 0 = Some w) by (by rewrite Ew).
      intros E. assert (Hin : token_node "rst" s 0 ∈ span_of y); [|rewrite E in Hin; by apply elem_of_nil in Hin]. apply HS. exists s, 0, w. split; [by eapply words_segment|done].
    - intros t Ht. apply HS in Ht as (s & i & w & Hs & Hw & Hi & ->). eapply token_listed; [by eapply within_in|done|exact Hi].
    - exists o. split; [done|]. eapply extent_ext; [|exact He]. intros k. by apply covered_iff.
  Qed.
  Lemma extents_of l : (∀ y, y ∈ l → y ∈ els) → ∃ os, Forall2 (λ y o, get_segment_token_offsets (span_of y) tm = Ok o ∧ is_extent (covered "rst" d y) o.1 o.2) l os.
  Proof.
    induction l as [|y l IH]; intros Hl; [by exists []|]. destruct (extent_of y) as (o & Ho); [apply Hl; left|]. destruct IH as (os & Hos); [intros z Hz; apply Hl; by right|]. exists (o :: os). by apply List.Forall2_cons.
  Qed.
  Lemma multinuc_ok x l : (∀ y, y ∈ l → y ∈ els) → ∃ sp whole, multinuc_spans tm (nd x) (triple <$> l) = Ok (sp, whole) ∧
    Forall2 span_says sp (imap (λ i y, (multinuclear_name "rst" x l, "N" +:+ str_Z (Z.of_nat (S i)), relation_of y, covered "rst" d y)) l) ∧
    match l with [] => whole = None | _ => ∃ o, whole = Some o ∧ is_extent (λ k, Exists (λ y, covered "rst" d y k) l) o.1 o.2 end.
  Proof.
    intros Hl. destruct (extents_of l Hl) as (os & HF). unfold multinuc_spans.
    assert (E : rmap (λ m : nid * pyval * list nid, get_segment_token_offsets m.2 tm) (triple <$> l) = Ok os).
    { apply rmap_Ok. apply Forall2_fmap_l. eapply Forall2_impl; [exact HF|]. intros y o [Ho _]. exact Ho. }
    rewrite E. cbn [rbind]. eexists _, _. split; [reflexivity|]. split.
    - apply Forall2_same_length_lookup_2.
      + rewrite !imap_length, zip_with_length, fmap_length. apply Forall2_length in HF. lia.
      + intros i p q. rewrite !list_lookup_imap. destruct (zip (triple <$> l) os !! i) as [[m o]|] eqn:Ez; [|done]. destruct (l !! i) as [y|] eqn:Ey; [|done]. cbn [fmap option_fmap option_map]. intros [= <-] [= <-].
        apply lookup_zip_with_Some in Ez as (m' & o' & [= -> ->] & H1 & H2). rewrite list_lookup_fmap, Ey in H1. injection H1 as <-.
        pose proof (Forall2_lookup_lr _ _ _ _ _ _ HF Ey H2) as [_ Ho]. repeat split; cbn [fst snd]; try apply Ho; try done.
        unfold multinuclear_name. rewrite fmap_cons. rewrite <-list_fmap_compose. rewrite join_dashed; [done|]. destruct l; [done|]. by rewrite fmap_cons.
    - destruct l as [|y l]; [by apply Forall2_nil_inv_l in HF as ->|]. apply Forall2_cons_inv_l in HF as (o & os' & [_ Ho] & HF & ->). eexists. split; [reflexivity|]. cbn [fst snd].
      eapply extent_ext; [|apply (extent_all (covered "rst" d) (covered "rst" d y) o.1 o.2 l os' Ho)].
      + intros k. cbn beta. by rewrite Exists_cons.
      + eapply Forall2_impl; [exact HF|]. by intros z o' [_ ?].
  Qed.
  (** ** Satellites *)
  Local Notation plains ks := (filter (λ y, link_of d y = Plain) ks).
  Local Notation nuclei ks := (filter (λ y, link_of d y = Nucleus) ks).
  Local Notation satellites ks := (filter (λ y, link_of d y = Satellite) ks).
  Lemma kids_els x ks y : ks ≡ₚ kids_in els (el_id x) → y ∈ ks → y ∈ els.
  Proof. intros Hks Hy. rewrite Hks in Hy. by apply elem_of_list_filter in Hy as [_ ?]. Qed.
  Lemma one_plain x ks : x ∈ els → ks ≡ₚ kids_in els (el_id x) → plains ks = attached d Plain x.
  Proof.
    intros Hx Hks. assert (HP : plains ks ≡ₚ attached d Plain x) by (unfold attached; by rewrite Hks). pose proof (rt_one _ HT x (proj1 (el_in d x) Hx)) as H1.
    destruct (attached d Plain x) as [|y [|z l]]; [by apply Permutation_nil_r in HP|by apply Permutation_singleton_r in HP|cbn in H1; lia].
  Qed.
  Lemma nucleus_ok x ks (ts : list nid) whole : x ∈ els → ks ≡ₚ kids_in els (el_id x) →
    (∀ t, t ∈ ts ↔ ∃ i w, segment x ∧ words x !! i = Some w ∧ t = token_node "rst" x i) →
    match nuclei ks with [] => whole = None | _ => ∃ o, whole = Some o ∧ is_extent (λ k, Exists (λ y, covered "rst" d y k) (nuclei ks)) o.1 o.2 end →
    satellites ks ≠ [] →
    ∃ m o, match rr_nucleus (rel_of ts ks), whole, rr_tokens (rel_of ts ks) with
           | Some (m, toks), _, _ => let! o := get_segment_token_offsets toks tm in Ok (m, o)
           | None, Some o, _ => Ok (nd x, o)
           | None, None, _ :: _ => let! o := get_segment_token_offsets (rr_tokens (rel_of ts ks)) tm in Ok (nd x, o)
           | None, None, [] => Err ValueError
           end = Ok (m, o) ∧ nid_str m = nucleus_name "rst" d x ∧ is_extent (nucleus_cover "rst" d x) o.1 o.2.
  Proof.
    intros Hx Hks Hts Hw Hs. unfold Rs3Rel.rel_of. cbn [rr_nucleus rr_tokens]. rewrite (one_plain x ks Hx Hks).
    assert (HPn : nuclei ks ≡ₚ attached d Nucleus x) by (unfold attached; by rewrite Hks).
    pose proof (rt_one _ HT x (proj1 (el_in d x) Hx)) as H1. pose proof (rt_nucleus _ HT x (proj1 (el_in d x) Hx)) as H2.
    unfold nucleus_name, nucleus_cover. destruct (attached d Plain x) as [|y [|z l]] eqn:EP; [|cbn in *|cbn in H1; lia].
    - cbn [last fmap option_fmap option_map head default]. destruct (nuclei ks) as [|n l] eqn:En.
      + subst whole. apply Permutation_nil in HPn. rewrite HPn. 
        assert (Hne : words x ≠ []).
        { destruct H2 as [H2|[H2|H2]]; [|done|done|done]. intros E. apply Hs. apply Permutation_nil. unfold attached in E. rewrite <-E, Hks. done. }
        destruct (words x) as [|w ws] eqn:Ew; [done|]. assert (H0 : words x !! 0 = Some w) by (by rewrite Ew).
        assert (Hin : token_node "rst" x 0 ∈ ts) by (apply Hts; exists 0, w; split; [by eapply words_segment|by rewrite <-Ew]).
        destruct (offsets_ok ts) as (o & Ho & He).
        * intros ->. by apply elem_of_nil in Hin.
        * intros t Ht. apply Hts in Ht as (i & w' & Hseg & Hi & ->). eapply token_listed; [done|done|]. rewrite Ew. exact Hi.
        * destruct ts as [|t ts]; [by apply elem_of_nil in Hin|]. rewrite Ho. cbn [rbind]. exists (nd x), o. split; [done|]. split; [done|]. eapply extent_ext; [|exact He]. intros k. apply spoken_iff; [done|]. rewrite Ew. exact Hts.
      + destruct Hw as (o & -> & Ho). exists (nd x), o. split; [done|]. split; [done|]. destruct (attached d Nucleus x) as [|y l'] eqn:Ea; [by apply Permutation_nil_r in HPn|].
        eapply extent_ext; [|exact Ho]. intros k. cbn beta. by rewrite HPn.
    - destruct (extent_of y) as (o & Ho & He); [eapply (kids_els x ks); [done|]; rewrite Hks|].
      + assert (Hy : y ∈ attached d Plain x) by (rewrite EP; left). by apply elem_of_list_filter in Hy as [_ ?].
      + rewrite Ho. cbn [rbind]. exists (nd y), o. done.
  Qed.
  Lemma satellites_ok x ks (ts : list nid) whole : x ∈ els → ks ≡ₚ kids_in els (el_id x) →
    (∀ t, t ∈ ts ↔ ∃ i w, segment x ∧ words x !! i = Some w ∧ t = token_node "rst" x i) →
    match nuclei ks with [] => whole = None | _ => ∃ o, whole = Some o ∧ is_extent (λ k, Exists (λ y, covered "rst" d y k) (nuclei ks)) o.1 o.2 end →
    ∃ sp, satellite_spans tm (nd x) (rel_of ts ks) whole = Ok sp ∧
      Forall2 span_says sp (s ← satellites ks;
         let name := nucleus_name "rst" d x +:+ "-" +:+ nid_str (nd s) in
         [(name, "N", relation_of s, nucleus_cover "rst" d x); (name, "S", relation_of s, covered "rst" d s)]).
  Proof.
    intros Hx Hks Hts Hw. unfold satellite_spans. destruct (rr_satellites (rel_of ts ks)) as [|s0 ss0] eqn:Es.
    - assert (Hn : satellites ks = []) by (destruct (satellites ks) eqn:E; [done|]; unfold Rs3Rel.rel_of in Es; cbn [rr_satellites] in Es; by rewrite E in Es). rewrite Hn. exists []. split; [done|constructor].
    - assert (Hne : satellites ks ≠ []) by (intros E; unfold Rs3Rel.rel_of in Es; cbn [rr_satellites] in Es; by rewrite E in Es).
      destruct (nucleus_ok x ks ts whole Hx Hks Hts Hw Hne) as (m & o & E & Hm & Ho). rewrite E. cbn [rbind fst snd]. rewrite <-Es. clear Es s0 ss0 E Hne. unfold Rs3Rel.rel_of. cbn [rr_satellites].
      assert (Hl : ∀ y, y ∈ satellites ks → y ∈ els) by (intros y Hy; apply elem_of_list_filter in Hy as [_ Hy]; by eapply kids_els). revert Hl. generalize (satellites ks) as l. intros l.
      induction l as [|s l IH]; intros Hl; [exists []; split; [done|constructor]|]. destruct IH as (sp & Esp & HF); [intros z Hz; apply Hl; by right|].
      rewrite fmap_cons. cbn [rconcat]. cbn [triple Rs3Rel.triple fst snd]. destruct (extent_of s) as (o' & Ho' & He'); [apply Hl; left|]. rewrite Ho'. cbn [rbind]. rewrite Esp. cbn [rbind app]. eexists. split; [reflexivity|].
      cbn [mbind list_bind app]. rewrite Hm. apply List.Forall2_cons; [done|]. by apply List.Forall2_cons.
  Qed.
  (** ** One element *)
  Lemma element_spans x : x ∈ els → ∃ o, rst_node fuel g (nd x) = Ok o ∧
    ∃ nuc sp, nuc ≡ₚ attached d Nucleus x ∧ Forall2 span_says sp (relation_spans "rst" d nuc x) ∧
      match o with
      | None => sp = []
      | Some r => ∃ l, l ≡ₚ sp ∧ (let! m := multinuc_spans tm (nd x) (rr_multinuc r) in let! s := satellite_spans tm (nd x) r m.2 in Ok (m.1 ++ s)) = Ok l
      end.
  Proof.
    intros Hx. destruct (node_entry d g fuel HO HPl HT HH Hfuel x Hx) as (ks & ts & Hks & Hts & o & Eo & Ho). exists o. split; [done|].
    destruct (multinuc_ok x (nuclei ks)) as (sp1 & whole & E1 & F1 & Hw); [intros y Hy; apply elem_of_list_filter in Hy as [_ Hy]; by eapply kids_els|].
    destruct (satellites_ok x ks ts whole Hx Hks Hts Hw) as (sp2 & E2 & F2).
    assert (HPs : satellites ks ≡ₚ attached d Satellite x) by (unfold attached; by rewrite Hks).
    match type of F2 with Forall2 _ _ (_ ≫= ?F) => assert (HP2 : (satellites ks ≫= F) ≡ₚ (attached d Satellite x ≫= F)) by (by rewrite HPs) end.
    apply Forall2_flip in F2. destruct (Permutation.Permutation_Forall2 HP2 F2) as (sp2' & HPsp & F2'). apply Forall2_flip in F2'.
    exists (nuclei ks), (sp1 ++ sp2'). split; [unfold attached; by rewrite Hks|]. split; [apply Forall2_app; [exact F1|exact F2']|].
    destruct Ho as [->|[-> Hr]].
    - exists (sp1 ++ sp2). split; [by rewrite HPsp|]. cbn [rr_multinuc Rs3Rel.rel_of]. change (Rs3Rel.triple g fuel <$> nuclei ks) with (triple <$> nuclei ks). 
      rewrite E1. cbn [rbind snd fst]. rewrite E2. reflexivity.
    - unfold Rs3Rel.rel_of in Hr. injection Hr as _ _ Hs Hn. apply fmap_nil_inv in Hs, Hn. rewrite Hn in F1. apply Forall2_nil_inv_r in F1 as ->. rewrite Hs in HPs. apply Permutation_nil in HPs.
      rewrite HPs in F2'. by apply Forall2_nil_inv_r in F2' as ->.
  Qed.
  (** ** The elements that are listed *)
  Definition marked (n : nid) : Prop := ∃ a v, node_attrs g n = Some a ∧ dget "rst:rel_name" a = Some v ∧ v ≠ VStr "span".
  Lemma roots_marked n : n ∈ (relation_roots g "rst").*1 ↔ marked n.
  Proof.
    unfold relation_roots. rewrite elem_of_list_fmap. split.
    - intros ([n' v] & -> & Hin). apply elem_of_list_omap in Hin as ([m a] & Hm & Hv). cbn [fst snd] in *. change ("rst" +:+ ":rel_name") with "rst:rel_name" in Hv. destruct (dget "rst:rel_name" a) as [v'|] eqn:Ev; [|done].
      destruct (decide (v' = VStr "span")); [done|]. injection Hv as -> ->. exists a, v. split; [|done]. apply elem_dget; [exact (c_nodup g (h_cons _ _ _ HH))|done].
    - intros (a & v & Ha & Hv & Hne). exists (n, v). split; [done|]. apply elem_of_list_omap. exists (n, a). split; [by apply dget_Some_elem|]. cbn [fst snd]. change ("rst" +:+ ":rel_name") with "rst:rel_name". rewrite Hv. by rewrite decide_False.
  Qed.
  Lemma roots_NoDup : NoDup (relation_roots g "rst").*1.
  Proof.
    pose proof (c_nodup g (h_cons _ _ _ HH)) as HD. unfold nodes in HD. unfold relation_roots. revert HD. generalize (g_node g) as l. induction l as [|[n a] l IH]; intros HD; [by apply NoDup_nil|].
    change (NoDup (n :: dkeys l)) in HD. apply NoDup_cons in HD as [Hn HD]. cbn [omap list_omap fst snd].
    assert (Hsub : ∀ m, m ∈ (omap (λ p : nid * attrs, match dget ("rst" +:+ ":rel_name") p.2 with Some v => if decide (v = VStr "span") then None else Some (p.1, v) | None => None end) l).*1 → m ∈ dkeys l).
    { intros m ([m' v] & -> & Hin)%elem_of_list_fmap. apply elem_of_list_omap in Hin as ([m a'] & Hm & Hv). cbn [fst snd] in *. destruct (dget _ a'); [|done]. destruct (decide _); [done|]. injection Hv as -> ->. by apply (elem_of_list_fmap_1 fst) in Hm. }
    destruct (dget _ a) as [v|]; [|by apply IH]. destruct (decide _); [by apply IH|]. rewrite fmap_cons. cbn [fst]. apply NoDup_cons. split; [|by apply IH]. intros Hin. by apply Hn, Hsub.
  Qed.
  Lemma no_missing : missing_names d = [].
  Proof.
    unfold missing_names. assert (E : filter (λ i, i ∉ el_id <$> d_body d) (omap el_parent els) = []); [|by rewrite E].
    apply filter_none, Forall_forall. intros i Hi Hn. apply elem_of_list_omap in Hi as (x & Hx & Hp). apply Hn. eapply (rt_closed _ HT); [by apply (el_in d)|exact Hp].
  Qed.
  Definition mark_shown (x : xelem) : Prop := ∃ m, mark_of d els (el_id x) = Some m ∧ m ≠ "span".
  Lemma element_marked x : x ∈ els → marked (nd x) ↔ mark_shown x.
  Proof.
    intros Hx. pose proof (h_nodes _ _ _ HH) as [_ HF]. rewrite Forall_forall in HF. destruct (HF (desc_info "rst" (nd x) (element_desc "rst" d els x))) as (a & Ha & _ & HK).
    { unfold rs3_nodes. rewrite !elem_of_app. right. left. by apply (elem_of_list_fmap_1 (λ x, desc_info "rst" (nd x) (element_desc "rst" d els x))). }
    cbn [desc_info fst snd] in Ha, HK. assert (E : dget "rst:rel_name" a = VStr <$> mark_of d els (el_id x)).
    { rewrite HK by done. rewrite dget_desc. cbn [nd_rel element_desc]. reflexivity. }
    unfold marked, mark_shown. split.
    - intros (a' & v & Ha' & Hv & Hne). assert (a' = a) as -> by congruence. rewrite E in Hv. destruct (mark_of d els (el_id x)) as [m|]; [|done]. injection Hv as <-. exists m. split; [done|]. congruence.
    - intros (m & Hm & Hne). exists a, (VStr m). split; [done|]. rewrite E, Hm. split; [done|]. congruence.
  Qed.
  Lemma marked_element n : marked n → ∃ x, x ∈ els ∧ n = nd x.
  Proof.
    intros (a & v & Ha & Hv & _). pose proof (h_nodes _ _ _ HH) as [HN HF]. rewrite Forall_forall in HF. assert (Hn : n ∈ nodes g) by (apply node_mem; by exists a). rewrite HN in Hn.
    apply elem_of_list_fmap in Hn as (z & -> & Hz). destruct (HF z Hz) as (a' & Ha' & _ & HK). assert (a' = a) as -> by congruence. rewrite HK in Hv by done. unfold rs3_nodes in Hz. rewrite no_missing, !elem_of_app in Hz. destruct Hz as [H|[H|[H|H]]].
    - destruct (decide _); [by apply elem_of_nil in H|]. apply elem_of_list_singleton in H as ->. done.
    - apply elem_of_list_fmap in H as (y & -> & Hy). by exists y.
    - by apply elem_of_nil in H.
    - apply elem_of_list_fmap in H as (i & -> & Hi). done.
  Qed.
  Lemma unmarked_spans x nuc : x ∈ els → ¬ marked (nd x) → nuc ≡ₚ attached d Nucleus x → relation_spans "rst" d nuc x = [].
  Proof.
    intros Hx Hm Hn. rewrite element_marked in Hm by done.
    assert (HE : filter (λ y, link_of d y ≠ Plain) (kids_in els (el_id x)) = []).
    { destruct (last (filter (λ y, link_of d y ≠ Plain) (kids_in els (el_id x)))) as [y|] eqn:El.
      - exfalso. apply Hm. exists (relation_of y). unfold mark_of. rewrite El. split; [done|]. pose proof (last_Some_elem_of _ _ El) as Hin. apply elem_of_list_filter in Hin as [Hl Hin]. apply elem_of_list_filter in Hin as [_ Hin]. intros E. apply Hl. apply (rt_span _ HT); [by apply (el_in d)|done].
      - by apply last_None in El. }
    assert (H0 : ∀ k, k ≠ Plain → attached d k x = []).
    { intros k Hk. apply filter_none, Forall_forall. intros y Hy El. assert (Hin : y ∈ filter (λ y, link_of d y ≠ Plain) (kids_in els (el_id x))) by (apply elem_of_list_filter; split; [congruence|done]). rewrite HE in Hin. by apply elem_of_nil in Hin. }
    rewrite (H0 Nucleus) in Hn by done. apply Permutation_nil_r in Hn as ->. unfold relation_spans. by rewrite (H0 Satellite).
  Qed.
  (** ** All elements *)
  Lemma all_spans xs rs : (∀ x, x ∈ xs → x ∈ els) → rs.*1 = nd <$> xs → ∃ l1 l nucs sps,
    rmap (λ p : nid * pyval, let! r := rst_node fuel g p.1 in Ok (p.1, r)) rs = Ok l1 ∧
    rconcat (λ p : nid * rst_rel, let! m := multinuc_spans tm p.1 (rr_multinuc p.2) in let! s := satellite_spans tm p.1 p.2 m.2 in Ok (m.1 ++ s))
      (omap (λ p : nid * option rst_rel, match p.2 with Some r => Some (p.1, r) | None => None end) l1) = Ok l ∧
    length nucs = length xs ∧ Forall2 (λ x nuc, nuc ≡ₚ attached d Nucleus x) xs nucs ∧ l ≡ₚ sps ∧
    Forall2 span_says sps (p ← zip xs nucs; relation_spans "rst" d p.2 p.1).
  Proof.
    revert rs. induction xs as [|x xs IH]; intros rs Hxs Hrs.
    - destruct rs as [|p rs]; [|done]. exists [], [], [], []. repeat (split; [first [done|constructor]|]). constructor.
    - destruct rs as [|[n v] rs]; [done|]. cbn [fmap list_fmap fst] in Hrs. injection Hrs as -> Hrs. destruct (IH rs) as (l1 & l & nucs & sps & E1 & E2 & Hlen & HN & HP & HF); [intros z Hz; apply Hxs; by right|done|].
      destruct (element_spans x) as (o & Eo & nuc & sp & Hnuc & HF' & Ho); [apply Hxs; left|]. cbn [rmap fst]. rewrite Eo. cbn [rbind]. rewrite E1. cbn [rbind].
      destruct o as [r|].
      + destruct Ho as (l' & HP' & El'). exists ((nd x, Some r) :: l1), (l' ++ l), (nuc :: nucs), (sp ++ sps). split; [done|]. split; [|split; [cbn; by rewrite Hlen|split; [by apply List.Forall2_cons|split; [by rewrite HP', HP|by apply Forall2_app]]]].
        cbn [omap list_omap fst snd rconcat]. rewrite El'. cbn [rbind]. rewrite E2. done.
      + subst sp. exists ((nd x, None) :: l1), l, (nuc :: nucs), sps. split; [done|]. split; [exact E2|]. split; [cbn; by rewrite Hlen|]. split; [by apply List.Forall2_cons|]. split; [done|].
        change (Forall2 span_says ([] ++ sps) (relation_spans "rst" d nuc x ++ (p ← zip xs nucs; relation_spans "rst" d p.2 p.1))). by apply Forall2_app.
  Qed.
  Lemma spans_ok : ∃ l order, get_rst_spans fuel g = Ok l ∧ (∀ x, x ∈ d_body d → order x ≡ₚ attached d Nucleus x) ∧
    ∃ l', l ≡ₚ l' ∧ Forall2 span_says l' (x ← d_body d; relation_spans "rst" d (order x) x).
  Proof.
    assert (HDel : NoDup (el_id <$> els)) by (rewrite (elements_perm d); apply (ro_ids _ HO)).
    assert (HDe : NoDup els) by (eapply NoDup_fmap_1; exact HDel).
    assert (Hdec : ∀ x, Decision (nd x ∈ (relation_roots g "rst").*1)) by (intros x; apply _).
    assert (HP : (relation_roots g "rst").*1 ≡ₚ nd <$> filter (λ x, nd x ∈ (relation_roots g "rst").*1) els).
    { apply NoDup_Permutation; [apply roots_NoDup| |].
      - rewrite <-(list_fmap_id (filter _ _)), <-list_fmap_compose. apply NoDup_fmap_2_strong; [|by apply NoDup_filter].
        intros x y [_ Hx]%elem_of_list_filter [_ Hy]%elem_of_list_filter E. by apply (node_inj "rst" d HO).
      - intros n. rewrite (elem_of_list_fmap nd). split.
        + intros Hn. pose proof (proj1 (roots_marked n) Hn) as Hm. apply marked_element in Hm as (x & Hx & ->). exists x. split; [done|]. by apply elem_of_list_filter.
        + intros (x & -> & Hx). by apply elem_of_list_filter in Hx as [? _]. }
    apply (Permutation_map_inv nd) in HP as (xs & Exs & HPx).
    destruct (all_spans xs (relation_roots g "rst")) as (l1 & l & nucs & sps & E1 & E2 & Hlen & HN & HPl' & HF); [|exact Exs|].
    { intros x Hx. rewrite <-HPx in Hx. by apply elem_of_list_filter in Hx as [_ ?]. }
    set (rest := filter (λ x, ¬ (nd x ∈ (relation_roots g "rst").*1)) els).
    set (ps := zip xs nucs ++ ((λ x, (x, attached d Nucleus x)) <$> rest)).
    assert (Hps1 : ps.*1 ≡ₚ d_body d).
    { unfold ps. rewrite fmap_app, fst_zip by lia. rewrite <-list_fmap_compose. change (fst ∘ (λ x, (x, attached d Nucleus x))) with (λ x : xelem, x). rewrite list_fmap_id, <-HPx, <-(elements_perm d). unfold rest. apply (TigerQuery.filter_split (λ x, nd x ∈ (relation_roots g "rst").*1)). }
    assert (Hps2 : Forall (λ p : xelem * list xelem, p.2 ≡ₚ attached d Nucleus p.1) ps).
    { unfold ps. apply Forall_app. split; [|apply Forall_forall; by intros p (x & -> & _)%elem_of_list_fmap].
      clear -HN. induction HN as [|x n xs nucs H HN IH]; [constructor|]. cbn. by apply List.Forall_cons. }
    assert (Hps3 : (p ← ps; relation_spans "rst" d p.2 p.1) = (p ← zip xs nucs; relation_spans "rst" d p.2 p.1)).
    { unfold ps. rewrite bind_app. match goal with |- _ ++ ?r = _ => assert (Hr : r = []) end; [|by rewrite Hr, app_nil_r].
      assert (Hsub : ∀ x, x ∈ rest → x ∈ els ∧ ¬ marked (nd x)) by (intros x [H1 H2]%elem_of_list_filter; split; [done|]; by rewrite <-roots_marked).
      revert Hsub. generalize rest as L. clear -HO HPl HT HH Hfuel. intros L. induction L as [|x L IH]; intros Hsub; [done|]. rewrite fmap_cons. cbn [mbind list_bind fst snd].
      destruct (Hsub x) as [H1 H2]; [left|]. rewrite (unmarked_spans x _ H1 H2) by done. apply IH. intros z Hz. apply Hsub. by right. }
    symmetry in Hps1. apply (Permutation_map_inv fst) in Hps1 as (ps' & Ebody & HPps).
    set (order := λ x, default [] (dget x ps')).
    assert (HDp : NoDup (ps'.*1)) by (change (map fst ps') with (ps'.*1) in Ebody; rewrite <-Ebody; eapply NoDup_fmap_1; exact (ro_ids _ HO)).
    assert (Ho : ∀ p, p ∈ ps' → order p.1 = p.2).
    { intros [x n] Hp. unfold order. cbn [fst snd]. rewrite (elem_dget x n ps'); done. }
    exists l, order. split.
    - unfold get_rst_spans, get_rst_relations, get_rst_relation_root_nodes.
      destruct (rmap_total (λ p : nid * pyval, let! s := get_span fuel g p.1 in Ok (p.1, p.2, s)) (relation_roots g "rst")) as [r0 Er0].
      { intros [n v] Hp. assert (Hn : n ∈ (relation_roots g "rst").*1) by (by apply (elem_of_list_fmap_1 fst) in Hp). rewrite Exs in Hn. apply elem_of_list_In, in_map_iff in Hn as (x & <- & Hx%elem_of_list_In).
        rewrite <-HPx in Hx. apply elem_of_list_filter in Hx as [_ Hx]. cbn [fst snd]. rewrite (proj1 (span_known d g fuel HO HPl HT HH Hfuel x Hx)). cbn [rbind]. eexists. reflexivity. }
      rewrite Er0. cbn [rbind]. rewrite E1. cbn [rbind]. exact E2.
    - split.
      + intros x Hx. rewrite Ebody in Hx. apply elem_of_list_In, in_map_iff in Hx as (p & <- & Hp%elem_of_list_In). rewrite (Ho p Hp). rewrite <-HPps in Hp. rewrite Forall_forall in Hps2. by apply Hps2.
      + assert (Eq : (x ← d_body d; relation_spans "rst" d (order x) x) = (p ← ps'; relation_spans "rst" d p.2 p.1)).
        { rewrite Ebody. clear -Ho. clearbody order. induction ps' as [|p ps' IH]; [done|]. cbn [map mbind list_bind]. rewrite (Ho p) by left. f_equal. apply IH. intros q Hq. apply Ho. by right. }
        assert (HPb : (p ← zip xs nucs; relation_spans "rst" d p.2 p.1) ≡ₚ (x ← d_body d; relation_spans "rst" d (order x) x)) by (rewrite Eq, <-Hps3; by rewrite HPps).
        apply Forall2_flip in HF. destruct (Permutation.Permutation_Forall2 HPb HF) as (l' & HP' & HF'). exists l'. split; [by rewrite HPl'|]. by apply Forall2_flip.
  Qed.
End Spans.
