(** * DisgraphMore: words, lost units, and spans *)
From stdpp Require Import relations.
From Verif Require Import PyBase DocGraph Relabel StrNum Query Text SpecText Rst Nltk Dis Conano Exb Tiger Disgraph.
From Verif Require Import SpecGraph DocGraphFacts History Effects RelabelFacts GraphThms SpecImport ImportFacts TextFacts NltkFacts AnaphoraFacts ViewFacts SpecQuery SpanFacts OffsetFacts Rs3Doc.
From Verif Require Rs3Facts Rs3Span TigerDocSpan.
From Verif Require Import SpecDisgraph DisgraphFacts DisgraphDoc.

Section More.
  Context (ns : string) (tokenize : bool).
  (** ** The nodes *)
  Lemma edge_ends_in (E : list edge_info) n : n ∈ edge_ends E ↔ ∃ e, e ∈ E ∧ (n = e.1.1.1 ∨ n = e.1.1.2).
  Proof.
    unfold edge_ends. rewrite elem_of_list_bind. split.
    - intros (e & Hn & He). exists e. split; [done|]. rewrite !elem_of_cons, elem_of_nil in Hn. tauto.
    - intros (e & He & Hn). exists e. split; [|done]. rewrite !elem_of_cons, elem_of_nil. tauto.
  Qed.
  Lemma parts_inside u v : v ∈ parts_read u → v ∈ read_inside u.
  Proof. intros H. rewrite read_inside_parts. right. apply elem_of_list_bind. exists v. split; [|done]. rewrite read_inside_parts. left. Qed.
  Lemma inside_parts u v w : v ∈ read_inside u → w ∈ parts_read v → w ∈ read_inside u.
  Proof.
    revert v w. induction u as [s r i x|s r a b us IH] using disunit_ind'; intros v w Hv Hw.
    - apply elem_of_list_singleton in Hv as ->. by apply elem_of_nil in Hw.
    - rewrite read_inside_parts in Hv. apply elem_of_cons in Hv as [->|Hv]; [by apply parts_inside|]. rewrite read_inside_parts. right.
      apply elem_of_list_bind in Hv as (z & Hv & Hz). apply elem_of_list_bind. exists z. split; [|done].
      assert (Hz' : z ∈ us) by (destruct us; [by apply elem_of_nil in Hz|by right]). rewrite Forall_forall in IH. by eapply IH.
  Qed.
  Lemma read_parts d u v : u ∈ read_of d → v ∈ parts_read u → v ∈ read_of d.
  Proof. intros Hu Hv. apply elem_of_list_bind in Hu as (z & Hu & Hz). apply elem_of_list_bind. exists z. split; [|done]. by eapply inside_parts. Qed.
  Lemma top_read d u : u ∈ dd_parts d → u ∈ read_of d.
  Proof. intros Hu. apply elem_of_list_bind. exists u. split; [rewrite read_inside_parts; left|done]. Qed.
  Lemma edges_names u e : e ∈ about_edges ns tokenize u → (e.1.1.1 = name_of ns u ∨ ∃ v, v ∈ parts_read u ∧ e.1.1.1 = name_of ns v) ∧
    (e.1.1.2 ∈ unit_tokens ns tokenize u ∨ ∃ v, v ∈ parts_read u ∧ e.1.1.2 = name_of ns v).
  Proof.
    destruct u as [s r i x|s r a b us]; cbn [about_edges].
    - intros He. apply elem_of_list_fmap in He as (t & -> & Ht). split; [by left|by left].
    - intros He. assert (HS : ∀ b' v, v ∈ filter (λ v, is_sat v = b') (parts_read (Span s r a b us)) → v ∈ parts_read (Span s r a b us)) by (intros b' v Hv; by apply elem_of_list_filter in Hv as [_ Hv]).
      pose proof (HS true) as H1. pose proof (HS false) as H2. clear HS.
      destruct (filter (λ v, is_sat v = true) _) as [|sa sats]; [|destruct (filter (λ v, is_sat v = false) _) as [|nu nucs]].
      + apply elem_of_list_fmap in He as (v & -> & Hv). split; [by left|]. right. exists v. split; [by apply H2|done].
      + apply elem_of_list_singleton in He as ->. split; [by left|]. right. exists sa. split; [apply H1; left|done].
      + apply elem_of_cons in He as [->|He]; [|apply elem_of_list_singleton in He as ->]; cbn [fst snd related].
        * split; [by left|]. right. exists nu. split; [apply H2; left|done].
        * split; [right; exists nu; split; [apply H2; left|done]|]. right. exists sa. split; [apply H1; left|done].
  Qed.
  Lemma known_names d n : n ∈ known_nodes ns tokenize d ↔ n = root_name ns d ∨ (∃ u, u ∈ read_of d ∧ n = name_of ns u) ∨ n ∈ doc_tokens ns tokenize d.
  Proof.
    unfold known_nodes. rewrite elem_of_cons, elem_of_app. split.
    - intros [->|[Hn|Hn]]; [by left| |].
      + apply elem_of_list_fmap in Hn as (f & -> & Hf). apply elem_of_list_bind in Hf as (u & Hf & Hu). right. destruct u as [s r i x|s r a b us]; cbn [about_nodes] in Hf.
        * apply elem_of_cons in Hf as [->|Hf]; [left; by exists (Unit s r i x)|]. right. apply elem_of_list_bind. exists (Unit s r i x). split; [|done]. unfold unit_tokens.
          destruct tokenize; [|by apply elem_of_nil in Hf]. apply elem_of_lookup_imap in Hf as (k & w & -> & Hw). apply elem_of_lookup_imap. by exists k, w.
        * apply elem_of_list_singleton in Hf as ->. left. by exists (Span s r a b us).
      + apply edge_ends_in in Hn as (e & He & Hn). unfold doc_links in He. apply elem_of_list_bind in He as (u & He & Hu). apply elem_of_cons in He as [->|He]; cbn [fst snd] in Hn.
        * destruct Hn as [->| ->]; [by left|]. right. left. exists u. split; [by apply top_read|done].
        * right. unfold links in He. apply elem_of_list_bind in He as (v & He & Hv). assert (Hv' : v ∈ read_of d) by (apply elem_of_list_bind; by exists u). apply edges_names in He as [H1 H2].
          destruct Hn as [->| ->].
          -- left. destruct H1 as [H1|(w & Hw & H1)]; [by exists v|]. exists w. split; [by eapply read_parts|done].
          -- destruct H2 as [H2|(w & Hw & H2)]; [right; apply elem_of_list_bind; by exists v|]. left. exists w. split; [by eapply read_parts|done].
    - intros [->|[(u & Hu & ->)|Hn]]; [by left| |].
      + right. left. apply elem_of_list_fmap. destruct u as [s r i x|s r a b us].
        * eexists. split; [|apply elem_of_list_bind; exists (Unit s r i x); split; [left|done]]. done.
        * eexists. split; [|apply elem_of_list_bind; exists (Span s r a b us); split; [left|done]]. done.
      + pose proof (tokens_known ns tokenize d n Hn) as H. unfold known_nodes in H. by rewrite elem_of_cons, elem_of_app in H.
  Qed.
  (** ** The words *)
  Lemma token_words d : tokenize = true → ∃ L : list (nid * string), doc_tokens ns tokenize d = L.*1 ∧ doc_words d = L.*2 ∧
    (∀ f n w, f ∈ doc_facts ns tokenize d → f.1.1 = n → dget (ns +:+ ":token") f.2 = Some w → ∃ s, w = VStr s ∧ (n, s) ∈ L) ∧
    (∀ n s, (n, s) ∈ L → ∃ f, f ∈ doc_facts ns tokenize d ∧ f.1.1 = n ∧ dget (ns +:+ ":token") f.2 = Some (VStr s)).
  Proof.
    intros HT. set (one := λ u, match u with Unit _ _ i _ => imap (λ k w, (token_name ns i k, w)) (words_of u) | _ => [] end). exists (read_of d ≫= one).
    assert (HK : ns +:+ ":token" ≠ ns +:+ ":text") by (by apply Rs3Facts.key_ne'). assert (HK2 : "label" ≠ ns +:+ ":token") by apply Rs3Facts.label_ne.
    assert (HK3 : ns +:+ ":rel_type" ≠ ns +:+ ":token") by (by apply Rs3Facts.key_ne'). assert (HK4 : ns +:+ ":node_type" ≠ ns +:+ ":token") by (by apply Rs3Facts.key_ne').
    split; [|split; [|split]].
    - unfold doc_tokens. induction (read_of d) as [|u us IH]; [done|]. cbn [mbind list_bind]. rewrite fmap_app. f_equal; [|exact IH]. destruct u as [s r i x|]; [|done]. cbn [unit_tokens one]. rewrite HT, fmap_imap. done.
    - unfold doc_words. induction (read_of d) as [|u us IH]; [done|]. cbn [mbind list_bind]. rewrite fmap_app. f_equal; [|exact IH]. destruct u as [s r i x|]; [|done]. cbn [one]. rewrite fmap_imap.
      generalize (words_of (Unit s r i x)) as l. intros l. symmetry. rewrite (imap_ext _ (λ _ w, w)) by done. induction l as [|w l IHl]; [done|]. cbn. f_equal. exact IHl.
    - intros f n w Hf <- Hw. apply elem_of_list_bind in Hf as (u & Hf & Hu). destruct u as [s r i x|s r a b us]; cbn [about_nodes] in Hf; rewrite ?HT in Hf.
      + apply elem_of_cons in Hf as [->|Hf]; [cbn [snd] in Hw; exfalso; revert Hw; cbn; repeat (destruct (decide _); [congruence|]); done|].
        apply elem_of_lookup_imap in Hf as (k & v & -> & Hv). cbn [snd] in Hw. cbn in Hw. rewrite decide_True in Hw by done. injection Hw as <-. exists v. split; [done|].
        apply elem_of_list_bind. exists (Unit s r i x). split; [|done]. unfold one. apply elem_of_lookup_imap. by exists k, v.
      + apply elem_of_list_singleton in Hf as ->. exfalso. revert Hw. cbn. repeat (destruct (decide _); [congruence|]). done.
    - intros n s Hn. apply elem_of_list_bind in Hn as (u & Hn & Hu). destruct u as [s' r i x|]; [|by apply elem_of_nil in Hn]. unfold one in Hn. apply elem_of_lookup_imap in Hn as (k & v & [= -> ->] & Hv).
      exists (token_name ns i k, [], [(ns +:+ ":token", VStr v); ("label", VStr v)]). split; [|split; [done|cbn; by rewrite decide_True]]. apply elem_of_list_bind. exists (Unit s' r i x). split; [|done]. unfold about_nodes. right.
      rewrite HT. apply elem_of_lookup_imap. by exists k, v.
  Qed.
  Lemma attrs_first (F : list node_info) n key (v : pyval) : (∀ f w, f ∈ F → f.1.1 = n → dget key f.2 = Some w → w = v) → (∃ f, f ∈ F ∧ f.1.1 = n ∧ dget key f.2 = Some v) → dget key (attrs_about F n) = Some v.
  Proof.
    intros H1 (f & Hf & Hn & Hv). unfold attrs_about. assert (Hf' : f ∈ reverse (filter (λ f : node_info, f.1.1 = n) F)) by (apply elem_of_reverse, elem_of_list_filter; done).
    assert (H1' : ∀ f w, f ∈ reverse (filter (λ f : node_info, f.1.1 = n) F) → dget key f.2 = Some w → w = v). { intros f' w Hw. apply elem_of_reverse, elem_of_list_filter in Hw as [Hw1 Hw2]. by apply H1. }
    clear H1 Hf. induction (reverse _) as [|g l IH]; [by apply elem_of_nil in Hf'|]. cbn [mbind list_bind]. rewrite dget_app. destruct (dget key g.2) as [w|] eqn:Eg.
    - f_equal. eapply H1'; [left|exact Eg].
    - apply elem_of_cons in Hf' as [->|Hf']; [congruence|]. apply IH; [done|]. intros f' w Hw. apply H1'. by right.
  Qed.
  Lemma words_text precedence d g : tokenize = true → says_exactly ns tokenize precedence d g → g_ns g = ns → g_tokens g = doc_tokens ns tokenize d → NoDup (doc_tokens ns tokenize d) → text_tokens g (doc_words d).
  Proof.
    intros HT [S1 S2 S3] Hns Htk HD. unfold text_tokens. rewrite Htk. destruct (token_words d HT) as (L & E1 & E2 & L1 & L2). rewrite E1, E2. rewrite E1 in HD.
    apply Forall2_fmap. apply Forall_Forall2_diag. apply Forall_forall. intros [n s] Hin. cbn [fst snd].
    assert (Hn : n ∈ doc_tokens ns tokenize d) by (rewrite E1; by apply (elem_of_list_fmap_1 fst) in Hin). apply tokens_known, S1, node_mem in Hn as [a Ha]. exists a. split; [done|]. rewrite Hns.
    destruct (S2 n a Ha) as [_ HA]. rewrite HA by apply key_layers. apply attrs_first; [|by apply L2].
    intros f w Hf Hfn Hw. destruct (L1 f n w Hf Hfn Hw) as (s' & -> & Hs'). f_equal.
    eapply (elem_dget n s' L HD) in Hs'. eapply (elem_dget n s L HD) in Hin. congruence.
  Qed.
  (** ** Units that are lost *)
  Lemma read_all u v : v ∈ read_inside u → v ∈ all_inside u.
  Proof.
    revert v. induction u as [s r i x|s r a b us IH] using disunit_ind'; intros v Hv; [exact Hv|]. rewrite read_inside_parts in Hv. cbn [all_inside parts_read] in *. rewrite concat_fmap.
    apply elem_of_cons in Hv as [->|Hv]; [left|right]. apply elem_of_list_bind in Hv as (z & Hv & Hz). assert (Hz' : z ∈ us) by (destruct us; [by apply elem_of_nil in Hz|by right]).
    apply elem_of_list_bind. exists z. split; [|done]. rewrite Forall_forall in IH. by apply IH.
  Qed.
  Lemma inside_self u : u ∈ all_inside u.
  Proof. destruct u; left. Qed.
  Lemma all_trans u v w : v ∈ all_inside u → w ∈ all_inside v → w ∈ all_inside u.
  Proof.
    revert v w. induction u as [s r i x|s r a b us IH] using disunit_ind'; intros v w Hv Hw.
    - apply elem_of_list_singleton in Hv as ->. done.
    - cbn [all_inside] in Hv. rewrite concat_fmap in Hv. apply elem_of_cons in Hv as [->|Hv]; [done|]. cbn [all_inside]. rewrite concat_fmap. right.
      apply elem_of_list_bind in Hv as (z & Hv & Hz). apply elem_of_list_bind. exists z. split; [|done]. rewrite Forall_forall in IH. by eapply IH.
  Qed.
  Lemma bind_same {A B} (f : A → list B) (l : list A) a a' b : NoDup (l ≫= f) → a ∈ l → a' ∈ l → b ∈ f a → b ∈ f a' → a = a'.
  Proof.
    intros HD Ha Ha' Hb Hb'. apply elem_of_list_lookup in Ha as [i Hi], Ha' as [j Hj]. rewrite <-concat_fmap in HD.
    assert (i = j) as ->; [|congruence]. eapply (TigerDocSpan.NoDup_concat_same _ HD i j (f a) (f a') b); [by rewrite list_lookup_fmap, Hi|by rewrite list_lookup_fmap, Hj|done|done].
  Qed.
  Lemma NoDup_bind_one {A B} (f : A → list B) (l : list A) a : NoDup (l ≫= f) → a ∈ l → NoDup (f a).
  Proof.
    intros HD Ha. apply elem_of_list_split in Ha as (l1 & l2 & ->). rewrite bind_app in HD. apply NoDup_app in HD as (_ & _ & HD). cbn [mbind list_bind] in HD. by apply NoDup_app in HD as (HD & _ & _).
  Qed.
  Lemma inside_lost u s r a b p ps v : NoDup (all_inside u) → Span s r a b (p :: ps) ∈ all_inside u → v ∈ all_inside p → v ∉ read_inside u.
  Proof.
    induction u as [s0 r0 i x|s0 r0 a0 b0 us IH] using disunit_ind'; intros HD Hs Hv Hr; [by apply elem_of_list_singleton in Hs|].
    cbn [all_inside] in HD, Hs. rewrite concat_fmap in HD, Hs. rewrite read_inside_parts in Hr. cbn [parts_read] in Hr. apply NoDup_cons in HD as [HN HD].
    assert (HT : ∀ z, z ∈ tail us → z ∈ us) by (intros z Hz; destruct us; [by apply elem_of_nil in Hz|by right]).
    apply elem_of_cons in Hs as [[= -> -> -> -> <-]|Hs].
    - cbn [tail] in *. apply elem_of_cons in Hr as [->|Hr].
      + apply HN. apply elem_of_list_bind. exists p. split; [done|left].
      + apply elem_of_list_bind in Hr as (z & Hr & Hz). cbn [mbind list_bind] in HD. apply NoDup_app in HD as (_ & HX & _). apply (HX v Hv). apply elem_of_list_bind. exists z. split; [by apply read_all|done].
    - apply elem_of_list_bind in Hs as (w & Hs & Hw). assert (Hvw : v ∈ all_inside w).
      { eapply all_trans; [exact Hs|]. cbn [all_inside]. rewrite concat_fmap. right. apply elem_of_list_bind. exists p. split; [done|left]. }
      apply elem_of_cons in Hr as [->|Hr].
      + apply HN. apply elem_of_list_bind. by exists w.
      + apply elem_of_list_bind in Hr as (z & Hr & Hz). assert (w = z) as <- by (eapply bind_same; [exact HD|exact Hw|by apply HT|exact Hvw|by apply read_all]).
        rewrite Forall_forall in IH. eapply (IH w Hw); [by eapply NoDup_bind_one|exact Hs|exact Hv|exact Hr].
  Qed.
  Lemma doc_lost d s r a b p ps v : NoDup (all_of d) → Span s r a b (p :: ps) ∈ all_of d → v ∈ all_inside p → v ∈ all_of d ∧ v ∉ read_of d.
  Proof.
    intros HD Hs Hv. unfold all_of in *. apply elem_of_list_bind in Hs as (w & Hs & Hw). assert (Hvw : v ∈ all_inside w).
    { eapply all_trans; [exact Hs|]. cbn [all_inside]. rewrite concat_fmap. right. apply elem_of_list_bind. exists p. split; [done|left]. }
    split; [apply elem_of_list_bind; by exists w|]. intros Hr. apply elem_of_list_bind in Hr as (z & Hr & Hz).
    assert (w = z) as <- by (eapply bind_same; [exact HD|exact Hw|exact Hz|exact Hvw|by apply read_all]). eapply inside_lost; [by eapply NoDup_bind_one|exact Hs|exact Hv|exact Hr].
  Qed.
  Lemma read_of_all d v : v ∈ read_of d → v ∈ all_of d.
  Proof. intros Hv. apply elem_of_list_bind in Hv as (u & Hv & Hu). apply elem_of_list_bind. exists u. split; [by apply read_all|done]. Qed.
  (** in a binary tree, one unit under each part of the root is left *)
  Lemma binary_one u : (∀ v, v ∈ all_inside u → is_unit v ∨ length (parts_read v) = 1) → length (filter is_unit (read_inside u)) = 1.
  Proof.
    induction u as [s r i x|s r a b us IH] using disunit_ind'; intros H2; [done|]. rewrite read_inside_parts, filter_cons, decide_False by (intros []). cbn [parts_read].
    destruct (H2 _ (inside_self _)) as [[]|HL]. cbn [parts_read] in HL. destruct us as [|u0 [|u1 [|u2 us]]]; try done. cbn [tail mbind list_bind]. rewrite app_nil_r.
    rewrite !Forall_cons in IH. destruct IH as (_ & IH & _). apply IH. intros v Hv. apply H2. cbn [all_inside]. rewrite concat_fmap. right. apply elem_of_list_bind. exists u1. split; [done|right; left].
  Qed.
  Lemma binary_units d : (∀ v, v ∈ all_of d → is_unit v ∨ length (parts_read v) = 1) → length (filter is_unit (read_of d)) = length (dd_parts d).
  Proof.
    unfold all_of, read_of. induction (dd_parts d) as [|u us IH]; intros H; [done|]. cbn [mbind list_bind] in *. rewrite filter_app, app_length, IH by (intros v Hv; apply H, elem_of_app; by right).
    rewrite binary_one by (intros v Hv; apply H, elem_of_app; by left). done.
  Qed.
  (** ** Edges without a type *)
  Lemma edge_there g E e : Consistent g → has_edges g E → e ∈ E → ∃ k a, edge_attrs g e.1.1.1 e.1.1.2 k = Some a ∧ attrs_are a e.1.2 e.2.
  Proof.
    intros C (es & HP & HF) He. apply elem_of_list_lookup in He as [j Hj]. destruct (Forall2_lookup_r _ _ _ _ _ HF Hj) as ([[[u v] k] a] & Hx & H1 & H2 & H3). cbn [fst snd] in *. subst u v.
    exists k, a. split; [|done]. apply elem_edges; [exact C|]. rewrite HP. by eapply elem_of_list_lookup_2.
  Qed.
  Lemma span_step k g u v key a l : Consistent g → edge_attrs g u v key = Some a → u ≠ v → get_span k g u = Ok l →
    dget "edge_type" a ≠ None ∧ (dget "edge_type" a = Some (VStr points_to) ∨ ∃ k' l', get_span k' g v = Ok l').
  Proof.
    intros C Ha Huv H. destruct k as [|k]; [done|]. cbn [get_span] in H. destruct (istoken g u) as [tok|e] eqn:Et; [|done]. cbn [rbind] in H.
    destruct (rconcat _ (out_edges g u)) as [below|e] eqn:Eb; [|done]. apply rconcat_Ok in Eb as (rs & HF & _).
    assert (Hin : (u, v, key, a) ∈ out_edges g u) by (by apply elem_out_edges). apply elem_of_list_lookup in Hin as [j Hj]. destruct (Forall2_lookup_l _ _ _ _ _ HF Hj) as (r & _ & Hr).
    cbn [fst snd] in Hr. rewrite decide_False in Hr by congruence. destruct (dget "edge_type" a) as [ty|]; [|done]. cbn [of_option rbind] in Hr. split; [done|].
    destruct (decide (ty = VStr points_to)) as [->|Hty]; [by left|]. right. by exists k, r.
  Qed.
End More.
