(** * AnaphoraFacts: proofs about the anaphoricity format *)
From Verif Require Import PyBase DocGraph Relabel StrNum Query Text Rst Nltk Parsers SpecGraph SpecQuery SpecRst RstRead DocGraphFacts GraphThms SpanFacts OffsetFacts SelectFacts QueryThms SpecParse SpecImport ImportFacts Anaphora SpecAnaphora.

(** ** Words *)
Lemma words_in_split s ws : words_in s ws → split_blanks s = ws.
Proof.
  induction 1 as [|c s ws Hc _ IH|w Hw|w c s ws Hw Hc _ IH]; [done| | |].
  - cbn [split_blanks]. by rewrite Hc.
  - by apply split_word.
  - rewrite <-IH. destruct Hw as [Hne Hw]. clear IH. induction w as [|a w IHw]; [done|]. apply Forall_cons in Hw as [Ha Hw]. cbn [app split_blanks]. rewrite Ha.
    destruct w as [|b w].
    + cbn [app]. rewrite Hc. f_equal. cbn [split_blanks]. by rewrite Hc.
    + cbn [app]. pose proof Hw as [Hb _]%Forall_cons. rewrite Hb. cbn [app] in IHw. rewrite IHw; done.
Qed.
Lemma split_words_in s : words_in s (split_blanks s).
Proof.
  induction s as [|c s IH]; [constructor|]. cbn [split_blanks]. destruct (Rst.is_space c) eqn:Hc; [by constructor|].
  assert (H1 : is_word [c]) by (split; [done|by repeat constructor]).
  destruct s as [|d s]; [by apply (WI_last [c])|]. destruct (Rst.is_space d) eqn:Hd.
  - apply (WI_word [c] d); [done|done|]. cbn [split_blanks] in *. rewrite Hd in *. inversion IH as [|? ? ? _ H'|w Hw Ew|w e s' ws' Hw _ _ Ew]; subst; [done| |].
    + destruct Hw as [_ [Hx _]%Forall_cons]. congruence.
    + destruct w as [|x w]; [by destruct Hw|]. injection Ew as -> _. destruct Hw as [_ [Hx _]%Forall_cons]. congruence.
  - remember (split_blanks (d :: s)) as ws eqn:E. inversion IH as [|? ? ? Hx _|w Hw|w e s' ws' Hw He H']; subst.
    + congruence.
    + apply (WI_last (c :: d :: s)). destruct Hw as [_ Hw]. split; [done|]. by constructor.
    + apply (WI_word (c :: w)); [|done|done]. destruct Hw as [_ Hw]. split; [done|]. by constructor.
Qed.
Lemma line_words_split s : line_words s = split_blanks s.
Proof.
  unfold line_words. induction s as [|x s IH]; [done|]. cbn [split_char]. destruct (decide (x = nl)) as [->|Hx].
  - rewrite fmap_cons. cbn [concat]. rewrite IH. done.
  - assert (HS : ∃ p ps, split_char nl s = p :: ps ∧ (p = [] → s = [] ∨ ∃ s', s = nl :: s') ∧ ∀ d p', p = d :: p' → ∃ s', s = d :: s').
    { clear. destruct s as [|y s]; cbn [split_char]; [by exists [], []; split_and!; [|left|]|]. destruct (decide (y = nl)) as [->|].
      - eexists [], _. split_and!; [done|right; by eexists|done].
      - destruct (split_char nl s) as [|p ps]; eexists _, _; split_and!; try done; intros ? ? [= <- _]; by eexists. }
    destruct HS as (p & ps & E & Hn & Hc). rewrite E in IH |- *. rewrite fmap_cons in IH |- *. cbn [concat] in IH |- *.
    cbn [split_blanks]. destruct (Rst.is_space x) eqn:Ex; [by rewrite <-IH|]. destruct p as [|d p].
    + destruct (Hn eq_refl) as [->|[s' ->]].
      * cbn in E. injection E as <-. done.
      * cbn [split_blanks] in IH |- *. change (Rst.is_space nl) with true in *. cbn [app] in *. by rewrite IH.
    + destruct (Hc d p eq_refl) as [s' ->]. destruct (Rst.is_space d) eqn:Ed.
      * by rewrite <-IH.
      * rewrite <-IH. cbn [split_blanks]. rewrite Ed. destruct p as [|e p]; [done|]. destruct (Rst.is_space e); [done|]. by destruct (split_blanks (e :: p)).
Qed.

(** ** The regular expression *)
Lemma take_classes_iff cls : ∀ s a b, take_classes cls s = Some (a, b) ↔ s = a ++ b ∧ Forall2 (λ cl c, c ∈ chs cl) cls a.
Proof.
  induction cls as [|cl cls IH]; intros s a b; cbn [take_classes].
  - split; [intros [= <- <-]; by split; [|constructor]|]. intros [-> H]. inversion H. done.
  - destruct s as [|c s].
    + split; [done|]. intros [E H]. inversion H; subst. done.
    + split.
      * destruct (decide _) as [Hc|]; [|done]. intros ([a' b'] & E & [= -> ->])%fmap_Some. cbn in *. apply IH in E as [-> HF]. split; [done|]. by constructor.
      * intros [E H]. inversion H as [|? c' ? a' Hc HF]; subst. injection E as -> ->. rewrite decide_True by done. assert (E2 : take_classes cls (a' ++ b) = Some (a', b)) by (by apply IH). by rewrite E2.
Qed.
Ltac elim_in H := repeat (apply elem_of_cons in H as [H|H]); [..|by apply elem_of_nil in H]; try subst.
Ltac find_in := repeat (first [left|right]).
Lemma kinds_iff c : c ∈ chs "anpr" ↔ c ∈ anno_kinds.*1.
Proof.
  change (chs "anpr") with ["a"%char; "n"%char; "p"%char; "r"%char]. change (anno_kinds.*1) with ["n"%char; "a"%char; "r"%char; "p"%char].
  split; intros H; elim_in H; repeat constructor.
Qed.
Lemma anno_tail_iff r tok x u : anno_tail r = Some (tok, x, u) ↔
  tok = r.1 ∧ x ∈ anno_kinds.*1 ∧ ∃ q, r.2 = "/"%char :: x :: q ∧ u = bool_decide (head q = Some "?"%char).
Proof.
  unfold anno_tail. split.
  - destruct (take_classes _ _) as [[a b]|] eqn:E; [|done]. apply take_classes_iff in E as [E H].
    inversion H as [|? c1 ? a1 Hc1 H1]; subst. inversion H1 as [|? c2 ? a2 Hc2 H2]; subst. inversion H2; subst. intros [= <- <- <-].
    apply elem_of_list_singleton in Hc1 as ->. split; [done|]. split; [|exists b; split; [exact E|done]].
    by apply kinds_iff.
  - destruct r as [t r]. cbn [fst snd]. intros (-> & Hx & q & -> & ->).
    assert (E : take_classes ["/"; "anpr"] ("/"%char :: x :: q) = Some (["/"%char; x], q)).
    { apply take_classes_iff. split; [done|]. constructor; [left|]. constructor; [by apply kinds_iff|constructor]. }
    by rewrite E.
Qed.
Lemma match_first s r m : take_classes ["Dd"; "a"; "s"] s = Some r → anno_tail r = Some m → anno_match s = Some m.
Proof. intros E1 E2. unfold anno_match. by rewrite E1, E2. Qed.
Lemma match_second s r m : take_classes ["Dd"; "a"; "s"] s = None → take_classes ["Ee"; "s"] s = Some r → anno_tail r = Some m → anno_match s = Some m.
Proof. intros E0 E1 E2. unfold anno_match. by rewrite E0, E1, E2. Qed.
Lemma anno_match_iff s tok x u : anno_match s = Some (tok, x, u) ↔
  str tok ∈ anaphors ∧ x ∈ anno_kinds.*1 ∧ ∃ q, s = tok ++ "/"%char :: x :: q ∧ u = bool_decide (head q = Some "?"%char).
Proof.
  split.
  - unfold anno_match. destruct (take_classes ["Dd"; "a"; "s"] s) as [[a b]|] eqn:E1.
    + destruct (anno_tail (a, b)) as [m|] eqn:E2.
      * intros [= ->]. apply anno_tail_iff in E2 as (-> & Hx & q & Eq & ->). cbn [fst snd] in *. subst b. apply take_classes_iff in E1 as [-> H].
        split; [|split; [done|]]; [|by exists q].
        inversion H as [|? c1 ? a1 Hc1 H1]; subst. inversion H1 as [|? c2 ? a2 Hc2 H2]; subst. inversion H2 as [|? c3 ? a3 Hc3 H3]; subst. inversion H3; subst.
        apply elem_of_list_singleton in Hc2 as ->. apply elem_of_list_singleton in Hc3 as ->. change (chs "Dd") with ["D"%char; "d"%char] in Hc1 || change (chs "Ee") with ["E"%char; "e"%char] in Hc1. elim_in Hc1; cbn; unfold anaphors; repeat constructor.
      * destruct (take_classes ["Ee"; "s"] s) as [[a' b']|] eqn:E3; [|done]. intros H. exfalso. apply take_classes_iff in E1 as [-> H1]. apply take_classes_iff in E3 as [E3 H3].
        inversion H1 as [|? c1 ? a1 Hc1 _]; subst. inversion H3 as [|? d1 ? d2 Hd1 _]; subst. injection E3 as -> _. change (chs "Dd") with ["D"%char; "d"%char] in Hc1. change (chs "Ee") with ["E"%char; "e"%char] in Hd1. elim_in Hc1; elim_in Hd1; done.
    + destruct (take_classes ["Ee"; "s"] s) as [[a b]|] eqn:E3; [|done]. intros (-> & Hx & q & Eq & ->)%anno_tail_iff. cbn [fst snd] in *. subst b. apply take_classes_iff in E3 as [-> H].
      split; [|split; [done|]]; [|by exists q].
      inversion H as [|? c1 ? a1 Hc1 H1]; subst. inversion H1 as [|? c2 ? a2 Hc2 H2]; subst. inversion H2; subst. apply elem_of_list_singleton in Hc2 as ->.
      change (chs "Dd") with ["D"%char; "d"%char] in Hc1 || change (chs "Ee") with ["E"%char; "e"%char] in Hc1. elim_in Hc1; cbn; unfold anaphors; repeat constructor.
  - intros (Ht & Hx & q & -> & ->).
    assert (HT : ∀ t : chars, anno_tail (t, ("/"%char :: x :: q) : chars) = Some (t, x, bool_decide (head q = Some "?"%char))).
    { intros t. apply anno_tail_iff. split; [done|]. split; [done|]. by exists q. }
    assert (Hc : tok = chs "das" ∨ tok = chs "Das" ∨ tok = chs "es" ∨ tok = chs "Es").
    { unfold anaphors in Ht. rewrite <-(chs_str tok). elim_in Ht; rewrite Ht; naive_solver. }
    destruct Hc as [-> | [-> | [-> | ->]]].
    + eapply match_first; [reflexivity|apply HT].
    + eapply match_first; [reflexivity|apply HT].
    + eapply match_second; [reflexivity|reflexivity|apply HT].
    + eapply match_second; [reflexivity|reflexivity|apply HT].
Qed.
Lemma anno_search_None s : anno_search s = None ↔ unannotated s.
Proof.
  induction s as [|c s IH]; cbn [anno_search].
  - split; [|done]. intros _ p tok x q (Ht & Hx & E). destruct p; [|done]. by destruct (chs tok).
  - destruct (anno_match (c :: s)) as [[[tok x] u]|] eqn:E.
    + split; [done|]. intros H. exfalso. apply anno_match_iff in E as (Ht & Hx & q & E & _). apply (H [] (str tok) x q). split_and!; [done|done|]. by rewrite chs_str.
    + rewrite IH. split.
      * intros H [|d p] tok x q (Ht & Hx & Eq); [|injection Eq as -> Eq; by apply (H p tok x q)].
        assert (E' : anno_match (c :: s) = Some (chs tok, x, bool_decide (head q = Some "?"%char))); [|congruence].
        apply anno_match_iff. rewrite str_chs. split; [done|]. split; [done|]. by exists q.
      * intros H p tok x q (Ht & Hx & Eq). apply (H (c :: p) tok x q). split_and!; [done|done|]. by rewrite Eq.
Qed.
Lemma anno_search_Some s tok x u : anno_search s = Some (tok, x, u) → annotated s (str tok) x (u = true).
Proof.
  induction s as [|c s IH]; cbn [anno_search]; [done|]. destruct (anno_match (c :: s)) as [m|] eqn:E.
  - intros [= ->]. apply anno_match_iff in E as (Ht & Hx & q & E & ->). exists [], q. split; [|split; [intros; cbn; lia|by rewrite bool_decide_eq_true]].
    split_and!; [done|done|]. by rewrite chs_str.
  - intros (p & q & (Ht & Hx & Es) & Hmin & Hu)%IH. exists (c :: p), q. split; [|split; [|done]].
    + split_and!; [done|done|]. by rewrite Es.
    + intros [|d p'] tok' x' q' (Ht' & Hx' & E'); [|injection E' as -> E'; cbn; apply le_n_S; by eapply (Hmin p' tok' x' q')].
      assert (E2 : anno_match (c :: s) = Some (chs tok', x', bool_decide (head q' = Some "?"%char))); [|congruence].
      apply anno_match_iff. rewrite str_chs. split; [done|]. split; [done|]. by exists q'.
Qed.
(** the annotation is unique *)
Lemma anno_at_unique w p tok x q tok' x' q' : anno_at w p tok x q → ∀ p', anno_at w p' tok' x' q' → length p = length p' → tok = tok' ∧ x = x' ∧ q = q'.
Proof.
  intros (Ht & _ & ->) p' (Ht' & _ & E) L. apply app_inj_1 in E as [<- E]; [|done].
  unfold anaphors in *. elim_in Ht; elim_in Ht'; try done; injection E as -> ->; done.
Qed.
Lemma annotated_unique w tok x u tok' x' u' : annotated w tok x u → annotated w tok' x' u' → tok = tok' ∧ x = x' ∧ (u ↔ u').
Proof.
  intros (p & q & H & Hm & Hu) (p' & q' & H' & Hm' & Hu'). assert (L : length p = length p') by (specialize (Hm _ _ _ _ H'); specialize (Hm' _ _ _ _ H); lia).
  destruct (anno_at_unique _ _ _ _ _ _ _ _ H p' H' L) as (-> & -> & ->). split_and!; [done|done|]. by rewrite Hu, Hu'.
Qed.
Lemma annotated_not w tok x u : annotated w tok x u → ¬ unannotated w.
Proof. intros (p & q & H & _) Hn. by apply (Hn p tok x q). Qed.

(** ** Reading *)
Lemma anno_token_node ns i w : word_node ns i w (NInt (Z.of_nat i), (anno_token ns w).1, (anno_token ns w).2).
Proof.
  unfold anno_token. destruct (anno_search w) as [[[tok x] u]|] eqn:E.
  - apply anno_search_Some in E. cbn [fst snd].
    assert (Hx : (x, default "" (dget x annotation_types)) ∈ anno_kinds).
    { destruct E as (p & q & (_ & Hx & _) & _). change (anno_kinds.*1) with ["n"%char; "a"%char; "r"%char; "p"%char] in Hx. elim_in Hx; cbn; unfold anno_kinds; repeat constructor. }
    exact (WN_anno ns i w (str tok) x _ u E Hx).
  - apply anno_search_None in E. by apply WN_plain.
Qed.
Lemma anno_token_layers ns w : (anno_token ns w).1 ≠ [].
Proof. unfold anno_token. by destruct (anno_search w) as [[[? ?] ?]|]. Qed.
Lemma read_loop connected ws : ∀ k g N E, built g N E → g_root g ∈ ids N → (∀ i, k ≤ i → NInt (Z.of_nat i) ∉ ids N) →
  ∃ g' infos, for_each (add_anno_token connected) (imap (λ i w, (k + i, w)) ws) g = (g', None) ∧
    Forall2 (λ p info, word_node (g_ns g) p.1 p.2 info) (imap (λ i w, (k + i, w)) ws) infos ∧
    built g' (N ++ infos) (E ++ if connected then (λ i, (g_root g, NInt (Z.of_nat i), [g_ns g; g_ns g +:+ ":token"], [])) <$> seq k (length ws) else []) ∧
    g_tokens g' = g_tokens g ++ ((λ i, NInt (Z.of_nat i)) <$> seq k (length ws)) ∧
    g_ns g' = g_ns g ∧ g_root g' = g_root g ∧ g_name g' = g_name g.
Proof.
  induction ws as [|w ws IH]; intros k g N E HB HR HF.
  - exists g, []. split; [done|]. split; [constructor|]. rewrite app_nil_r. split; [|by rewrite app_nil_r]. destruct connected; by rewrite app_nil_r.
  - cbn [imap for_each]. set (t := NInt (Z.of_nat k)).
    assert (Ht : t ∉ ids N) by (apply HF; lia).
    destruct (built_node g N E t (VSet (anno_token (g_ns g) w).1) (Some (anno_token (g_ns g) w).2) [] (anno_token (g_ns g) w).1 HB) as (g1 & E1 & HB1 & (Hn1 & Hns1 & Hr1 & Ht1 & _)).
    { left. split; [done|]. apply anno_token_layers. }
    rewrite note_new in HB1 by done. change (given_attrs (Some (anno_token (g_ns g) w).2) []) with (anno_token (g_ns g) w).2 in HB1.
    set (info := (t, (anno_token (g_ns g) w).1, (anno_token (g_ns g) w).2)) in *.
    assert (H2 : ∃ g2, (if connected then add_edge g1 (g_root g1) t (VSet [g_ns g1; g_ns g1 +:+ ":token"]) None None [] else (g1, None)) = (g2, None) ∧
      built g2 (N ++ [info]) (E ++ if connected then [(g_root g, t, [g_ns g; g_ns g +:+ ":token"], [])] else []) ∧ same_doc g1 g2).
    { destruct connected.
      - edestruct (built_edge_in g1 _ _ (g_root g1) t (VSet [g_ns g1; g_ns g1 +:+ ":token"]) None [] [g_ns g1; g_ns g1 +:+ ":token"] HB1) as (g2 & E2 & HB2 & HD).
        + rewrite Hr1, ids_app. apply elem_of_app. by left.
        + rewrite ids_app. apply elem_of_app. right. left.
        + left. split; [done|done].
        + exists g2. split; [done|]. rewrite Hr1, Hns1 in HB2. done.
      - exists g1. rewrite app_nil_r. done. }
    destruct H2 as (g2 & E2 & HB2 & (Hn2 & Hns2 & Hr2 & Ht2 & _)).
    assert (EA : add_anno_token connected g (k + 0, w) = (set_tokens (g_tokens g2 ++ [t]) g2, None)).
    { unfold add_anno_token. cbn [fst snd]. rewrite Nat.add_0_r. fold t. rewrite E1. rewrite E2. done. }
    rewrite EA.
    edestruct (IH (S k) (set_tokens (g_tokens g2 ++ [t]) g2)) as (g' & infos & E' & HI & HB' & HT & Hns' & Hr' & Hn').
    { apply built_tokens. exact HB2. }
    { rewrite ids_app. apply elem_of_app. left. cbn [g_root set_tokens]. by rewrite Hr2, Hr1. }
    { intros i Hi. rewrite ids_app. apply not_elem_of_app. split; [apply HF; lia|]. intros Hin%elem_of_list_singleton. cbn in Hin. injection Hin as Hin. lia. }
    cbn [g_tokens g_ns g_root g_name set_tokens] in *. rewrite Hns2, Hns1, ?Hr2, ?Hr1, ?Hn2, ?Hn1, ?Ht2, ?Ht1 in *.
    assert (EI : imap ((λ i w, (k + i, w)) ∘ S) ws = imap (λ i w, (S k + i, w)) ws).
    { apply imap_ext. intros i x _. cbn. f_equal. lia. }
    rewrite EI. exists g', (info :: infos). split; [done|]. split.
    { constructor; [|done]. cbn [fst snd]. rewrite Nat.add_0_r. apply anno_token_node. }
    split.
    { rewrite <-(assoc_L (++)) in HB'. cbn [app] in HB'. cbn [length seq]. destruct connected; [|rewrite !app_nil_r in HB'; rewrite app_nil_r; exact HB'].
      rewrite <-(assoc_L (++)) in HB'. exact HB'. }
    split_and!; [|done|done|done]. rewrite HT, <-(assoc_L (++)). done.
Qed.
Lemma not_root n s : NInt n ≠ NStr s.
Proof. done. Qed.
Lemma read_built name ns connected text ws : words_in text ws →
  ∃ g infos, read_anaphoricity name ns connected text = (g, None) ∧
    Forall2 (λ p info, word_node ns p.1 p.2 info) (imap pair ws) infos ∧
    built g (root_nodes ns ++ infos) (root_edges ns connected (length ws)) ∧
    g_tokens g = (λ i, NInt (Z.of_nat i)) <$> seq 0 (length ws) ∧ g_ns g = ns ∧ g_root g = NStr (ns +:+ ":root_node") ∧ g_name g = name.
Proof.
  intros HW. apply words_in_split in HW. unfold read_anaphoricity. set (root := NStr (ns +:+ ":root_node")).
  set (g0 := set_document name ns root (init_graph "" "anaphoricity" None)).
  assert (HB0 : built g0 [(NStr "anaphoricity:root_node", ["anaphoricity"], [])] []) by (eapply built_ext; [..|apply (built_init "" "anaphoricity")]; done).
  destruct (built_node g0 _ _ root (VSet [ns]) None [] [ns] HB0) as (g1 & E1 & HB1 & (Hn & Hns & Hr & Ht & _)).
  { left. done. }
  rewrite E1. set (R := note root [ns] (given_attrs None []) [(NStr "anaphoricity:root_node", ["anaphoricity"], [])]) in *.
  assert (HR : ids R = (root_nodes ns).*1.*1 ∧ Forall2 same_info R (root_nodes ns)).
  { unfold R, note, root_nodes, root. change (ids [(NStr "anaphoricity:root_node", ["anaphoricity"], [])]) with [NStr "anaphoricity:root_node"].
    destruct (decide (ns = "anaphoricity")) as [->|Hne].
    - rewrite decide_True by left. cbn [fmap list_fmap]. split; [by vm_compute|]. constructor; [|constructor]. rewrite decide_True by done. split; [done|]. cbn. split; [|done]. intros z. rewrite !elem_of_cons, elem_of_nil. tauto.
    - rewrite decide_False. { split; [done|]. constructor; [done|]. constructor; [|constructor]. done. }
      intros H%elem_of_list_singleton. injection H as H. apply Hne. apply (f_equal chs) in H. rewrite chs_app in H. change (chs "anaphoricity:root_node") with (chs "anaphoricity" ++ chs ":root_node") in H.
      apply app_inj_2 in H as [H _]; [|done]. by apply chs_inj. }
  destruct HR as [HR1 HR2].
  edestruct (read_loop connected ws 0 g1) as (g' & infos & E' & HI & HB' & HT & Hns' & Hr' & Hn'); [exact HB1| | |].
  { rewrite Hr. cbn. rewrite HR1. unfold root_nodes, root. rewrite !fmap_app. apply elem_of_app. right. left. }
  { intros i _ Hin. rewrite HR1 in Hin. unfold root_nodes in Hin. rewrite !fmap_app in Hin. apply elem_of_app in Hin as [Hin|Hin].
    - destruct (decide _); [by apply elem_of_nil in Hin|]. apply elem_of_list_singleton in Hin. done.
    - apply elem_of_list_singleton in Hin. done. }
  exists g', infos. rewrite line_words_split, HW. rewrite Hns, Hr, Hn in *. split; [exact E'|]. split; [exact HI|]. split; [eapply built_same; [exact HB'|]; apply Forall2_app; [done|by apply Forall_Forall2_diag, Forall_true]|].
  rewrite HT, Ht. done.
Qed.

(** ** Writing *)
Lemma lower_table c : lower_ascii c = to_lower c.
Proof. destruct c as [[] [] [] [] [] [] [] []]; vm_compute; reflexivity. Qed.
Lemma lower_cased a s : lower (chs s) = chs a ↔ cased a s.
Proof. unfold cased, lower. assert (E : lower_ascii <$> chs s = to_lower <$> chs s) by (apply list_fmap_ext; intros; apply lower_table). by rewrite E. Qed.
Lemma certainty_always g : certainty_str g = ["?"%char].
Proof.
  unfold certainty_str. destruct (decide _) as [H|H]; [|done]. exfalso. apply (f_equal chs) in H. rewrite chs_app in H.
  assert (HI : ":"%char ∈ chs "1.0") by (rewrite <-H; apply elem_of_app; right; left). apply elem_of_list_In in HI. vm_compute in HI. naive_solver.
Qed.
Lemma kinds_letter x ty : (x, ty) ∈ anno_kinds → dget ty annotations = Some x.
Proof. unfold anno_kinds. intros H. repeat (apply elem_of_cons in H as [[= -> ->]|H]; [vm_compute; reflexivity|]). by apply elem_of_nil in H. Qed.
Lemma gen_ok g a ss os : GInv g → a ∈ ["das"; "es"] → text_tokens g ss →
  (∀ n b, node_attrs g n = Some b → has_layer b (g_ns g +:+ ":annotated") → ∃ s, token_is g n s) →
  Forall2 (λ p o, token_written g a p.1 p.2 o) (zip (g_tokens g) ss) os →
  gen_anaphoricity_str g a = Ok (spaced os).
Proof.
  intros [C L] Ha HT HA HW. unfold gen_anaphoricity_str. rewrite decide_True by done.
  destruct (nodes_by_layer_ok g (LOne (g_ns g +:+ ":annotated")) C L) as (r & -> & _ & Hr). cbn [rbind].
  rewrite rfilter_total; cycle 1.
  { apply Forall_forall. intros n (b & Hb & Hl)%Hr. destruct (HA n b Hb Hl) as [s Hs%token_str_is]. rewrite Hs. cbn. eauto. }
  cbn [rbind]. apply rconcat_Ok. exists ((λ w, w ++ [" "%char]) <$> os). split; [|done].
  set (P := filter _ r). assert (HP : ∀ t s b, token_is g t s → node_attrs g t = Some b → t ∈ P ↔ has_layer b (g_ns g +:+ ":annotated") ∧ cased a s).
  { intros t s b Hs%token_str_is Hb. unfold P. rewrite elem_of_list_filter, Hr, Hs. cbn [rbind]. rewrite <-lower_cased. cbn [layer_ok]. split.
    - intros [[= H%bool_decide_eq_true] (b' & Hb' & Hl)]. assert (b' = b) as -> by congruence. done.
    - intros [Hl H]. split; [f_equal; by apply bool_decide_eq_true|]. eauto. }
  clearbody P. clear Hr HA. unfold text_tokens in HT. revert os HW. generalize (g_tokens g) as ts, ss, HT. clear HT ss. induction 1 as [|t s ts ss Hts HT IH]; intros os HW.
  - inversion HW. constructor.
  - cbn [zip_with] in HW. inversion HW as [|? o ? os' Ho HW']; subst. rewrite fmap_cons. constructor; [|by apply IH]. cbn [fst snd] in Ho.
    unfold anno_word. pose proof Hts as Es%token_str_is. rewrite Es. cbn [rbind]. inversion Ho as [b x ty Hb Hl Hc Hty Hx|b Hb Hn]; subst.
    + rewrite decide_True by (by apply (HP t s b)). rewrite Hb. cbn [of_option rbind]. rewrite Hty. cbn [of_option rbind]. rewrite (kinds_letter _ _ Hx). cbn [of_option rbind].
      rewrite certainty_always. f_equal. by rewrite <-(assoc_L (++)).
    + rewrite decide_False by (intros H; apply Hn; by apply (HP t s b)). done.
Qed.
Lemma key_ne ns k k' : k ≠ k' → ns +:+ k ≠ ns +:+ k'.
Proof. intros H E. apply H, chs_inj. apply (f_equal chs) in E. rewrite !chs_app in E. by apply app_inj_1 in E as [_ ?]. Qed.
Lemma key_layers ns k : ns +:+ String ":" k ≠ "layers".
Proof.
  intros H. apply (f_equal chs) in H. rewrite chs_app in H. assert (HI : ":"%char ∈ chs "layers") by (rewrite <-H; apply elem_of_app; right; left).
  apply elem_of_list_In in HI. vm_compute in HI. naive_solver.
Qed.
Lemma word_node_token g ns i w info N E : g_ns g = ns → built g N E → word_node ns i w info → info ∈ N →
  ∃ s b, token_is g (NInt (Z.of_nat i)) s ∧ node_attrs g (NInt (Z.of_nat i)) = Some b ∧ ∀ a o, written a w o → token_written g a (NInt (Z.of_nat i)) s o.
Proof.
  intros Hns HB HW Hin. inversion HW as [Hu|tok x ty u Han Hx]; subst info.
  - destruct (built_node_attrs _ _ _ _ _ _ HB Hin) as (b & Hb & Hl & Hk). exists (str w), b. subst ns. split; [|split; [done|]].
    + exists b. split; [done|]. rewrite Hk by apply key_layers. cbn. by rewrite decide_True.
    + intros a o Ho. inversion Ho as [Hu'|tok x u Han|tok x u Han]; subst; [|by apply annotated_not in Han..].
      replace o with (chs (str o)) at 2 by apply chs_str. apply (TW_plain _ _ _ _ b); [done|]. intros [HL _]. apply Hl in HL.
      apply elem_of_cons in HL as [HL|HL%elem_of_list_singleton].
      * apply (f_equal (λ z, length (chs z))) in HL. rewrite chs_app, app_length in HL. change (length (chs ":annotated")) with 10 in HL. lia.
      * apply key_ne in HL; done.
  - destruct (built_node_attrs _ _ _ _ _ _ HB Hin) as (b & Hb & Hl & Hk). exists tok, b. subst ns. split; [|split; [done|]].
    + exists b. split; [done|]. rewrite Hk by apply key_layers. cbn [dget]. rewrite !decide_False by (apply key_ne; done). by rewrite decide_True.
    + intros a o Ho. inversion Ho as [Hu'|tok' x' u' Han' Hc|tok' x' u' Han' Hc]; subst; [by apply annotated_not in Han| |].
      * destruct (annotated_unique _ _ _ _ _ _ _ Han Han') as (-> & -> & _). apply (TW_anno _ _ _ _ b x' ty); [done| |done| |done].
        -- apply Hl. right. right. left.
        -- rewrite Hk by apply key_layers. cbn [dget]. by rewrite decide_True.
      * destruct (annotated_unique _ _ _ _ _ _ _ Han Han') as (-> & _ & _). apply (TW_plain _ _ _ _ b); [done|]. by intros [_ ?].
Qed.
Lemma words_are text ws : words_in text ws → Forall is_word ws.
Proof. induction 1; [apply List.Forall_nil|done|by apply List.Forall_cons|by apply List.Forall_cons]. Qed.
Lemma read_text name ns connected text ws g : words_in text ws → read_anaphoricity name ns connected text = (g, None) →
  GInv g ∧ ∃ ss, text_tokens g ss ∧ length ss = length ws ∧
    (∀ n b, node_attrs g n = Some b → has_layer b (g_ns g +:+ ":annotated") → ∃ s, token_is g n s) ∧
    ∀ a os, Forall2 (written a) ws os → Forall2 (λ p o, token_written g a p.1 p.2 o) (zip (g_tokens g) ss) os.
Proof.
  intros HW E. destruct (read_built name ns connected text ws HW) as (g' & infos & E' & HI & HB & HT & Hns & Hr & _). rewrite E in E'. injection E' as <-.
  split; [apply HB|]. assert (HS : ∃ ss, length ss = length ws ∧ ∀ i w s, ws !! i = Some w → ss !! i = Some s → token_is g (NInt (Z.of_nat i)) s ∧
    ∀ a o, written a w o → token_written g a (NInt (Z.of_nat i)) s o).
  { assert (HE : ∀ i w, ws !! i = Some w → ∃ s, token_is g (NInt (Z.of_nat i)) s ∧ ∀ a o, written a w o → token_written g a (NInt (Z.of_nat i)) s o).
    { intros i w Hw. assert (Hp : imap pair ws !! i = Some (i, w)) by (rewrite list_lookup_imap, Hw; done).
      destruct (Forall2_lookup_l _ _ _ _ _ HI Hp) as (info & Hinfo & Hnode). cbn [fst snd] in Hnode.
      destruct (word_node_token g ns i w info _ _ Hns HB Hnode) as (s & b & H1 & _ & H2); [|eauto]. apply elem_of_app. right. by eapply elem_of_list_lookup_2. }
    clear -HE. assert (HL : ∀ k, k ≤ length ws → ∃ ss, length ss = k ∧ ∀ i w s, ws !! i = Some w → ss !! i = Some s → token_is g (NInt (Z.of_nat i)) s ∧
      ∀ a o, written a w o → token_written g a (NInt (Z.of_nat i)) s o).
    { induction k as [|k IH]; intros Hk; [by exists []|]. destruct IH as (ss & Hl & H); [lia|]. destruct (lookup_lt_is_Some_2 ws k) as [w Hw]; [lia|].
      destruct (HE k w Hw) as (s & Hs). exists (ss ++ [s]). split; [rewrite app_length; cbn; lia|]. intros i w' s' Hw' Hs'.
      apply lookup_app_Some in Hs' as [Hs'|[Hi Hs']]; [by apply (H i)|]. assert (i = k). { apply lookup_lt_Some in Hs'. cbn in Hs'. lia. } subst i.
      rewrite Hl, Nat.sub_diag in Hs'. injection Hs' as <-. assert (w' = w) as -> by congruence. exact Hs. }
    by apply HL. }
  destruct HS as (ss & HL & HS). exists ss. split; [|split; [done|split]].
  - unfold text_tokens. rewrite HT. apply Forall2_fmap_l. apply Forall2_same_length_lookup. split; [by rewrite seq_length|].
    intros i j s Hj Hs. apply lookup_seq in Hj as [-> Hi]. cbn. destruct (lookup_lt_is_Some_2 ws i Hi) as [w Hw]. by apply (HS i w s).
  - intros n b Hb HA. assert (Hin : n ∈ nodes g) by (apply node_mem; by exists b). destruct (b_nodes _ _ _ HB) as [HN _]. rewrite HN in Hin. rewrite fmap_app in Hin. apply elem_of_app in Hin as [Hin|Hin].
    + exfalso. assert (HR : ∃ l, (n, l, []) ∈ root_nodes ns ∧ ∀ z, z ∈ l → ":"%char ∈ chs z → l = [ns] ∧ z = ns ∧ n = NStr (ns +:+ ":root_node")).
      { unfold root_nodes in Hin |- *. destruct (decide _) as [->|Hne].
        - apply elem_of_list_singleton in Hin. cbn in Hin. exists ["anaphoricity"]. split; [rewrite Hin; left|]. intros z ->%elem_of_list_singleton. done.
        - apply elem_of_cons in Hin as [Hin|Hin%elem_of_list_singleton].
          + exists ["anaphoricity"]. cbn in Hin. split; [rewrite Hin; left|]. intros z ->%elem_of_list_singleton HI2. exfalso. apply elem_of_list_In in HI2. vm_compute in HI2. naive_solver.
          + cbn in Hin. exists [ns]. split; [rewrite Hin; right; left|]. intros z ->%elem_of_list_singleton. done. }
      destruct HR as (l & Hl & Hz). destruct (built_node_attrs g _ _ n l [] HB) as (b' & Hb' & HL' & _); [apply elem_of_app; by left|]. assert (b' = b) as -> by congruence.
      apply HL' in HA. apply Hz in HA as (_ & HA & _); [|rewrite chs_app; apply elem_of_app; right; left]. rewrite Hns in HA.
      apply (f_equal (λ z, length (chs z))) in HA. rewrite chs_app, app_length in HA. change (length (chs ":annotated")) with 10 in HA. lia.
    + apply elem_of_list_fmap in Hin as (info & -> & Hinfo). apply elem_of_list_lookup in Hinfo as [i Hi].
      destruct (Forall2_lookup_r _ _ _ _ _ HI Hi) as ([j w] & Hp & Hnode). cbn [fst snd] in Hnode.
      destruct (word_node_token g ns j w info _ _ Hns HB Hnode) as (s & _ & H & _); [apply elem_of_app; right; by eapply elem_of_list_lookup_2|].
      exists s. inversion Hnode; subst; done.
  - intros a os HF. rewrite HT. apply Forall2_same_length_lookup. split.
    { rewrite zip_with_length, fmap_length, seq_length. apply Forall2_length in HF. lia. }
    intros i [t s] o Hp Ho. apply lookup_zip_with_Some in Hp as (t' & s' & [= <- <-] & Ht & Hs). apply list_lookup_fmap_inv in Ht as (j & -> & Hj). apply lookup_seq in Hj as [-> _].
    destruct (Forall2_lookup_r _ _ _ _ _ HF Ho) as (w & Hw & HWr). cbn. by apply (HS i w s).
Qed.
Lemma read_write name ns connected text ws os a g : a ∈ ["das"; "es"] → words_in text ws → Forall2 (written a) ws os →
  read_anaphoricity name ns connected text = (g, None) → gen_anaphoricity_str g a = Ok (spaced os).
Proof.
  intros Ha HW HO E. destruct (read_text _ _ _ _ _ _ HW E) as (HI & ss & HT & _ & HA & HS). by eapply gen_ok; [..|apply HS].
Qed.
Lemma anaphor_word tok : tok ∈ anaphors → is_word (chs tok).
Proof. unfold anaphors. intros H. elim_in H; (split; [done|]); repeat constructor. Qed.
Lemma written_word a w o : is_word w → written a w o → is_word o.
Proof.
  intros [Hne Hw] Ho. inversion Ho as [Hu|tok x u Han Hc|tok x u Han Hc]; subst.
  - done.
  - destruct Han as (p & q & (Ht & Hx & ->) & _). apply anaphor_word in Ht as [Hn Ht]. split; [by destruct (chs tok)|]. apply Forall_app. split; [done|].
    rewrite !Forall_app in Hw. destruct Hw as (_ & _ & Hw). apply Forall_cons in Hw as [H1 [H2 _]%Forall_cons]. by repeat constructor.
  - destruct Han as (p & q & (Ht & Hx & ->) & _). by apply anaphor_word.
Qed.
Lemma spaced_words ws : Forall is_word ws → words_in (spaced ws) ws.
Proof.
  induction 1 as [|w ws Hw HF IH]; [constructor|]. unfold spaced. rewrite fmap_cons. cbn [concat]. rewrite <-(assoc_L (++)). cbn [app]. by apply WI_word.
Qed.
Lemma annotated_plain tok x q : tok ∈ anaphors → x ∈ anno_kinds.*1 → annotated (chs tok ++ "/"%char :: x :: q) tok x (head q = Some "?"%char).
Proof. intros Ht Hx. exists [], q. split; [by split_and!|]. split; [intros; cbn; lia|done]. Qed.
Lemma no_slash_unannotated w : "/"%char ∉ w → unannotated w.
Proof. intros H p tok x q (_ & _ & ->). apply H. rewrite !elem_of_app. right. right. left. Qed.
Lemma anaphor_unannotated tok : tok ∈ anaphors → unannotated (chs tok).
Proof.
  unfold anaphors. intros H. apply no_slash_unannotated. elim_in H; intros HI; apply elem_of_list_In in HI; vm_compute in HI; naive_solver.
Qed.
Lemma written_total a w : ∃ o, written a w o.
Proof.
  destruct (anno_search w) as [[[tok x] u]|] eqn:E.
  - apply anno_search_Some in E. destruct (decide (to_lower <$> chs (str tok) = chs a)); eexists; [by eapply WR_anno|by eapply WR_other].
  - apply anno_search_None in E. eexists. by apply WR_plain.
Qed.
