(** * DecourFacts: proofs about DeCour documents (C44) *)
From Verif Require Import PyBase DocGraph SpecGraph DocGraphFacts History Effects RelabelFacts MergeFacts AllHist MergeAll GraphThms Relabel StrNum Query Text Rst Nltk Parsers SpecQuery SpecRst SpecParse OffsetFacts SpanFacts NatSort SelectFacts DisText TextFacts SpecImport ImportFacts Anaphora SpecAnaphora AnaphoraFacts SpecOutline OutlineFacts OutlineSpan Conano SpecConano ConanoFacts Decour SpecDecour.

Definition decour_errors : list exc := [KeyError; AttributeError; ValueError; IndexError].
Lemma x_words_spoken x ws : x_words x = Ok ws ↔ spoken x ws.
Proof.
  unfold x_words, spoken. destruct (x_text x) as [t|]; cbn; [|split; [done|by intros (? & [=] & _)]]. split.
  - intros [= <-]. exists t. split; [done|apply split_words_in].
  - intros (t' & [= <-] & HW). by rewrite (words_in_split _ _ HW).
Qed.
Lemma x_words_err x e : x_words x = Err e → e = AttributeError.
Proof. unfold x_words. destruct (x_text x); cbn; congruence. Qed.

Section read.
  Context (name ns : string).
  Let st := decour_style ns.
  Let root := decour_root ns.
  Let base := decour_base ns.
  Notation imp := (importing name st base ns root).
  Notation count wk := (1 + wcount wk)%Z.
  (** a step adds [l] *)
  Definition adds (r : dstate * option exc) (wk l : walked) (act : Z) : Prop := ∃ g, r = ((g, count (wk ++ l), act), None) ∧ imp (wk ++ l) g.
  Definition raises (r : dstate * option exc) : Prop := ∃ s e, r = (s, Some e) ∧ e ∈ decour_errors.
  Lemma dominance_ok wk g act u i parent rest : imp wk g → present st base wk parent → match u with inl s => NStr s | inr n => n end = parent →
    adds (decour_dominance u (inl i) (g, count wk, act)) wk [(parent :: rest, PNode i (unit_layers ns))] act ∧ present st base (wk ++ [(parent :: rest, PNode i (unit_layers ns))]) (NStr i).
  Proof.
    intros HI HP Hu. destruct (importing_node name st base ns root wk g i (unit_layers ns) parent rest HI HP) as (g1 & g2 & E1 & Hn1 & E2 & HI2 & HP2); [done|done|].
    split; [|done]. exists g2. split; [|done]. unfold decour_dominance. cbn [fst snd]. rewrite (ig_ns _ _ _ _ _ _ _ HI). change [ns; ns +:+ ":unit"] with (unit_layers ns). rewrite E1, Hn1, Hu.
    change (s_node_edge st) with [ns; ns +:+ ":discourse"] in E2. rewrite E2. unfold on_graph. cbn. rewrite wcount_app, wcount_node. do 3 f_equal. unfold wcount. cbn. lia.
  Qed.
  Lemma dtoken_ok wk g act parent rest extra w : imp wk g → present st base wk (NStr parent) →
    adds (decour_token parent extra w (g, count wk, act)) wk [(NStr parent :: rest, PWord (str w) extra)] act.
  Proof.
    intros HI HP. destruct (importing_word name st base ns root wk g (str w) extra (dupdate extra [(ns +:+ ":token", VStr (str w))]) (NStr parent) rest HI HP) as (g1 & E1 & Hn & Hr1 & Ht1 & HT); [done|done|].
    change (s_prefix st) with "token_" in *. unfold adds, decour_token. rewrite (ig_ns _ _ _ _ _ _ _ HI). rewrite E1, Ht1.
    destruct (HT (g_tokens g ++ [NStr ("token_" +:+ str_Z (count wk))])) as (g2 & E2 & Ht2 & Em2 & En2 & Er2 & Hdone).
    change (g_ns (set_tokens ?t g1)) with (g_ns g1). rewrite Hn. change [ns; ns +:+ ":unit"] with (s_word_edge st). rewrite E2. exists g2. split.
    - rewrite wcount_app, wcount_word. do 3 f_equal. unfold wcount. cbn. lia.
    - by apply Hdone.
  Qed.
  Lemma dspan_loop ws : ∀ wk g act parent rest, imp wk g → present st base wk (NStr parent) →
    adds (loop (decour_token parent []) ws (g, count wk, act)) wk (word_parts (NStr parent :: rest) ws) act.
  Proof.
    induction ws as [|w ws IH]; intros wk g act parent rest HI HP; cbn [loop].
    - exists g. unfold word_parts. cbn. by rewrite app_nil_r.
    - destruct (dtoken_ok wk g act parent rest [] w HI HP) as (g1 & -> & HI1). destruct (IH _ g1 act parent rest HI1) as (g2 & -> & HI2); [by apply present_app|].
      exists g2. rewrite <-app_assoc in *. done.
  Qed.
  (** the node of a span element, then its words *)
  Lemma span_ok x ws i wk g act parent rest : spoken x ws → imp wk g → present st base wk (NStr i) →
    i = (if decide (x_tag x = "act") then "act_" +:+ str_Z act else x_tag x) →
    adds (decour_span x (g, count wk, act)) wk (word_parts (NStr i :: parent :: rest) ws) (if decide (x_tag x = "act") then (act + 1)%Z else act).
  Proof.
    intros HW HI HP Hi. unfold decour_span. apply x_words_spoken in HW as ->. cbn [snd]. rewrite <-Hi.
    destruct (dspan_loop ws wk g act i (parent :: rest) HI HP) as (g1 & -> & HI1). exists g1. split; [|done]. cbn [fst]. by destruct (decide _).
  Qed.
  Lemma span_err x s : (∀ ws, ¬ spoken x ws) → raises (decour_span x s).
  Proof.
    intros H. unfold decour_span. destruct (x_words x) as [ws|e] eqn:E; [by apply x_words_spoken, H in E|]. apply x_words_err in E as ->. eexists _, _. split; [done|]. right. left.
  Qed.
  Lemma spoken_dec x : (∃ ws, spoken x ws) ∨ ∀ ws, ¬ spoken x ws.
  Proof. destruct (x_words x) as [ws|e] eqn:E; [left; exists ws; by apply x_words_spoken|right; intros ws H%x_words_spoken; congruence]. Qed.
  Lemma walk_node path i layers its : walk_all path [INode i layers its] = (path, PNode i layers) :: walk_all (NStr i :: path) its.
  Proof. unfold walk_all. cbn [map concat walk]. by rewrite app_nil_r. Qed.
  Lemma walk_cons path it its : walk_all path (it :: its) = walk_all path [it] ++ walk_all path its.
  Proof. by rewrite <-walk_all_app. Qed.
  (** utterances *)
  Lemma dword_loop ws : ∀ k all_n all_l all_p n l p its wk g act u rest, drop k all_n = n → drop k all_l = l → drop k all_p = p → tagged_words ns ws n l p its → imp wk g → present st base wk (NStr u) →
    adds (loop (decour_word ns all_n all_l all_p u) (imap (λ i w, (k + i, w)) ws) (g, count wk, act)) wk (walk_all (NStr u :: rest) its) act.
  Proof.
    induction ws as [|w ws IH]; intros k all_n all_l all_p n l p its wk g act u rest Hn Hl Hp HT HI HP.
    - inversion HT; subst. exists g. cbn. by rewrite app_nil_r.
    - inversion HT as [|? ? a n' b l' c p' its' HT']; subst. cbn [imap loop]. rewrite Nat.add_0_r. unfold decour_word at 1. cbn [fst snd].
      assert (HX : ∀ (al r : list chars) x, x :: r = drop k al → al !! k = Some x ∧ drop (S k) al = r).
      { intros al r x E. split; [rewrite <-(Nat.add_0_r k), <-lookup_drop, <-E; done|]. replace (S k) with (k + 1) by lia. rewrite <-drop_drop, <-E. done. }
      destruct (HX all_n n' a) as [-> Hn']; [done|]. destruct (HX all_l l' b) as [-> Hl']; [done|]. destruct (HX all_p p' c) as [-> Hp']; [done|].
      destruct (dtoken_ok wk g act u rest [(ns +:+ ":norm", VStr (str a)); (ns +:+ ":lemma", VStr (str b)); (ns +:+ ":pos", VStr (str c))] w HI HP) as (g1 & -> & HI1).
      assert (EI : imap ((λ i w, (k + i, w)) ∘ S) ws = imap (λ i w, (S k + i, w)) ws) by (apply imap_ext; intros i x _; cbn; f_equal; lia).
      rewrite EI. destruct (IH (S k) all_n all_l all_p n' l' p' its' _ g1 act u rest Hn' Hl' Hp' HT' HI1) as (g2 & -> & HI2); [by apply present_app|].
      exists g2. rewrite <-app_assoc in *. rewrite walk_cons. done.
  Qed.
  Lemma dword_err ws : ∀ k all_n all_l all_p n l p wk g act u (rest : list nid), drop k all_n = n → drop k all_l = l → drop k all_p = p → (∀ its, ¬ tagged_words ns ws n l p its) → imp wk g → present st base wk (NStr u) →
    raises (loop (decour_word ns all_n all_l all_p u) (imap (λ i w, (k + i, w)) ws) (g, count wk, act)).
  Proof.
    induction ws as [|w ws IH]; intros k all_n all_l all_p n l p wk g act u rest Hn Hl Hp HT HI HP; [exfalso; eapply HT; constructor|].
    cbn [imap loop]. rewrite Nat.add_0_r. unfold decour_word at 1. cbn [fst snd].
    assert (HX : ∀ (al : list chars), al !! k = None ∨ ∃ x r, al !! k = Some x ∧ drop k al = x :: r ∧ drop (S k) al = r).
    { intros al. destruct (al !! k) as [x|] eqn:E; [right|by left]. exists x, (drop (S k) al). split; [done|]. split; [by apply drop_S|done]. }
    assert (HE : raises ((g, count wk, act), Some IndexError)) by (eexists _, _; split; [done|]; right; right; right; left).
    destruct (HX all_n) as [-> |(a & n' & -> & Ea & Ea')]; [exact HE|]. destruct (HX all_l) as [-> |(b & l' & -> & Eb & Eb')]; [exact HE|]. destruct (HX all_p) as [-> |(c & p' & -> & Ec & Ec')]; [exact HE|].
    destruct (dtoken_ok wk g act u rest [(ns +:+ ":norm", VStr (str a)); (ns +:+ ":lemma", VStr (str b)); (ns +:+ ":pos", VStr (str c))] w HI HP) as (g1 & -> & HI1).
    assert (EI : imap ((λ i w, (k + i, w)) ∘ S) ws = imap (λ i w, (S k + i, w)) ws) by (apply imap_ext; intros i x _; cbn; f_equal; lia).
    rewrite EI. apply (IH (S k) all_n all_l all_p n' l' p' _ g1 act u rest Ea' Eb' Ec'); [|done|by apply present_app].
    intros its H. subst n l p. rewrite Ea, Eb, Ec in HT. eapply HT. by constructor.
  Qed.
  Lemma turn_utterance_ok x it wk g act turn rest : utterance_content ns x it → imp wk g → present st base wk (NStr turn) →
    adds (decour_turn_utterance turn x (g, count wk, act)) wk (walk_all (NStr turn :: rest) [it]) act.
  Proof.
    intros HC HI HP. inversion HC as [? nr n l p ws norm lemma pos its H1 H2 H3 H4 H5 H6 HT]; subst. unfold decour_turn_utterance, x_get. rewrite H1. cbn [of_option].
    destruct (dominance_ok wk g act (inl turn) ("utterance_" +:+ nr) (NStr turn) rest HI HP eq_refl) as [(g1 & -> & HI1) HP1].
    unfold decour_utterance, x_get. rewrite H1, H2. cbn [of_option rbind rmap]. apply x_words_spoken in H3, H4, H5, H6. rewrite H3, H4, H5, H6. cbn [rbind rmap]. cbn [fst]. rewrite (ig_ns _ _ _ _ _ _ _ HI1).
    change (imap pair ws) with (imap (λ i w, (0 + i, w)) ws).
    destruct (dword_loop ws 0 norm lemma pos norm lemma pos its _ g1 act ("utterance_" +:+ nr) (NStr turn :: rest) eq_refl eq_refl eq_refl HT HI1 HP1) as (g2 & -> & HI2).
    exists g2. rewrite walk_node. rewrite <-app_assoc in *. done.
  Qed.
  Lemma turn_utterance_err x wk g act turn : (∀ it, ¬ utterance_content ns x it) → imp wk g → present st base wk (NStr turn) →
    raises (decour_turn_utterance turn x (g, count wk, act)).
  Proof.
    intros HC HI HP. unfold decour_turn_utterance, x_get. destruct (dget "nrgen" (x_attrib x)) as [nr|] eqn:H1; cbn [of_option]; [|eexists _, _; split; [done|left]].
    destruct (dominance_ok wk g act (inl turn) ("utterance_" +:+ nr) (NStr turn) [] HI HP eq_refl) as [(g1 & -> & HI1) HP1].
    unfold decour_utterance, x_get. rewrite H1. cbn [of_option rbind]. destruct (rmap x_words (x_kids x)) as [ls|e] eqn:E; cbn [rbind]; cycle 1.
    { assert (e = AttributeError) as ->; [|eexists _, _; split; [done|]; right; left]. clear -E. revert e E. induction (x_kids x) as [|k ks IH]; intros e; cbn; [done|]. destruct (x_words k) eqn:Ek; cbn; [|intros [= <-]; by eapply x_words_err]. destruct (rmap x_words ks); cbn; [done|]. intros [= <-]. by apply IH. }
    destruct (x_kids x) as [|n [|l [|p [|q ks]]]] eqn:EK; cbn in E.
    - injection E as <-. eexists _, _. split; [done|]. right. right. left.
    - destruct (x_words n); [|done]. injection E as <-. eexists _, _. split; [done|]. right. right. left.
    - destruct (x_words n); [|done]. cbn in E. destruct (x_words l); [|done]. injection E as <-. eexists _, _. split; [done|]. right. right. left.
    - destruct (x_words n) as [norm|] eqn:En; [|done]. cbn in E. destruct (x_words l) as [lemma|] eqn:El; [|done]. cbn in E. destruct (x_words p) as [pos|] eqn:Ep; [|done]. injection E as <-.
      destruct (x_words x) as [ws|e] eqn:Ew; cbn [rbind]; [|apply x_words_err in Ew as ->; eexists _, _; split; [done|]; right; left].
      cbn [fst]. rewrite (ig_ns _ _ _ _ _ _ _ HI1). change (imap pair ws) with (imap (λ i w, (0 + i, w)) ws).
      apply (dword_err ws 0 norm lemma pos norm lemma pos _ g1 act ("utterance_" +:+ nr) [] eq_refl eq_refl eq_refl); [|done|done].
      intros its HT. eapply HC. econstructor; [exact H1|exact EK|by apply x_words_spoken..|exact HT].
    - destruct (x_words n); [|done]. cbn in E. destruct (x_words l); [|done]. cbn in E. destruct (x_words p); [|done]. cbn in E. destruct (x_words q); [|done]. cbn in E. destruct (rmap x_words ks); [|done]. injection E as <-. eexists _, _. split; [done|]. right. right. left.
  Qed.
  Lemma tagged_dec ws : ∀ n l p, (∃ its, tagged_words ns ws n l p its) ∨ ∀ its, ¬ tagged_words ns ws n l p its.
  Proof.
    induction ws as [|w ws IH]; intros n l p; [left; eexists; constructor|]. destruct n as [|a n], l as [|b l], p as [|c p]; try (right; intros its H; by inversion H).
    destruct (IH n l p) as [[its H]|H]; [left; eexists; by constructor|right; intros its H'; inversion H'; subst; by eapply H].
  Qed.
  Lemma utterance_dec x : (∃ it, utterance_content ns x it) ∨ ∀ it, ¬ utterance_content ns x it.
  Proof.
    destruct (dget "nrgen" (x_attrib x)) as [nr|] eqn:H1; [|right; intros it H; inversion H; congruence].
    destruct (x_kids x) as [|n [|l [|p [|q ks]]]] eqn:EK; try (right; intros it H; inversion H; congruence).
    destruct (x_words x) as [ws|e] eqn:Ex; [|right; intros it H; inversion H; subst; repeat match goal with K : spoken _ _ |- _ => apply x_words_spoken in K end; congruence].
    destruct (x_words n) as [norm|e] eqn:En; [|right; intros it H; inversion H; subst; repeat match goal with K : spoken _ _ |- _ => apply x_words_spoken in K end; congruence].
    destruct (x_words l) as [lemma|e] eqn:El; [|right; intros it H; inversion H; subst; repeat match goal with K : spoken _ _ |- _ => apply x_words_spoken in K end; congruence].
    destruct (x_words p) as [pos|e] eqn:Ep; [|right; intros it H; inversion H; subst; repeat match goal with K : spoken _ _ |- _ => apply x_words_spoken in K end; congruence].
    destruct (tagged_dec ws norm lemma pos) as [[its HT]|HT].
    - left. eexists. econstructor; [exact H1|exact EK|by apply x_words_spoken..|exact HT].
    - right. intros it H. inversion H as [? nr' n' l' p' ws' norm' lemma' pos' its' H1' H2 H3 H4 H5 H6 HT']; subst. rewrite EK in H2. injection H2 as <- <- <-. apply x_words_spoken in H3, H4, H5, H6.
      assert (ws' = ws) as -> by congruence. assert (norm' = norm) as -> by congruence. assert (lemma' = lemma) as -> by congruence. assert (pos' = pos) as -> by congruence. by eapply HT.
  Qed.
  Lemma utterances_ok xs : ∀ its wk g act turn rest, Forall2 (utterance_content ns) xs its → imp wk g → present st base wk (NStr turn) →
    adds (loop (decour_turn_utterance turn) xs (g, count wk, act)) wk (walk_all (NStr turn :: rest) its) act.
  Proof.
    induction xs as [|x xs IH]; intros its wk g act turn rest HF HI HP; inversion HF as [|? it ? its' Hx HF']; subst; cbn [loop].
    - exists g. cbn. by rewrite app_nil_r.
    - destruct (turn_utterance_ok x it wk g act turn rest Hx HI HP) as (g1 & -> & HI1). destruct (IH its' _ g1 act turn rest HF' HI1) as (g2 & -> & HI2); [by apply present_app|].
      exists g2. rewrite (walk_cons _ it its'). rewrite <-app_assoc in *. done.
  Qed.
  Lemma utterances_err xs : ∀ wk g act turn, (∀ its, ¬ Forall2 (utterance_content ns) xs its) → imp wk g → present st base wk (NStr turn) →
    raises (loop (decour_turn_utterance turn) xs (g, count wk, act)).
  Proof.
    induction xs as [|x xs IH]; intros wk g act turn HF HI HP; [exfalso; eapply HF; constructor|]. cbn [loop].
    destruct (utterance_dec x) as [[it Hx]|Hx].
    - destruct (turn_utterance_ok x it wk g act turn [] Hx HI HP) as (g1 & -> & HI1). apply IH; [|done|by apply present_app]. intros its H. eapply HF. by constructor.
    - destruct (turn_utterance_err x wk g act turn Hx HI HP) as (s & e & -> & He). by exists s, e.
  Qed.
  (** turns *)
  Lemma find_children tag x : x_find tag x = head (children tag x).
  Proof. done. Qed.
  Lemma child_tag tag x c more : children tag x = c :: more → x_tag c = tag.
  Proof. intros E. assert (H : c ∈ children tag x) by (rewrite E; left). unfold children in H. by apply elem_of_list_filter in H as [H _]. Qed.
  Lemma root_present wk : present st base wk root.
  Proof. left. unfold base, decour_base, ids. rewrite fmap_app. apply elem_of_app. right. left. Qed.
  Definition act_of (turn : string) (x : xml) (s : dstate) : dstate * option exc :=
    match x_find "act" x with
    | None => (s, None)
    | Some act => match decour_dominance (inl turn) (inl ("act_" +:+ str_Z s.2)) s with
                 | (s, Some e) => (s, Some e)
                 | (s, None) => decour_span act s
                 end
    end.
  Lemma act_ok x wk g act act' its turn rest : turn_act ns act x act' its → imp wk g → present st base wk (NStr turn) →
    adds (act_of turn x (g, count wk, act)) wk (walk_all (NStr turn :: rest) its) act'.
  Proof.
    intros HC HI HP. unfold act_of. rewrite find_children. destruct HC as [E|a more ws E HW]; rewrite E; cbn [head].
    - exists g. cbn. by rewrite app_nil_r.
    - cbn [snd]. destruct (dominance_ok wk g act (inl turn) ("act_" +:+ str_Z act) (NStr turn) rest HI HP eq_refl) as [(g1 & -> & HI1) HP1].
      assert (Ht : x_tag a = "act") by (by eapply child_tag).
      destruct (span_ok a ws ("act_" +:+ str_Z act) _ g1 act (NStr turn) rest HW HI1 HP1) as (g2 & E2 & HI2); [by rewrite decide_True|]. rewrite decide_True in E2 by done. rewrite E2.
      exists g2. rewrite walk_node, walk_words. rewrite <-app_assoc in *. done.
  Qed.
  Lemma act_err x wk g act turn : (∀ act' its, ¬ turn_act ns act x act' its) → imp wk g → present st base wk (NStr turn) → raises (act_of turn x (g, count wk, act)).
  Proof.
    intros HC HI HP. unfold act_of. rewrite find_children. destruct (children "act" x) as [|a more] eqn:E; cbn [head]; [exfalso; by eapply HC, TA_none|].
    cbn [snd]. destruct (dominance_ok wk g act (inl turn) ("act_" +:+ str_Z act) (NStr turn) [] HI HP eq_refl) as [(g1 & -> & HI1) HP1].
    apply span_err. intros ws HW. eapply HC. by eapply TA_first.
  Qed.
  Lemma act_dec x act : (∃ act' its, turn_act ns act x act' its) ∨ ∀ act' its, ¬ turn_act ns act x act' its.
  Proof.
    destruct (children "act" x) as [|a more] eqn:E; [left; by eexists _, _; apply TA_none|]. destruct (spoken_dec a) as [[ws H]|H]; [left; eexists _, _; by eapply TA_first|].
    right. intros act' its HC. destruct HC as [E'|a' more' ws E' HW]; [congruence|]. rewrite E in E'. injection E' as <- <-. by eapply H.
  Qed.
  Lemma turns_ok xs : ∀ its wk g act, turns_content ns act xs its → imp wk g → ∃ act', adds (loop decour_turn xs (g, count wk, act)) wk (walk_all [root] its) act'.
  Proof.
    induction xs as [|x xs IH]; intros its wk g act HC HI; inversion HC as [|? ? nr k' acts uts ? its' H1 HA HF HR]; subst; cbn [loop].
    - exists act, g. cbn. by rewrite app_nil_r.
    - unfold decour_turn at 1. unfold x_get. rewrite H1. cbn [of_option fst snd]. rewrite (ig_root _ _ _ _ _ _ _ HI).
      destruct (dominance_ok wk g act (inr root) ("turn_" +:+ nr) root [] HI (root_present _) eq_refl) as [(g1 & -> & HI1) HP1].
      fold (act_of ("turn_" +:+ nr) x (g1, count (wk ++ [([root], PNode ("turn_" +:+ nr) (unit_layers ns))]), act)).
      destruct (act_ok x _ g1 act k' acts ("turn_" +:+ nr) [root] HA HI1 HP1) as (g2 & -> & HI2).
      destruct (utterances_ok _ uts _ g2 k' ("turn_" +:+ nr) [root] HF HI2) as (g3 & E3 & HI3); [by apply present_app|]. unfold children in E3. unfold x_findall. rewrite E3.
      destruct (IH its' _ g3 k' HR HI3) as (act' & g4 & -> & HI4). exists act', g4. rewrite (walk_cons [root] _ its'), walk_node, walk_all_app. rewrite <-!app_assoc in *. cbn [app] in *. rewrite <-?app_assoc in *. done.
  Qed.
  Lemma turns_err xs : ∀ wk g act, (∀ its, ¬ turns_content ns act xs its) → imp wk g → raises (loop decour_turn xs (g, count wk, act)).
  Proof.
    induction xs as [|x xs IH]; intros wk g act HC HI; [exfalso; eapply HC; constructor|]. cbn [loop].
    unfold decour_turn at 1. unfold x_get. destruct (dget "nrgen" (x_attrib x)) as [nr|] eqn:H1; cbn [of_option fst snd]; [|eexists _, _; split; [done|left]].
    rewrite (ig_root _ _ _ _ _ _ _ HI). destruct (dominance_ok wk g act (inr root) ("turn_" +:+ nr) root [] HI (root_present _) eq_refl) as [(g1 & -> & HI1) HP1].
    fold (act_of ("turn_" +:+ nr) x (g1, count (wk ++ [([root], PNode ("turn_" +:+ nr) (unit_layers ns))]), act)).
    destruct (act_dec x act) as [(k' & acts & HA)|HA].
    - destruct (act_ok x _ g1 act k' acts ("turn_" +:+ nr) [root] HA HI1 HP1) as (g2 & -> & HI2).
      assert (HU : (∃ uts, Forall2 (utterance_content ns) (children "utterance" x) uts) ∨ ∀ uts, ¬ Forall2 (utterance_content ns) (children "utterance" x) uts).
      { generalize (children "utterance" x). intros us. induction us as [|u us [[uts IHu]|IHu]]; [left; by exists []| |right; intros uts H; inversion H; subst; by eapply IHu].
        destruct (utterance_dec u) as [[it Hu]|Hu]; [left; exists (it :: uts); by constructor|right; intros uts' H; inversion H; subst; by eapply Hu]. }
      destruct HU as [[uts HF]|HF].
      + destruct (utterances_ok _ uts _ g2 k' ("turn_" +:+ nr) [root] HF HI2) as (g3 & E3 & HI3); [by apply present_app|]. unfold children in E3. unfold x_findall. rewrite E3.
        apply IH; [|done]. intros its HR. eapply HC. by econstructor.
      + destruct (utterances_err _ _ g2 k' ("turn_" +:+ nr) HF HI2) as (s & e & E3 & He); [by apply present_app|]. unfold children in E3. unfold x_findall. rewrite E3. by exists s, e.
    - destruct (act_err x _ g1 act ("turn_" +:+ nr) HA HI1 HP1) as (s & e & -> & He). by exists s, e.
  Qed.
  (** the document *)
  Definition conclu_of (x : xml) (s : dstate) : dstate * option exc :=
    match x_find "conclu" x with
    | None => (s, None)
    | Some c => match decour_dominance (inr root) (inl "conclu") s with (s, Some e) => (s, Some e) | (s, None) => decour_span c s end
    end.
  Lemma conclu_ok x its wk g act : conclusion ns x its → imp wk g → adds (conclu_of x (g, count wk, act)) wk (walk_all [root] its) act.
  Proof.
    intros HC HI. unfold conclu_of. rewrite find_children. destruct HC as [E|c more ws E HW]; rewrite E; cbn [head].
    - exists g. cbn. by rewrite app_nil_r.
    - destruct (dominance_ok wk g act (inr root) "conclu" root [] HI (root_present _) eq_refl) as [(g1 & -> & HI1) HP1].
      assert (Ht : x_tag c = "conclu") by (by eapply child_tag).
      destruct (span_ok c ws "conclu" _ g1 act root [] HW HI1 HP1) as (g2 & E2 & HI2); [by rewrite decide_False by (by rewrite Ht)|]. rewrite decide_False in E2 by (by rewrite Ht). rewrite E2.
      exists g2. rewrite walk_node, walk_words. rewrite <-app_assoc in *. done.
  Qed.
  Lemma conclu_err x wk g act : (∀ its, ¬ conclusion ns x its) → imp wk g → raises (conclu_of x (g, count wk, act)).
  Proof.
    intros HC HI. unfold conclu_of. rewrite find_children. destruct (children "conclu" x) as [|c more] eqn:E; cbn [head]; [exfalso; by eapply HC, CO_none|].
    destruct (dominance_ok wk g act (inr root) "conclu" root [] HI (root_present _) eq_refl) as [(g1 & -> & HI1) HP1]. apply span_err. intros ws HW. eapply HC. by eapply CO_first.
  Qed.
  Lemma parse_ok x items wk g : decour_content ns x items → imp wk g → ∃ act, adds (decour_parse x (g, count wk, 1%Z)) wk (walk_all [root] items) act.
  Proof.
    intros HC HI. destruct HC as [i more ws turns end_ HIn HW HT HE]. unfold decour_parse. cbn [fst snd]. rewrite (ig_root _ _ _ _ _ _ _ HI). rewrite (find_children "intro"), HIn. cbn [head].
    destruct (dominance_ok wk g 1 (inr root) "intro" root [] HI (root_present _) eq_refl) as [(g1 & -> & HI1) HP1].
    assert (Ht : x_tag i = "intro") by (by eapply child_tag).
    destruct (span_ok i ws "intro" _ g1 1 root [] HW HI1 HP1) as (g2 & E2 & HI2); [by rewrite decide_False by (by rewrite Ht)|]. rewrite decide_False in E2 by (by rewrite Ht). rewrite E2.
    destruct (turns_ok _ turns _ g2 1 HT HI2) as (act & g3 & E3 & HI3). unfold children in E3. unfold x_findall. rewrite E3.
    fold (conclu_of x (g3, count (((wk ++ [([root], PNode "intro" (unit_layers ns))]) ++ word_parts [NStr "intro"; root] ws) ++ walk_all [root] turns), act)).
    destruct (conclu_ok x end_ _ g3 act HE HI3) as (g4 & -> & HI4). exists act, g4. rewrite (walk_cons [root] _ (turns ++ end_)), walk_node, walk_words, walk_all_app. rewrite <-!app_assoc in *. cbn [app] in *. rewrite <-?app_assoc in *. done.
  Qed.
  Lemma parse_err x wk g : (∀ items, ¬ decour_content ns x items) → imp wk g → raises (decour_parse x (g, count wk, 1%Z)).
  Proof.
    intros HC HI. unfold decour_parse. cbn [fst snd]. rewrite (ig_root _ _ _ _ _ _ _ HI). rewrite (find_children "intro").
    destruct (dominance_ok wk g 1 (inr root) "intro" root [] HI (root_present _) eq_refl) as [(g1 & -> & HI1) HP1].
    destruct (children "intro" x) as [|i more] eqn:HIn; cbn [head]; [eexists _, _; split; [done|]; right; left|].
    assert (Ht : x_tag i = "intro") by (by eapply child_tag).
    destruct (spoken_dec i) as [[ws HW]|HW]; [|destruct (span_err i (g1, count (wk ++ [([root], PNode "intro" (unit_layers ns))]), 1%Z) HW) as (s & e & -> & He); by exists s, e].
    destruct (span_ok i ws "intro" _ g1 1 root [] HW HI1 HP1) as (g2 & E2 & HI2); [by rewrite decide_False by (by rewrite Ht)|]. rewrite decide_False in E2 by (by rewrite Ht). rewrite E2.
    assert (HT : (∃ turns, turns_content ns 1 (children "turn" x) turns) ∨ ∀ turns, ¬ turns_content ns 1 (children "turn" x) turns).
    { generalize 1%Z (children "turn" x). intros k ts. revert k. induction ts as [|t ts IH]; intros k; [left; eexists; constructor|].
      destruct (dget "nrgen" (x_attrib t)) as [nr|] eqn:H1; [|right; intros its H; inversion H; congruence].
      destruct (act_dec t k) as [(k' & acts & HA)|HA]; [|right; intros its H; inversion H; subst; by eapply HA].
      assert (HU : (∃ uts, Forall2 (utterance_content ns) (children "utterance" t) uts) ∨ ∀ uts, ¬ Forall2 (utterance_content ns) (children "utterance" t) uts).
      { generalize (children "utterance" t). intros us. induction us as [|u us [[uts IHu]|IHu]]; [left; by exists []| |right; intros uts H; inversion H; subst; by eapply IHu].
        destruct (utterance_dec u) as [[it Hu]|Hu]; [left; exists (it :: uts); by constructor|right; intros uts' H; inversion H; subst; by eapply Hu]. }
      destruct HU as [[uts HF]|HF]; [|right; intros its H; inversion H; subst; by eapply HF].
      destruct (IH k') as [[its HR]|HR]; [left; eexists; by econstructor|]. right. intros its H. inversion H as [|? ? nr' k2 acts' uts' ? its' H1' HA' HF' HR']; subst.
      assert (k2 = k') as ->; [|by eapply HR]. clear -HA HA'. destruct HA as [E|? ? ? E _], HA' as [E'|? ? ? E' _]; congruence. }
    destruct HT as [[turns HT]|HT].
    - destruct (turns_ok _ turns _ g2 1 HT HI2) as (act & g3 & E3 & HI3). unfold children in E3. unfold x_findall. rewrite E3.
      fold (conclu_of x (g3, count (((wk ++ [([root], PNode "intro" (unit_layers ns))]) ++ word_parts [NStr "intro"; root] ws) ++ walk_all [root] turns), act)).
      apply conclu_err; [|done]. intros end_ HE. eapply HC. by econstructor.
    - destruct (turns_err _ _ g2 1 HT HI2) as (s & e & E3 & He). unfold children in E3. unfold x_findall. rewrite E3. by exists s, e.
  Qed.
  Lemma decour_start : ∃ g, add_node (set_document name ns root (init_graph "" "discoursegraph" None)) root (VSet [ns]) None [] = (g, None) ∧ imp [] g.
  Proof.
    set (g0 := set_document name ns root (init_graph "" "discoursegraph" None)).
    assert (HB0 : built g0 [(NStr "discoursegraph:root_node", ["discoursegraph"], [])] []) by (eapply built_ext; [..|apply (built_init "" "discoursegraph")]; done).
    destruct (built_node g0 _ _ root (VSet [ns]) None [] [ns] HB0) as (g1 & E1 & HB1 & (Hn & Hns & Hr & Ht & _)); [by left|].
    exists g1. split; [done|]. apply importing_init; [| |done..].
    - eapply built_same; [exact HB1|]. unfold note, base, decour_base, root, decour_root. change (ids [(NStr "discoursegraph:root_node", ["discoursegraph"], [])]) with [NStr "discoursegraph:root_node"].
      destruct (decide (ns = "discoursegraph")) as [->|Hne].
      + rewrite decide_True by left. cbn [fmap list_fmap]. constructor; [|constructor]. rewrite decide_True by done. split; [done|]. cbn. split; [|done]. intros z. rewrite !elem_of_cons, elem_of_nil. tauto.
      + rewrite decide_False. { constructor; [done|]. constructor; [|constructor]. done. }
        intros H%elem_of_list_singleton. injection H as H. apply Hne. apply (f_equal chs) in H. rewrite chs_app in H. change (chs "discoursegraph:root_node") with (chs "discoursegraph" ++ chs ":root_node") in H.
        apply app_inj_2 in H as [H _]; [|done]. by apply chs_inj.
    - intros x Hx. unfold base, decour_base in Hx. apply elem_of_app in Hx as [Hx|Hx%elem_of_list_singleton]; [|by subst]. destruct (decide _); [by apply elem_of_nil in Hx|]. apply elem_of_list_singleton in Hx. by subst.
  Qed.
  Lemma read_decour_ok x items : decour_content ns x items →
    ∃ g, read_decour name ns false x = (g, None) ∧ importing name st base ns root (walk_all [root] items) g.
  Proof.
    intros HC. destruct decour_start as (g0 & E0 & HI0). destruct (parse_ok x items [] g0 HC HI0) as (act & g & E & HI). exists g. split; [|done].
    unfold read_decour. fold (decour_root ns). fold root. rewrite E0. change (count []) with 1%Z in E. by rewrite E.
  Qed.
  Lemma read_decour_err precedence x : (∀ items, ¬ decour_content ns x items) → ∃ g e, read_decour name ns precedence x = (g, Some e) ∧ e ∈ decour_errors.
  Proof.
    intros HC. destruct decour_start as (g0 & E0 & HI0). destruct (parse_err x [] g0 HC HI0) as ([[g t] a] & e & E & He). exists g, e. split; [|done].
    unfold read_decour. fold (decour_root ns). fold root. rewrite E0. change (count []) with 1%Z in E. by rewrite E.
  Qed.
End read.

(** ** Ids *)
Definition node_ids (wk : walked) : list nid := omap (λ x, match x.2 with PNode i _ => Some (NStr i) | PWord _ _ => None end) wk.
Lemma node_ids_app a b : node_ids (a ++ b) = node_ids a ++ node_ids b.
Proof. apply omap_app. Qed.
Lemma number_ids prefix wk : ∀ k, (λ x, x.1.2) <$> number prefix k wk ≡ₚ node_ids wk ++ word_ids (number prefix k wk).
Proof.
  induction wk as [|[path [w a|i l]] wk IH]; intros k; cbn [number]; [done| |].
  - rewrite fmap_cons. cbn [fst snd]. unfold word_ids. rewrite filter_cons_True by done. rewrite fmap_cons. change (node_ids ((path, PWord w a) :: wk)) with (node_ids wk).
    rewrite <-Permutation_middle. cbn [fst snd]. f_equiv. apply IH.
  - rewrite fmap_cons. unfold word_ids. rewrite filter_cons_False by done. change (node_ids ((path, PNode i l) :: wk)) with (NStr i :: node_ids wk). cbn [app fst snd]. f_equiv. apply IH.
Qed.
Lemma word_ids_NoDup prefix wk : ∀ k, NoDup (word_ids (number prefix k wk)).
Proof.
  induction wk as [|[path [w a|i l]] wk IH]; intros k; cbn [number]; [apply NoDup_nil_2| |].
  - unfold word_ids. rewrite filter_cons_True by done. rewrite fmap_cons. apply NoDup_cons. split; [|apply IH]. intros Hx.
    apply elem_of_list_fmap in Hx as ([[path' n'] p'] & E & Hx). apply elem_of_list_filter in Hx as [Hw Hx]. cbn in Hw, E. destruct p' as [w' a'|]; [|done]. apply number_word_id in Hx as (j & Hj & ->). apply prefix_id_inj in E. lia.
  - unfold word_ids. rewrite filter_cons_False by done. apply IH.
Qed.
Lemma word_ids_elem prefix wk k n : n ∈ word_ids (number prefix k wk) → ∃ i, n = NStr (prefix +:+ str_Z i).
Proof. unfold word_ids. intros ([[path n'] p] & -> & Hx)%elem_of_list_fmap. apply elem_of_list_filter in Hx as [Hw Hx]. destruct p; [|done]. apply number_word_id in Hx as (j & _ & ->). by exists j. Qed.
Lemma node_ids_words path ws : node_ids (word_parts path ws) = [].
Proof. induction ws as [|w ws IH]; [done|]. apply IH. Qed.
Lemma node_ids_tagged ns ws n l p its path : tagged_words ns ws n l p its → node_ids (walk_all path its) = [].
Proof. induction 1 as [|w ws a n b l c p its _ IH]; [done|]. rewrite walk_cons, node_ids_app, IH. done. Qed.
Lemma node_ids_node path i layers its : node_ids (walk_all path [INode i layers its]) = NStr i :: node_ids (walk_all (NStr i :: path) its).
Proof. by rewrite walk_node. Qed.
Definition turn_ids : list string → list nid := fmap (λ s, NStr ("turn_" +:+ s)).
Definition act_ids : list Z → list nid := fmap (λ z, NStr ("act_" +:+ str_Z z)).
Definition utter_ids : list string → list nid := fmap (λ s, NStr ("utterance_" +:+ s)).
Lemma utterances_ids ns xs its path : Forall2 (utterance_content ns) xs its → ∃ us, Some <$> us = (λ u, dget "nrgen" (x_attrib u)) <$> xs ∧ node_ids (walk_all path its) = utter_ids us.
Proof.
  induction 1 as [|x it xs its Hx _ (us & E1 & E2)]; [by exists []|]. destruct Hx as [x nr n l p ws norm lemma pos its' H1 _ _ _ _ _ HT]. exists (nr :: us). rewrite !fmap_cons, E1, H1. split; [done|].
  rewrite walk_cons, node_ids_app, node_ids_node, E2. by erewrite node_ids_tagged.
Qed.
Lemma turns_ids ns k xs its path : turns_content ns k xs its → ∃ ts zs us,
  Some <$> ts = (λ t, dget "nrgen" (x_attrib t)) <$> xs ∧ Some <$> us = (t ← xs; (λ u, dget "nrgen" (x_attrib u)) <$> children "utterance" t) ∧
  NoDup zs ∧ Forall (λ z, (k ≤ z)%Z) zs ∧ node_ids (walk_all path its) ≡ₚ turn_ids ts ++ act_ids zs ++ utter_ids us.
Proof.
  intros HT. induction HT as [k|k x nr k' act uts xs its H1 HA HF HT IH].
  - exists [], [], []. repeat split; try done; constructor.
  - destruct IH as (ts & zs & us & E1 & E2 & ND & HL & HP). destruct (utterances_ids ns _ uts (NStr ("turn_" +:+ nr) :: path) HF) as (us' & E3 & E4).
    assert (HZ : ∃ z', node_ids (walk_all (NStr ("turn_" +:+ nr) :: path) act) = act_ids z' ∧ NoDup (z' ++ zs) ∧ Forall (λ z, (k ≤ z)%Z) (z' ++ zs)).
    { destruct HA as [_|a more ws _ _].
      - exists []. done.
      - exists [k]. rewrite node_ids_node, walk_words, node_ids_words. split; [done|]. split.
        + apply NoDup_cons. split; [|done]. intros H. rewrite Forall_forall in HL. apply HL in H. lia.
        + apply List.Forall_cons; [lia|]. eapply Forall_impl; [exact HL|]. cbn. lia. }
    destruct HZ as (z' & E5 & ND' & HL'). exists (nr :: ts), (z' ++ zs), (us' ++ us). rewrite !fmap_cons, E1, H1. split; [done|]. rewrite fmap_app, E2, E3. split; [done|]. split; [done|]. split; [done|].
    rewrite (walk_cons _ _ its), node_ids_app, node_ids_node, walk_all_app, node_ids_app, E4, E5, HP. unfold turn_ids, act_ids, utter_ids. rewrite fmap_cons, !fmap_app. cbn [app]. constructor. solve_Permutation.
Qed.
Lemma nstr_inj a b : NStr a = NStr b → a = b.
Proof. congruence. Qed.
Ltac two_prefixes H := apply nstr_inj in H; apply (f_equal chs) in H; rewrite ?chs_app in H; discriminate H.
Lemma decour_ids_ok ns x items : decour_content ns x items → NoDup (turn_numbers x) → NoDup (utterance_numbers x) →
  Forall (λ o, ∀ nr, o = Some nr → ":"%char ∉ chs nr) (turn_numbers x ++ utterance_numbers x) → ids_ok (ids (decour_base ns)) (decour_parts ns items).
Proof.
  intros HC HT HU Hcol. destruct HC as [i more ws turns end_ _ _ HTC HE]. destruct (turns_ids ns 1 _ turns [decour_root ns] HTC) as (ts & zs & us & E1 & E2 & NDz & _ & HP).
  change ((λ t, dget "nrgen" (x_attrib t)) <$> children "turn" x) with (turn_numbers x) in E1. change (t ← children "turn" x; (λ u, dget "nrgen" (x_attrib u)) <$> children "utterance" t) with (utterance_numbers x) in E2.
  rewrite <-E1, <-E2 in *. apply NoDup_fmap_1 in HT, HU.
  assert (Hcol' : ∀ s, s ∈ ts ++ us → ":"%char ∉ chs s).
  { intros s Hs. rewrite <-fmap_app in Hcol. rewrite Forall_forall in Hcol. apply (Hcol (Some s)); [|done]. by apply elem_of_list_fmap_1. }
  set (items := INode "intro" _ _ :: _).
  assert (HN : ∃ e, e ∈ [[]; [NStr "conclu"]] ∧ node_ids (walk_all [decour_root ns] items) ≡ₚ NStr "intro" :: (turn_ids ts ++ act_ids zs ++ utter_ids us) ++ e).
  { unfold items. destruct HE as [_|c more' ws' _ _].
    - exists []. split; [left|]. rewrite (walk_cons _ _ (turns ++ [])), node_ids_app, node_ids_node, walk_words, node_ids_words, walk_all_app, node_ids_app, HP. done.
    - exists [NStr "conclu"]. split; [right; left|]. rewrite (walk_cons _ _ (turns ++ _)), node_ids_app, node_ids_node, walk_words, node_ids_words, walk_all_app, node_ids_app, HP, node_ids_node, walk_words, node_ids_words. done. }
  destruct HN as (e & He & HN).
  assert (Htn : ∀ n, n ∈ turn_ids ts → ∃ s, n = NStr ("turn_" +:+ s) ∧ s ∈ ts) by (intros n (s & -> & ?)%elem_of_list_fmap; by exists s).
  assert (Han : ∀ n, n ∈ act_ids zs → ∃ z, n = NStr ("act_" +:+ str_Z z)) by (intros n (s & -> & ?)%elem_of_list_fmap; by exists s).
  assert (Hun : ∀ n, n ∈ utter_ids us → ∃ s, n = NStr ("utterance_" +:+ s) ∧ s ∈ us) by (intros n (s & -> & ?)%elem_of_list_fmap; by exists s).
  assert (Hen : ∀ n, n ∈ e → n = NStr "conclu") by (intros n; apply elem_of_cons in He as [-> | ->%elem_of_list_singleton]; [by intros ?%elem_of_nil|by intros ->%elem_of_list_singleton]).
  assert (Hinj : ∀ p a b, NStr (p +:+ a) = NStr (p +:+ b) → a = b) by (intros p a b E; injection E as E; apply (f_equal chs) in E; rewrite !chs_app in E; apply app_inv_head in E; by apply chs_inj).
  assert (HND : NoDup (NStr "intro" :: (turn_ids ts ++ act_ids zs ++ utter_ids us) ++ e)).
  { apply NoDup_cons. split.
    - rewrite !elem_of_app. intros [[H|[H|H]]|H].
      + apply Htn in H as (s & H & _). two_prefixes H.
      + apply Han in H as (s & H). two_prefixes H.
      + apply Hun in H as (s & H & _). two_prefixes H.
      + apply Hen in H. done.
    - apply NoDup_app. split; [apply NoDup_app; split; [|split; [|apply NoDup_app; split; [|split]]]|split].
      + unfold turn_ids. apply NoDup_fmap_2_strong; [|done]. intros a b _ _ E. by apply Hinj in E.
      + intros n (s & -> & _)%Htn. rewrite elem_of_app. intros [H|H]; [apply Han in H as (z & H)|apply Hun in H as (z & H & _)]; two_prefixes H.
      + unfold act_ids. apply NoDup_fmap_2_strong; [|done]. intros a b _ _ E. apply Hinj in E. by apply str_Z_inj.
      + intros n (s & ->)%Han (z & H & _)%Hun. two_prefixes H.
      + unfold utter_ids. apply NoDup_fmap_2_strong; [|done]. intros a b _ _ E. by apply Hinj in E.
      + intros n Hn Hne%Hen. subst n. rewrite !elem_of_app in Hn. destruct Hn as [H|[H|H]]; [apply Htn in H as (s & H & _)|apply Han in H as (s & H)|apply Hun in H as (s & H & _)]; two_prefixes H.
      + apply elem_of_cons in He as [-> | ->%elem_of_list_singleton]; [apply NoDup_nil_2|apply NoDup_singleton]. }
  assert (Hall : ∀ n, n ∈ (λ x, x.1.2) <$> decour_parts ns items → n = NStr "intro" ∨ (∃ s, n = NStr ("turn_" +:+ s) ∧ s ∈ ts) ∨ (∃ z, n = NStr ("act_" +:+ str_Z z)) ∨ (∃ s, n = NStr ("utterance_" +:+ s) ∧ s ∈ us) ∨ n = NStr "conclu" ∨ ∃ z, n = NStr ("token_" +:+ str_Z z)).
  { intros n. unfold decour_parts, outline_parts. rewrite number_ids, HN, elem_of_app, elem_of_cons, !elem_of_app. intros [[->|[[H|[H|H]]|H]]|H]; [by left|right..].
    - left. by apply Htn.
    - right. left. by apply Han.
    - right. right. left. by apply Hun.
    - right. right. right. left. by apply Hen.
    - do 4 right. by apply word_ids_elem in H. }
  split.
  - unfold decour_parts, outline_parts. rewrite number_ids, HN. apply NoDup_app. split; [done|]. split; [|apply word_ids_NoDup].
    intros n Hn Hw. apply word_ids_elem in Hw as (z & ->). rewrite elem_of_cons, !elem_of_app in Hn. destruct Hn as [H|[[H|[H|H]]|H]].
    + two_prefixes H.
    + apply Htn in H as (s & H & _). two_prefixes H.
    + apply Han in H as (s & H). two_prefixes H.
    + apply Hun in H as (s & H & _). two_prefixes H.
    + apply Hen in H. two_prefixes H.
  - intros path n p Hin Hb. apply (elem_of_list_fmap_1 (λ x, x.1.2)) in Hin. cbn in Hin.
    assert (Hc : ∃ s, n = NStr s ∧ ":"%char ∈ chs s).
    { unfold decour_base, ids in Hb. rewrite fmap_app in Hb. apply elem_of_app in Hb as [Hb|Hb].
      - destruct (decide _); [by apply elem_of_nil in Hb|]. apply elem_of_list_singleton in Hb as ->. eexists. split; [reflexivity|]. apply elem_of_list_In. vm_compute. tauto.
      - apply elem_of_list_singleton in Hb as ->. eexists. split; [reflexivity|]. rewrite chs_app. apply elem_of_app. right. left. }
    destruct Hc as (c & -> & Hc).
    assert (Hd : ∀ z, ":"%char ∉ chs (str_Z z)) by (intros z; by apply str_Z_free).
    assert (Hpre : ∀ a s, ":"%char ∉ chs a → ":"%char ∉ chs s → c = a +:+ s → False) by (intros a s Ha Hs ->; rewrite chs_app in Hc; apply elem_of_app in Hc as [?|?]; done).
    assert (Hlit : ∀ a, existsb (fun d => Ascii.eqb d ":"%char) (chs a) = false → ":"%char ∉ chs a).
    { intros a Ha Hin'. apply elem_of_list_In in Hin'. assert (existsb (fun d => Ascii.eqb d ":"%char) (chs a) = true) by (apply existsb_exists; exists ":"%char; by split). congruence. }
    apply Hall in Hin as [H|[(s & H & Hs)|[(z & H)|[(s & H & Hs)|[H|(z & H)]]]]]; apply nstr_inj in H.
    + subst c. by apply Hlit in Hc.
    + apply (Hpre _ _ (Hlit "turn_" eq_refl)) in H; [done|]. apply Hcol', elem_of_app. by left.
    + by apply (Hpre _ _ (Hlit "act_" eq_refl)) in H.
    + apply (Hpre _ _ (Hlit "utterance_" eq_refl)) in H; [done|]. apply Hcol', elem_of_app. by right.
    + subst c. by apply Hlit in Hc.
    + by apply (Hpre _ _ (Hlit "token_" eq_refl)) in H.
Qed.
