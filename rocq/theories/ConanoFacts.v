(** * ConanoFacts: proofs about ConAno documents (C43) *)
From Verif Require Import PyBase DocGraph SpecGraph DocGraphFacts History Effects RelabelFacts MergeFacts AllHist MergeAll GraphThms Relabel StrNum Query Text Rst Nltk Parsers SpecQuery SpecRst SpecParse OffsetFacts SpanFacts NatSort SelectFacts DisText SpecImport ImportFacts SpecAnaphora AnaphoraFacts SpecOutline OutlineFacts OutlineSpan Conano SpecConano.

Fixpoint xml_ind' (P : xml → Prop) (H : ∀ tag a text kids tail, Forall P kids → P (XElem tag a text kids tail)) (x : xml) : P x :=
  let 'XElem tag a text kids tail := x in
  H tag a text kids tail ((fix go l := match l return Forall P l with [] => List.Forall_nil P | k :: l => List.Forall_cons P k l (xml_ind' P H k) (go l) end) kids).

Lemma conano_element_iff ns pa tag a i layers : conano_element ns pa tag a = Ok (i, layers) ↔ element_named ns pa tag a i layers.
Proof.
  unfold conano_element, x_get. split.
  - destruct (decide (tag = "unit")) as [->|H1]; [|destruct (decide (tag = "connective")) as [->|H2]; [|destruct (decide (tag = "discourse")) as [->|H3]]].
    + destruct (dget "id" a) as [j|] eqn:E1; [|done]. cbn. destruct (dget "type" a) as [ty|] eqn:E2; [|done]. cbn. intros [= <- <-]. by constructor.
    + destruct (dget "id" a) as [j|] eqn:E1; [|done]. cbn. intros [= <- <-]. by constructor.
    + intros [= <- <-]. constructor.
    + destruct pa as [pa|]; [|done]. cbn. destruct (dget "id" pa) as [j|] eqn:E1; [|done]. cbn. intros [= <- <-]. econstructor; [|done|done].
      intros H. repeat (apply elem_of_cons in H as [H|H]; [done|]). by apply elem_of_nil in H.
  - destruct 1 as [a i ty H1 H2|a i H1|a|tag a pa' i Hn -> H1].
    + rewrite decide_True by done. by rewrite H1, H2.
    + rewrite decide_False, decide_True by done. by rewrite H1.
    + rewrite !decide_False, decide_True by done. done.
    + rewrite !decide_False by (intros ->; apply Hn; repeat constructor). cbn. by rewrite H1.
Qed.
Lemma conano_element_err ns pa tag a e : conano_element ns pa tag a = Err e → e = KeyError ∨ e = AttributeError.
Proof.
  unfold conano_element, x_get. repeat (destruct (decide _)); try destruct (dget "id" a); cbn; try destruct (dget "type" a); cbn; try (destruct pa as [pa|]; cbn; [destruct (dget "id" pa); cbn|]); intros [=]; auto.
Qed.
Lemma named_layers ns pa tag a i layers : element_named ns pa tag a i layers → layers ≠ [].
Proof. by destruct 1. Qed.
Lemma colon_root i : ":"%char ∈ chs i → NStr i ≠ NStr "root".
Proof. intros H [= ->]. vm_compute in H. repeat (apply elem_of_cons in H as [H|H]; [done|]). by apply elem_of_nil in H. Qed.
Lemma named_not_root ns pa tag a i layers : element_named ns pa tag a i layers → NStr i ≠ NStr "root".
Proof. destruct 1; [| |done|]; apply colon_root; rewrite !chs_app, ?elem_of_app; [right; left; left|right; left|right; left; left]. Qed.

Definition word_parts (path : list nid) (ws : list chars) : walked := (λ w, (path, PWord (str w) [])) <$> ws.
Lemma walk_words path ws : walk_all path (word_items ws) = word_parts path ws.
Proof. unfold walk_all, word_items, word_parts. induction ws as [|w ws IH]; [done|]. rewrite !fmap_cons. cbn [map concat walk app]. f_equal. exact IH. Qed.
Lemma walk_all_app path a b : walk_all path (a ++ b) = walk_all path a ++ walk_all path b.
Proof. unfold walk_all. by rewrite map_app, concat_app. Qed.
Lemma walk_all_concat path its : walk_all path (concat its) = concat (map (walk_all path) its).
Proof. induction its as [|x its IH]; [done|]. cbn [concat map]. by rewrite walk_all_app, IH. Qed.

Section read.
  Context (name ns : string).
  Let st := conano_style ns.
  Let root := conano_root ns.
  Let base := conano_base ns.
  Notation imp := (importing name st base ns root).
  Lemma conano_token_ok wk g parent rest w : imp wk g → present st base wk parent → parent ≠ NStr "root" →
    ∃ g', conano_token parent w (g, (1 + wcount wk)%Z) = ((g', (1 + wcount (wk ++ [(parent :: rest, PWord (str w) [])]))%Z), None) ∧ imp (wk ++ [(parent :: rest, PWord (str w) [])]) g'.
  Proof.
    intros HI HP Hr. destruct (importing_word name st base ns root wk g (str w) [] [(ns +:+ ":token", VStr (str w))] parent rest HI HP) as (g1 & E1 & Hn & Hr1 & Ht1 & HT); [done|done|].
    destruct (HT (g_tokens g1)) as (g2 & E2 & Ht2 & Em2 & En2 & Er2 & Hdone). unfold conano_token. rewrite decide_False by done. rewrite (ig_ns _ _ _ _ _ _ _ HI).
    change (s_prefix st) with "token:" in *. rewrite E1, Hn. assert (set_tokens (g_tokens g1) g1 = g1) as EE by (by destruct g1). rewrite EE in E2. change (s_word_edge st) with [ns] in E2. rewrite E2.
    assert ((1 + wcount (wk ++ [(parent :: rest, PWord (str w) [])]))%Z = (1 + wcount wk + 1)%Z) as -> by (rewrite wcount_app, wcount_word; unfold wcount; cbn; lia). eexists. split; [reflexivity|].
    apply Hdone; try done. cbn. by rewrite Ht2, Ht1.
  Qed.
  Lemma conano_words_ok ws : ∀ wk g parent rest, imp wk g → present st base wk parent → parent ≠ NStr "root" →
    ∃ g', loop (conano_token parent) ws (g, (1 + wcount wk)%Z) = ((g', (1 + wcount (wk ++ word_parts (parent :: rest) ws))%Z), None) ∧ imp (wk ++ word_parts (parent :: rest) ws) g'.
  Proof.
    induction ws as [|w ws IH]; intros wk g parent rest HI HP Hr; cbn [loop].
    - exists g. unfold word_parts. cbn. by rewrite app_nil_r.
    - destruct (conano_token_ok wk g parent rest w HI HP Hr) as (g1 & -> & HI1). destruct (IH _ g1 parent rest HI1) as (g2 & -> & HI2); [by apply present_app|done|].
      exists g2. rewrite <-app_assoc in *. done.
  Qed.
  Lemma conano_text_ok text ws wk g parent rest : words_in (default [] text) ws → imp wk g → present st base wk parent → parent ≠ NStr "root" →
    ∃ g', conano_text parent text (g, (1 + wcount wk)%Z) = ((g', (1 + wcount (wk ++ word_parts (parent :: rest) ws))%Z), None) ∧ imp (wk ++ word_parts (parent :: rest) ws) g'.
  Proof. intros HW. unfold conano_text. rewrite (words_in_split _ _ HW). apply conano_words_ok. Qed.
  Lemma conano_add_ok x : ∀ pa items, conano_content ns pa x items → ∀ wk g parent rest, imp wk g → present st base wk parent → parent ≠ NStr "root" →
    ∃ g', conano_add pa parent x (g, (1 + wcount wk)%Z) = ((g', (1 + wcount (wk ++ walk_all (parent :: rest) items))%Z), None) ∧ imp (wk ++ walk_all (parent :: rest) items) g'.
  Proof.
    induction x as [tag a text kids tail IH] using xml_ind'. intros pa items HC wk g parent rest HI HP Hr.
    inversion HC as [? ? ? ? ? ? i layers ws its ws' Hname Hws Hkids Hws']; subst. cbn [conano_add fst snd]. rewrite (ig_ns _ _ _ _ _ _ _ HI).
    pose proof (proj2 (conano_element_iff ns pa tag a i layers) Hname) as ->.
    destruct (importing_node name st base ns root wk g i layers parent rest HI HP) as (g1 & g2 & E1 & Hn1 & E2 & HI2 & HP2); [by eapply named_layers|done|].
    rewrite E1, Hn1. change (s_node_edge st) with [ns] in E2. rewrite E2. set (wk2 := wk ++ [(parent :: rest, PNode i layers)]) in *.
    assert (wcount wk = wcount wk2) as -> by (unfold wk2; rewrite wcount_app; unfold wcount; cbn; lia).
    destruct (conano_text_ok text ws wk2 g2 (NStr i) (parent :: rest) Hws HI2 HP2) as (g3 & -> & HI3); [by eapply named_not_root|].
    set (wk3 := wk2 ++ word_parts (NStr i :: parent :: rest) ws) in *.
    assert (HP3 : present st base wk3 (NStr i)) by (by apply present_app).
    assert (HK : ∃ g4, loop (conano_add (Some a) (NStr i)) kids (g3, (1 + wcount wk3)%Z) = ((g4, (1 + wcount (wk3 ++ walk_all (NStr i :: parent :: rest) (concat its)))%Z), None) ∧ imp (wk3 ++ walk_all (NStr i :: parent :: rest) (concat its)) g4).
    { clear HC Hws Hws' HI2 HP2 HP E1 E2 HI. generalize dependent g3. generalize dependent wk3. clear wk2. clear g g1 g2 Hn1. revert its Hkids. induction IH as [|k kids Hk _ IHk]; intros its Hkids wk3 HP3 g3 HI3.
      - inversion Hkids; subst. exists g3. cbn. by rewrite app_nil_r.
      - inversion Hkids as [|? it ? its' Hit Hkids']; subst. cbn [loop concat].
        destruct (Hk _ _ Hit wk3 g3 (NStr i) (parent :: rest) HI3 HP3) as (g4 & -> & HI4); [by eapply named_not_root|].
        destruct (IHk its' Hkids' _ (present_app _ _ _ _ _ HP3) g4 HI4) as (g5 & -> & HI5). exists g5. rewrite walk_all_app. by rewrite <-app_assoc in *. }
    destruct HK as (g4 & -> & HI4). set (wk4 := wk3 ++ _) in *.
    destruct (conano_text_ok tail ws' wk4 g4 parent rest Hws' HI4) as (g5 & -> & HI5); [|done|].
    { unfold wk4, wk3, wk2. rewrite <-!app_assoc. by apply present_app. }
    exists g5. assert (wk ++ walk_all (parent :: rest) (INode i layers (word_items ws ++ concat its) :: word_items ws') = wk4 ++ word_parts (parent :: rest) ws') as ->; [|done].
    unfold wk4, wk3, wk2. rewrite <-!app_assoc. f_equal. rewrite <-(walk_words _ ws'), <-(walk_words _ ws).
    change (INode i layers (word_items ws ++ concat its) :: word_items ws') with ([INode i layers (word_items ws ++ concat its)] ++ word_items ws'). rewrite walk_all_app. unfold walk_all at 1. cbn [map concat walk app].
    rewrite app_nil_r. change (concat (map (walk (NStr i :: parent :: rest)) (word_items ws ++ concat its))) with (walk_all (NStr i :: parent :: rest) (word_items ws ++ concat its)). rewrite walk_all_app, <-!app_assoc. done.
  Qed.
  Lemma importing_start : importing name st base ns root [] (set_name name (init_graph "" ns None)).
  Proof.
    apply importing_init; [|by intros x ->%elem_of_list_singleton|done|done|done|done].
    eapply built_ext; [..|apply (built_init "" ns)]; done.
  Qed.
  Lemma root_not_root : root ≠ NStr "root".
  Proof. apply colon_root. rewrite chs_app. apply elem_of_app. right. left. Qed.
  Lemma read_conano_ok x items : conano_content ns None x items →
    ∃ g, read_conano name ns false false x = (g, None) ∧ importing name st base ns root (walk_all [root] items) g.
  Proof.
    intros HC. destruct (conano_add_ok x None items HC [] _ root [] importing_start) as (g & E & HI); [left; left|apply root_not_root|].
    exists g. split; [|done]. unfold read_conano. change (g_root (set_name name (init_graph "" ns None))) with root. change (1 + wcount [])%Z with 1%Z in E. by rewrite E.
  Qed.
End read.
(** ** Missing attributes *)
Lemma conano_content_dec ns x : ∀ pa, (∃ items, conano_content ns pa x items) ∨ ∀ items, ¬ conano_content ns pa x items.
Proof.
  induction x as [tag a text kids tail IH] using xml_ind'. intros pa.
  destruct (conano_element ns pa tag a) as [[i layers]|e] eqn:E.
  - assert (HK : (∃ its, Forall2 (conano_content ns (Some a)) kids its) ∨ ∃ k, k ∈ kids ∧ ∀ items, ¬ conano_content ns (Some a) k items).
    { clear E. induction IH as [|k kids Hk _ [(its & H)|(k' & Hk' & H)]]; [left; by exists []| |right; exists k'; split; [by right|done]].
      destruct (Hk (Some a)) as [[it Hit]|Hno]; [left; exists (it :: its); by constructor|right; exists k; split; [left|done]]. }
    destruct HK as [(its & H)|(k & Hin & H)].
    + left. eexists. econstructor; [by apply conano_element_iff|apply split_words_in|exact H|apply split_words_in].
    + right. intros items HC. inversion HC as [? ? ? ? ? ? i' layers' ws its ws' _ _ Hkids _]; subst. apply elem_of_list_lookup in Hin as [j Hj]. destruct (Forall2_lookup_l _ _ _ _ _ Hkids Hj) as (it & _ & Hit). by apply H in Hit.
  - right. intros items HC. inversion HC as [? ? ? ? ? ? i' layers' ws its ws' Hn _ _ _]; subst. apply conano_element_iff in Hn. congruence.
Qed.
Section missing.
  Context (name ns : string).
  Let st := conano_style ns.
  Let root := conano_root ns.
  Let base := conano_base ns.
  Notation imp := (importing name st base ns root).
  Lemma conano_add_missing x : ∀ pa, (∀ items, ¬ conano_content ns pa x items) → ∀ wk g parent, imp wk g → present st base wk parent → parent ≠ NStr "root" →
    ∃ s e, conano_add pa parent x (g, (1 + wcount wk)%Z) = (s, Some e) ∧ (e = KeyError ∨ e = AttributeError).
  Proof.
    induction x as [tag a text kids tail IH] using xml_ind'. intros pa HC wk g parent HI HP Hr. pose (rest := @nil nid). cbn [conano_add fst snd]. rewrite (ig_ns _ _ _ _ _ _ _ HI).
    destruct (conano_element ns pa tag a) as [[i layers]|e] eqn:E; [|eexists _, e; split; [reflexivity|by eapply conano_element_err]].
    pose proof (proj1 (conano_element_iff ns pa tag a i layers) E) as Hname.
    destruct (importing_node name st base ns root wk g i layers parent rest HI HP) as (g1 & g2 & E1 & Hn1 & E2 & HI2 & HP2); [by eapply named_layers|done|].
    rewrite E1, Hn1. change (s_node_edge st) with [ns] in E2. rewrite E2. set (wk2 := wk ++ [(parent :: rest, PNode i layers)]) in *.
    assert (wcount wk = wcount wk2) as -> by (unfold wk2; rewrite wcount_app; unfold wcount; cbn; lia).
    destruct (conano_text_ok name ns text _ wk2 g2 (NStr i) (parent :: rest) (split_words_in _) HI2 HP2) as (g3 & -> & HI3); [by eapply named_not_root|].
    set (wk3 := wk2 ++ word_parts (NStr i :: parent :: rest) _) in *.
    assert (HP3 : present st base wk3 (NStr i)) by (by apply present_app).
    assert (HK : ¬ ∃ its, Forall2 (conano_content ns (Some a)) kids its).
    { intros (its & H). eapply HC. econstructor; [exact Hname|apply split_words_in|exact H|apply split_words_in]. }
    assert (HL : ∃ s e, loop (conano_add (Some a) (NStr i)) kids (g3, (1 + wcount wk3)%Z) = (s, Some e) ∧ (e = KeyError ∨ e = AttributeError)).
    { clear HC HI2 HP2 HP E1 E2 HI. clearbody wk3. revert wk3 g3 HI3 HP3. clear wk2 g g1 g2 Hn1. induction IH as [|k kids Hk _ IHk]; intros wk3 g3 HI3 HP3; [exfalso; apply HK; by exists []|]. cbn [loop].
      destruct (conano_content_dec ns k (Some a)) as [[it Hit]|Hno].
      - destruct (conano_add_ok name ns k _ _ Hit wk3 g3 (NStr i) (parent :: rest) HI3 HP3) as (g4 & -> & HI4); [by eapply named_not_root|].
        apply (IHk ltac:(intros (its & H); apply HK; exists (it :: its); by constructor) _ g4 HI4). by apply present_app.
      - destruct (Hk (Some a) Hno wk3 g3 (NStr i) HI3 HP3) as (s & e & -> & He); [by eapply named_not_root|]. by exists s, e. }
    destruct HL as (s & e & -> & He). by exists s, e.
  Qed.
  Lemma read_conano_missing check precedence x : (∀ items, ¬ conano_content ns None x items) → ∃ g e, read_conano name ns check precedence x = (g, Some e) ∧ (e = KeyError ∨ e = AttributeError).
  Proof.
    intros HC. destruct (conano_add_missing x None HC [] _ root (importing_start name ns)) as ([g k] & e & E & He); [left; left|apply root_not_root|].
    exists g, e. split; [|done]. unfold read_conano. change (g_root (set_name name (init_graph "" ns None))) with root. change (1 + wcount [])%Z with 1%Z in E. by rewrite E.
  Qed.
End missing.

(** ** The validity check *)
Lemma conano_check_ok g toks ss plain : Forall2 (token_is g) toks ss →
  (plain `prefix_of` (chs <$> ss) → conano_check g plain toks = Ok true) ∧ (¬ plain `prefix_of` (chs <$> ss) → conano_check g plain toks = Err IndexError).
Proof.
  intros HF. revert plain. induction HF as [|t s toks ss Ht _ IH]; intros [|p plain]; cbn [conano_check].
  - split; [done|]. intros H. exfalso. apply H. exists []. done.
  - split; [|done]. intros [r [=]].
  - split; [done|]. intros H. exfalso. apply H. by exists (chs <$> s :: ss).
  - cbn [head of_option]. apply token_str_is in Ht. cbn. rewrite Ht. cbn. destruct (decide (p = chs s)) as [->|Hne].
    + destruct (IH plain) as [H1 H2]. split; intros H.
      * apply H1. destruct H as [r E]. injection E as E. by exists r.
      * apply H2. intros [r E]. apply H. exists r. cbn. f_equal. exact E.
    + split; [|done]. intros [r E]. injection E as E _. by rewrite E in Hne.
Qed.
Definition nonblank (s : list ascii) : list ascii := filter (λ c, is_space c = false) s.
Lemma nonblank_app a b : nonblank (a ++ b) = nonblank a ++ nonblank b.
Proof. apply filter_app. Qed.
Lemma nonblank_word w : is_word w → nonblank w = w.
Proof. intros [_ H]. unfold nonblank. induction H as [|c w Hc _ IH]; [done|]. rewrite filter_cons_True by done. by rewrite IH. Qed.
Lemma nonblank_words s ws : words_in s ws → concat ws = nonblank s.
Proof.
  induction 1 as [|c s ws Hc _ IH|w Hw|w c s ws Hw Hc _ IH]; [done| | |].
  - unfold nonblank. rewrite filter_cons_False by (by rewrite Hc). exact IH.
  - cbn [concat]. rewrite app_nil_r. by rewrite nonblank_word.
  - cbn [concat]. rewrite nonblank_app, nonblank_word by done. f_equal. unfold nonblank. rewrite filter_cons_False by (by rewrite Hc). exact IH.
Qed.
Lemma xml_text_plain x : ∀ t, plain_text x t ↔ t = xml_text x.
Proof.
  induction x as [tag a text kids tail IH] using xml_ind'. intros t. cbn [xml_text].
  assert (HK : ∀ ts, Forall2 plain_text kids ts ↔ ts = map xml_text kids).
  { induction IH as [|k kids Hk _ IHk]; intros ts.
    - split; [by intros ->%Forall2_nil_inv_l|intros ->; constructor].
    - split.
      + intros H. inversion H as [|? y ? ys H1 H2]; subst. cbn. f_equal; [by apply Hk|by apply IHk].
      + intros ->. constructor; [by apply Hk|by apply IHk]. }
  split.
  - intros H. inversion H as [? ? ? ? ? ts Hts]; subst. apply HK in Hts as ->. done.
  - intros ->. constructor. by apply HK.
Qed.
Lemma part_words_path it : ∀ path path', part_words (walk path it) = part_words (walk path' it).
Proof.
  induction it as [w a|i l its IH] using item_ind'; intros path path'; [done|]. cbn [walk].
  change (part_words (concat (map (walk (NStr i :: path)) its)) = part_words (concat (map (walk (NStr i :: path')) its))).
  induction IH as [|it its Hit _ IHits]; [done|]. cbn [map concat]. rewrite !part_words_app. by rewrite (Hit _ (NStr i :: path')), IHits.
Qed.
Lemma part_words_all its path path' : part_words (walk_all path its) = part_words (walk_all path' its).
Proof. unfold walk_all. induction its as [|it its IH]; [done|]. cbn [map concat]. rewrite !part_words_app. by rewrite (part_words_path it path path'), IH. Qed.
Lemma words_of_app a b : words_of (a ++ b) = words_of a ++ words_of b.
Proof. unfold words_of. by rewrite walk_all_app, part_words_app, fmap_app. Qed.
Lemma words_of_words ws : words_of (word_items ws) = ws.
Proof.
  unfold words_of. rewrite walk_words. unfold word_parts. induction ws as [|w ws IH]; [done|]. rewrite fmap_cons. change (part_words (([], PWord (str w) []) :: ?l)) with (str w :: part_words l).
  rewrite fmap_cons, IH. by rewrite chs_str.
Qed.
Lemma words_of_node i l its : words_of [INode i l its] = words_of its.
Proof. unfold words_of. unfold walk_all at 1. cbn [map concat walk]. rewrite app_nil_r. f_equal. change (part_words (walk_all [NStr i] its) = part_words (walk_all [] its)). apply part_words_all. Qed.
Lemma content_words ns x : ∀ pa items, conano_content ns pa x items → concat (words_of items) = nonblank (xml_text x) ∧ Forall is_word (words_of items).
Proof.
  induction x as [tag a text kids tail IH] using xml_ind'. intros pa items HC.
  inversion HC as [? ? ? ? ? ? i layers ws its ws' Hname Hws Hkids Hws']; subst.
  change (INode i layers (word_items ws ++ concat its) :: word_items ws') with ([INode i layers (word_items ws ++ concat its)] ++ word_items ws').
  rewrite words_of_app, words_of_node, words_of_app, !words_of_words, !concat_app. cbn [xml_text]. rewrite !nonblank_app.
  rewrite (nonblank_words _ _ Hws), (nonblank_words _ _ Hws').
  assert (HK : concat (words_of (concat its)) = nonblank (concat (map xml_text kids)) ∧ Forall is_word (words_of (concat its))).
  { clear -IH Hkids. revert its Hkids. induction IH as [|k kids Hk _ IHk]; intros its Hkids; [inversion Hkids; split; [done|apply List.Forall_nil]|].
    inversion Hkids as [|? it ? its' Hit Hkids']; subst. cbn [concat map]. rewrite words_of_app, concat_app, nonblank_app. destruct (Hk _ _ Hit) as [-> H1], (IHk _ Hkids') as [-> H2]. split; [done|by apply Forall_app]. }
  destruct HK as [-> HW]. split; [by rewrite (assoc_L (++))|]. apply Forall_app. split; [apply Forall_app; split; [by eapply words_are|done]|by eapply words_are].
Qed.
Lemma prefix_words (a b : list chars) : a `prefix_of` b → concat a = concat b → Forall is_word b → a = b.
Proof.
  intros [r ->] E HF. rewrite concat_app in E. rewrite <-(app_nil_r (concat a)) in E at 1. apply app_inv_head in E. apply Forall_app in HF as [_ HF].
  destruct r as [|w r]; [by rewrite app_nil_r|]. apply Forall_cons in HF as [[Hw _] _]. cbn in E. symmetry in E. apply app_eq_nil in E as [E _]. done.
Qed.
Lemma read_conano_check name ns x items g : conano_content ns None x items → read_conano name ns false false x = (g, None) →
  (words_in (xml_text x) (words_of items) → read_conano name ns true false x = (g, None)) ∧
  (¬ words_in (xml_text x) (words_of items) → read_conano name ns true false x = (g, Some IndexError)).
Proof.
  intros HC E. destruct (read_conano_ok name ns x items HC) as (g' & E' & HI). rewrite E in E'. injection E' as <-.
  assert (HR : read_conano name ns true false x = match conano_is_valid g x with Ok true => (g, None) | Ok false => (g, Some AssertionError) | Err e => (g, Some e) end).
  { revert E. unfold read_conano. destruct (conano_add _ _ _ _) as [[g1 k] [e|]]; [done|]. by intros [= ->]. }
  rewrite HR. unfold conano_is_valid. pose proof (importing_text _ _ _ _ _ _ _ HI) as HT. destruct (conano_check_ok g _ _ (split_blanks (xml_text x)) HT) as [H1 H2].
  assert (EW : chs <$> part_words (walk_all [conano_root ns] items) = words_of items) by (unfold words_of; f_equal; apply part_words_all). rewrite EW in H1, H2.
  destruct (content_words _ _ _ _ HC) as [HCW HW]. split; intros HWI.
  - rewrite H1; [done|]. by rewrite (words_in_split _ _ HWI).
  - rewrite H2; [done|]. intros Hp. apply HWI. rewrite <-(prefix_words _ _ Hp); [apply split_words_in| |done]. rewrite HCW. apply nonblank_words, split_words_in.
Qed.

(** ** Queries *)
Section queries.
  Context (name ns : string) (items : list item) (g : graph).
  Let st := conano_style ns.
  Let root := conano_root ns.
  Let base := conano_base ns.
  Context (HI : importing name st base ns root (walk_all [root] items) g).
  Let ps := conano_parts ns items.
  Lemma conano_consistent : Consistent g.
  Proof. apply (importing_inv _ _ _ _ _ _ _ HI). Qed.
  Lemma conano_imported : imported st base ps g.
  Proof. exact (importing_imported _ _ _ _ _ _ _ HI). Qed.
  Lemma conano_nested : nested (g_root g) ps.
  Proof. rewrite (ig_root _ _ _ _ _ _ _ HI). apply outline_nested. Qed.
  Lemma conano_root_in : g_root g ∈ ids base.
  Proof. rewrite (ig_root _ _ _ _ _ _ _ HI). left. Qed.
  Lemma conano_span n : ids_ok [root] ps → n ∈ nodes g → (∀ path w extra, (path, n, PWord w extra) ∉ ps) →
    ∀ k, length (nodes g) < k → get_span k g n = Ok (tokens_in n ps).
  Proof.
    intros Hok Hn Hw k Hk. apply (outline_span st base (walk_all [root] items) g n conano_consistent conano_imported conano_nested conano_root_in); try done.
    vm_compute. intros c [= <-]. done.
  Qed.
  Lemma conano_members n : ids_coherent [root] ps → n ∈ nodes g → (∀ path w extra, (path, n, PWord w extra) ∉ ps) →
    ∃ l, (∀ k, length (nodes g) < k → get_span k g n = Ok l) ∧ sorted nat_cmp l ∧ ∀ t, t ∈ l ↔ t ∈ tokens_in n ps.
  Proof. intros Hc. by apply (outline_span_elem st base ps g conano_consistent conano_imported conano_nested conano_root_in Hc). Qed.
  Lemma ns_suffix a b : ns +:+ a = ns +:+ b → a = b.
  Proof. intros E. apply (f_equal chs) in E. rewrite !chs_app in E. apply app_inv_head, chs_inj in E. done. Qed.
  Lemma ns_longer a : a ≠ "" → ns ≠ ns +:+ a.
  Proof. intros Ha E. apply (f_equal (λ s, length (chs s))) in E. rewrite chs_app, app_length in E. destruct a; [done|]. cbn in E. lia. Qed.
  Lemma conano_units_ok : ids_ok [root] ps → ∀ k, length (nodes g) < k →
    ∃ l, conano_units k g ns = Ok ((λ n, (n, tokens_in n ps)) <$> l) ∧ sorted nat_cmp l ∧ NoDup l ∧
      ∀ n, n ∈ l ↔ ∃ path i layers, (path, n, PNode i layers) ∈ ps ∧ ns +:+ ":unit" ∈ layers.
  Proof.
    intros Hok k Hk. destruct (importing_inv _ _ _ _ _ _ _ HI) as [C L]. destruct (nodes_by_layer_ok g (LOne (ns +:+ ":unit")) C L) as (r & Er & Hs & Hr).
    assert (HM : ∀ n, n ∈ r ↔ ∃ path i layers, (path, n, PNode i layers) ∈ ps ∧ ns +:+ ":unit" ∈ layers).
    { intros n. rewrite Hr. cbn [layer_ok]. split.
      - intros (a & Ha & HL). apply (im_layers _ _ _ _ conano_imported n a Ha) in HL as [(l & b & Hb & Hy)|(path & p & Hp & Hy)].
        + apply elem_of_list_singleton in Hb as [= -> -> ->]. apply elem_of_list_singleton in Hy. exfalso. by eapply (ns_longer ":unit").
        + rewrite (ig_ns _ _ _ _ _ _ _ HI) in Hy. destruct p as [w extra|i layers]; [|by eexists _, _, _]. cbn in Hy. apply elem_of_cons in Hy as [Hy|Hy]; [exfalso; by eapply (ns_longer ":unit")|].
          apply elem_of_list_singleton in Hy. apply ns_suffix in Hy. discriminate Hy.
      - intros (path & i & layers & Hp & Hy). assert (Hn : n ∈ nodes g) by (apply (im_nodes _ _ _ _ conano_imported); right; by eexists _, _). apply node_mem in Hn as [a Ha]. exists a. split; [done|].
        apply (im_layers _ _ _ _ conano_imported n a Ha). right. by exists path, (PNode i layers). }
    exists (nat_sorted r). unfold conano_units. rewrite Er. cbn. split; [|split; [|split]].
    - apply rmap_Ok. apply Forall2_fmap_r, Forall_Forall2_diag, Forall_forall. intros n Hn. rewrite nat_sorted_perm in Hn. pose proof Hn as Hn'. apply HM in Hn' as (path & i & layers & Hp & _).
      rewrite conano_span; [done|done| | |done].
      + apply (im_nodes _ _ _ _ conano_imported). right. by eexists _, _.
      + intros path' w extra Hw. destruct (ids_ok_coherent _ _ Hok) as [Hc _]. destruct (Hc _ _ _ _ _ Hp Hw) as [_ [=]].
    - apply nat_sorted_sorted.
    - rewrite nat_sorted_perm. eapply NoDup_sub; [exact Hs|apply C].
    - intros n. by rewrite nat_sorted_perm.
  Qed.
  Lemma conano_connective_ok i ty ss : ids_coherent [root] ps → NStr (i +:+ ":connective") ∈ nodes g → (∀ path w extra, (path, NStr (i +:+ ":connective"), PWord w extra) ∉ ps) →
    ":"%char ∉ chs i → ":"%char ∉ chs ty → ∀ k, length (nodes g) < k →
    ∀ l, get_span k g (NStr (i +:+ ":connective")) = Ok l → Forall2 (token_is g) l ss →
    conano_connective k g (chs i ++ ":"%char :: chs ty) = Ok (SpecQuery.joined ((λ s, str (to_lower <$> chs s)) <$> ss)).
  Proof.
    intros Hc Hn Hw Hi Hty k Hk l El HF. unfold conano_connective. rewrite split_char_app by done. rewrite split_char_no by done.
    rewrite <-chs_app, str_chs. rewrite El. cbn.
    assert (ER : rmap (λ t, let! s := token_str g t in Ok (str (lower (chs s)))) l = Ok ((λ s, str (to_lower <$> chs s)) <$> ss)).
    { apply rmap_Ok. clear -HF. induction HF as [|t s l ss Ht _ IH]; constructor; [|exact IH]. apply token_str_is in Ht. rewrite Ht. cbn. unfold lower. do 2 f_equal. apply list_fmap_ext. intros. apply lower_table. }
    rewrite ER. cbn. by rewrite join_sp_joined.
  Qed.
End queries.
