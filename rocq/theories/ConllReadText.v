(** * ConllReadText: lines, rows and features of CoNLL files *)
From Verif Require Import PyBase DocGraph Relabel StrNum Query Text TextFacts Rst Nltk NltkFacts SpecGraph SpecQuery SpecParse ParseFacts DisText Parsers SpecConll ConllRead SpecConllRead.

(** ** Blanks around the text *)
Lemma strip_solid pre s post : white pre → white post → solid s → strip (pre ++ s ++ post) = s.
Proof.
  intros Hpre Hpost [(c & Hc & Hcs) (d & Hd & Hds)]. rewrite strip_spaces_l by done. unfold strip.
  destruct s as [|c' s]; [done|]. injection Hc as ->. cbn [app]. rewrite lstrip_id by done.
  change (c :: s ++ post) with ((c :: s) ++ post). rewrite reverse_app.
  assert (HR : Forall (λ c, Rst.is_space c = true) (reverse post)) by (by rewrite Forall_reverse).
  assert (E : lstrip (reverse post ++ reverse (c :: s)) = lstrip (reverse (c :: s))).
  { induction HR as [|x l Hx _ IH]; [done|]. cbn [app lstrip]. by rewrite Hx. }
  rewrite E. clear E HR. destruct (reverse (c :: s)) as [|e r] eqn:Er.
  - apply (f_equal length) in Er. rewrite reverse_length in Er. cbn in Er. lia.
  - apply (f_equal reverse) in Er. rewrite reverse_involutive in Er. rewrite Er in Hd |- *. rewrite last_reverse in Hd. injection Hd as ->. by rewrite lstrip_id.
Qed.

(** ** Sentences *)
(** no blank line inside, none at the ends *)
Definition tight (s : chars) : Prop := s ≠ [] ∧ head s ≠ Some nl ∧ last s ≠ Some nl ∧ ∀ a b, s ≠ a ++ nl :: nl :: b.
Lemma lstrip_split s : ∃ pre, white pre ∧ s = pre ++ lstrip s ∧ (lstrip s = [] ∨ ∃ c, head (lstrip s) = Some c ∧ Rst.is_space c = false).
Proof.
  induction s as [|c s (pre & H1 & H2 & H3)]; [exists []; split; [constructor|by split; [|left]]|]. cbn [lstrip]. destruct (Rst.is_space c) eqn:Ec.
  - exists (c :: pre). split; [by constructor|]. split; [cbn; by rewrite <-H2|done].
  - exists []. split; [constructor|]. split; [done|]. right. by exists c.
Qed.
Lemma strip_split s : ∃ pre post, white pre ∧ white post ∧ s = pre ++ strip s ++ post ∧ (strip s = [] ∨ solid (strip s)).
Proof.
  destruct (lstrip_split s) as (pre & H1 & H2 & H3). destruct (lstrip_split (reverse (lstrip s))) as (post & H4 & H5 & H6). fold (strip s). exists pre, (reverse post).
  assert (E : lstrip s = strip s ++ reverse post). { unfold strip. rewrite <-reverse_app, <-H5. by rewrite reverse_involutive. }
  split; [done|]. split; [by apply Forall_reverse|]. split; [by rewrite <-E|].
  destruct H6 as [H6|(d & Hd & Hds)]; [left; unfold strip; by rewrite H6|]. right. split.
  - destruct H3 as [H3|(c & Hc & Hcs)]; [rewrite H3 in Hd; by cbn in Hd|]. exists c. split; [|done]. rewrite E in Hc. destruct (strip s) eqn:Es; [|done]. unfold strip in Es. apply (f_equal reverse) in Es. rewrite reverse_involutive in Es. rewrite Es in Hd. done.
  - exists d. split; [|done]. unfold strip. rewrite last_reverse. done.
Qed.

Lemma is_integer_int s z : is_integer s z ↔ int_of s = Ok z.
Proof.
  assert (HDS : ∀ c, is_digit c = true → Rst.is_space c = false) by (intros c H; destruct c as [[] [] [] [] [] [] [] []]; vm_compute in H |- *; congruence).
  assert (Hdig : ∀ d, d ≠ [] → Forall (λ c, is_digit c = true) d → py_int d = Ok (Z.of_N (dec_val d))) by apply py_int_digits.
  assert (HB : ∀ d : chars, all_digits_b d = true ↔ Forall (λ c, is_digit c = true) d) by (intros d; unfold all_digits_b; rewrite forallb_forall, Forall_forall; split; intros H c Hc; apply H, elem_of_list_In, Hc).
  unfold int_of. split.
  - intros (pre & sign & ds & post & Hp & Hq & -> & Hne & HF & Hz). rewrite (app_assoc sign), strip_solid; [|done|done|].
    + assert (HD : (if decide (ds = []) then Err ValueError else if all_digits_b ds then Ok (Z.of_N (dec_val ds)) else Err ValueError) = Ok (Z.of_N (dec_val ds))) by (rewrite decide_False by done; by rewrite (proj2 (HB ds) HF)).
      destruct Hz as [[[-> | ->] ->]|[-> ->]]; cbn [app]; [by apply Hdig|cbn [py_int]; exact HD|cbn [py_int]; rewrite HD; reflexivity].
    + split.
      * destruct Hz as [[[-> | ->] _]|[-> _]]; [|by eexists..]. destruct ds as [|c ds]; [done|]. exists c. split; [done|]. apply Forall_cons in HF as [Hc _]. by apply HDS.
      * destruct (last ds) as [c|] eqn:El; [|by apply last_None in El]. exists c. rewrite last_app, El. split; [done|]. apply HDS. apply last_Some_elem_of in El. rewrite Forall_forall in HF. by apply HF.
  - intros H. destruct (strip_split s) as (pre & post & Hp & Hq & Es & _). rewrite Es at 1. revert H. generalize (strip s) as d. intros d H.
    assert (HD : ∀ (d : chars) y, (if decide (d = []) then Err ValueError else if all_digits_b d then Ok (Z.of_N (dec_val d)) else Err ValueError) = Ok y → d ≠ [] ∧ Forall (λ c, is_digit c = true) d ∧ y = Z.of_N (dec_val d)).
    { intros e y. destruct (decide (e = [])); [done|]. destruct (all_digits_b e) eqn:E; [|done]. intros [= <-]. split; [done|]. split; [by apply HB|done]. }
    assert (HC : (∃ e, d = "-"%char :: e) ∨ (∃ e, d = "+"%char :: e) ∨ py_int d = (if decide (d = []) then Err ValueError else if all_digits_b d then Ok (Z.of_N (dec_val d)) else Err ValueError)).
    { destruct d as [|c d]; [by right; right|]. destruct (decide (c = "-"%char)) as [->|H1]; [left; by eexists|]. destruct (decide (c = "+"%char)) as [->|H2]; [right; left; by eexists|]. right. right.
      destruct c as [[] [] [] [] [] [] [] []]; first [reflexivity|by destruct H1|by destruct H2]. }
    destruct HC as [(e & ->)|[(e & ->)|E]].
    + cbn [py_int] in H. destruct (decide (e = [])) as [|He] eqn:Ed in H; [done|]. destruct (all_digits_b e) eqn:Ea; [|done]. cbn [rbind] in H. injection H as <-. exists pre, ["-"%char], e, post. split_and!; try done; [by apply HB|by right].
    + cbn [py_int] in H. apply HD in H as (H1 & H2 & ->). exists pre, ["+"%char], e, post. split_and!; try done. left. split; [by right|done].
    + rewrite E in H. apply HD in H as (H1 & H2 & ->). exists pre, [], d, post. split_and!; try done. left. split; [by left|done].
Qed.
Lemma split_two c d s : split_paragraphs (c :: d :: s) =
  if decide (c = nl ∧ d = nl) then [] :: split_paragraphs s else match split_paragraphs (d :: s) with p :: ps => (c :: p) :: ps | [] => [[c]] end.
Proof. reflexivity. Qed.
Lemma tight_end s : tight s → split_paragraphs s = [s].
Proof.
  intros (Hne & Hh & Hl & Hn). clear Hh. induction s as [|c s IH]; [done|]. destruct s as [|d s]; [done|]. 
  rewrite split_two, decide_False; [|intros [-> ->]; apply (Hn [] s); done]. rewrite IH; [done|done|done|].
  intros a b E. apply (Hn (c :: a) b). by rewrite E.
Qed.
Lemma tight_app s t : tight s → t ≠ [] → head t ≠ Some nl → split_paragraphs (s ++ nl :: nl :: t) = s :: split_paragraphs t.
Proof.
  intros (Hne & Hh & Hl & Hn) Ht Hth. clear Hh. induction s as [|c s IH]; [done|]. destruct s as [|d s].
  - cbn [app]. rewrite split_two, decide_False by (intros [-> _]; done). rewrite split_two, decide_True by done. done.
  - cbn [app] in *. rewrite split_two, decide_False; [|intros [-> ->]; apply (Hn [] s); done].
    rewrite IH; [done|done|done|].
    intros a b E. apply (Hn (c :: a) b). by rewrite E.
Qed.
Lemma joined_two sep a b l : joined sep (a :: b :: l) = a ++ sep ++ joined sep (b :: l).
Proof. reflexivity. Qed.
Lemma split_sentences ps : ps ≠ [] → Forall tight ps → split_paragraphs (joined [newline; newline] ps) = ps.
Proof.
  intros Hne HF. induction HF as [|p ps Hp HF IH]; [done|]. destruct ps as [|q ps]; [by apply tight_end|].
  rewrite joined_two. cbn [app]. change newline with nl in *. rewrite tight_app; [by rewrite IH|done|..].
  - apply Forall_cons in HF as [(Hq & _) _]. destruct q; [done|]. destruct ps; done.
  - apply Forall_cons in HF as [(Hq & Hq' & _) _]. destruct q; [done|]. destruct ps; done.
Qed.
Lemma lines_tight ls : ls ≠ [] → Forall (λ l, l ≠ [] ∧ nl ∉ l) ls → tight (joined [newline] ls).
Proof.
  change newline with nl. intros Hne HF. induction HF as [|l ls [Hl Hnl] HF IH]; [done|]. destruct ls as [|m ls].
  - cbn [joined]. split; [done|]. split; [intros E; apply Hnl; destruct l; [done|injection E as ->; left]|]. split; [intros E; apply Hnl; by apply last_Some_elem_of|].
    intros a b ->. apply Hnl. apply elem_of_app. right. left.
  - destruct IH as (H1 & H2 & H3 & H4); [done|]. cbn [joined]. change (tight (l ++ [nl] ++ joined [nl] (m :: ls))). remember (joined [nl] (m :: ls)) as r eqn:Er. clear Er.
    split; [by destruct l|]. split; [intros E; apply Hnl; destruct l; [done|injection E as ->; left]|]. split.
    + rewrite !last_app. destruct r as [|x r]; [done|]. by destruct (last (x :: r)) eqn:E; [|apply last_None in E].
    + intros a b E. clear H1 H3 Hl Hne. revert a E. induction l as [|c l IHl]; intros a E.
      * cbn [app] in E. destruct a as [|x a]; cbn [app] in E; [injection E as E; rewrite E in H2; done|]. injection E as _ E. by apply (H4 a b).
      * destruct a as [|x a]; cbn [app] in E; [injection E as -> _; apply Hnl; left|]. injection E as _ E. apply (IHl ltac:(intros ?; apply Hnl; by right) a E).
Qed.

(** ** Lines *)
Lemma value_dget fmt c vs v : NoDup (columns fmt) → value fmt c vs v ↔ dget c (zip (columns fmt) (str <$> vs)) = Some v.
Proof.
  unfold value. generalize (columns fmt) as cs. intros cs ND. revert vs. induction ND as [|k cs Hk ND IH]; intros vs.
  - split; [intros (i & H & _); by rewrite lookup_nil in H|done].
  - destruct vs as [|x vs]; [split; [intros (i & _ & H); by rewrite lookup_nil in H|done]|]. rewrite fmap_cons. cbn [zip zip_with dget]. destruct (decide (c = k)) as [->|Hck].
    + split.
      * intros ([|i] & H1 & H2); [injection H2 as ->; by rewrite str_chs|]. destruct Hk. exact (elem_of_list_lookup_2 cs i k H1).
      * intros [= <-]. exists 0. cbn. by rewrite chs_str.
    + rewrite <-IH. split.
      * intros ([|i] & H1 & H2); [by injection H1 as ->|]. by exists i.
      * intros (i & H1 & H2). by exists (S i).
Qed.
Lemma NoDup_columns fmt : NoDup (columns fmt).
Proof. unfold columns. destruct (decide _); apply (bool_decide_unpack _); vm_compute; exact I. Qed.
Lemma columns_model fmt : fmt ∈ ["2009"; "2010"] → conll_columns fmt = columns fmt.
Proof. rewrite !elem_of_cons, elem_of_nil. intros [-> | [-> | []]]; reflexivity. Qed.
Lemma columns_length fmt : 12 < length (columns fmt).
Proof. unfold columns. rewrite app_length. cbn. destruct (decide _); cbn; lia. Qed.
Lemma line_ok_length fmt vs : line_ok fmt (LRow vs) → length (columns fmt) ≤ length vs.
Proof. intros (_ & _ & H & _). destruct (decide _); lia. Qed.
Lemma zip_take {A B} (l : list A) (k : list B) : zip l (take (length l) k) = zip l k.
Proof. revert k. induction l as [|x l IH]; intros [|y k]; cbn; [done..|]. by rewrite IH. Qed.
Lemma parse_line_ok fmt l : fmt ∈ ["2009"; "2010"] → line_ok fmt l →
  conll_parse_line fmt (line_text l) = Ok match l with LComment _ => None | LRow vs => Some (zip (columns fmt) (str <$> vs)) end.
Proof.
  intros Hf Hl. destruct l as [c|vs]; [done|]. pose proof (line_ok_length _ _ Hl) as Hlen. pose proof (columns_length fmt). destruct Hl as (HF & Hh & Hn & _).
  cbn [line_text]. unfold conll_parse_line.
  assert (Es : split_char Brat.tab (joined [tab] vs) = vs).
  { apply split_joined; [intros ->; cbn in Hlen; lia|]. eapply Forall_impl; [exact HF|]. by intros v [? _]. }
  assert (E : ∀ r : res (option (dict string string)), match joined [tab] vs with "#"%char :: _ => Ok None | _ => r end = r).
  { intros r. destruct (joined [tab] vs) as [|c s]; [done|]. destruct c as [[] [] [] [] [] [] [] []]; try reflexivity. by destruct Hh. }
  cbv zeta. rewrite E, Es. clear E Es. rewrite (columns_model _ Hf). unfold conll_row_dict. rewrite (columns_model _ Hf). destruct (decide (fmt = "2009")) as [->|H9].
  - change (length (columns "2009")) with 14 in *. rewrite decide_True by (rewrite take_length; lia). rewrite fmap_take. by rewrite (zip_take (columns "2009")).
  - rewrite decide_True; [done|]. apply elem_of_cons in Hf as [?|Hf%elem_of_list_singleton]; [done|]. subst. by rewrite decide_True in Hn.
Qed.
Lemma line_text_ok fmt l : line_ok fmt l → line_text l ≠ [] ∧ nl ∉ line_text l.
Proof.
  intros Hl. destruct l as [c|vs].
  - split; [done|]. cbn [line_text]. intros [H|H]%elem_of_cons; [done|]. by apply Hl.
  - pose proof (line_ok_length _ _ Hl) as Hlen. pose proof (columns_length fmt). destruct Hl as (HF & _). cbn [line_text]. split.
    + destruct vs as [|v [|v' vs]]; [cbn in Hlen; lia|cbn in Hlen; lia|]. cbn [joined]. intros E. apply app_eq_nil in E as [_ E]. done.
    + clear Hlen H. intros H. induction HF as [|v vs [Hv1 Hv2] HF IH]; [by apply elem_of_nil in H|]. destruct vs as [|v' vs]; [by apply Hv2|].
      cbn [joined] in H. apply elem_of_app in H as [H|H]; [by apply Hv2|]. cbn [app] in H. apply elem_of_cons in H as [H|H]; [done|]. by apply IH.
Qed.
Lemma readable_nonempty fmt doc : readable fmt doc → doc ≠ [].
Proof. intros [_ [(c & Hc & _) _]] ->. done. Qed.
Lemma read_text fmt doc text : readable fmt doc → written doc text →
  split_paragraphs (strip text) = sentence_text <$> doc ∧ Forall (λ ls, split_char nl (sentence_text ls) = line_text <$> ls) doc.
Proof.
  intros HR (pre & post & Hpre & Hpost & ->). pose proof (readable_nonempty _ _ HR) as Hne. destruct HR as [HF Hs]. rewrite strip_solid by done. split.
  - apply split_sentences; [by destruct doc|]. apply Forall_fmap. eapply Forall_impl; [exact HF|]. intros ls [Hls HL]. cbn. apply lines_tight; [by destruct ls|].
    apply Forall_fmap. eapply Forall_impl; [exact HL|]. intros l Hl. by eapply line_text_ok.
  - eapply Forall_impl; [exact HF|]. intros ls [Hls HL]. cbn. apply split_joined; [by destruct ls|]. apply Forall_fmap. eapply Forall_impl; [exact HL|]. intros l Hl. by eapply (line_text_ok fmt).
Qed.

(** ** Features *)
Definition put (ns : string) (o : option (string * pyval)) (d : attrs) : attrs := match o with Some f => dset (ns +:+ ":" +:+ f.1) f.2 d | None => d end.
Lemma category_known v c : conll_category morphological_features v = Some c → ∃ f, (v, f) ∈ known_values.
Proof.
  unfold morphological_features. cbn [conll_category]. intros H.
  assert (Hm : ∀ l, v ∈ l → l ⊆ known_values.*1 → ∃ f, (v, f) ∈ known_values).
  { intros l Hv Hl. apply Hl, elem_of_list_fmap in Hv as ([v' f] & -> & Hf). by exists f. }
  repeat (destruct (decide _) as [Hd|_] in H; [apply (Hm _ Hd); unfold known_values; rewrite !fmap_cons; cbn [fst]; intros x; rewrite !elem_of_cons; tauto|]). done.
Qed.
Lemma val_only_ok ns p o d : value_feature p o → val_only_feature ns p d = Ok (put ns o d).
Proof.
  intros [v f Hf|v Hn].
  - unfold known_values in Hf. repeat (apply elem_of_cons in Hf as [Hf|Hf]; [injection Hf as -> ->; reflexivity|]). by apply elem_of_nil in Hf.
  - unfold val_only_feature. rewrite str_chs. destruct (conll_category _ v) as [c|] eqn:E; [|done]. apply category_known in E as (f & Hf). by apply Hn in Hf.
Qed.
Lemma split_count c (s : list ascii) : length (split_char c s) = S (length (filter (λ x, x = c) s)).
Proof.
  induction s as [|x s IH]; [done|]. rewrite filter_cons. cbn [split_char]. destruct (decide (x = c)) as [->|]; [cbn [length]; by rewrite IH|].
  destruct (split_char c s); [done|]. exact IH.
Qed.
Lemma split_inv c s ps : split_char c s = ps → ps ≠ [] ∧ Forall (λ p, c ∉ p) ps ∧ s = joined [c] ps.
Proof.
  revert ps. induction s as [|x s IH]; intros ps <-; cbn [split_char].
  - split; [done|]. split; [|done]. constructor; [apply not_elem_of_nil|constructor].
  - destruct (IH _ eq_refl) as (H1 & H2 & H3). destruct (decide (x = c)) as [->|Hx].
    + split; [done|]. split; [constructor; [apply not_elem_of_nil|done]|]. destruct (split_char c s) as [|p ps]; [done|]. rewrite joined_two. cbn [app]. by rewrite <-H3.
    + destruct (split_char c s) as [|p ps]; [done|]. split; [done|]. apply Forall_cons in H2 as [H2 H4]. split.
      * constructor; [|done]. intros [E|E]%elem_of_cons; [by rewrite E in Hx|done].
      * destruct ps as [|q ps]; [cbn in *; by rewrite <-H3|]. rewrite joined_two in *. cbn [app]. by rewrite H3.
Qed.
Lemma split_pair c a v : c ∉ a → c ∉ v → split_char c (a ++ c :: v) = [a; v].
Proof. intros Ha Hv. rewrite split_char_app by done. by rewrite split_char_no. Qed.
Lemma named_ok ns p o d : named_feature p o → attrib_val_feature ns p d = put ns o d.
Proof.
  intros H. unfold attrib_val_feature. destruct H as [a v Ha Hv Hp Hs|a Ha Hp|v z Hv Hz|v Hv Hz|s Hs].
  - rewrite split_pair by done. cbv zeta. rewrite decide_False by done. by rewrite decide_False.
  - rewrite split_pair by (done || (apply (bool_decide_unpack _); vm_compute; exact I)). cbv zeta. rewrite decide_False by done. by rewrite decide_True.
  - rewrite split_pair; [|apply (bool_decide_unpack _); vm_compute; exact I|done]. cbv zeta. rewrite decide_True by done. apply is_integer_int in Hz. by rewrite Hz.
  - rewrite split_pair; [|apply (bool_decide_unpack _); vm_compute; exact I|done]. cbv zeta. rewrite decide_True by done. destruct (int_of v) as [z|e] eqn:Ei; [by apply is_integer_int, Hz in Ei|done].
  - pose proof (split_count "="%char s) as Hc. destruct (split_char "="%char s) as [|a [|b [|c l]]]; [done|done| |done]. cbn in Hc. exfalso. apply Hs. lia.
Qed.
Lemma named_total (p : list ascii) : ∃ o, named_feature p o.
Proof.
  destruct (decide (length (filter (λ c, c = "="%char) p) = 1)) as [E|E]; [|exists None; by apply NF_no_pair].
  pose proof (split_count "="%char p) as Hc. rewrite E in Hc. destruct (split_char "="%char p) as [|a [|v [|c l]]] eqn:Es; [done|done| |done].
  apply split_inv in Es as (_ & HF & ->). rewrite joined_two. cbn [app joined]. apply Forall_cons in HF as [Ha HF]. apply Forall_cons in HF as [Hv _].
  destruct (decide (a = chs "person")) as [->|Hp].
  - destruct (int_of v) as [z|e] eqn:Ei; [exists (Some ("person", VInt z)); apply NF_person; [done|by apply is_integer_int]|]. exists None. apply NF_no_person; [done|]. intros z Hz%is_integer_int. congruence.
  - destruct (decide (v = chs "*")) as [->|Hv']; [exists None; by apply NF_star|]. eexists. by apply NF_pair.
Qed.
Lemma value_total p : ∃ o, value_feature p o.
Proof.
  rewrite <-(chs_str p). generalize (str p) as v. clear p. intros v. destruct (decide (v ∈ known_values.*1)) as [H|H].
  - apply elem_of_list_fmap in H as ([v' f] & -> & Hf). exists (Some f). by apply VF_known.
  - exists None. apply VF_unknown. intros f Hf. apply H. exact (elem_of_list_fmap_1 fst _ _ Hf).
Qed.
Lemma features_total s : ∃ fs, features s fs.
Proof.
  destruct (split_inv "|"%char s _ eq_refl) as (H1 & H2 & H3). remember (split_char "|"%char s) as ps eqn:Eps. clear Eps.
  assert (∃ os, Forall2 (if decide ("="%char ∈ s) then named_feature else value_feature) ps os) as (os & Hos).
  { clear H1 H2 H3. induction ps as [|p ps (os & IH)]; [exists []; constructor|].
    assert (∃ o, (if decide ("="%char ∈ s) then named_feature else value_feature) p o) as (o & Ho) by (destruct (decide _); [apply named_total|apply value_total]).
    exists (o :: os). by constructor. }
  by exists (omap id os), ps, os.
Qed.
Definition put_all (ns : string) (fs : list (string * pyval)) (d : attrs) : attrs := foldl (λ d f, put ns (Some f) d) d fs.
Lemma morph_ok ns s fs d : features s fs → morph_features ns s d = Ok (put_all ns fs d).
Proof.
  intros (ps & os & HF & Hne & -> & HO & ->). unfold morph_features. rewrite split_joined by done.
  destruct (decide _) as [_|_].
  - f_equal. clear -HO. revert d. induction HO as [|p o ps os Hp _ IH]; intros d; [done|]. cbn [foldl]. rewrite (named_ok _ _ _ _ Hp), IH. by destruct o.
  - clear -HO. revert d. induction HO as [|p o ps os Hp _ IH]; intros d; [done|]. cbn [rfold]. rewrite (val_only_ok _ _ _ _ Hp). cbn [rbind]. rewrite IH. by destruct o.
Qed.
Lemma dget_put_all ns fs d key : dget key (put_all ns fs d) = dget key (reverse ((λ f : string * pyval, (ns +:+ ":" +:+ f.1, f.2)) <$> fs) ++ d).
Proof.
  revert d. induction fs as [|f fs IH]; intros d; [done|]. unfold put_all in *. cbn [foldl]. rewrite IH, fmap_cons, reverse_cons, <-app_assoc, !dget_app.
  destruct (dget key (reverse _)); [done|]. cbn [put]. rewrite dget_dset. cbn [app dget fst snd]. by destruct (decide _).
Qed.

(** ** Rows *)
Lemma word_total o vs : options_ok o → line_ok (co_format o) (LRow vs) → ∃ w, word_of o vs w.
Proof.
  intros HO HL. pose proof (line_ok_length _ _ HL) as Hlen. destruct HL as (_ & _ & _ & w & z & Hw & Hz).
  assert (Hcol : ∀ c, c ∈ columns (co_format o) → ∃ v, value (co_format o) c vs v).
  { intros c (i & Hi)%elem_of_list_lookup. destruct (lookup_lt_is_Some_2 vs i) as (v & Hv); [apply lookup_lt_Some in Hi; lia|]. exists (str v), i. by rewrite chs_str. }
  destruct (Hcol "token") as (t & Ht). { unfold columns. apply elem_of_app. left. right. left. }
  destruct (Hcol _ (oo_head _ HO)) as (h & Hh). destruct (Hcol _ (oo_deprel _ HO)) as (d & Hd). destruct (Hcol _ (oo_feat _ HO)) as (f & Hf).
  destruct (features_total (chs f)) as (fs & Hfs).
  exists (Word w z t h d fs (zip (columns (co_format o)) (str <$> vs))). split_and!; try done. by exists f.
Qed.
Lemma words_total o doc : options_ok o → readable (co_format o) doc → ∃ ws, words_of_doc o doc ws.
Proof.
  intros HO [HF _]. unfold words_of_doc. induction HF as [|ls doc [_ HL] _ (ws & IH)]; [exists []; constructor|].
  assert (∃ l, Forall2 (word_of o) (rows ls) l) as (l & Hl); [|exists (l :: ws); by constructor].
  clear -HO HL. induction HL as [|x ls Hx _ (l & IH)]; [exists []; constructor|]. destruct x as [c|vs]; [by exists l|].
  destruct (word_total o vs HO Hx) as (w & Hw). exists (w :: l). by constructor.
Qed.
Definition raw_attrs (ns : string) (w : word) : attrs :=
  reverse ((λ f : string * pyval, (ns +:+ ":" +:+ f.1, f.2)) <$> w_feats w) ++
  [("word_pos", VInt (w_no w)); ("label", VStr (w_form w)); (ns +:+ ":token", VStr (w_form w))] ++ ((λ p : string * string, (p.1, VStr p.2)) <$> w_values w).
Lemma dget_fmap_str key (l : list (string * string)) : dget key ((λ p : string * string, (p.1, VStr p.2)) <$> l) = VStr <$> dget key l.
Proof. induction l as [|[k v] l IH]; [done|]. rewrite fmap_cons. cbn [dget fst snd]. by case_decide. Qed.
Lemma column_no_colon fmt c : c ∈ columns fmt → ":"%char ∉ chs c.
Proof.
  intros H. assert (HF : Forall (λ c, bool_decide (":"%char ∈ chs c) = false) (columns fmt)).
  { unfold columns. destruct (decide _); repeat (apply List.Forall_cons; [vm_compute; reflexivity|]); apply List.Forall_nil. }
  rewrite Forall_forall in HF. apply HF in H. by apply bool_decide_eq_false in H.
Qed.
Lemma colon_key ns s : ":"%char ∈ chs (ns +:+ ":" +:+ s).
Proof. rewrite !chs_app. apply elem_of_app. right. left. Qed.
Lemma feats_ok o ns vs w : options_ok o → word_of o vs w → ∃ d, conll_feats o ns (w_values w) = Ok d ∧ ∀ key, dget key d = dget key (raw_attrs ns w).
Proof.
  intros HO (Hi & Hz & Ht & _ & _ & (f & Hf & Hfs) & Hv). pose proof (NoDup_columns (co_format o)) as ND.
  rewrite value_dget in Hi, Ht, Hf by done. rewrite <-Hv in Hi, Ht, Hf. unfold conll_feats. rewrite Hi, Ht. cbn [of_option rbind]. apply is_integer_int in Hz. rewrite Hz. cbn [rbind].
  set (base := dupdate _ _). 
  assert (Hb : ∀ key, dget key base = dget key ([("word_pos", VInt (w_no w)); ("label", VStr (w_form w)); (ns +:+ ":token", VStr (w_form w))] ++ ((λ p : string * string, (p.1, VStr p.2)) <$> w_values w))).
  { intros key. unfold base. rewrite dget_dupdate, dget_app. cbn [dget]. destruct (decide (key = ns +:+ ":token")) as [->|H1].
    - rewrite decide_False, decide_False; [done|..]; intros E; pose proof (colon_key ns "token") as H; change (":" +:+ "token") with ":token" in H; rewrite E in H; revert H; apply (bool_decide_unpack _); vm_compute; exact I.
    - destruct (decide (key = "label")) as [->|H2]; [done|]. by destruct (decide _). }
  assert (Ef : dget (co_feat o) base = Some (VStr f)).
  { rewrite Hb, dget_app, dget_fmap_str, Hf. pose proof (oo_feat _ HO) as Hc. pose proof (column_no_colon _ _ Hc) as Hcol. cbn [dget]. rewrite !decide_False; [done|..].
    - intros E. apply Hcol. rewrite E. apply (colon_key ns "token").
    - intros E. rewrite E in Hc. revert Hc. unfold columns. destruct (decide _); apply (bool_decide_unpack _); vm_compute; exact I.
    - intros E. rewrite E in Hc. revert Hc. unfold columns. destruct (decide _); apply (bool_decide_unpack _); vm_compute; exact I. }
  rewrite Ef. cbn [of_option rbind]. rewrite (morph_ok ns _ _ _ Hfs). eexists. split; [reflexivity|]. intros key. rewrite dget_put_all. unfold raw_attrs. rewrite !(dget_app key (reverse _)). by rewrite Hb.
Qed.
