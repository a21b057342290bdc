(** * DisText: from a .dis tree to text and back *)
From Verif Require Import PyBase DocGraph Relabel SpecGraph StrNum Query Text SpecText Rst SpecRst Nltk Dis SpecDis SpanFacts RstLayout RstRead NltkFacts.

(** ** marked words *)
Definition words_tree (ws : list chars) : list ntree := (λ w, NLeaf (str w)) <$> ws.
Definition marked (ws : list chars) : list chars := mark_last (mark_first ws).
Lemma mark_last_join ws : ws ≠ [] → join_words (mark_last ws) = join_words ws ++ mark.
Proof.
  induction ws as [|w ws IH]; [done|]. intros _. destruct ws as [|v ws]; [done|].
  change (mark_last (w :: v :: ws)) with (w :: mark_last (v :: ws)).
  assert (Hne : ∃ a b, mark_last (v :: ws) = a :: b) by (destruct ws; simpl; eauto).
  destruct Hne as (a & b & E). rewrite E. change (join_words (w :: a :: b)) with (w ++ sp :: join_words (a :: b)).
  rewrite <-E, IH by done. cbn [join_words]. by rewrite <-!(assoc_L (++)).
Qed.
Lemma mark_first_join ws : ws ≠ [] → join_words (mark_first ws) = mark ++ join_words ws.
Proof. destruct ws as [|w [|v ws]]; intros H; [done|done|]. cbn [mark_first join_words]. by rewrite <-(assoc_L (++)). Qed.
Lemma marked_join ws : ws ≠ [] → join_words (marked ws) = mark ++ join_words ws ++ mark.
Proof.
  intros H. unfold marked. rewrite mark_last_join by (by destruct ws). rewrite mark_first_join by done. by rewrite <-(assoc_L (++)).
Qed.
Lemma length_mark_last ws : length (mark_last ws) = length ws.
Proof. induction ws as [|w [|v ws] IH]; [done|done|]. change (mark_last (w :: v :: ws)) with (w :: mark_last (v :: ws)). simpl in *. by rewrite IH. Qed.
Lemma length_marked ws : length (marked ws) = length ws.
Proof. unfold marked. rewrite length_mark_last. by destruct ws. Qed.
(** ** join with a separator *)
Fixpoint join_with (sep : chars) (l : list chars) : chars :=
  match l with [] => [] | [w] => w | w :: l' => w ++ sep ++ join_with sep l' end.
Lemma join_with_concat sep l : l ≠ [] → concat ((λ s, sep ++ s) <$> l) = sep ++ join_with sep l.
Proof.
  induction l as [|w l IH]; [done|]. intros _. rewrite fmap_cons. cbn [concat]. destruct l as [|v l]; [cbn [fmap list_fmap concat join_with]; by rewrite app_nil_r|].
  rewrite IH by done. cbn [join_with]. by rewrite <-!(assoc_L (++)).
Qed.
Lemma join_with_words l : join_with [sp] l = join_words l.
Proof. induction l as [|w [|v l] IH]; [done|done|]. cbn [join_with join_words] in *. by rewrite IH. Qed.
Lemma mark_last_with sep ws : ws ≠ [] → join_with sep (mark_last ws) = join_with sep ws ++ mark.
Proof.
  induction ws as [|w ws IH]; [done|]. intros _. destruct ws as [|v ws]; [done|].
  change (mark_last (w :: v :: ws)) with (w :: mark_last (v :: ws)).
  assert (Hne : ∃ a b, mark_last (v :: ws) = a :: b) by (destruct ws; simpl; eauto).
  destruct Hne as (a & b & E). rewrite E. change (join_with sep (w :: a :: b)) with (w ++ sep ++ join_with sep (a :: b)).
  rewrite <-E, IH by done. cbn [join_with]. by rewrite <-!(assoc_L (++)).
Qed.
Lemma marked_with sep ws : ws ≠ [] → join_with sep (marked ws) = mark ++ join_with sep ws ++ mark.
Proof.
  intros H. unfold marked. rewrite mark_last_with by (by destruct ws).
  destruct ws as [|w [|v ws]]; [done|done|]. cbn [mark_first join_with]. by rewrite <-!(assoc_L (++)).
Qed.
Lemma occurs_join_with k sep ws : k ≠ [] → sepstr sep → " "%char ∉ k → nl ∉ k → occurs k (join_with sep ws) → occurs k (join_words ws).
Proof.
  intros Hk Hs Hsp Hnl. induction ws as [|w [|v ws] IH]; [done|done|]. cbn [join_with join_words] in *. intros H.
  assert (H' : occurs k w ∨ occurs k (join_with sep (v :: ws))).
  { assert (Hrep : ∀ n x, occurs k (replicate n sp ++ x) → occurs k x).
    { induction n as [|n IHn]; intros x Hx; [done|]. apply IHn. cbn [replicate app] in Hx.
      apply (occurs_sep k [] sp) in Hx as [Hx|Hx]; [by apply occurs_nil in Hx|done|done]. }
    destruct Hs as [-> |[n ->]]; cbn [app] in H.
    - apply occurs_sep in H; [done|done].
    - apply occurs_sep in H as [H|H]; [by left|right; by apply (Hrep n)|done]. }
  destruct H' as [H'|H']; [by apply occurs_app_l|]. apply (occurs_app_r k w), occurs_cons. by apply IH.
Qed.
(** ** join_lines *)
Lemma split_char_no c s : c ∉ s → split_char c s = [s].
Proof.
  induction s as [|x s IH]; [done|]. intros H. cbn [split_char]. rewrite decide_False by (intros ->; apply H; left).
  rewrite IH; [done|]. intros Hx. apply H. by right.
Qed.
Lemma split_char_app c a b : c ∉ a → split_char c (a ++ c :: b) = a :: split_char c b.
Proof.
  induction a as [|x a IH]; intros H; cbn [app split_char]; [by rewrite decide_True|].
  rewrite decide_False by (intros ->; apply H; left). rewrite IH; [done|]. intros Hx. apply H. by right.
Qed.
Lemma word_nl w : is_word w → nl ∉ w.
Proof. intros [_ H] Hi. rewrite Forall_forall in H. by apply H in Hi. Qed.
Lemma filter_no (c : ascii) (s : list ascii) : c ∉ s → filter (λ x, x ≠ c) s = s.
Proof.
  induction s as [|x s IH]; [done|]. intros H. rewrite filter_cons, decide_True by (intros ->; apply H; left).
  rewrite IH; [done|]. intros Hx. apply H. by right.
Qed.
Lemma join_words_nl ws : Forall (λ w, nl ∉ w) ws → nl ∉ join_words ws.
Proof.
  induction 1 as [|w ws Hw HF IH]; [apply not_elem_of_nil|]. destruct ws as [|v ws]; [done|]. cbn [join_words] in *.
  intros [?|[?|?]%elem_of_cons]%elem_of_app; done.
Qed.
Lemma strip_word w : is_word w → strip w = w.
Proof.
  intros [Hne HF]. destruct w as [|c w]; [done|]. destruct (decide (w = [])) as [->|Hw].
  - apply Forall_cons in HF as [Hc _]. unfold strip. rewrite lstrip_id by done. change (reverse [c]) with [c]. by rewrite lstrip_id.
  - destruct (exists_last Hw) as (w' & d & ->). apply Forall_cons in HF as [Hc HF]. apply Forall_app in HF as [_ HF]. apply Forall_cons in HF as [Hd _].
    by apply strip_id.
Qed.
Lemma marked_words ws : Forall is_word ws → Forall is_word (marked ws).
Proof.
  intros HF. unfold marked. assert (H1 : Forall is_word (mark_first ws)).
  { destruct HF as [|w ws [Hw1 Hw2] HF]; [constructor|]. constructor; [|done]. split; [done|]. apply Forall_app. split; [by repeat apply List.Forall_cons|done]. }
  revert H1. generalize (mark_first ws). clear. intros ws HF. induction HF as [|w ws [Hw1 Hw2] HF IH]; [constructor|].
  destruct ws as [|v ws]; [constructor; [|constructor]|by constructor]. split; [by destruct w|].
  apply Forall_app. split; [done|by repeat apply List.Forall_cons].
Qed.
Lemma split_lines k ws : Forall is_word ws → ws ≠ [] →
  strip <$> split_char nl (join_with (nl :: replicate k sp) ws) = ws.
Proof.
  intros HF Hne. destruct HF as [|w ws Hw HF]; [done|]. clear Hne.
  assert (G : ∀ a w, Forall (λ c, is_space c = true) a → nl ∉ a → is_word w →
     strip <$> split_char nl (a ++ join_with (nl :: replicate k sp) (w :: ws)) = w :: ws).
  { clear w Hw. induction HF as [|v ws Hv HF IH]; intros a w Ha Hna Hw.
    - cbn [join_with]. rewrite split_char_no; [cbn; by rewrite strip_spaces_l, strip_word|].
      rewrite not_elem_of_app. split; [done|by apply word_nl].
    - change (join_with (nl :: replicate k sp) (w :: v :: ws)) with (w ++ nl :: (replicate k sp ++ join_with (nl :: replicate k sp) (v :: ws))).
      rewrite (assoc_L (++)). rewrite split_char_app; [|rewrite not_elem_of_app; split; [done|by apply word_nl]].
      rewrite fmap_cons. rewrite strip_spaces_l, strip_word by done. f_equal. apply IH; [| |done].
      + apply Forall_forall. intros c Hc. apply elem_of_replicate in Hc as [-> _]. done.
      + intros Hc. apply elem_of_replicate in Hc as [Hc _]. done. }
  apply (G [] w); [constructor|apply not_elem_of_nil|done].
Qed.
Lemma mark_words_ends ws : Forall is_word ws → ws ≠ [] → ∃ m, mark ++ join_words ws ++ mark = "_"%char :: m ++ ["!"%char].
Proof. intros HF Hne. exists ("!"%char :: join_words ws ++ ["_"%char]). rewrite mark_eq. cbn [app]. by rewrite <-(assoc_L (++)). Qed.
Lemma join_lines_words sep ws : sepstr sep → Forall is_word ws → ws ≠ [] →
  join_lines (join_with sep ws) = mark ++ join_words ws ++ mark.
Proof.
  intros Hs HF Hne. unfold join_lines. fold mark. rewrite <-marked_with by done.
  pose proof (marked_words ws HF) as HM. assert (HMne : marked ws ≠ []) by (intros E; apply (f_equal length) in E; rewrite length_marked in E; by destruct ws).
  assert (Hnl : nl ∉ join_words (marked ws)). { apply join_words_nl. eapply Forall_impl; [exact HM|]. intros w. apply word_nl. }
  destruct Hs as [-> |[k ->]].
  - rewrite join_with_words, split_char_no by done. cbn [fmap list_fmap join_words]. rewrite marked_join by done.
    destruct (mark_words_ends ws HF Hne) as [m E]. rewrite marked_join in Hnl by done. rewrite E in *. rewrite strip_id by done. by apply filter_no.
  - rewrite split_lines by done. rewrite filter_no by done. by apply marked_join.
Qed.

(** ** the pipeline on a layout *)
Definition esc (c : ascii) : chars := if decide (c = lpar) then lrb else if decide (c = rpar) then rrb else [c].
Lemma escape_bind s : escape_parens s = s ≫= esc.
Proof.
  unfold escape_parens, re_sub. rewrite !scan_char. induction s as [|c s IH]; [done|].
  cbn [mbind list_bind]. change (list_bind _ _ ?f s) with (s ≫= f). rewrite bind_app, IH. f_equal. unfold esc.
  destruct (decide (c = lpar)) as [->|H1]; [done|]. cbn [mbind list_bind]. destruct (decide (c = rpar)); [done|]. by rewrite app_nil_r.
Qed.
Lemma escape_app a b : escape_parens (a ++ b) = escape_parens a ++ escape_parens b.
Proof. rewrite !escape_bind. apply bind_app. Qed.
Lemma escape_join ws : escape_parens (join_words ws) = join_words (escape_parens <$> ws).
Proof.
  induction ws as [|w [|v ws] IH]; [done|done|]. rewrite fmap_cons. rewrite fmap_cons in *. cbn [join_words] in *.
  rewrite escape_app. f_equal. change (" "%char :: ?x) with ([sp] ++ x) at 1. rewrite (escape_app [sp]), IH. done.
Qed.
Lemma escape_id s : lpar ∉ s → rpar ∉ s → escape_parens s = s.
Proof.
  rewrite escape_bind. induction s as [|c s IH]; [done|]. intros H1 H2. cbn [mbind list_bind]. change (list_bind _ _ ?f s) with (s ≫= f).
  rewrite IH; [|intros H; apply H1; by right|intros H; apply H2; by right].
  unfold esc. rewrite !decide_False; [done|intros ->; apply H2; left|intros ->; apply H1; left].
Qed.
Lemma escape_atom w : is_word w → atom (escape_parens w).
Proof.
  intros [Hne HF]. rewrite escape_bind. split.
  - destruct w as [|c w]; [done|]. cbn [mbind list_bind]. unfold esc. destruct (decide (c = lpar)); [done|]. by destruct (decide (c = rpar)).
  - apply Forall_bind. eapply Forall_impl; [exact HF|]. intros c Hc. unfold compose, esc. cbn beta in *.
    destruct (decide (c = lpar)) as [->|?]; [by repeat apply List.Forall_cons|]. destruct (decide (c = rpar)) as [->|?]; [by repeat apply List.Forall_cons|].
    apply List.Forall_cons; [by split; [|split]|constructor].
Qed.
Lemma marked_escape ws : escape_parens <$> marked ws = marked (escape_parens <$> ws).
Proof.
  unfold marked. assert (E : ∀ l, escape_parens <$> mark_last l = mark_last (escape_parens <$> l)).
  { induction l as [|w [|v l] IH]; [done|change (mark_last [w]) with [w ++ mark]; rewrite !fmap_cons, escape_app; done|].
    change (mark_last (w :: v :: l)) with (w :: mark_last (v :: l)). rewrite !fmap_cons in *. rewrite IH. done. }
  rewrite E. f_equal. destruct ws as [|w ws]; [done|]. cbn [mark_first]. rewrite !fmap_cons, escape_app. done.
Qed.
Definition J := scan (region true join_lines) 0.
Definition F := scan (lit (chs ")//TT_ERR") [rpar]) 0.
Definition C := scan (region false (λ g, escape_parens (chs "_!" ++ g ++ chs "_!"))) 0.
Definition esc_str (s : string) : string := str (escape_parens (chs s)).
(** ordinary leaves and labels *)
Record plain (s : chars) : Prop := { pl_atom : atom s; pl_mark : ¬ occurs mark s; pl_esc : ¬ looks_escaped s }.
Inductive good : ntree → Prop :=
| G_leaf s : plain (chs s) → good (NLeaf s)
| G_text ws : ws ≠ [] → Forall is_word ws → ¬ occurs mark (join_words ws) → ¬ occurs (chs ")//TT_ERR") (join_words ws) →
    ¬ looks_escaped (join_words ws) → good (NTree "text" (words_tree (marked ws)))
| G_node l ts : plain (chs l) → ts ≠ [] → Forall good ts → good (NTree l ts).
(** a text as it is after each step, if a text [s] of a tree follows *)
Definition piped (t : ntree) (s : chars) : Prop := ∃ s2 s3,
  (∀ rest, sepstart rest → J (s ++ rest) = s2 ++ J rest) ∧
  (∀ rest, sepstart rest → F (s2 ++ rest) = s2 ++ F rest) ∧
  (∀ rest, sepstart rest → C (s2 ++ rest) = s3 ++ C rest) ∧
  (∀ rest, sepstart rest → lex LOut (s3 ++ rest) = toks (map_leaves esc_str t) ++ lex LOut rest) ∧
  (is_leaf t = false → ∃ m, s2 = lpar :: m ++ [rpar]).
(** plain text is left alone *)
Lemma mark_free_prefix a b rest : a ≠ [] → ¬ occurs mark (b ++ a) → sepstart rest → ¬ prefix mark (a ++ rest).
Proof.
  intros Hne Ho Hs [l E]. rewrite mark_eq in E. destruct a as [|x [|y a]]; [done| |].
  - simpl in E. injection E as -> E. rewrite E in Hs. simpl in Hs. by destruct Hs as [?|[?|?]].
  - simpl in E. injection E as -> -> _. apply Ho. exists b, a. done.
Qed.
Lemma J_plain a rest : ¬ occurs mark a → sepstart rest → J (a ++ rest) = a ++ J rest.
Proof. intros Ho Hs. apply scan_plain. intros x y -> Hy. by apply region_None, (mark_free_prefix y x). Qed.
Lemma C_plain a rest : ¬ occurs mark a → sepstart rest → C (a ++ rest) = a ++ C rest.
Proof. intros Ho Hs. apply scan_plain. intros x y -> Hy. by apply region_None, (mark_free_prefix y x). Qed.
Lemma F_char c rest : c ≠ rpar → F (c :: rest) = c :: F rest.
Proof. intros H. apply scan_none, lit_None. intros [l E]. simpl in E. injection E as -> _. done. Qed.
Lemma F_plain a rest : rpar ∉ a → F (a ++ rest) = a ++ F rest.
Proof.
  induction a as [|c a IH]; [done|]. intros H. cbn [app]. rewrite F_char by (intros ->; apply H; left). rewrite IH; [done|].
  intros Hi. apply H. by right.
Qed.
Lemma F_close rest : sepstart rest → F (rpar :: rest) = rpar :: F rest.
Proof.
  intros H. apply scan_none, lit_None. intros [l E]. simpl in E. injection E as E. rewrite E in H. simpl in H.
  by destruct H as [?|[?|?]].
Qed.
Lemma atom_no a : atom a → lpar ∉ a ∧ rpar ∉ a.
Proof. intros [_ H]. rewrite Forall_forall in H. split; intros Hi; by apply H in Hi as (? & ? & _). Qed.
Lemma sep_no_mark s : sepstr s → ¬ occurs mark s.
Proof.
  intros Hs Ho. apply (occurs_elem _ _ "_"%char) in Ho; [|by left]. destruct (sepstr_spaces s Hs) as [_ HF]. rewrite Forall_forall in HF.
  by apply HF in Ho.
Qed.
Lemma sep_no_par s : sepstr s → rpar ∉ s.
Proof. intros Hs Ho. destruct (sepstr_spaces s Hs) as [_ HF]. rewrite Forall_forall in HF. by apply HF in Ho. Qed.
(** separators in front of something that is no mark *)
Lemma scan_sep d f s rest : sepstr s → scan (region d f) 0 (s ++ rest) = s ++ scan (region d f) 0 rest.
Proof.
  intros Hs. apply scan_plain. intros x y -> Hy. apply region_None. intros [l E]. destruct y as [|c y]; [done|].
  rewrite mark_eq in E. simpl in E. injection E as -> _. destruct (sepstr_spaces _ Hs) as [_ HF]. apply Forall_app in HF as [_ HF].
  apply Forall_cons in HF as [HF _]. done.
Qed.
Lemma scan_mark_char d f c rest : c ≠ "_"%char → scan (region d f) 0 (c :: rest) = c :: scan (region d f) 0 rest.
Proof. intros H. apply scan_none, region_None. intros [l E]. rewrite mark_eq in E. simpl in E. congruence. Qed.
Lemma map_leaves_NTree f l ts : map_leaves f (NTree l ts) = NTree l (map_leaves f <$> ts).
Proof. done. Qed.
Lemma piped_leaf s : plain (chs s) → piped (NLeaf s) (chs s).
Proof.
  intros [Ha Hm _]. destruct (atom_no _ Ha) as [Hl Hr]. exists (chs s), (chs s). split; [|split; [|split; [|split; [|done]]]]; intros rest Hs.
  - by apply J_plain.
  - by apply F_plain.
  - by apply C_plain.
  - cbn [map_leaves toks app]. unfold esc_str. rewrite chs_str, escape_id by done. by apply lex_word.
Qed.
Lemma piped_text sep ws : sepstr sep → ws ≠ [] → Forall is_word ws → ¬ occurs mark (join_words ws) → ¬ occurs (chs ")//TT_ERR") (join_words ws) →
  piped (NTree "text" (words_tree (marked ws))) (lpar :: chs "text" ++ concat ((λ s, sep ++ s) <$> marked ws) ++ [rpar]).
Proof.
  intros Hsep Hne HF Hm He.
  assert (HMne : marked ws ≠ []) by (intros E; apply (f_equal length) in E; rewrite length_marked in E; by destruct ws).
  rewrite join_with_concat, marked_with by done.
  exists (lpar :: chs "text" ++ sep ++ mark ++ join_words ws ++ mark ++ [rpar]),
         (lpar :: chs "text" ++ sep ++ escape_parens (mark ++ join_words ws ++ mark) ++ [rpar]).
  assert (Hlab : ∀ d f rest, scan (region d f) 0 (lpar :: chs "text" ++ sep ++ rest) = lpar :: chs "text" ++ sep ++ scan (region d f) 0 rest).
  { intros d f rest. rewrite scan_mark_char by done. f_equal. cbn [chs list_ascii_of_string app]. rewrite !scan_mark_char by done.
    do 4 f_equal. by apply scan_sep. }
  assert (Hjnl : nl ∉ join_words ws). { apply join_words_nl. eapply Forall_impl; [exact HF|]. intros w. apply word_nl. }
  split; [|split; [|split; [|split; [|intros _; exists (chs "text" ++ sep ++ mark ++ join_words ws ++ mark); by rewrite <-!(assoc_L (++))]]]]; intros rest Hs.
  - unfold J. cbn [app]. rewrite <-!(assoc_L (++)). rewrite Hlab. f_equal. f_equal. f_equal.
    rewrite region_scan; [|intros Ho; apply Hm; eapply occurs_join_with; [done|exact Hsep| | |exact Ho]; rewrite mark_eq; intros Hi; apply elem_of_cons in Hi as [Hi|Hi%elem_of_list_singleton]; done|done].
    rewrite join_lines_words by done. rewrite <-!(assoc_L (++)). done.
  - cbn [app]. rewrite <-!(assoc_L (++)). rewrite F_char by done. f_equal. rewrite F_plain.
    2:{ intros Hi. repeat (apply elem_of_cons in Hi as [Hi|Hi]; [done|]). by apply elem_of_nil in Hi. }
    f_equal. rewrite F_plain by by apply sep_no_par. f_equal. rewrite F_plain.
    2:{ rewrite mark_eq. intros Hi. repeat (apply elem_of_cons in Hi as [Hi|Hi]; [done|]). by apply elem_of_nil in Hi. }
    f_equal. unfold F at 1. rewrite scan_plain.
    2:{ intros x y E Hy. apply lit_None. intros [l E2].
        destruct (app_middle_inv (chs ")//TT_ERR") l y (mark ++ [rpar] ++ rest)) as [(z & Ez & _)|(z & Ez & E3)]; [by rewrite <-E2| |].
        - apply He. exists x, z. rewrite E, Ez. done.
        - destruct z as [|c z]; [apply He; exists x, []; by rewrite E, <-(app_nil_r y), Ez, !app_nil_r in *|].
          rewrite mark_eq in E3. cbn [app] in E3. injection E3 as <- E3. destruct y as [|y0 y]; [done|].
          assert (Hz : z ≠ []). { intros ->. apply (f_equal reverse) in Ez. rewrite reverse_app in Ez. vm_compute in Ez. done. }
          destruct z as [|d z]; [done|]. injection E3 as <- _.
          assert (Hx : "!"%char ∈ chs ")//TT_ERR") by (rewrite Ez; apply elem_of_app; right; right; left).
          repeat (apply elem_of_cons in Hx as [Hx|Hx]; [done|]). by apply elem_of_nil in Hx. }
    f_equal. fold F. rewrite F_plain.
    2:{ rewrite mark_eq. intros Hi. repeat (apply elem_of_cons in Hi as [Hi|Hi]; [done|]). by apply elem_of_nil in Hi. }
    f_equal. cbn [app]. by rewrite F_close.
  - unfold C. cbn [app]. rewrite <-!(assoc_L (++)). rewrite Hlab. f_equal. f_equal. f_equal. rewrite region_scan by done.
    done.
  - rewrite map_leaves_NTree, toks_NTree. unfold words_tree. rewrite <-!list_fmap_compose.
    replace (toks ∘ map_leaves esc_str ∘ (λ w, NLeaf (str w)) <$> marked ws) with ((λ w, [TWord w]) <$> (marked (escape_parens <$> ws))).
    2:{ rewrite <-marked_escape, <-list_fmap_compose. apply list_fmap_ext. intros i w _. simpl. unfold esc_str. by rewrite !chs_str. }
    cbn [app]. rewrite <-!(assoc_L (++)). rewrite lex_open; [|split; [done|by repeat apply List.Forall_cons]|by apply sepstr_start].
    f_equal. rewrite lex_spaces by by apply sepstr_spaces. rewrite !escape_app, escape_join.
    rewrite (escape_id mark) by (rewrite mark_eq; intros Hi; repeat (apply elem_of_cons in Hi as [Hi|Hi]; [done|]); by apply elem_of_nil in Hi).
    rewrite <-marked_join by by destruct ws.
    assert (Hat : Forall atom (marked (escape_parens <$> ws))).
    { rewrite <-marked_escape. apply Forall_fmap. eapply Forall_impl; [by apply marked_words|]. intros w Hw. by apply escape_atom. }
    assert (Hne2 : marked (escape_parens <$> ws) ≠ []) by (intros E; apply (f_equal length) in E; rewrite length_marked, fmap_length in E; by destruct ws).
    revert Hat Hne2. generalize (marked (escape_parens <$> ws)) as vs. clear -Hs. intros vs Hat Hne. induction Hat as [|v vs Hv HF IH]; [done|].
    rewrite fmap_cons. cbn [concat]. destruct vs as [|u vs].
    + cbn [join_words fmap list_fmap concat app]. rewrite lex_word; [done|done|]. simpl. right; by left.
    + change (join_words (v :: u :: vs)) with (v ++ sp :: join_words (u :: vs)). rewrite <-!(assoc_L (++)). cbn [app].
      rewrite lex_word; [|done|simpl; right; by right]. f_equal. change (sp :: ?x) with ([sp] ++ x). rewrite lex_spaces by by repeat apply List.Forall_cons.
      by apply IH.
Qed.
Lemma piped_node l ts sep ss : plain (chs l) → ts ≠ [] → sepstr sep → Forall2 piped ts ss →
  piped (NTree l ts) (lpar :: chs l ++ concat ((λ s, sep ++ s) <$> ss) ++ [rpar]).
Proof.
  intros [Hla Hlm _] Hne Hsep HP.
  assert (Hkids : ∃ s2 s3, (∀ rest, sepstart rest → J (concat ((λ s, sep ++ s) <$> ss) ++ rest) = s2 ++ J rest) ∧
    (∀ rest, sepstart rest → F (s2 ++ rest) = s2 ++ F rest) ∧
    (∀ rest, sepstart rest → C (s2 ++ rest) = s3 ++ C rest) ∧
    (∀ rest, sepstart rest → lex LOut (s3 ++ rest) = concat (toks <$> (map_leaves esc_str <$> ts)) ++ lex LOut rest) ∧
    (ts ≠ [] → ∀ rest, sepstart (concat ((λ s, sep ++ s) <$> ss) ++ rest) ∧ sepstart (s2 ++ rest) ∧ sepstart (s3 ++ rest))).
  { clear Hne. induction HP as [|t s ts ss (s2 & s3 & H1 & H2 & H3 & H4 & _) HP (r2 & r3 & K1 & K2 & K3 & K4 & K5)].
    - exists [], []. split; [done|]. split; [done|]. split; [done|]. split; [done|done].
    - assert (Hst : ∀ (x : chars) rest, (ts = [] → x = []) → (ts ≠ [] → sepstart (x ++ rest)) → sepstart rest → sepstart (x ++ rest)).
      { intros x rest Hx Hy Hr. destruct (decide (ts = [])) as [E|E]; [rewrite Hx by done; done|by apply Hy]. }
      assert (Hs0 : ∀ rest, sepstart rest → sepstart (concat ((λ s, sep ++ s) <$> ss) ++ rest) ∧ sepstart (r2 ++ rest) ∧ sepstart (r3 ++ rest)).
      { intros rest Hr. destruct ts as [|t' ts]; [|apply K5; done]. inversion HP; subst. cbn [fmap list_fmap concat app].
        clear -K1 K2 K3 K4 Hr. specialize (K1 [] I). cbn in K1. rewrite app_nil_r in K1. subst r2.
        specialize (K3 [] I). cbn in K3. rewrite app_nil_r in K3. subst r3. done. }
      exists (sep ++ s2 ++ r2), (sep ++ s3 ++ r3). rewrite !fmap_cons. cbn [concat]. split; [|split; [|split; [|split]]].
      + intros rest Hr. rewrite <-!(assoc_L (++)). unfold J at 1. rewrite scan_sep by done. f_equal. fold J.
        rewrite H1 by by apply Hs0. f_equal. by apply K1.
      + intros rest Hr. rewrite <-!(assoc_L (++)). rewrite F_plain by by apply sep_no_par. f_equal. rewrite H2 by by apply Hs0. f_equal. by apply K2.
      + intros rest Hr. rewrite <-!(assoc_L (++)). unfold C at 1. rewrite scan_sep by done. f_equal. fold C.
        rewrite H3 by by apply Hs0. f_equal. by apply K3.
      + intros rest Hr. rewrite <-!(assoc_L (++)). rewrite lex_spaces by by apply sepstr_spaces. rewrite H4 by by apply Hs0.
        f_equal. by apply K4.
      + intros _ rest. rewrite <-!(assoc_L (++)). split; [by apply sepstr_start|]. split; by apply sepstr_start. }
  destruct Hkids as (s2 & s3 & H1 & H2 & H3 & H4 & H5). specialize (H5 Hne). destruct (atom_no _ Hla) as [Hl Hr].
  assert (Hcl : ∀ rest, sepstart (rpar :: rest)) by (intros; simpl; right; by left).
  exists (lpar :: chs l ++ s2 ++ [rpar]), (lpar :: chs l ++ s3 ++ [rpar]).
  split; [|split; [|split; [|split; [|intros _; exists (chs l ++ s2); by rewrite <-!(assoc_L (++))]]]]; intros rest Hs; cbn [app]; rewrite <-!(assoc_L (++)).
  - unfold J at 1. rewrite scan_mark_char by done. fold J. f_equal. rewrite J_plain; [|done|apply H5]. f_equal. rewrite H1 by apply Hcl. done.
  - rewrite F_char by done. f_equal. rewrite F_plain by done. f_equal. rewrite H2 by apply Hcl. f_equal. cbn [app]. by rewrite F_close.
  - unfold C at 1. rewrite scan_mark_char by done. fold C. f_equal. rewrite C_plain; [|done|apply H5]. f_equal. rewrite H3 by apply Hcl. done.
  - rewrite lex_open; [|done|apply H5]. rewrite map_leaves_NTree, toks_NTree. cbn [app]. f_equal. rewrite <-(assoc_L (++)). rewrite H4 by apply Hcl. f_equal.
Qed.
Lemma good_piped t : good t → ∀ s, layout t s → piped t s.
Proof.
  induction t as [w|l ts IH] using ntree_ind'; intros HG s HL.
  - inversion HL; subst. inversion HG; subst. by apply piped_leaf.
  - inversion HL as [|? ? sep ss Hsep HF]; subst. inversion HG as [|ws Hne Hw Hm He Hx|? ? Hl Hne Hg]; subst.
    + assert (ss = marked ws) as ->; [|by apply piped_text].
      revert HF. unfold words_tree. generalize (marked ws). clear. intros ws. revert ss. induction ws as [|w ws IH]; intros ss HF; [by inversion HF|].
      rewrite fmap_cons in HF. inversion HF as [|? s ? ss' H1 H2]; subst. inversion H1; subst. rewrite chs_str. f_equal. by apply IH.
    + apply piped_node; [done|done|done|]. clear HG HL Hne. revert ss HF. induction ts as [|t ts IHl]; intros ss HF; [by inversion HF; subst|].
      inversion HF as [|? s ? ss' H1 H2]; subst. apply Forall_cons in IH as [IHt IH]. apply Forall_cons in Hg as [Hgt Hg]. constructor; [by apply IHt|].
      by apply IHl.
Qed.
Lemma good_full t : good t → full t.
Proof.
  induction t as [w|l ts IH] using ntree_ind'; intros HG; [constructor|]. inversion HG as [|ws Hne Hw Hm He Hx|? ? Hl Hne Hg]; subst.
  - constructor; [intros E; apply (f_equal length) in E; unfold words_tree in E; rewrite fmap_length, length_marked in E; by destruct ws|].
    unfold words_tree. apply Forall_fmap, Forall_forall. intros w _. constructor.
  - constructor; [done|]. clear Hne HG. induction Hg as [|t ts Ht Hg IHl]; [constructor|]. apply Forall_cons in IH as [IHt IH].
    constructor; [by apply IHt|by apply IHl].
Qed.
