(** * DisEscape: escaping brackets and back; the text of a .dis tree *)
From Verif Require Import PyBase DocGraph Relabel SpecGraph StrNum Query Text SpecText Rst SpecRst Nltk Dis SpecDis SpanFacts RstLayout RstRead NltkFacts DisText.

Definition esc2 (c : ascii) : chars := if decide (c = rpar) then rrb else [c].
Lemma esc_bind_head (e : ascii → chars) (k : ascii) w s : (∀ c, (∃ x, e c = "-"%char :: x) ∨ e c = [c]) → k ≠ "-"%char → w ≫= e = k :: s → ∃ w1, w = k :: w1 ∧ w1 ≫= e = s.
Proof.
  intros He Hk H. destruct w as [|c w]; [done|]. cbn [mbind list_bind] in H. change (list_bind _ _ ?f w) with (w ≫= f) in H.
  destruct (He c) as [[x E]|E]; rewrite E in H; cbn [app] in H; injection H as <- H; [done|]. by exists w.
Qed.
Lemma esc_shape c : (∃ x, esc c = "-"%char :: x) ∨ esc c = [c].
Proof. unfold esc. destruct (decide (c = lpar)); [left; by eexists|]. destruct (decide (c = rpar)); [left; by eexists|by right]. Qed.
Lemma esc2_shape c : (∃ x, esc2 c = "-"%char :: x) ∨ esc2 c = [c].
Proof. unfold esc2. destruct (decide (c = rpar)); [left; by eexists|by right]. Qed.
Lemma esc_prefix (e : ascii → chars) (X : ascii) w : (∀ c, (∃ x, e c = "-"%char :: x) ∨ e c = [c]) → X ≠ "-"%char →
  prefix (X :: chs "RB-") (w ≫= e) → ∃ y w', w = X :: chs "RB" ++ y :: w' ∧ (∃ s, e y = "-"%char :: s).
Proof.
  intros He HX [l E]. cbn [app chs list_ascii_of_string] in E.
  apply (esc_bind_head e) in E as (w1 & -> & E); [|done|done].
  apply (esc_bind_head e) in E as (w2 & -> & E); [|done|done].
  apply (esc_bind_head e) in E as (w3 & -> & E); [|done|done].
  destruct w3 as [|y w']; [done|]. exists y, w'. split; [done|]. cbn [mbind list_bind] in E.
  destruct (He y) as [?|Ey]; [done|]. rewrite Ey in *. cbn [app] in E. injection E as -> _. by eexists.
Qed.
Lemma looks_cons c w : looks_escaped w → looks_escaped (c :: w).
Proof. intros (x & y & [(H1 & H2 & H3)|(H1 & H2 & H3)]); exists x, y; [left|right]; (split; [done|]); (split; [done|]); by apply occurs_cons. Qed.
Lemma esc_dash y s : esc y = "-"%char :: s → y ∈ ["-"%char; "("%char; ")"%char].
Proof.
  unfold esc. destruct (decide (y = lpar)) as [->|]; [intros _; right; left|]. destruct (decide (y = rpar)) as [->|]; [intros _; right; right; left|].
  intros [= -> _]. left.
Qed.
Lemma esc2_dash y s : esc2 y = "-"%char :: s → y ∈ ["-"%char; ")"%char].
Proof. unfold esc2. destruct (decide (y = rpar)) as [->|]; [intros _; right; left|]. intros [= -> _]. left. Qed.
Lemma bind_cons {A B} (f : A → list B) x l : (x :: l) ≫= f = f x ++ (l ≫= f).
Proof. done. Qed.
Lemma unescape_l w : ¬ looks_escaped w → scan (lit lrb [lpar]) 0 (w ≫= esc) = w ≫= esc2.
Proof.
  induction w as [|c w IH]; [done|]. intros Hl. rewrite !bind_cons.
  assert (IH' := IH (λ H, Hl (looks_cons c w H))). clear IH.
  assert (Hd : c ∈ ["-"%char; "("%char; ")"%char] → ¬ prefix lrb ("-"%char :: (w ≫= esc))).
  { intros Hc [l E]. change (lrb ++ l) with ("-"%char :: (chs "LRB-" ++ l)) in E. injection E as E.
    destruct (esc_prefix esc "L"%char w esc_shape) as (y & w' & -> & s & Ey); [done|by exists l|].
    apply Hl. exists c, y. left. split; [done|]. split; [by apply esc_dash in Ey|]. by exists [], w'. }
  unfold esc at 1, esc2 at 1. destruct (decide (c = lpar)) as [->|H1].
  - change (lrb ++ (w ≫= esc)) with ("-"%char :: chs "LRB-" ++ (w ≫= esc)). rewrite (scan_match _ _ _ _ [lpar]).
    + rewrite IH'. done.
    + rewrite lit_Some; [done|]. by exists (w ≫= esc).
  - destruct (decide (c = rpar)) as [->|H2].
    + rewrite scan_plain; [by rewrite IH'|]. intros x y E Hy. apply lit_None.
      destruct x as [|x0 x]; [simpl in E; rewrite <-E; intros [l El]; simpl in El; congruence|].
      destruct x as [|x1 x]; [simpl in E; injection E as _ <-; intros [l El]; simpl in El; congruence|].
      destruct x as [|x2 x]; [simpl in E; injection E as _ _ <-; intros [l El]; simpl in El; congruence|].
      destruct x as [|x3 x]; [simpl in E; injection E as _ _ _ <-; intros [l El]; simpl in El; congruence|].
      destruct x as [|x4 x]; [simpl in E; injection E as _ _ _ _ <-|].
      * apply Hd. right. right. left.
      * simpl in E. injection E as _ _ _ _ _ E. symmetry in E. apply app_eq_nil in E as [_ E]. done.
    + cbn [app]. rewrite scan_none; [by rewrite IH'|]. apply lit_None. destruct (decide (c = "-"%char)) as [->|H3]; [apply Hd; left|].
      intros [l E]. simpl in E. injection E as -> _. done.
Qed.
Lemma unescape_r w : ¬ looks_escaped w → scan (lit rrb [rpar]) 0 (w ≫= esc2) = w.
Proof.
  induction w as [|c w IH]; [done|]. intros Hl. rewrite !bind_cons.
  assert (IH' := IH (λ H, Hl (looks_cons c w H))). clear IH.
  assert (Hd : c ∈ ["-"%char; ")"%char] → ¬ prefix rrb ("-"%char :: (w ≫= esc2))).
  { intros Hc [l E]. change (rrb ++ l) with ("-"%char :: (chs "RRB-" ++ l)) in E. injection E as E.
    destruct (esc_prefix esc2 "R"%char w esc2_shape) as (y & w' & -> & s & Ey); [done|by exists l|].
    apply Hl. exists c, y. right. split; [done|]. split; [by apply esc2_dash in Ey|]. by exists [], w'. }
  unfold esc2 at 1. destruct (decide (c = rpar)) as [->|H2].
  - change (rrb ++ (w ≫= esc2)) with ("-"%char :: chs "RRB-" ++ (w ≫= esc2)). rewrite (scan_match _ _ _ _ [rpar]).
    + rewrite IH'. done.
    + rewrite lit_Some; [done|]. by exists (w ≫= esc2).
  - cbn [app]. rewrite scan_none; [by rewrite IH'|]. apply lit_None. destruct (decide (c = "-"%char)) as [->|H3]; [apply Hd; left|].
    intros [l E]. simpl in E. injection E as -> _. done.
Qed.
Lemma unescape_escape s : ¬ looks_escaped (chs s) → unescape_leaf (esc_str s) = s.
Proof.
  intros H. unfold unescape_leaf, esc_str, re_sub. rewrite chs_str, escape_bind, unescape_l, unescape_r by done. by rewrite str_chs.
Qed.
(** words of a text, with and without marks *)
Lemma occurs_word k w ws : w ∈ ws → occurs k w → occurs k (join_words ws).
Proof.
  intros Hw Ho. induction ws as [|v ws IH]; [by apply elem_of_nil in Hw|]. apply elem_of_cons in Hw as [->|Hw].
  - destruct ws as [|u ws]; [done|]. by apply occurs_app_l.
  - destruct ws as [|u ws]; [by apply elem_of_nil in Hw|]. cbn [join_words] in *. apply (occurs_app_r k v), occurs_cons. by apply IH.
Qed.
Lemma looks_mark ws : ws ≠ [] → looks_escaped (join_words (marked ws)) → looks_escaped (join_words ws).
Proof.
  intros Hne. rewrite marked_join by done. intros (x & y & H).
  assert (G : ∀ k, "_"%char ∉ k → "!"%char ∉ k → k ≠ [] → occurs k (mark ++ join_words ws ++ mark) → occurs k (join_words ws)).
  { intros k H1 H2 Hk Ho. rewrite mark_eq in Ho. cbn [app] in Ho.
    apply (occurs_sep k []) in Ho as [Ho|Ho]; [by apply occurs_nil in Ho| |done].
    apply (occurs_sep k []) in Ho as [Ho|Ho]; [by apply occurs_nil in Ho| |done].
    apply occurs_sep in Ho as [Ho|Ho]; [done| |done].
    apply (occurs_sep k []) in Ho as [Ho|Ho]; [by apply occurs_nil in Ho|by apply occurs_nil in Ho|done]. }
  assert (Hx : ∀ l c d, l = ["-"%char; "("%char; ")"%char] ∨ l = ["-"%char; ")"%char] → c ∈ l → d = "_"%char ∨ d = "!"%char → c ≠ d).
  { intros l c d [-> | ->] Hc Hd ->; repeat (apply elem_of_cons in Hc as [Hc|Hc]; [destruct Hd; congruence|]); by apply elem_of_nil in Hc. }
  exists x, y. destruct H as [(H1 & H2 & H3)|(H1 & H2 & H3)]; [left|right]; (split; [done|]); (split; [done|]); apply G; try done.
  all: cbn [app chs list_ascii_of_string]; rewrite !not_elem_of_cons, ?elem_of_nil.
  all: assert (x ≠ "_"%char ∧ x ≠ "!"%char ∧ y ≠ "_"%char ∧ y ≠ "!"%char) as (? & ? & ? & ?) by (repeat split; (eapply Hx; [|eassumption|]; eauto)).
  all: repeat split; try done; try congruence; apply not_elem_of_nil.
Qed.
Lemma good_unescape t : good t → map_leaves unescape_leaf (map_leaves esc_str t) = t.
Proof.
  induction t as [w|l ts IH] using ntree_ind'; intros HG.
  - inversion HG as [? HP| |]; subst. cbn [map_leaves]. by rewrite unescape_escape by apply HP.
  - inversion HG as [|ws Hne Hw Hm He Hx|? ? Hl Hne Hg]; subst; rewrite !map_leaves_NTree; f_equal.
    + unfold words_tree. rewrite <-!list_fmap_compose. apply list_fmap_ext. intros i w Hi. cbn [compose map_leaves]. f_equal.
      apply unescape_escape. rewrite chs_str. intros (x & y & H). apply Hx, looks_mark; [done|]. exists x, y.
      apply elem_of_list_lookup_2 in Hi. destruct H as [(H1 & H2 & H3)|(H1 & H2 & H3)]; [left|right]; (split; [done|]); (split; [done|]); by eapply occurs_word.
    + clear HG Hne. induction Hg as [|t ts Ht Hg IHl]; [done|]. apply Forall_cons in IH as [IHt IH]. rewrite !fmap_cons. f_equal; [by apply IHt|by apply IHl].
Qed.
(** a tree that is written and parsed *)
Lemma dis_file_good l ts : good (NTree l ts) → dis_file (re_sub (region true join_lines) (pformat 0 (NTree l ts))) = Ok (NTree l ts).
Proof.
  intros HG. destruct (good_piped _ HG _ (pformat_layout _ (good_full _ HG) 0)) as (s2 & s3 & H1 & H2 & H3 & H4 & m & Hm); [done|].
  specialize (H1 [] I). specialize (H2 [] I). specialize (H3 [] I). specialize (H4 [] I).
  change (J []) with (@nil ascii) in H1. change (F []) with (@nil ascii) in H2. change (C []) with (@nil ascii) in H3.
  change (lex LOut []) with (@nil tok) in H4. rewrite !app_nil_r in *.
  unfold dis_file, re_sub. fold J. rewrite H1. assert (Hst : strip s2 = s2) by (rewrite Hm; by apply strip_id).
  rewrite Hst. unfold fix_tt, re_sub. fold F. rewrite H2. unfold convert_parens, re_sub. fold C. rewrite H3.
  rewrite map_leaves_NTree in H4. rewrite (fromstring_toks _ _ _ H4). cbn [rbind]. rewrite <-map_leaves_NTree. by rewrite good_unescape.
Qed.
