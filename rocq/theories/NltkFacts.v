(** * NltkFacts: scanning, tokens and trees *)
From Verif Require Import PyBase DocGraph Relabel SpecGraph StrNum Query Text SpecText Rst SpecRst Nltk SpanFacts RstLayout.

(** ** occurrences *)
Lemma occurs_app_l k a b : occurs k a → occurs k (a ++ b).
Proof. intros (x & y & ->). exists x, (y ++ b). by rewrite <-!(assoc_L (++)). Qed.
Lemma occurs_app_r k a b : occurs k b → occurs k (a ++ b).
Proof. intros (x & y & ->). exists (a ++ x), y. by rewrite <-!(assoc_L (++)). Qed.
Lemma occurs_cons k c b : occurs k b → occurs k (c :: b).
Proof. apply (occurs_app_r k [c]). Qed.
Lemma is_prefix_true k s : is_prefix k s = true ↔ prefix k s.
Proof.
  unfold is_prefix. rewrite bool_decide_eq_true. split.
  - intros H. exists (drop (length k) s). rewrite <-H at 1. by rewrite take_drop.
  - intros [l ->]. by rewrite take_app.
Qed.
Lemma is_prefix_false k s : is_prefix k s = false ↔ ¬ prefix k s.
Proof. rewrite <-is_prefix_true. by destruct (is_prefix k s). Qed.
(** an occurrence does not contain a character that is not in it *)
Lemma app_middle_inv {A} (a b x y : list A) : a ++ b = x ++ y → (∃ z, x = a ++ z ∧ b = z ++ y) ∨ (∃ z, a = x ++ z ∧ y = z ++ b).
Proof.
  revert x. induction a as [|c a IH]; intros x E; [left; by exists x|].
  destruct x as [|d x]; simpl in E; [right; by exists (c :: a)|]. injection E as <- E.
  destruct (IH x E) as [(z & -> & ->)|(z & -> & ->)]; [left|right]; by exists z.
Qed.
Lemma occurs_sep k a c b : c ∉ k → occurs k (a ++ c :: b) → occurs k a ∨ occurs k b.
Proof.
  intros Hc (x & y & E). destruct (app_middle_inv a (c :: b) x (k ++ y) E) as [(z & -> & E2)|(z & -> & E2)].
  - destruct z as [|d z]; simpl in E2.
    + destruct k as [|d k]; [left; exists a, []; by rewrite app_nil_r|]. simpl in E2. injection E2 as <- _. by destruct Hc; left.
    + injection E2 as <- ->. right. by exists z, y.
  - destruct (app_middle_inv k y z (c :: b) E2) as [(w & -> & E3)|(w & -> & E3)].
    + left. exists x, w. done.
    + destruct w as [|d w]; simpl in E3; [left; exists x, []; by rewrite !app_nil_r|]. injection E3 as <- ->.
      destruct Hc. apply elem_of_app. right. left.
Qed.
Lemma occurs_nil k : k ≠ [] → ¬ occurs k [].
Proof. intros Hk (x & y & E). symmetry in E. apply app_eq_nil in E as [_ E]. apply app_eq_nil in E as [E _]. done. Qed.
Lemma occurs_elem k a c : occurs k a → c ∈ k → c ∈ a.
Proof. intros (x & y & ->) H. rewrite !elem_of_app. auto. Qed.
Lemma prefix_occurs k s : prefix k s → occurs k s.
Proof. intros [l ->]. by exists [], l. Qed.

(** ** scan *)
Lemma scan_skip m a b : scan m (length a) (a ++ b) = scan m 0 b.
Proof. induction a as [|c a IH]; [done|]. exact IH. Qed.
Lemma scan_match m c a b out : m (c :: a ++ b) = Some (length a, out) → scan m 0 (c :: a ++ b) = out ++ scan m 0 b.
Proof. intros H. cbn [scan]. rewrite H. by rewrite scan_skip. Qed.
Lemma scan_none m c b : m (c :: b) = None → scan m 0 (c :: b) = c :: scan m 0 b.
Proof. intros H. cbn [scan]. by rewrite H. Qed.
Lemma scan_plain m a b : (∀ x y, a = x ++ y → y ≠ [] → m (y ++ b) = None) → scan m 0 (a ++ b) = a ++ scan m 0 b.
Proof.
  induction a as [|c a IH]; intros H; [done|]. cbn [app]. rewrite scan_none by by apply (H [] (c :: a)).
  f_equal. apply IH. intros x y -> Hy. by apply (H (c :: x) y).
Qed.
Lemma scan_id m a : (∀ x y, a = x ++ y → y ≠ [] → m y = None) → scan m 0 a = a.
Proof.
  intros H. rewrite <-(app_nil_r a) at 1. rewrite scan_plain; [by rewrite app_nil_r|]. intros x y E Hy. rewrite app_nil_r. by apply (H x).
Qed.
(** a literal of one character *)
Lemma scan_char c new s : scan (lit [c] new) 0 s = s ≫= λ x, if decide (x = c) then new else [x].
Proof.
  induction s as [|x s IH]; [done|]. cbn [mbind list_bind]. change (list_bind _ _ ?f s) with (s ≫= f). rewrite <-IH.
  assert (E : lit [c] new (x :: s) = if decide (x = c) then Some (0, new) else None).
  { unfold lit, is_prefix. cbn [length take]. replace (take 0 s) with (@nil ascii) by by destruct s. destruct (decide (x = c)) as [->|Hx].
    - by rewrite bool_decide_true.
    - rewrite bool_decide_false by congruence. done. }
  cbn [scan]. rewrite E. by destruct (decide (x = c)).
Qed.
Lemma lit_None pat new s : ¬ prefix pat s → lit pat new s = None.
Proof. intros H. unfold lit. by rewrite (proj2 (is_prefix_false _ _) H). Qed.
Lemma lit_Some pat new s : prefix pat s → lit pat new s = Some (length pat - 1, new).
Proof. intros H. unfold lit. by rewrite (proj2 (is_prefix_true _ _) H). Qed.

(** ** regions between marks *)
Definition mark : chars := chs "_!".
Lemma mark_eq : mark = ["_"%char; "!"%char].
Proof. reflexivity. Qed.
Lemma upto_mark_app d b rest : ¬ occurs mark b → nl ∉ b → upto_mark d (b ++ mark ++ rest) = Some b.
Proof.
  induction b as [|c b IH]; intros Ho Hn; [done|]. cbn [app]. unfold upto_mark; fold upto_mark. fold mark.
  rewrite (proj2 (is_prefix_false _ _)).
  - rewrite bool_decide_false by (intros ->; apply Hn; left). cbn [andb]. rewrite IH; [done| |].
    + intros H. by apply Ho, occurs_cons.
    + intros H. apply Hn. by right.
  - intros [l E]. rewrite mark_eq in E. simpl in E. injection E as -> E. destruct b as [|e b]; [done|].
    cbn [app] in E. injection E as -> _. apply Ho. by exists [], b.
Qed.
Lemma upto_mark_dotall b rest : ¬ occurs mark b → upto_mark true (b ++ mark ++ rest) = Some b.
Proof.
  induction b as [|c b IH]; intros Ho; [done|]. cbn [app]. unfold upto_mark; fold upto_mark. fold mark.
  rewrite (proj2 (is_prefix_false _ _)).
  - rewrite andb_false_r. rewrite IH; [done|]. intros H. by apply Ho, occurs_cons.
  - intros [l E]. rewrite mark_eq in E. simpl in E. injection E as -> E. destruct b as [|e b]; [done|].
    cbn [app] in E. injection E as -> _. apply Ho. by exists [], b.
Qed.
Lemma region_scan d f b rest : ¬ occurs mark b → (nl ∈ b → d = true) →
  scan (region d f) 0 (mark ++ b ++ mark ++ rest) = f b ++ scan (region d f) 0 rest.
Proof.
  intros Ho Hn. assert (E : upto_mark d (b ++ mark ++ rest) = Some b).
  { destruct (decide (nl ∈ b)) as [Hi|Hi]; [rewrite (Hn Hi); by apply upto_mark_dotall|by apply upto_mark_app]. }
  change (mark ++ b ++ mark ++ rest) with ("_"%char :: ("!"%char :: b ++ mark ++ rest)).
  replace ("!"%char :: b ++ mark ++ rest) with (("!"%char :: b ++ mark) ++ rest) by (cbn [app]; by rewrite <-(assoc_L (++))).
  apply scan_match. unfold region. rewrite (proj2 (is_prefix_true _ _)).
  - change (drop 2 _) with ((b ++ mark) ++ rest). rewrite <-(assoc_L (++)), E. f_equal. f_equal. simpl. rewrite app_length. simpl. lia.
  - eexists. reflexivity.
Qed.
Lemma region_None d f s : ¬ prefix mark s → region d f s = None.
Proof. intros H. unfold region. fold mark. by rewrite (proj2 (is_prefix_false _ _) H). Qed.

(** ** atoms and tokens *)
Definition sepchar (c : ascii) : Prop := c = lpar ∨ c = rpar ∨ is_space c = true.
Definition sepstart (s : chars) : Prop := match s with [] => True | c :: _ => sepchar c end.
Definition atomc (c : ascii) : Prop := c ≠ lpar ∧ c ≠ rpar ∧ is_space c = false.
Definition atom (s : chars) : Prop := s ≠ [] ∧ Forall atomc s.
Lemma lex_atom_word s acc rest : Forall atomc s → sepstart rest →
  lex (LWord acc) (s ++ rest) = TWord (acc ++ s) :: lex LOut rest.
Proof.
  revert acc. induction s as [|c s IH]; intros acc Ha Hr.
  - rewrite app_nil_r. cbn [app]. destruct rest as [|c rest]; [done|]. simpl in Hr. cbn [lex flush].
    destruct (decide (c = lpar)) as [->|?]; [done|]. destruct (decide (c = rpar)) as [->|?]; [done|].
    destruct Hr as [?|[?|Hr]]; [done..|]. by rewrite Hr.
  - apply Forall_cons in Ha as [(H1 & H2 & H3) Ha]. cbn [app lex]. rewrite !decide_False by done. rewrite H3.
    rewrite IH by done. by rewrite <-(assoc_L (++)).
Qed.
Lemma lex_atom_label s acc rest : Forall atomc s → sepstart rest →
  lex (LLabel acc) (s ++ rest) = TOpen (acc ++ s) :: lex LOut rest.
Proof.
  revert acc. induction s as [|c s IH]; intros acc Ha Hr.
  - rewrite app_nil_r. cbn [app]. destruct rest as [|c rest]; [done|]. simpl in Hr. cbn [lex flush].
    destruct (decide (c = lpar)) as [->|?]; [done|]. destruct (decide (c = rpar)) as [->|?]; [done|].
    destruct Hr as [?|[?|Hr]]; [done..|]. by rewrite Hr.
  - apply Forall_cons in Ha as [(H1 & H2 & H3) Ha]. cbn [app lex]. rewrite !decide_False by done. rewrite H3.
    rewrite IH by done. by rewrite <-(assoc_L (++)).
Qed.
Lemma lex_word s rest : atom s → sepstart rest → lex LOut (s ++ rest) = TWord s :: lex LOut rest.
Proof.
  intros [Hne Ha] Hr. destruct s as [|c s]; [done|]. apply Forall_cons in Ha as [(H1 & H2 & H3) Ha].
  cbn [app lex]. rewrite !decide_False by done. rewrite H3. by rewrite (lex_atom_word s [c] rest).
Qed.
Lemma lex_open l rest : atom l → sepstart rest → lex LOut (lpar :: l ++ rest) = TOpen l :: lex LOut rest.
Proof.
  intros [Hne Ha] Hr. destruct l as [|c s]; [done|]. apply Forall_cons in Ha as [(H1 & H2 & H3) Ha].
  change (lex LOut (lpar :: (c :: s) ++ rest)) with (lex LOpen ((c :: s) ++ rest)).
  cbn [app lex]. rewrite !decide_False by done. rewrite H3. by rewrite (lex_atom_label s [c] rest).
Qed.
Lemma lex_close rest : lex LOut (rpar :: rest) = TClose :: lex LOut rest.
Proof. done. Qed.
Lemma lex_spaces s rest : Forall (λ c, is_space c = true) s → lex LOut (s ++ rest) = lex LOut rest.
Proof.
  induction 1 as [|c s Hc Hs IH]; [done|]. cbn [app lex].
  destruct (decide (c = lpar)) as [->|?]; [done|]. destruct (decide (c = rpar)) as [->|?]; [done|]. by rewrite Hc.
Qed.
(** the tokens of a tree *)
Fixpoint toks (t : ntree) : list tok :=
  match t with
  | NLeaf s => [TWord (chs s)]
  | NTree l ts => TOpen (chs l) :: (fix go ts := match ts with [] => [TClose] | t :: ts => toks t ++ go ts end) ts
  end.
Lemma toks_NTree l ts : toks (NTree l ts) = TOpen (chs l) :: concat (toks <$> ts) ++ [TClose].
Proof. simpl. f_equal. induction ts as [|t ts IH]; [done|]. rewrite fmap_cons. cbn [concat]. by rewrite IH, <-(assoc_L (++)). Qed.
Lemma build_toks t : ∀ lab ts stack d l, build ((lab, ts) :: stack) d (toks t ++ l) = build ((lab, ts ++ [t]) :: stack) d l.
Proof.
  induction t as [s|la us IH] using ntree_ind'; intros lab ts stack d l; [simpl; by rewrite str_chs|].
  rewrite toks_NTree. cbn [app build]. rewrite <-(assoc_L (++)).
  assert (G : ∀ us vs, Forall (λ t, ∀ lab ts stack d l, build ((lab, ts) :: stack) d (toks t ++ l) = build ((lab, ts ++ [t]) :: stack) d l) us →
    ∀ stack l, build ((chs la, vs) :: stack) d (concat (toks <$> us) ++ l) = build ((chs la, vs ++ us) :: stack) d l).
  { clear. induction us as [|u us IHu]; intros vs HF stack l; [cbn [fmap list_fmap concat app]; by rewrite app_nil_r|].
    apply Forall_cons in HF as [Hu HF]. rewrite fmap_cons. cbn [concat]. rewrite <-(assoc_L (++)), Hu, IHu by done.
    by rewrite <-(assoc_L (++)). }
  rewrite (G us [] IH). cbn [app build]. by rewrite str_chs.
Qed.
Lemma fromstring_toks l ts s : lex LOut s = toks (NTree l ts) → fromstring s = Ok (NTree l ts).
Proof.
  intros E. unfold fromstring. rewrite E, toks_NTree. cbn [build].
  assert (G : ∀ us vs r, build [(chs l, vs)] [] (concat (toks <$> us) ++ r) = build [(chs l, vs ++ us)] [] r).
  { induction us as [|u us IHu]; intros vs r; [cbn [fmap list_fmap concat app]; by rewrite app_nil_r|].
    rewrite fmap_cons. cbn [concat]. rewrite <-(assoc_L (++)), build_toks, IHu. by rewrite <-(assoc_L (++)). }
  rewrite G. cbn [app build rbind]. by rewrite str_chs.
Qed.

(** ** layouts *)
Definition sepstr (s : chars) : Prop := s = [sp] ∨ ∃ k, s = nl :: replicate k sp.
(** the children of a node are all preceded by the same separator *)
Inductive layout : ntree → chars → Prop :=
| L_leaf s : layout (NLeaf s) (chs s)
| L_node l ts sep ss : sepstr sep → Forall2 layout ts ss →
    layout (NTree l ts) (lpar :: chs l ++ concat ((λ s, sep ++ s) <$> ss) ++ [rpar]).
(** no node is childless *)
Inductive full : ntree → Prop :=
| F_leaf s : full (NLeaf s)
| F_node l ts : ts ≠ [] → Forall full ts → full (NTree l ts).
Lemma pflat_NTree l ts : ts ≠ [] → pflat (NTree l ts) = lpar :: chs l ++ concat ((λ s, [sp] ++ s) <$> (pflat <$> ts)) ++ [rpar].
Proof.
  intros Hne. simpl. f_equal. f_equal. destruct ts as [|t ts]; [done|]. clear Hne. revert t. induction ts as [|u ts IH]; intros t.
  - simpl. by rewrite app_nil_r.
  - specialize (IH u). rewrite !fmap_cons in *. cbn [concat app] in *. rewrite IH. rewrite <-!(assoc_L (++)). cbn [app]. by rewrite <-(assoc_L (++)).
Qed.
Lemma pflat_layout t : full t → layout t (pflat t).
Proof.
  induction t as [s|l ts IH] using ntree_ind'; intros HF; [constructor|]. inversion HF as [|? ? Hne HFs]; subst.
  rewrite pflat_NTree by done. constructor; [by left|]. clear HF Hne.
  induction HFs as [|t ts Ht HFs IHl]; [constructor|]. apply Forall_cons in IH as [IHt IH]. constructor; [by apply IHt|by apply IHl].
Qed.
Lemma pformat_layout t : full t → ∀ i, layout t (pformat i t).
Proof.
  induction t as [s|l ts IH] using ntree_ind'; intros HF i; [constructor|]. cbn [pformat].
  destruct (decide (length (pflat (NTree l ts)) + i < 70)) as [_|_]; [by apply pflat_layout|].
  inversion HF as [|? ? Hne HFs]; subst. clear HF Hne.
  match goal with |- layout _ (_ :: _ ++ ?g ts) => assert (E : g ts = concat ((λ s, (nl :: replicate (i + 2) sp) ++ s) <$> (pformat (i + 2) <$> ts)) ++ [rpar]) end.
  { clear. induction ts as [|t ts IH]; [done|]. rewrite !fmap_cons. cbn [concat]. rewrite IH. rewrite <-!(assoc_L (++)). done. }
  rewrite E. constructor; [right; by eexists|].
  clear E. induction HFs as [|t ts Ht HFs IHl]; [constructor|]. apply Forall_cons in IH as [IHt IH]. constructor; [by apply IHt|by apply IHl].
Qed.
Lemma sepstr_spaces s : sepstr s → s ≠ [] ∧ Forall (λ c, is_space c = true) s.
Proof.
  intros [-> |[k ->]]; (split; [done|]); [apply List.Forall_cons; [done|constructor]|]. apply List.Forall_cons; [done|].
  apply Forall_forall. intros c Hc. apply elem_of_replicate in Hc as [-> _]. done.
Qed.
Lemma sepstr_start s rest : sepstr s → sepstart (s ++ rest).
Proof. intros [-> |[k ->]]; simpl; right; right; done. Qed.

(** ** strip *)
Lemma lstrip_id c s : is_space c = false → lstrip (c :: s) = c :: s.
Proof. intros H. simpl. by rewrite H. Qed.
Lemma strip_id c s d : is_space c = false → is_space d = false → strip (c :: s ++ [d]) = c :: s ++ [d].
Proof.
  intros Hc Hd. unfold strip. rewrite lstrip_id by done. rewrite reverse_cons, reverse_app.
  change (reverse [d]) with [d]. cbn [app]. rewrite lstrip_id by done.
  rewrite reverse_cons, reverse_app, reverse_involutive. done.
Qed.
Lemma strip_spaces_l a s : Forall (λ c, is_space c = true) a → strip (a ++ s) = strip s.
Proof. intros H. unfold strip. f_equal. f_equal. f_equal. induction H as [|c a Hc Ha IH]; [done|]. simpl. by rewrite Hc. Qed.
