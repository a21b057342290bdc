(** * ParseFacts: proofs about the readers of parser output *)
From Verif Require Import PyBase DocGraph Relabel SpecGraph StrNum Query Text SpecText TextFacts Rst SpecRst Nltk Dis SpanFacts RstLayout RstRead NltkFacts DisText DisTree Parsers SpecParse.

(** ** bracketed text *)
Inductive symbols : ntree → Prop :=
| SY_leaf s : symbol (chs s) → symbols (NLeaf s)
| SY_node l ts : symbol (chs l) → Forall symbols ts → symbols (NTree l ts).
Lemma symbol_atom s : symbol s → atom s.
Proof. intros [Hne HF]. split; [done|]. eapply Forall_impl; [exact HF|]. intros c (H1 & H2 & H3). by split. Qed.
Lemma lex_open_pre a l rest : blanks a → atom l → sepstart rest → lex LOut ("("%char :: a ++ l ++ rest) = TOpen l :: lex LOut rest.
Proof.
  intros Ha Hl Hr. change ("("%char) with lpar. cbn [lex]. rewrite decide_True by done. cbn [flush app].
  assert (E : lex LOpen (a ++ l ++ rest) = lex LOpen (l ++ rest)).
  { clear Hl Hr. induction Ha as [|c a Hc Ha IH]; [done|]. cbn [app lex].
    rewrite decide_False by (intros ->; done). rewrite decide_False by (intros ->; done). by rewrite Hc. }
  rewrite E. pose proof (lex_open l rest Hl Hr) as H. cbn [lex] in H. rewrite decide_True in H by done. exact H.
Qed.
Lemma blank_start s rest : s ≠ [] → blanks s → sepstart (s ++ rest).
Proof. destruct s as [|c s]; [done|]. intros _ H. apply Forall_cons in H as [H _]. right; right. exact H. Qed.
Lemma lex_text t : symbols t → ∀ s rest, text_of t s → sepstart rest → lex LOut (s ++ rest) = toks t ++ lex LOut rest.
Proof.
  induction t as [w|l ts IH] using ntree_ind'; intros HS s rest HT Hr.
  - inversion HT; subst. inversion HS; subst. rewrite lex_word; [done|by apply symbol_atom|done].
  - inversion HT as [|? ? pre ss post Hpre H2 Hpost]; subst. inversion HS as [|? ? Hl HSs]; subst.
    rewrite toks_NTree. cbn [app]. rewrite <-!(assoc_L (++)).
    assert (Hpr : sepstart (post ++ [")"%char] ++ rest)).
    { destruct post as [|c post]; [right; left; done|by apply blank_start]. }
    assert (Hst : ∀ ss ts rest, sepstart rest → Forall2 (λ (t : ntree) (p : chars * chars), p.1 ≠ [] ∧ blanks p.1 ∧ text_of t p.2) ts ss →
      sepstart (concat ((λ p : chars * chars, p.1 ++ p.2) <$> ss) ++ rest)).
    { clear. intros ss ts rest Hr H. destruct H as [|t p ts ss (Hne & Hb & _) _]; [exact Hr|]. rewrite fmap_cons. cbn [concat].
      rewrite <-!(assoc_L (++)). by apply blank_start. }
    rewrite lex_open_pre; [|done|by apply symbol_atom|by eapply Hst]. cbn [app]. f_equal.
    assert (G : lex LOut (post ++ [")"%char] ++ rest) = TClose :: lex LOut rest).
    { rewrite lex_spaces by done. cbn [app]. apply lex_close. }
    clear HT HS Hpre Hl. revert IH HSs. induction H2 as [|t p ts ss (Hne & Hb & Ht) H2 IH2]; intros IH HSs.
    + rewrite fmap_nil. cbn [concat]. rewrite app_nil_l. exact G.
    + apply Forall_cons in IH as [IHt IH]. apply Forall_cons in HSs as [HSt HSs]. rewrite !fmap_cons. cbn [concat].
      rewrite <-!(assoc_L (++)). rewrite lex_spaces by done. rewrite IHt; [|done|done|by eapply Hst]. f_equal. by apply IH2.
Qed.
Lemma fromstring_file l ts s : symbols (NTree l ts) → file_of (NTree l ts) s → fromstring s = Ok (NTree l ts).
Proof.
  intros HS (a & b & c & -> & Ha & Hc & HT). apply fromstring_toks. rewrite lex_spaces by done.
  rewrite (lex_text _ HS b c HT); [|destruct c as [|x c]; [done|apply Forall_cons in Hc as [Hc _]; right; by right]].
  assert (E : lex LOut c = []) by (rewrite <-(app_nil_r c); by rewrite lex_spaces). rewrite E. by rewrite app_nil_r.
Qed.

(** ** substitutions that find nothing *)
Lemma re_sub_none k new s : k ≠ [] → ¬ occurs k s → re_sub (lit k new) s = s.
Proof.
  intros Hk Hs. apply scan_id. intros x y -> Hy. apply lit_None. intros Hp. apply Hs. apply occurs_app_r. by apply prefix_occurs.
Qed.

(** ** relation labels *)
Lemma chop_nl_id s : nl ∉ s → chop_nl s = s.
Proof.
  intros H. unfold chop_nl. destruct (reverse s) as [|c r] eqn:E; [done|]. rewrite decide_False; [done|].
  intros ->. apply H. rewrite <-(reverse_involutive s), E. apply elem_of_reverse. left.
Qed.
Lemma role_nuc r : ∃ c, chs (role_name r) = [c] ∧ is_nuc c ∧ ch c = role_name r.
Proof. destruct r; [exists "N"%char|exists "S"%char]; (split; [done|split; [|done]]); [by left|by right]. Qed.
Lemma hilda_match_form n x y : one_line n →
  hilda_match (n +:+ "[" +:+ role_name x +:+ "][" +:+ role_name y +:+ "]") =
  Some (n, match x with Nuc => "N"%char | Sat => "S"%char end, match y with Nuc => "N"%char | Sat => "S"%char end).
Proof.
  intros Hn. unfold hilda_match.
  assert (E : chs (n +:+ "[" +:+ role_name x +:+ "][" +:+ role_name y +:+ "]") =
    chs n ++ ["["%char; match x with Nuc => "N"%char | Sat => "S"%char end; "]"%char; "["%char; match y with Nuc => "N"%char | Sat => "S"%char end; "]"%char]).
  { rewrite !chs_app. by destruct x, y. }
  rewrite E. rewrite chop_nl_id.
  2: { intros Hi. apply elem_of_app in Hi as [Hi|Hi]; [done|]. destruct x, y; repeat (apply elem_of_cons in Hi as [Hi|Hi]; [done|]); by apply elem_of_nil in Hi. }
  rewrite reverse_app.
  assert (Er : ∀ a b : ascii, reverse ["["%char; a; "]"%char; "["%char; b; "]"%char] = ["]"%char; b; "["%char; "]"%char; a; "["%char]) by done.
  rewrite Er. cbn [app]. rewrite decide_True.
  - by rewrite reverse_involutive, str_chs.
  - split; [destruct x; by (left + right)|]. split; [destruct y; by (left + right)|]. by rewrite elem_of_reverse.
Qed.
Lemma dplp_match_form n x y : one_line n →
  dplp_match (role_name x +:+ role_name y +:+ "-" +:+ n) =
  Some (match x with Nuc => "N"%char | Sat => "S"%char end, match y with Nuc => "N"%char | Sat => "S"%char end, n).
Proof.
  intros Hn. unfold dplp_match.
  assert (E : chs (role_name x +:+ role_name y +:+ "-" +:+ n) =
    match x with Nuc => "N"%char | Sat => "S"%char end :: match y with Nuc => "N"%char | Sat => "S"%char end :: "-"%char :: chs n).
  { rewrite !chs_app. by destruct x, y. }
  rewrite E. rewrite chop_nl_id by done. rewrite str_chs.
  rewrite decide_True; [done|]. split; [destruct x; by (left + right)|]. split; [destruct y; by (left + right)|done].
Qed.
Lemma ch_role x : ch (match x with Nuc => "N"%char | Sat => "S"%char end) = role_name x.
Proof. by destruct x. Qed.

(** ** HILDA *)
Lemma hilda_transform_form p : Forall one_line (names p) → hilda_transform (hilda_form p) = Ok (parse_tree id p).
Proof.
  induction p as [s|n x y p IHp q IHq]; intros H; [done|]. cbn [names] in H. apply Forall_cons in H as [Hn H]. apply Forall_app in H as [Hp Hq].
  cbn [hilda_form hilda_transform]. rewrite hilda_match_form by done. rewrite IHp, IHq by done. cbn [rbind]. by rewrite !ch_role.
Qed.
Lemma typecast_form k new p : "["%char ∉ k → "a"%char ∈ k → Forall (λ n, ¬ occurs k (chs n)) (names p) → Forall (λ s, ¬ occurs k (chs s)) (units p) →
  map_strings (λ s, str (re_sub (lit k new) (chs s))) (hilda_form p) = hilda_form p.
Proof.
  intros Hb Ha Hn Hu. assert (Hk : k ≠ []) by (intros ->; by apply elem_of_nil in Ha).
  induction p as [s|n x y p IHp q IHq]; cbn [hilda_form map_strings map names units] in *.
  - apply Forall_cons in Hu as [Hu _]. by rewrite re_sub_none, str_chs.
  - apply Forall_cons in Hn as [Hn Hns]. apply Forall_app in Hns as [Hnp Hnq]. apply Forall_app in Hu as [Hup Huq]. rewrite IHp, IHq by done.
    f_equal. rewrite re_sub_none; [by rewrite str_chs|done|]. rewrite !chs_app. intros Ho.
    change (chs "[") with ["["%char] in Ho. cbn [app] in Ho. apply occurs_sep in Ho as [Ho|Ho]; [done| |done].
    pose proof (occurs_elem _ _ _ Ho Ha) as Hi. rewrite !elem_of_app in Hi. destruct x, y; cbn in Hi;
      repeat match type of Hi with _ ∨ _ => destruct Hi as [Hi|Hi] | _ ∈ _ :: _ => apply elem_of_cons in Hi as [Hi|Hi] | _ ∈ [] => by apply elem_of_nil in Hi end; done.
Qed.
Lemma read_hilda_form p : Forall (λ n, one_line n ∧ ¬ occurs (chs "ParseTree") (chs n)) (names p) →
  Forall (λ s, ¬ occurs (chs "ParseTree") (chs s)) (units p) → read_hilda (hilda_form p) = Ok (parse_tree id p).
Proof.
  intros Hn Hu. unfold read_hilda, hilda_typecast. rewrite typecast_form.
  - apply hilda_transform_form. eapply Forall_impl; [exact Hn|]. by intros n [? _].
  - by intros Hi; cbn in Hi; repeat (apply elem_of_cons in Hi as [Hi|Hi]; [done|]); apply elem_of_nil in Hi.
  - cbn. right; left.
  - eapply Forall_impl; [exact Hn|]. by intros n [_ ?].
  - done.
Qed.
(** what is accepted at all *)
Lemma nuc_role c : is_nuc c → ∃ r, ch c = role_name r.
Proof. intros [-> | ->]; [by exists Nuc|by exists Sat]. Qed.
Lemma leaves_NTree l ts : leaves (NTree l ts) = concat (leaves <$> ts).
Proof. cbn [leaves]. induction ts as [|t ts IH]; [done|]. rewrite fmap_cons. cbn [concat]. by rewrite IH. Qed.
Lemma hilda_match_nuc l rel x y : hilda_match l = Some (rel, x, y) → is_nuc x ∧ is_nuc y.
Proof.
  unfold hilda_match. intros H.
  repeat match type of H with
  | context [match ?d with _ => _ end] => lazymatch d with decide ?P => destruct (decide P) as [HP|HP] | _ => destruct d end; try discriminate H
  end. injection H as <- <- <-. destruct HP as (? & ? & ?). done.
Qed.
Lemma hilda_transform_any t : ∀ u, hilda_transform t = Ok u → ∃ p, u = parse_tree id p ∧ units p = leaves t.
Proof.
  induction t as [s|l ts IH] using ntree_ind'; intros u H.
  - injection H as <-. by exists (Unit s).
  - cbn [hilda_transform] in H. destruct ts as [|a [|b [|]]]; [discriminate H..| |discriminate H].
    destruct (hilda_match l) as [[[rel x] y]|] eqn:E; [|discriminate H]. apply hilda_match_nuc in E as [Hx Hy].
    apply Forall_cons in IH as [IHa IH]. apply Forall_cons in IH as [IHb _].
    destruct (hilda_transform a) as [a'|] eqn:Ea; [|discriminate H]. destruct (hilda_transform b) as [b'|] eqn:Eb; [|discriminate H].
    cbn [rbind] in H. injection H as <-. destruct (IHa a' eq_refl) as (p & -> & Hp). destruct (IHb b' eq_refl) as (q & -> & Hq).
    destruct (nuc_role x Hx) as [rx ->]. destruct (nuc_role y Hy) as [ry ->]. exists (Rel rel rx ry p q). split; [done|].
    rewrite leaves_NTree. rewrite !fmap_cons, fmap_nil. cbn [concat units]. by rewrite app_nil_r, Hp, Hq.
Qed.
Lemma leaves_map_strings f t : leaves (map_strings f t) = f <$> leaves t.
Proof.
  induction t as [s|l ts IH] using ntree_ind'; [done|]. cbn [map_strings]. rewrite !leaves_NTree. change (map ?g ts) with (g <$> ts).
  induction IH as [|t ts Ht _ IH]; [done|]. rewrite !fmap_cons. cbn [concat]. rewrite fmap_app. by rewrite Ht, IH.
Qed.

(** ** StageDP *)
Lemma stagedp_transform_form {A} (leaf : A → string) p : Forall one_line (names p) →
  stagedp_transform false (edu_form leaf p) = Ok (parse_tree leaf p).
Proof.
  induction p as [s|n x y p IHp q IHq]; intros H; [done|]. cbn [names] in H. apply Forall_cons in H as [Hn H]. apply Forall_app in H as [Hp Hq].
  cbn [edu_form stagedp_transform]. rewrite dplp_match_form by done. rewrite IHp, IHq by done. cbn [rbind]. by rewrite !ch_role.
Qed.
Lemma stagedp_root {A} (leaf : A → string) p : Forall one_line (names p) →
  stagedp_transform true (edu_form leaf p) = Ok (parse_doc leaf p).
Proof.
  intros H. destruct p as [s|n x y p q]; [done|]. exact (stagedp_transform_form leaf (Rel n x y p q) H).
Qed.
Lemma map_leaves_form {A} (leaf : A → string) f p : map_leaves f (edu_form leaf p) = edu_form (f ∘ leaf) p.
Proof. induction p as [s|n x y p IHp q IHq]; [done|]. cbn [edu_form map_leaves map]. by rewrite IHp, IHq. Qed.
Lemma edu_form_ext {A} (f g : A → string) p : Forall (λ u, f u = g u) (units p) → edu_form f p = edu_form g p.
Proof.
  induction p as [s|n x y p IHp q IHq]; cbn [units edu_form]; intros H.
  - apply Forall_cons in H as [-> _]. done.
  - apply Forall_app in H as [? ?]. by rewrite IHp, IHq.
Qed.
Lemma edu_form_symbols {A} (leaf : A → string) p : Forall (λ n, symbol (chs n)) (names p) → Forall (λ u, symbol (chs (leaf u))) (units p) → symbols (edu_form leaf p).
Proof.
  induction p as [s|n x y p IHp q IHq]; cbn [units names edu_form]; intros Hn Hu.
  - apply Forall_cons in Hu as [Hu _]. apply SY_node; [|apply List.Forall_cons; [by apply SY_leaf|constructor]].
    split; [done|]. repeat (apply List.Forall_cons; [done|]). constructor.
  - apply Forall_cons in Hn as [Hn Hns]. apply Forall_app in Hns as [? ?]. apply Forall_app in Hu as [? ?]. apply SY_node.
    + rewrite !chs_app. destruct Hn as [_ HF]. split; [by destruct x|]. repeat apply Forall_app_2; try done;
        (destruct x + destruct y + idtac); repeat (apply List.Forall_cons; [done|]); constructor.
    + apply List.Forall_cons; [by apply IHp|]. apply List.Forall_cons; [by apply IHq|constructor].
Qed.
Lemma split_joined c ws : ws ≠ [] → Forall (λ w, c ∉ w) ws → split_char c (joined [c] ws) = ws.
Proof.
  intros Hne HF. induction HF as [|w ws Hw HF IH]; [done|]. destruct ws as [|w' ws]; [by apply DisText.split_char_no|].
  cbn [joined]. cbn [app]. rewrite DisText.split_char_app by done. f_equal. by apply IH.
Qed.
Lemma cleanup_leaf toks : toks ≠ [] → Forall (λ w, underscore ∉ w) toks → cleanup_edu_text (stagedp_leaf toks) = unmarked toks.
Proof.
  intros Hne HF. unfold cleanup_edu_text, stagedp_leaf, unmarked. rewrite chs_str. cbv zeta. change ("_"%char) with underscore.
  assert (E : drop 2 (take (length (chs "_!" ++ joined [underscore] toks ++ chs "!_") - 2) (chs "_!" ++ joined [underscore] toks ++ chs "!_")) = joined [underscore] toks).
  { rewrite (assoc_L (++)). rewrite app_length. change (length (chs "!_")) with 2. rewrite Nat.add_sub, take_app. done. }
  do 3 f_equal. etrans; [apply (f_equal (split_char underscore)); exact E|]. by apply split_joined.
Qed.
Lemma stagedp_leaf_symbol toks : Forall symbol toks → symbol (chs (stagedp_leaf toks)).
Proof.
  intros HF. unfold stagedp_leaf. rewrite chs_str. split; [done|]. repeat apply Forall_app_2;
    [repeat (apply List.Forall_cons; [done|]); constructor| |repeat (apply List.Forall_cons; [done|]); constructor].
  induction HF as [|w ws [_ Hw] HF IH]; [constructor|]. destruct ws as [|w' ws]; [done|]. cbn [joined]. apply Forall_app_2; [done|].
  apply Forall_app_2; [apply List.Forall_cons; [done|constructor]|done].
Qed.
Lemma symbol_one_line n : symbol (chs n) → one_line n.
Proof. intros [_ HF] Hi. rewrite Forall_forall in HF. apply HF in Hi as (_ & _ & Hi). done. Qed.
Lemma read_stagedp_form p s : Forall (λ n, symbol (chs n)) (names p) → Forall (λ toks, toks ≠ [] ∧ Forall (λ w, symbol w ∧ underscore ∉ w) toks) (units p) →
  file_of (edu_form stagedp_leaf p) s → read_stagedp s = Ok (parse_doc unmarked p).
Proof.
  intros Hn Hu Hf. unfold read_stagedp.
  assert (HS : symbols (edu_form stagedp_leaf p)).
  { apply edu_form_symbols; [done|]. eapply Forall_impl; [exact Hu|]. intros toks [_ HF]. apply stagedp_leaf_symbol.
    eapply Forall_impl; [exact HF|]. by intros w [? _]. }
  assert (E : fromstring s = Ok (edu_form stagedp_leaf p)).
  { destruct p; cbn [edu_form] in *; by apply fromstring_file. }
  rewrite E. cbn [rbind]. rewrite map_leaves_form. rewrite (edu_form_ext _ unmarked).
  - apply stagedp_root. eapply Forall_impl; [exact Hn|]. intros n. apply symbol_one_line.
  - eapply Forall_impl; [exact Hu|]. intros toks [Hne HF]. apply cleanup_leaf; [done|]. eapply Forall_impl; [exact HF|]. by intros w [_ ?].
Qed.
(** parses with a nucleus in every relation are RST trees *)
Fixpoint to_rst {A} (text : A → string) (p : parse A) : rst :=
  match p with
  | Unit u => Edu (text u)
  | Rel n Nuc Nuc p q => Multi n [to_rst text p; to_rst text q]
  | Rel n Nuc Sat p q => Mono n true (to_rst text p) (to_rst text q)
  | Rel n _ _ p q => Mono n false (to_rst text q) (to_rst text p)
  end.
Lemma to_rst_ok {A} (text : A → string) p : nuclear p →
  multi_ok (to_rst text p) ∧ parse_tree text p = body (to_rst text p) ∧ edus (to_rst text p) = text <$> units p ∧ fst <$> relations (to_rst text p) = names p.
Proof.
  induction p as [u|n x y p IHp q IHq]; [done|]. intros (Hxy & Hp & Hq). apply IHp in Hp as (Hp1 & Hp2 & Hp3 & Hp4). apply IHq in Hq as (Hq1 & Hq2 & Hq3 & Hq4).
  cbn [parse_tree units names]. rewrite fmap_app, Hp2, Hq2. destruct x, y; cbn [to_rst multi_ok body edus relations role_name map length].
  - rewrite !app_nil_r, Hp3, Hq3. rewrite fmap_cons, fmap_app, Hp4, Hq4. cbn [fst]. auto with lia.
  - rewrite Hp3, Hq3, fmap_cons, fmap_app, Hp4, Hq4. auto.
  - rewrite Hp3, Hq3, fmap_cons, fmap_app, Hp4, Hq4. auto.
  - exfalso. by apply Hxy.
Qed.
(** the text that nltk prints for a tree *)
Lemma layout_text t : full t → ∀ s, layout t s → text_of t s.
Proof.
  induction t as [w|l ts IH] using ntree_ind'; intros HF s HL; inversion HL as [|? ? sep ss Hsep H2]; subst; [constructor|].
  inversion HF as [|? ? Hne HFs]; subst. assert (E : concat ((λ s : chars, sep ++ s) <$> ss) = concat ((λ p : chars * chars, p.1 ++ p.2) <$> ((sep,.) <$> ss))).
  { rewrite <-list_fmap_compose. done. }
  change (text_of (NTree l ts) (lpar :: chs l ++ concat ((λ s : chars, sep ++ s) <$> ss) ++ [rpar])). rewrite E. apply (TO_node l ts [] ((sep,.) <$> ss) []); [constructor| |constructor]. clear HL E HF Hne.
  revert IH HFs. induction H2 as [|t s ts ss Ht H2 IH2]; intros IH HFs; [constructor|]. apply Forall_cons in IH as [IHt IH]. apply Forall_cons in HFs as [HFt HFs].
  rewrite fmap_cons. constructor; [|by apply IH2]. destruct (sepstr_spaces sep Hsep) as [H3 H4]. split; [done|]. split; [done|]. by apply IHt.
Qed.
Lemma pformat_file t : full t → file_of t (pformat 0 t).
Proof. intros H. exists [], (pformat 0 t), []. rewrite app_nil_r. split; [done|]. split; [constructor|]. split; [constructor|]. apply layout_text; [done|]. by apply pformat_layout. Qed.
