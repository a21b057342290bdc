(** * ConllReadBack: reading what the CoNLL exporter writes *)
From Verif Require Import PyBase DocGraph Relabel StrNum Query Text TextFacts Rst DisText Nltk SpecGraph DocGraphFacts SpecQuery SpanFacts SpecParse SpecImport ImportFacts SpecDecour DecourFacts SpecConll ConllFacts ConllRead SpecConllRead ConllReadText ConllReadFacts ConllReadSpan ConllReadWalk.

Definition back_lines (p : list string * list chars) : list line := imap (λ i q, LRow (row_cells (S i) q.1 q.2)) (zip p.1 p.2).
Definition begin_line : line := LComment (chs "begin document (__); __").
Definition end_line : line := LComment (chs "end document").
Definition back_doc (words : list (list string)) (cols : list (list chars)) : list (list line) :=
  match zip words cols with
  | [] => [[begin_line; end_line]]
  | p :: ps => (begin_line :: back_lines p) :: (back_lines <$> ps) ++ [[end_line]]
  end.
Lemma joined_row i w col : joined [tab] (row_cells i w col) = row_line i w col.
Proof. unfold row_cells, row_line. cbn [replicate app joined concat]. by rewrite <-!app_assoc. Qed.
Lemma ended_lines ls : ls ≠ [] → concat ((λ l, l ++ [newline]) <$> ls) = joined [newline] ls ++ [newline].
Proof.
  induction ls as [|l ls IH]; [done|]. intros _. rewrite fmap_cons. cbn [concat]. destruct ls as [|m ls]; [by rewrite app_nil_r|]. rewrite IH by done. rewrite joined_two. by rewrite <-!app_assoc.
Qed.
Lemma back_lines_text p : line_text <$> back_lines p = imap (λ i q, row_line (S i) q.1 q.2) (zip p.1 p.2).
Proof.
  unfold back_lines. generalize (zip p.1 p.2) as l. intros l. assert (HX : ∀ f : nat → nat, line_text <$> imap (λ i q, LRow (row_cells (f i) q.1 q.2)) l = imap (λ i q, row_line (f i) q.1 q.2) l); [|apply HX].
  induction l as [|q l IH]; intros f; [done|]. cbn [imap]. rewrite fmap_cons. change (line_text (LRow (row_cells (f 0) q.1 q.2))) with (joined [tab] (row_cells (f 0) q.1 q.2)). rewrite joined_row. f_equal. apply (IH (f ∘ S)).
Qed.
Lemma sentence_is p : sentence p.1 p.2 = concat ((λ l, l ++ [newline]) <$> (line_text <$> back_lines p)) ++ [newline].
Proof. rewrite sentence_lines. unfold sent_lines. rewrite fmap_app, concat_app, back_lines_text. done. Qed.
Lemma sentence_full p : back_lines p ≠ [] → sentence p.1 p.2 = sentence_text (back_lines p) ++ [newline; newline].
Proof. intros H. rewrite sentence_is. rewrite ended_lines by (by destruct (back_lines p)). by rewrite <-app_assoc. Qed.
Lemma rest_text ps : Forall (λ p, back_lines p ≠ []) ps →
  concat ((λ p, sentence p.1 p.2) <$> ps) ++ chs "#end document" = joined [newline; newline] (sentence_text <$> (back_lines <$> ps) ++ [[end_line]]).
Proof.
  induction 1 as [|p ps Hp HF IH]; [done|]. rewrite fmap_cons. cbn [concat]. rewrite <-app_assoc, IH, (sentence_full p Hp). rewrite fmap_cons. cbn [app]. rewrite fmap_cons.
  destruct (sentence_text <$> (back_lines <$> ps) ++ [[end_line]]) as [|x l] eqn:E; [by destruct ps|]. rewrite joined_two. by rewrite <-app_assoc.
Qed.
Lemma zip_sentences words cols : zip_with sentence words cols = (λ p, sentence p.1 p.2) <$> zip words cols.
Proof. revert cols. induction words as [|w words IH]; intros [|c cols]; [done..|]. cbn [zip_with]. rewrite fmap_cons. f_equal. apply IH. Qed.
Lemma back_text words cols : Forall (λ p, back_lines p ≠ []) (tail (zip words cols)) → conll_file words cols = joined [newline; newline] (sentence_text <$> back_doc words cols).
Proof.
  intros HF. unfold conll_file. rewrite zip_sentences. unfold back_doc. destruct (zip words cols) as [|p ps]; [vm_compute; reflexivity|]. cbn [tail] in HF. rewrite fmap_cons. cbn [concat]. rewrite <-(app_assoc (sentence p.1 p.2)), rest_text by done.
  rewrite fmap_cons. destruct (sentence_text <$> (back_lines <$> ps) ++ [[end_line]]) as [|x l] eqn:E; [by destruct ps|]. rewrite joined_two, sentence_is.
  assert (E1 : chs "#begin document (__); __" ++ [newline] ++ concat ((λ l, l ++ [newline]) <$> (line_text <$> back_lines p)) = concat ((λ l, l ++ [newline]) <$> (line_text <$> begin_line :: back_lines p))).
  { rewrite !fmap_cons. cbn [concat]. rewrite <-(app_assoc (line_text begin_line)). done. }
  rewrite <-(app_assoc (concat _)). rewrite (app_assoc [newline]), (app_assoc (chs _)), E1. rewrite ended_lines by done. change (sentence_text (begin_line :: back_lines p)) with (joined [newline] (line_text <$> begin_line :: back_lines p)). by rewrite <-!app_assoc.
Qed.
Section back.
  Context (o : conll_options) (HO : options_ok o) (HF : co_format o = "2009") (Hfeat : co_feat o ∉ ["word_id"; "token"]) (Hhead : co_head o ∉ ["word_id"; "token"]).
  Definition back_values (i : nat) (w : string) (col : chars) : list (string * string) := zip (columns "2009") (str <$> row_cells i w col).
  Definition back_word (i : nat) (w : string) (col : chars) : word :=
    Word (str_Z (Z.of_nat i)) (Z.of_nat i) w "_" (default "" (dget (co_deprel o) (back_values i w col))) [] (back_values i w col).
  Lemma back_value i w col c : c ∈ columns "2009" → c ∉ ["word_id"; "token"] → value "2009" c (row_cells i w col) "_".
  Proof.
    intros Hc Hn. rewrite !not_elem_of_cons in Hn. destruct Hn as (H1 & H2 & _). apply elem_of_list_lookup in Hc as (k & Hk). exists k. split; [done|].
    pose proof (lookup_lt_Some _ _ _ Hk) as Hlt. change (length (columns "2009")) with 14 in Hlt. destruct k as [|[|k]]; [injection Hk as <-; done|injection Hk as <-; done|].
    change (row_cells i w col !! S (S k)) with ((replicate 12 (chs "_") ++ [col]) !! k). rewrite lookup_app_l by (rewrite replicate_length; lia). apply lookup_replicate_2. lia.
  Qed.
  Lemma back_integer i : is_integer (number i) (Z.of_nat i).
  Proof.
    apply is_integer_int. unfold int_of, number. rewrite strip_word; [apply py_int_str_Z|]. split; [apply number_ne|]. apply Forall_forall. intros c Hc. destruct (Rst.is_space c) eqn:E; [|done]. exfalso.
    assert (Hd : is_digit c = false ∧ c ≠ "-"%char) by (destruct c as [[] [] [] [] [] [] [] []]; vm_compute in E; first [discriminate E|split; [reflexivity|discriminate]]). destruct Hd. by apply (number_free i c).
  Qed.
  Lemma back_word_of i w col : word_of o (row_cells i w col) (back_word i w col).
  Proof.
    unfold word_of. rewrite HF. split; [exists 0; split; [done|]; done|]. split; [apply back_integer|]. split; [by exists 1|]. split; [apply back_value; [rewrite <-HF; apply (oo_head _ HO)|done]|].
    split; [|split; [|done]].
    - apply value_dget; [apply NoDup_columns|]. cbn [back_word w_rel]. fold (back_values i w col). assert (is_Some (dget (co_deprel o) (back_values i w col))) as (v & ->); [|done].
      apply dget_is_Some. unfold back_values. change (dkeys ?x) with (x.*1). rewrite fst_zip; [rewrite <-HF; apply (oo_deprel _ HO)|]. rewrite fmap_length. apply (bool_decide_unpack _). vm_compute. exact I.
    - exists "_". split; [apply back_value; [rewrite <-HF; apply (oo_feat _ HO)|done]|]. exists [chs "_"], [None]. split; [apply List.Forall_cons; [|by apply List.Forall_nil]; apply (bool_decide_unpack _); vm_compute; exact I|]. split; [done|]. split; [done|]. split; [|done].
      rewrite decide_False by (apply (bool_decide_unpack _); vm_compute; exact I). apply List.Forall2_cons; [|constructor]. apply VF_unknown. intros f Hin. unfold known_values in Hin. repeat (apply elem_of_cons in Hin as [Hin|Hin]; [injection Hin as Hin _; discriminate Hin|]). by apply elem_of_nil in Hin.
  Qed.
  Lemma back_row_ok i w col : one_field w → cell_free col → line_ok "2009" (LRow (row_cells i w col)).
  Proof.
    intros [Hw1 Hw2] [Hc1 Hc2]. split; [|split; [|split]].
    - unfold row_cells. apply List.Forall_cons; [split; (apply number_free; [reflexivity|discriminate])|]. apply List.Forall_cons; [done|]. apply Forall_app_2; [|apply List.Forall_cons; [done|by apply List.Forall_nil]].
      apply Forall_replicate. split; (apply (bool_decide_unpack _); vm_compute; exact I).
    - rewrite joined_row. unfold row_line. destruct (number i) as [|c l] eqn:E; [by apply number_ne in E|]. cbn. intros [= ->]. apply (number_free i "#"%char eq_refl); [done|]. rewrite E. left.
    - rewrite decide_False by done. apply (bool_decide_unpack _). vm_compute. exact I.
    - exists (str_Z (Z.of_nat i)), (Z.of_nat i). split; [by exists 0|apply back_integer].
  Qed.
  Definition back_words (p : list string * list chars) : list word := imap (λ i q, back_word (S i) q.1 q.2) (zip p.1 p.2).
  Definition back_wss (words : list (list string)) (cols : list (list chars)) : list (list word) := (back_words <$> zip words cols) ++ [[]].
  Lemma back_rows p : Forall2 (word_of o) (rows (back_lines p)) (back_words p).
  Proof.
    unfold back_lines, back_words. generalize (zip p.1 p.2) as l. intros l. assert (HX : ∀ f : nat → nat, Forall2 (word_of o) (rows (imap (λ i q, LRow (row_cells (f i) q.1 q.2)) l)) (imap (λ i q, back_word (f i) q.1 q.2) l)); [|apply HX].
    induction l as [|q l IH]; intros f; [constructor|]. cbn [imap]. apply List.Forall2_cons; [apply back_word_of|apply (IH (f ∘ S))].
  Qed.
  Lemma back_words_of words cols : words_of_doc o (back_doc words cols) (back_wss words cols).
  Proof.
    unfold words_of_doc, back_doc, back_wss. destruct (zip words cols) as [|p ps]; [apply List.Forall2_cons; constructor|]. rewrite fmap_cons. cbn [app]. apply List.Forall2_cons; [exact (back_rows p)|].
    apply Forall2_app; [|apply List.Forall2_cons; constructor]. apply Forall2_fmap_2, Forall_Forall2_diag, Forall_forall. intros q _. apply back_rows.
  Qed.
  Lemma back_lines_ok p : Forall one_field p.1 → Forall cell_free p.2 → Forall (line_ok "2009") (back_lines p).
  Proof.
    intros H1 H2. apply Forall_forall. intros l (i & q & -> & [Hi1 Hi2]%imap_zip_lookup)%elem_of_lookup_imap_1. apply back_row_ok; [by apply (Forall_lookup_1 _ _ _ _ H1 Hi1)|by apply (Forall_lookup_1 _ _ _ _ H2 Hi2)].
  Qed.
  Lemma comment_ok s : newline ∉ chs s → line_ok "2009" (LComment (chs s)).
  Proof. done. Qed.
  Lemma back_readable words cols : Forall (Forall one_field) words → Forall (Forall cell_free) cols → Forall (λ p, back_lines p ≠ []) (tail (zip words cols)) → readable "2009" (back_doc words cols).
  Proof.
    intros HW HCol HT. assert (Hb : line_ok "2009" begin_line) by (apply comment_ok; apply (bool_decide_unpack _); vm_compute; exact I). assert (He : line_ok "2009" end_line) by (apply comment_ok; apply (bool_decide_unpack _); vm_compute; exact I).
    split.
    - assert (HZ : Forall (λ p, Forall (line_ok "2009") (back_lines p)) (zip words cols)).
      { apply Forall_forall. intros q (i & Hq)%elem_of_list_lookup. apply lookup_zip_with_Some in Hq as (x & y & -> & Hx & Hy). apply back_lines_ok; [exact (Forall_lookup_1 _ _ _ _ HW Hx)|exact (Forall_lookup_1 _ _ _ _ HCol Hy)]. }
      unfold back_doc. destruct (zip words cols) as [|p ps]; [apply List.Forall_cons; [split; [done|]; repeat (apply List.Forall_cons; [assumption|]); by apply List.Forall_nil|by apply List.Forall_nil]|].
      cbn [tail] in HT. apply Forall_cons in HZ as [Hp Hps]. apply List.Forall_cons; [split; [done|by apply List.Forall_cons]|]. apply Forall_app_2; [|apply List.Forall_cons; [split; [done|apply List.Forall_cons; [done|by apply List.Forall_nil]]|by apply List.Forall_nil]].
      apply Forall_fmap. rewrite Forall_forall in Hps, HT |- *. intros q Hq. split; [by apply HT|by apply Hps].
    - rewrite <-back_text by done. split.
      + exists "#"%char. done.
      + exists "t"%char. split; [|done]. unfold conll_file. rewrite !app_assoc. rewrite last_app. done.
  Qed.
  Lemma back_plain words cols : Forall plain_words (back_wss words cols).
  Proof.
    unfold back_wss. apply Forall_app_2; [|apply List.Forall_cons; [split; [constructor|by apply List.Forall_nil]|by apply List.Forall_nil]]. apply Forall_fmap, Forall_forall. intros p _. unfold compose. split.
    - apply NoDup_alt. intros i j x Hi Hj. rewrite list_lookup_fmap in Hi, Hj. unfold back_words in Hi, Hj. rewrite list_lookup_imap in Hi, Hj.
      destruct (zip p.1 p.2 !! i); [|done]. destruct (zip p.1 p.2 !! j); [|done]. cbn in Hi, Hj. assert (E : str_Z (Z.of_nat (S i)) = str_Z (Z.of_nat (S j))) by congruence. apply str_Z_inj in E. lia.
    - apply Forall_forall. intros w (i & q & -> & _)%elem_of_lookup_imap_1. cbn. apply (bool_decide_unpack _). vm_compute. exact I.
  Qed.
  Lemma back_forms words cols : Forall2 (λ ws cs, length ws = length cs) words cols → (λ ws : list word, w_form <$> ws) <$> back_wss words cols = words ++ [[]].
  Proof.
    intros HL. unfold back_wss. rewrite fmap_app. f_equal. induction HL as [|ws cs words cols Hl HL IH]; [done|]. cbn [zip_with]. rewrite !fmap_cons. f_equal; [|exact IH]. unfold back_words. cbn [fst snd].
    assert (HX : ∀ (f : nat → nat) l, w_form <$> imap (λ i (q : string * chars), back_word (f i) q.1 q.2) l = l.*1) by (intros f l; revert f; induction l as [|q l IHl]; intros f; [done|]; cbn [imap]; rewrite !fmap_cons; f_equal; apply (IHl (f ∘ S))).
    rewrite HX. apply fst_zip. lia.
  Qed.
  Lemma back_word_cases words cols ws w : ws ∈ back_wss words cols → w ∈ ws → ∃ i x c, w = back_word (S i) x c.
  Proof.
    unfold back_wss. rewrite elem_of_app, elem_of_list_singleton. intros [H| ->] Hw; [|by apply elem_of_nil in Hw]. apply elem_of_list_fmap in H as (p & -> & _). apply elem_of_lookup_imap in Hw as (i & q & -> & _). by eexists _, _, _.
  Qed.
  Lemma back_governed words cols ws h w : ws ∈ back_wss words cols → governed ws h w → h = "_".
  Proof.
    intros Hws. induction 1 as [w Hw E|w v Hw Hv E H0 _ IH]; [|done]. destruct (back_word_cases _ _ _ _ Hws Hw) as (i & x & c & ->). by subst h.
  Qed.
  Lemma back_no_cycle words cols : Forall no_cycle (back_wss words cols).
  Proof.
    apply Forall_forall. intros ws Hws w Hw. exists "_". assert (Eh : w_head w = "_") by (destruct (back_word_cases _ _ _ _ Hws Hw) as (i & x & c & ->); done). split; [|by apply G_here].
    right. intros (v & E & Hv)%elem_of_list_fmap. destruct (back_word_cases _ _ _ _ Hws Hv) as (i & x & c & ->). cbn in E. assert (Hin : "_"%char ∈ chs (str_Z (Z.of_nat (S i)))) by (unfold str_Z in *; rewrite <-E; left). by apply str_Z_free in Hin.
  Qed.
End back.
