(** * TextFacts: proofs about the string functions *)
From Verif Require Import PyBase DocGraph Relabel SpecGraph DocGraphFacts StrNum Query Text SpecText
  SpanFacts.

(** ** split *)
Lemma split_char_none c p : c ∉ p → split_char c p = [p].
Proof.
  induction p as [|x p IH]; [done|]. intros [Hx Hp]%not_elem_of_cons. simpl.
  rewrite decide_False by congruence. by rewrite IH.
Qed.
Lemma split_char_app c p s : c ∉ p → split_char c (p ++ c :: s) = p :: split_char c s.
Proof.
  induction p as [|x p IH]; intros H; simpl.
  - by rewrite decide_True.
  - apply not_elem_of_cons in H as [Hx Hp]. rewrite decide_False by congruence. by rewrite IH.
Qed.
Lemma split_char_nonnil c s : split_char c s ≠ [].
Proof. induction s as [|x s IH]; simpl; [done|]. case_decide; [done|]. by destruct (split_char c s). Qed.
Lemma split_char_free c s : ∀ p, p ∈ split_char c s → c ∉ p.
Proof.
  induction s as [|x s IH]; simpl; intros p.
  - intros ->%elem_of_list_singleton. by apply not_elem_of_nil.
  - case_decide as Hx.
    + intros [-> |Hp]%elem_of_cons; [by apply not_elem_of_nil|by apply IH].
    + destruct (split_char c s) as [|q qs] eqn:E; [exfalso; by apply (split_char_nonnil c s)|].
      intros [-> |Hp]%elem_of_cons; [|apply IH; by right].
      apply not_elem_of_cons. split; [congruence|]. apply IH. left.
Qed.
Lemma split_char_one c s q : split_char c s = [q] → s = q.
Proof.
  revert q. induction s as [|y s IH]; intros q; simpl; [congruence|]. case_decide.
  - intros [= <- Hs]. exfalso. by apply (split_char_nonnil c s).
  - destruct (split_char c s) as [|t ts] eqn:E; [exfalso; by apply (split_char_nonnil c s)|].
    intros [= <- ->]. f_equal. by apply IH.
Qed.
Lemma split_char_two c s p q : split_char c s = [p; q] → s = p ++ c :: q.
Proof.
  revert p q. induction s as [|x s IH]; simpl; [done|]. intros p q. case_decide as Hx.
  - intros [= <- Hs]. subst. simpl. f_equal. by apply split_char_one in Hs.
  - destruct (split_char c s) as [|t ts] eqn:E; [exfalso; by apply (split_char_nonnil c s)|].
    intros [= <- ->]. simpl. f_equal. by apply IH.
Qed.
Lemma split_dots_none p : "."%char ∉ p → split_dots p = [p].
Proof.
  induction p as [|x p IH]; [done|]. intros [Hx Hp]%not_elem_of_cons. specialize (IH Hp).
  destruct p as [|y p]; [done|]. cbn [split_dots] in *. rewrite decide_False by (intros [-> _]; done).
  by rewrite IH.
Qed.
Lemma split_dots_app p q : "."%char ∉ p → "."%char ∉ q → split_dots (p ++ "."%char :: "."%char :: q) = [p; q].
Proof.
  intros Hp Hq. induction p as [|x p IH].
  - cbn [app split_dots]. rewrite decide_True by done. by rewrite split_dots_none.
  - apply not_elem_of_cons in Hp as [Hx Hp]. specialize (IH Hp).
    assert (E : split_dots (x :: (p ++ "."%char :: "."%char :: q)) =
      match split_dots (p ++ "."%char :: "."%char :: q) with t :: ts => (x :: t) :: ts | [] => [[x]] end).
    { destruct p as [|y p]; cbn [app split_dots]; rewrite decide_False by (intros [-> _]; done); done. }
    cbn [app]. rewrite E, IH. done.
Qed.

(** ** numbers *)
Lemma py_int_digits d : d ≠ [] → Forall (λ c, is_digit c = true) d → py_int d = Ok (Z.of_N (dec_val d)).
Proof.
  intros Hne HF.
  assert (Hd : (if decide (d = []) then Err ValueError
                  else if all_digits_b d then Ok (Z.of_N (dec_val d)) else Err ValueError) = Ok (Z.of_N (dec_val d))).
  { rewrite decide_False by done. assert (all_digits_b d = true) as ->; [|done].
    apply forallb_forall. intros c Hc%elem_of_list_In. rewrite Forall_forall in HF. by apply HF. }
  destruct d as [|c d]; [done|]. apply Forall_cons in HF as [Hc _].
  destruct (decide (c = "-"%char)) as [->|Hm]; [done|]. destruct (decide (c = "+"%char)) as [->|Hp]; [done|].
  transitivity (if decide (c :: d = []) then Err ValueError
                  else if all_digits_b (c :: d) then Ok (Z.of_N (dec_val (c :: d))) else Err ValueError); [|exact Hd].
  clear -Hm Hp. unfold py_int. destruct c as [[] [] [] [] [] [] [] []]; try done; by destruct Hm || by destruct Hp.
Qed.
Lemma py_int_str_Z z : py_int (chs (str_Z z)) = Ok z.
Proof.
  unfold str_Z. destruct z as [|p|p].
  - done.
  - rewrite py_int_digits; [|apply str_N_nonempty|apply str_N_digits]. by rewrite dec_val_str_N.
  - rewrite chs_app. change (chs "-") with ["-"%char]. cbn [app]. unfold py_int.
    rewrite decide_False by apply str_N_nonempty.
    assert (all_digits_b (chs (str_N (N.pos p))) = true) as ->.
    { apply forallb_forall. intros c Hc%elem_of_list_In. pose proof (str_N_digits (N.pos p)) as HF.
      rewrite Forall_forall in HF. by apply HF. }
    cbn [rbind]. by rewrite dec_val_str_N.
Qed.
Lemma str_Z_free z c : is_digit c = false → c ≠ "-"%char → c ∉ chs (str_Z z).
Proof.
  intros Hd Hm Hin.
  assert (G : ∀ n, c ∉ chs (str_N n)).
  { intros n Hc. pose proof (str_N_digits n) as HF. rewrite Forall_forall in HF. rewrite (HF c Hc) in Hd. done. }
  unfold str_Z in Hin. destruct z as [|p|p]; try by apply G in Hin.
  rewrite chs_app in Hin. apply elem_of_app in Hin as [Hin|Hin]; [|by apply G in Hin].
  apply elem_of_list_singleton in Hin. done.
Qed.
Lemma from_to_xrange i j : from_to i j = xrange i (j + 1).
Proof. unfold from_to, xrange. f_equal. f_equal. lia. Qed.

(** ** span strings *)
Lemma word_free p z c : c ≠ "_"%char → c ≠ "-"%char → is_digit c = false → c ∉ p → c ∉ word p z.
Proof.
  intros H1 H2 H3 H4. unfold word. rewrite elem_of_app, elem_of_cons. intros [?|[?|?]]; try done.
  by apply (str_Z_free z c).
Qed.
Lemma word_split p z : "_"%char ∉ p → split_char underscore (word p z) = [p; chs (str_Z z)].
Proof.
  intros H. unfold word. rewrite split_char_app by done. rewrite split_char_none; [done|].
  by apply str_Z_free.
Qed.
Lemma span_part_ok p x l : plain_prefix p → part_of p x l → span_part x = Ok l.
Proof.
  intros (H1 & H2 & H3) Hx. unfold span_part. destruct Hx as [z|i j].
  - rewrite split_dots_none; [done|]. by apply word_free.
  - change (chs "..") with ["."%char; "."%char]. cbn [app]. rewrite split_dots_app by by apply word_free.
    rewrite !word_split by done. rewrite decide_True by done. rewrite !py_int_str_Z. cbn [rbind].
    by rewrite from_to_xrange.
Qed.
Lemma part_comma p x l : plain_prefix p → part_of p x l → ","%char ∉ x.
Proof.
  intros (H1 & H2 & H3) [z|i j]; [by apply word_free|]. rewrite !elem_of_app.
  change (chs "..") with ["."%char; "."%char].
  intros [H|[H|H]]; try by (revert H; apply word_free).
  repeat (apply elem_of_cons in H as [H|H]; [done|]). by apply elem_of_nil in H.
Qed.
Lemma split_commas parts : parts ≠ [] → Forall (λ x, ","%char ∉ x) parts → split_char ","%char (commas parts) = parts.
Proof.
  intros Hne HF. induction HF as [|x parts Hx HF IH]; [done|]. destruct parts as [|y parts].
  - simpl. by apply split_char_none.
  - change (commas (x :: y :: parts)) with (x ++ ","%char :: commas (y :: parts)).
    rewrite split_char_app by done. f_equal. by apply IH.
Qed.
Lemma part_words p x l t : part_of p x l → t ∈ l → ∃ z, t = word p z.
Proof.
  intros [z|i j]; [intros ->%elem_of_list_singleton; eauto|]. intros (z & -> & _)%elem_of_list_fmap. eauto.
Qed.
Lemma spans_words p parts outs t : Forall2 (part_of p) parts outs → t ∈ concat outs → ∃ z, t = word p z.
Proof.
  induction 1 as [|x l parts outs Hx HF IH]; [by intros ?%elem_of_nil|].
  simpl. intros [Ht|Ht]%elem_of_app; [by eapply part_words|by apply IH].
Qed.
Lemma convert_ok p parts outs : plain_prefix p → Forall2 (part_of p) parts outs → parts ≠ [] →
  convert_spanstring (commas parts) = match concat outs with [] => Err IndexError | l => Ok l end.
Proof.
  intros Hp HF Hne. unfold convert_spanstring.
  assert (Hc : commas parts ≠ []).
  { destruct HF as [|x l parts outs Hx HF]; [done|]. assert (x ≠ []).
    { destruct Hx; unfold word; by destruct p. }
    destruct parts as [|y parts]; [done|]. simpl. by destruct x. }
  destruct (commas parts) as [|c0 s0] eqn:E; [done|]. rewrite <-E. clear c0 s0 E Hc.
  rewrite split_commas; [|done|].
  2: { clear Hne. induction HF; constructor; [by eapply part_comma|done]. }
  assert (Hr : rconcat span_part parts = Ok (concat outs)).
  { apply rconcat_Ok. exists outs. split; [|done]. eapply Forall2_impl; [exact HF|]. intros x l. by apply span_part_ok. }
  rewrite Hr. cbn [rbind]. pose proof (spans_words p parts outs) as Hw.
  destruct (concat outs) as [|t0 ts]; [done|].
  assert (Hs : ∀ t, t ∈ t0 :: ts → ∃ i, split_char underscore t = [p; i]).
  { intros t Ht. destruct (Hw t HF Ht) as [z ->]. eexists. apply word_split, Hp. }
  destruct (Hs t0) as [i0 Hi0]; [left|]. rewrite Hi0. cbn [head default].
  assert (Hb : forallb (λ t, match split_char underscore t with
                       | [p0; _] => bool_decide (p0 = p) | _ => false end) (t0 :: ts) = true).
  { apply forallb_forall. intros t Ht%elem_of_list_In. destruct (Hs t Ht) as [i ->]. by apply bool_decide_eq_true. }
  unfold default, from_option, id. by rewrite Hb.
Qed.
Lemma convert_sound s l : convert_spanstring s = Ok l → ∃ p, "_"%char ∉ p ∧
  ∀ t, t ∈ l → ∃ x, t = p ++ "_"%char :: x ∧ "_"%char ∉ x.
Proof.
  unfold convert_spanstring. destruct s as [|c s]; [intros [= <-]; exists []; split; [apply not_elem_of_nil|]|].
  { intros t Ht. by apply elem_of_nil in Ht. }
  intros (toks & _ & H)%rbind_Ok. destruct toks as [|t0 ts]; [done|].
  destruct (forallb _ _) eqn:E; [|done]. injection H as <-. rewrite forallb_forall in E.
  set (p := default [] (head (split_char underscore t0))) in *.
  assert (G : ∀ t, t ∈ t0 :: ts → ∃ x, split_char underscore t = [p; x]).
  { intros t Ht. specialize (E t). rewrite <-elem_of_list_In in E. specialize (E Ht).
    destruct (split_char underscore t) as [|q [|x [|? ?]]] eqn:Es; try done. apply bool_decide_eq_true in E.
    subst. by eexists. }
  exists p. split.
  - destruct (G t0) as [x Hx]; [left|]. apply (split_char_free underscore t0). rewrite Hx. left.
  - intros t Ht. destruct (G t Ht) as [x Hx]. exists x. split; [by apply split_char_two|].
    apply (split_char_free underscore t). rewrite Hx. right. left.
Qed.
Lemma spanstring_ok g s toks : convert_spanstring s = Ok toks →
  spanstring2tokens g None s = Ok (filter (λ n, n ∈ nodes g) ((λ t, NStr (str t)) <$> toks)).
Proof.
  intros H. unfold spanstring2tokens. rewrite H. cbn [rbind]. f_equal. clear H.
  induction toks as [|t toks IH]; [done|]. cbn [mbind list_bind fmap list_fmap]. rewrite filter_cons.
  destruct (dmem (NStr (str t)) (g_node g)) eqn:E.
  - apply dmem_spec in E. rewrite decide_True by done. cbn [app]. f_equal. exact IH.
  - apply dmem_false in E. rewrite decide_False by done. exact IH.
Qed.

(** ** quoting *)
Definition esc (s : chars) : chars := c ← s; if decide (c = dquote) then [backslash; dquote] else [c].
Lemma esc_cons c s : esc (c :: s) = (if decide (c = dquote) then [backslash; dquote] else [c]) ++ esc s.
Proof. done. Qed.
Lemma esc_head s : ∀ c r, esc s = c :: r → c ≠ dquote.
Proof.
  destruct s as [|x s]; [done|]. rewrite esc_cons. intros c r. case_decide; intros [= <- _]; [done|]. done.
Qed.
Lemma unescape_esc s : unescape (esc s) = s.
Proof.
  induction s as [|c s IH]; [done|]. rewrite esc_cons. case_decide as Hc.
  - subst. cbn [app unescape]. rewrite decide_True by done. by rewrite IH.
  - cbn [app]. destruct (esc s) as [|y r] eqn:E.
    + destruct s as [|x s]; [done|]. rewrite esc_cons in E. by case_decide.
    + cbn [unescape]. rewrite decide_False. { f_equal. exact IH. }
      intros [_ ->]. by apply (esc_head s dquote r).
Qed.
Lemma elem_esc x s : x ≠ backslash → x ∈ esc s ↔ x ∈ s.
Proof.
  intros Hx. unfold esc. rewrite elem_of_list_bind. split.
  - intros (c & Hc & Hin). case_decide; subst.
    + apply elem_of_cons in Hc as [->|Hc]; [done|]. by apply elem_of_list_singleton in Hc as ->.
    + by apply elem_of_list_singleton in Hc as ->.
  - intros Hin. exists x. split; [|done]. case_decide; [subst; right; left|left].
Qed.
Lemma unquote_quote s : unquote_from_pydot (quote_for_pydot s) =
  if decide (nl ∈ s) then Err AttributeError else Ok s.
Proof.
  unfold unquote_from_pydot, quote_for_pydot. fold (esc s).
  assert (E : unwrap (dquote :: esc s ++ [dquote]) = if decide (nl ∈ s) then None else Some (esc s)).
  { unfold unwrap. rewrite reverse_cons, reverse_app. change (reverse [dquote]) with [dquote]. cbn [app].
    rewrite decide_False by done. rewrite decide_True by done. rewrite reverse_app. cbn [reverse app].
    change (reverse [dquote]) with [dquote]. cbn [app].
    destruct (decide (nl ∈ s)) as [Hin|Hn].
    - rewrite decide_False; [done|]. intros [_ H]. apply H. rewrite elem_of_reverse. by apply elem_esc.
    - rewrite decide_True; [by rewrite reverse_involutive|]. split; [done|]. rewrite elem_of_reverse.
      intros H. apply Hn. by apply (elem_esc nl s). }
  rewrite E. destruct (decide (nl ∈ s)); [done|]. by rewrite unescape_esc.
Qed.
Lemma dot_body_esc s r : backslash ∉ s → dot_body (esc s ++ dquote :: r) = Some (s, r).
Proof.
  induction s as [|c s IH]; intros Hb.
  - cbn [esc app dot_body mbind list_bind]. by rewrite decide_True.
  - apply not_elem_of_cons in Hb as [Hc Hb]. specialize (IH Hb). rewrite esc_cons. case_decide as Hd.
    + subst. cbn [app dot_body]. rewrite decide_False by done. rewrite decide_True by done. by rewrite IH.
    + cbn [app]. destruct (esc s ++ dquote :: r) as [|y t] eqn:E; [by destruct (esc s)|].
      cbn [dot_body]. rewrite decide_False by done. rewrite !decide_False by (intros [? _]; done).
      cbn [dot_body] in IH. by rewrite IH.
Qed.

(** ** ids *)
Lemma xpointer_free s : ":"%char ∉ xpointer_str s.
Proof.
  unfold xpointer_str. rewrite elem_of_list_fmap. intros (c & H & _). case_decide; [done|]. congruence.
Qed.
Lemma xpointer_id s : ":"%char ∉ s → xpointer_str s = s.
Proof.
  unfold xpointer_str. intros H. induction s as [|c s IH]; [done|]. apply not_elem_of_cons in H as [Hc H].
  simpl. rewrite decide_False by congruence. f_equal. by apply IH.
Qed.
Lemma append_inj_l p x y : p +:+ x = p +:+ y → x = y.
Proof. intros H. apply (f_equal chs) in H. rewrite !chs_app in H. apply app_inv_head in H. by apply chs_inj. Qed.
Lemma add_prefix_get {V} (d : dict string V) p k : NoDup (dkeys d) → dget (p +:+ k) (add_prefix d p) = dget k d.
Proof.
  unfold add_prefix. intros Hnd.
  assert (G : ∀ acc, dget (p +:+ k) (foldl (λ acc q, dset (p +:+ q.1) q.2 acc) acc d) =
    match dget k d with Some v => Some v | None => dget (p +:+ k) acc end).
  { induction d as [|[k' v'] d IH]; intros acc; [done|]. apply NoDup_cons in Hnd as [Hk Hnd].
    cbn [foldl fst snd]. rewrite IH by done. cbn [dget].
    destruct (decide (k = k')) as [->|Hne].
    - assert (dget k' d = None) as -> by by apply dget_None. by rewrite dget_dset_eq.
    - rewrite dget_dset_ne; [done|]. intros H. by apply append_inj_l in H. }
  rewrite G. by destruct (dget k d).
Qed.
Lemma add_prefix_keys {V} (d : dict string V) p k' : k' ∈ dkeys (add_prefix d p) → ∃ k, k ∈ dkeys d ∧ k' = p +:+ k.
Proof.
  unfold add_prefix.
  assert (G : ∀ acc, k' ∈ dkeys (foldl (λ acc q, dset (p +:+ q.1) q.2 acc) acc d) →
    k' ∈ dkeys acc ∨ ∃ k, k ∈ dkeys d ∧ k' = p +:+ k).
  { induction d as [|[k v] d IH]; intros acc; [by left|]. cbn [foldl fst snd]. intros [H|(k1 & H & ->)]%IH.
    - apply dkeys_dset_elem in H as [->|?]; [|by left]. right. exists k. split; [left|done].
    - right. exists k1. split; [by right|done]. }
  intros [H|?]%G; [|done]. by apply elem_of_nil in H.
Qed.

(** ** EXMARaLDA *)
Lemma token_range_ok i j : gen_token_range ("T"%char :: chs (str_Z i)) ("T"%char :: chs (str_Z j)) =
  Ok ((λ z, "T"%char :: chs (str_Z z)) <$> from_to i (j - 1)).
Proof.
  unfold gen_token_range, tokenid2index. cbn [tail]. rewrite !py_int_str_Z. cbn [rbind].
  rewrite from_to_xrange. do 3 f_equal. lia.
Qed.
Lemma elem_from_to z i j : z ∈ from_to i j ↔ (i ≤ z ≤ j)%Z.
Proof.
  unfold from_to. rewrite elem_of_list_fmap. split.
  - intros (k & -> & Hk%elem_of_seq). lia.
  - intros H. exists (Z.to_nat (z - i)). split; [lia|]. apply elem_of_seq. lia.
Qed.
Lemma from_to_lookup i j k z : from_to i j !! k = Some z ↔ z = (i + Z.of_nat k)%Z ∧ (z ≤ j)%Z.
Proof.
  unfold from_to. rewrite list_lookup_fmap, fmap_Some. setoid_rewrite lookup_seq. split.
  - intros (x & [-> Hx] & ->). lia.
  - intros [-> H]. exists k. split; [lia|done].
Qed.
Lemma from_to_app i j k : (i ≤ j + 1)%Z → (j ≤ k)%Z → from_to i j ++ from_to (j + 1) k = from_to i k.
Proof.
  intros H1 H2. apply list_eq. intros n. apply option_eq. intros z.
  rewrite lookup_app_Some. rewrite !from_to_lookup.
  assert (length (from_to i j) = Z.to_nat (j - i + 1)) as -> by (unfold from_to; by rewrite fmap_length, seq_length).
  split; [intros [?|[? ?]]; lia|]. intros [-> H]. destruct (decide (i + Z.of_nat n ≤ j)%Z); [left|right]; lia.
Qed.

(** ** replacement *)
Lemma is_prefix_spec k s : is_prefix k s = true ↔ prefix k s.
Proof.
  unfold is_prefix. rewrite bool_decide_eq_true. split.
  - intros H. exists (drop (length k) s). rewrite <-H at 1. by rewrite take_drop.
  - intros [t ->]. by rewrite take_app.
Qed.
Lemma first_key_Some d s k v : first_key d s = Some (k, v) → (k, v) ∈ d ∧ prefix k s.
Proof.
  induction d as [|[k' v'] d IH]; [done|]. simpl. destruct (is_prefix k' s) eqn:E.
  - intros [= -> ->]. split; [left|by apply is_prefix_spec].
  - intros [? ?]%IH. split; [by right|done].
Qed.
Lemma first_key_None d s : first_key d s = None → ∀ k v, (k, v) ∈ d → ¬ prefix k s.
Proof.
  induction d as [|[k' v'] d IH]; [by intros _ ? ? ?%elem_of_nil|]. simpl. destruct (is_prefix k' s) eqn:E; [done|].
  intros H k v [[= -> ->]|Hin]%elem_of_cons.
  - intros Hp%is_prefix_spec. congruence.
  - by eapply IH.
Qed.
Lemma xlat_skip d n s : xlat d n s = xlat d 0 (drop n s).
Proof.
  revert s. induction n as [|n IH]; intros s; [by rewrite drop_0|]. destruct s as [|c s]; [done|].
  cbn [drop]. rewrite <-IH. done.
Qed.
Lemma xlat_replaced d s : Forall (λ p, p.1 ≠ []) d → replaced d s (xlat d 0 s).
Proof.
  intros Hk. assert (Hlen : ∀ n s, length s ≤ n → replaced d s (xlat d 0 s)); [|by eapply Hlen].
  clear s. induction n as [|n IH]; intros s Hn.
  - destruct s; [constructor|simpl in Hn; lia].
  - destruct s as [|c s]; [constructor|]. cbn [xlat]. destruct (first_key d (c :: s)) as [[k v]|] eqn:E.
    + apply first_key_Some in E as [Hin [t Ht]]. rewrite Forall_forall in Hk.
      pose proof (Hk _ Hin) as Hne. simpl in Hne. rewrite Ht. constructor; [done|done|].
      rewrite xlat_skip. destruct k as [|x k]; [done|]. simpl in Ht. injection Ht as -> ->.
      cbn [length]. rewrite Nat.sub_1_r, Nat.pred_succ, drop_app. apply IH. simpl in Hn. rewrite app_length in Hn. lia.
    + constructor; [by apply first_key_None|]. apply IH. simpl in Hn. lia.
Qed.
Lemma replaced_none d s r : replaced d s r → (∀ k v, (k, v) ∈ d → ¬ occurs k s) → r = s.
Proof.
  induction 1 as [|k v s r Hin Hk HR IH|c s r Hno HR IH]; intros H; [done| |].
  - exfalso. apply (H k v Hin). exists [], s. done.
  - f_equal. apply IH. intros k v Hin (a & b & ->). apply (H k v Hin). exists (c :: a), b. done.
Qed.
Lemma prefix_comparable {A} (k1 k2 t : list A) : prefix k1 t → prefix k2 t → prefix k1 k2 ∨ prefix k2 k1.
Proof.
  revert k2 t. induction k1 as [|x k1 IH]; intros k2 t H1 H2; [left; by apply prefix_nil|].
  destruct k2 as [|y k2]; [right; by apply prefix_nil|]. destruct t as [|z t]; [by apply prefix_nil_inv in H1|].
  pose proof (prefix_cons_inv_1 _ _ _ _ H1). pose proof (prefix_cons_inv_1 _ _ _ _ H2). subst.
  apply prefix_cons_inv_2 in H1, H2. destruct (IH k2 t H1 H2); [left|right]; by apply prefix_cons.
Qed.
(** with keys of which none is a prefix of another the result is unique *)
Lemma replaced_unique d s r1 r2 :
  (∀ k1 v1 k2 v2, (k1, v1) ∈ d → (k2, v2) ∈ d → prefix k1 k2 → k1 = k2 ∧ v1 = v2) →
  replaced d s r1 → replaced d s r2 → r1 = r2.
Proof.
  intros Hpf H1. revert r2. induction H1 as [|k v s r Hin Hk HR IH|c s r Hno HR IH]; intros r2 H2.
  - inversion H2 as [|k v s' r' Hin Hk HR E|]; subst; [done|]. by destruct k.
  - inversion H2 as [E|k' v' s' r' Hin' Hk' HR' E|c s' r' Hno' HR' E]; subst.
    + symmetry in E. apply app_eq_nil in E as [? _]. done.
    + assert (k' = k ∧ v' = v) as [-> ->].
      { destruct (prefix_comparable k' k (k ++ s)) as [Hp|Hp].
        - rewrite <-E. apply prefix_app_r. done.
        - apply prefix_app_r. done.
        - by eapply Hpf.
        - destruct (Hpf _ _ _ _ Hin Hin' Hp). done. }
      apply app_inv_head in E as ->. f_equal. by apply IH.
    + exfalso. apply (Hno' k v Hin). rewrite E. by apply prefix_app_r.
  - inversion H2 as [E|k' v' s' r' Hin' Hk' HR' E|c' s' r' Hno' HR' E]; subst.
    + exfalso. apply (Hno k' v' Hin'). rewrite <-E. by apply prefix_app_r.
    + f_equal. by apply IH.
Qed.
