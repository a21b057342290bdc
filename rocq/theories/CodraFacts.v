(** * CodraFacts: proofs for C105 *)
From Verif Require Import PyBase DocGraph Relabel StrNum Query Text SpecText Rst SpecRst RstLayout Nltk NltkFacts ParseFacts Dis SpecDis DisText DisEscape DisThms Codra SpecCodra.

Lemma occurs_uncons k c s : k ≠ [] → occurs k (c :: s) → prefix k (c :: s) ∨ occurs k s.
Proof.
  intros Hk (a & b & E). destruct a as [|x a]; [left; by exists b|]. injection E as -> E. right. by exists a, b.
Qed.
Lemma first_escape s : ¬ occurs escaped_quote s ∨ ∃ p a, s = p ++ escaped_quote ++ a ∧ ¬ occurs escaped_quote p.
Proof.
  induction s as [|c s IH]; [left; by apply occurs_nil|].
  destruct (is_prefix escaped_quote (c :: s)) eqn:E.
  - right. apply is_prefix_true in E as [a E]. exists [], a. split; [exact E|by apply occurs_nil].
  - apply is_prefix_false in E. destruct IH as [H|(p & a & -> & H)].
    + left. intros [H1|H1]%occurs_uncons; [done|done|done].
    + right. exists (c :: p), a. split; [done|]. intros [[r H1]|H1]%occurs_uncons; [|done|done].
      apply E. exists (r ++ escaped_quote ++ a). change (c :: p ++ escaped_quote ++ a) with ((c :: p) ++ escaped_quote ++ a). rewrite H1. by rewrite <-(assoc_L (++)).
Qed.
Lemma unescaped_total s : ∃ q, unescaped s q.
Proof.
  remember (length s) as n eqn:E. revert s E. induction (lt_wf n) as [n _ IH]. intros s ->.
  destruct (first_escape s) as [H|(p & a & -> & H)]; [exists s; by constructor|].
  destruct (IH (length a)) with (s := a) as [q Hq]; [rewrite !app_length; cbn; lia|done|].
  eexists. by constructor.
Qed.
Lemma escape_eq : triple_escape = escaped_quote.
Proof. reflexivity. Qed.
Lemma lit_esc_before p y x a : ¬ occurs escaped_quote p → p = x ++ y → y ≠ [] → lit triple_escape [dquote] (y ++ escaped_quote ++ a) = None.
Proof.
  intros H -> Hy. apply lit_None. intros [r E]. rewrite escape_eq in E. unfold escaped_quote in *.
  destruct y as [|c1 [|c2 [|c3 [|c4 y]]]]; cbn in E; try done; try (injection E; intros; done).
  injection E as -> -> -> -> E. apply H. exists x, y. reflexivity.
Qed.
Lemma unescape_sound s q : unescaped s q → re_sub (lit triple_escape [dquote]) s = q.
Proof.
  induction 1 as [p H|p a b H _ IH]; [apply re_sub_none; [done|by rewrite escape_eq]|].
  unfold re_sub in *. rewrite scan_plain by (intros x y E Hy; by eapply lit_esc_before). f_equal.
  change (escaped_quote ++ a) with (backslash :: [backslash; backslash; dquote] ++ a).
  rewrite (scan_match _ _ _ _ [dquote]); [by rewrite IH|]. apply lit_Some. by exists a.
Qed.
Lemma unescape_iff s q : re_sub (lit triple_escape [dquote]) s = q ↔ unescaped s q.
Proof.
  split; [|apply unescape_sound]. intros <-. destruct (unescaped_total s) as [q Hq]. by rewrite (unescape_sound _ _ Hq).
Qed.
Lemma start_iff s q : edu_start s = q ↔ opened s q.
Proof.
  unfold edu_start, opened. destruct (is_prefix (chs "_!") s) eqn:E.
  - apply is_prefix_true in E as [r ->]. split; [intros <-; by left|]. intros [H|[H _]]; [by apply app_inv_head in H|]. destruct H. by exists r.
  - apply is_prefix_false in E. split; [intros <-; by right|]. intros [->|[_ ->]]; [|done]. destruct E. by exists q.
Qed.
Lemma last_mark_cons c s q : c :: s ≠ chs "_!" → c :: s ≠ chs "_!" ++ [nl] → last_mark (c :: s) q → ∃ q', q = c :: q' ∧ last_mark s q'.
Proof.
  intros H1 H2 (b & [[E ->]|[E ->]]); (destruct b as [|x b]; [done|]); injection E as -> E; eexists; (split; [reflexivity|]); exists b; [left|right]; done.
Qed.
Lemma last_mark_short s q : last_mark s q → 2 ≤ length s.
Proof. intros (b & [[-> _]|[-> _]]); rewrite !app_length; cbn; lia. Qed.
Lemma last_mark_here s q : (s = chs "_!" ∧ q = []) ∨ (s = chs "_!" ++ [nl] ∧ q = [nl]) → last_mark s q.
Proof. intros [[-> ->]|[-> ->]]; exists []; [left|right]; done. Qed.
Lemma last_mark_det s q q' : last_mark s q → last_mark s q' → q = q'.
Proof.
  intros (b & [[-> ->]|[-> ->]]) (b' & [[E ->]|[E ->]]).
  - by apply app_inv_tail in E.
  - apply (f_equal reverse) in E. rewrite !reverse_app in E. discriminate E.
  - apply (f_equal reverse) in E. rewrite !reverse_app in E. discriminate E.
  - by apply app_inv_tail in E as ->.
Qed.
Lemma end_total s : closed s (edu_end s).
Proof.
  induction s as [|c s IH].
  { right. split; [|done]. intros [r H%last_mark_short]. cbn in H. lia. }
  cbn [edu_end]. destruct (decide _) as [[E|E]|N].
  - left. apply last_mark_here. left. by rewrite E.
  - left. apply last_mark_here. right. by rewrite E.
  - destruct IH as [(b & H)|[H E]].
    + left. exists (c :: b). destruct H as [[-> ->]|[-> ->]]; [left|right]; done.
    + right. rewrite E. split; [|done]. intros [r Hr]. apply last_mark_cons in Hr as (q & -> & Hr); [|tauto|tauto]. apply H. by exists q.
Qed.
Lemma end_iff s q : edu_end s = q ↔ closed s q.
Proof.
  split; [intros <-; apply end_total|]. intros H. destruct (end_total s) as [H1|[H1 E1]], H as [H2|[H2 E2]].
  - by eapply last_mark_det.
  - destruct H2. by eexists.
  - destruct H1. by eexists.
  - congruence.
Qed.
Lemma cleanup_iff s q : cleanup_edu s = q ↔ cleaned s q.
Proof.
  unfold cleanup_edu, cleaned. split.
  - intros <-. eexists _, _. split; [by apply start_iff|]. split; [by apply unescape_iff|]. rewrite chs_str. apply end_total.
  - intros (a & b & <-%start_iff & <-%unescape_iff & E%end_iff). rewrite E. apply str_chs.
Qed.
Lemma tree_iff t u : map_leaves cleanup_edu t = u ↔ cleaned_tree t u.
Proof.
  split.
  - intros <-. induction t as [s|l ts IH] using ntree_ind'; [constructor; by apply cleanup_iff|]. rewrite map_leaves_NTree. constructor.
    induction IH; [constructor|]. rewrite fmap_cons. by constructor.
  - revert u. induction t as [s|l ts IH] using ntree_ind'; intros u H; inversion H as [? ? Hc|? ? us Hs]; subst.
    + cbn [map_leaves]. f_equal. by apply cleanup_iff.
    + rewrite map_leaves_NTree. f_equal. clear H. induction Hs as [|t u ts us Ht _ IH2]; [done|]. apply List.Forall_cons_iff in IH as [IH1 IH]. rewrite fmap_cons. f_equal; [by apply IH1|by apply IH2].
Qed.

(** ** what CODRA wrote *)
Lemma no_escape_at c t r : c ≠ quote_char → quote_char ∉ r → ¬ prefix escaped_quote (c :: codra_escape t ++ r).
Proof.
  intros Hc Hr [q E]. injection E as -> E.
  assert (H0 : ∀ t q, codra_escape t ++ r ≠ quote_char :: q).
  { intros [|x t'] q' E'; [apply Hr; cbn in E'; rewrite E'; left|]. cbn [codra_escape mbind list_bind] in E'. destruct (decide (x = quote_char)); [discriminate E'|]. injection E' as E' _. done. }
  assert (H1 : ∀ t q, codra_escape t ++ r ≠ "\"%char :: quote_char :: q).
  { intros [|x t'] q' E'; [apply Hr; cbn in E'; rewrite E'; right; left|]. cbn [codra_escape mbind list_bind] in E'. destruct (decide (x = quote_char)); [discriminate E'|]. injection E' as _ E'. by apply H0 in E'. }
  destruct t as [|x t]; [apply Hr; cbn in E; rewrite E; right; right; left|].
  cbn [codra_escape mbind list_bind] in E. destruct (decide (x = quote_char)); [discriminate E|]. injection E as _ E. by apply H1 in E.
Qed.
Lemma unescape_back t r : quote_char ∉ r → re_sub (lit triple_escape [dquote]) (codra_escape t ++ r) = t ++ r.
Proof.
  intros Hr. unfold re_sub. induction t as [|c t IH].
  - apply (re_sub_none triple_escape [dquote]); [done|]. intros H. apply Hr. eapply occurs_elem; [exact H|]. do 3 right. left.
  - cbn [codra_escape mbind list_bind]. destruct (decide (c = quote_char)) as [->|Hc].
    + rewrite <-(assoc_L (++)). change (escaped_quote ++ ?a) with (backslash :: [backslash; backslash; dquote] ++ a).
      rewrite (scan_match _ _ _ _ [dquote]); [cbn [app]; f_equal; exact IH|]. apply lit_Some. by eexists.
    + cbn [app]. rewrite scan_none; [f_equal; exact IH|]. apply lit_None. rewrite escape_eq. by apply no_escape_at.
Qed.
Lemma cleanup_back s : cleanup_edu (codra_text s) = s.
Proof.
  unfold cleanup_edu, codra_text. rewrite chs_str.
  rewrite (proj2 (start_iff _ (codra_escape (chs s) ++ chs "_!"))) by by left.
  rewrite unescape_back. 2: { intros H. repeat (apply elem_of_cons in H as [H|H]; [discriminate H|]). by apply elem_of_nil in H. }
  rewrite (proj2 (end_iff _ (chs s))); [apply str_chs|]. left. exists (chs s). by left.
Qed.

(** ** a written tree with escaped texts *)
Lemma escape_cons c s : codra_escape (c :: s) = (if decide (c = quote_char) then escaped_quote else [c]) ++ codra_escape s.
Proof. reflexivity. Qed.
Lemma occurs_escape s : occurs (chs "_!") s → occurs (chs "_!") (codra_escape s).
Proof.
  intros (a & b & ->). exists (codra_escape a), (codra_escape b). unfold codra_escape. by rewrite !bind_app.
Qed.
Lemma no_mark_start s : ¬ occurs (chs "_!") s → edu_start s = s.
Proof. intros H. apply start_iff. right. split; [|done]. intros [r ->]. apply H. by exists [], r. Qed.
Lemma no_mark_end s : ¬ occurs (chs "_!") s → edu_end s = s.
Proof.
  intros H. apply end_iff. right. split; [|done]. intros [r (b & [[-> _]|[-> _]])]; apply H; [exists b, []|exists b, [nl]]; done.
Qed.
Lemma cleanup_escaped s : ¬ occurs (chs "_!") (codra_escape (chs s)) → cleanup_edu (str (codra_escape (chs s))) = s.
Proof.
  intros H. unfold cleanup_edu. rewrite chs_str, no_mark_start by done.
  pose proof (unescape_back (chs s) []) as E. rewrite !app_nil_r in E. rewrite E by by intros ?%elem_of_nil.
  rewrite no_mark_end; [apply str_chs|]. intros Hm. by apply H, occurs_escape.
Qed.
Lemma clean_body r : Forall (λ s, ¬ occurs (chs "_!") (chs s)) (edus (escape_texts r)) → map_leaves cleanup_edu (body (escape_texts r)) = body r.
Proof.
  induction r as [s|rel nf n s IHn IHs|rel l IH] using rst_ind'; intros H.
  - cbn in *. apply Forall_cons in H as [H _]. rewrite chs_str in H. f_equal. by apply cleanup_escaped.
  - destruct nf; cbn [escape_texts edus] in H; apply Forall_app in H as [H1 H2]; cbn; (rewrite IHn, IHs by done); done.
  - cbn [escape_texts] in H. rewrite edus_Multi in H. cbn [escape_texts body]. rewrite map_leaves_NTree. f_equal.
    induction IH as [|r l Hr _ IH]; [done|]. cbn [map] in *. rewrite fmap_cons in H. cbn [concat] in H. apply Forall_app in H as [H1 H2].
    rewrite fmap_cons. f_equal; [cbn; by rewrite Hr|by apply IH].
Qed.
Lemma clean_tree r : Forall (λ s, ¬ occurs (chs "_!") (chs s)) (edus (escape_texts r)) → map_leaves cleanup_edu (rst_tree (escape_texts r)) = rst_tree r.
Proof.
  intros H. apply clean_body in H. destruct r as [s|rel nf n s|rel l]; [|exact H|exact H]. cbn in *. by f_equal; f_equal.
Qed.
Lemma escape_relations r : relations (escape_texts r) = relations r.
Proof.
  induction r as [s|rel nf n s IHn IHs|rel l IH] using rst_ind'; [done|destruct nf; cbn; by rewrite IHn, IHs|].
  cbn [escape_texts relations]. f_equal. induction IH as [|r l Hr _ IH]; [done|]. cbn [map]. by rewrite Hr, IH.
Qed.
Lemma escape_multi r : multi_ok r → multi_ok (escape_texts r).
Proof.
  induction r as [s|rel nf n s IHn IHs|rel l IH] using rst_ind'; [done|intros [H1 H2]; split; [by apply IHn|by apply IHs]|].
  intros [H1 H2]. cbn [escape_texts multi_ok]. split; [by rewrite map_length|]. clear H1.
  induction IH as [|r l Hr _ IH]; [done|]. destruct H2 as [H2 H3]. cbn [map]. split; [by apply Hr|by apply IH].
Qed.
Lemma codra_round r : multi_ok r → Forall (λ p, dis_name p.1) (relations r) → Forall dis_text (edus (escape_texts r)) → (∀ s, r ≠ Edu s) →
  ∃ s, write_dis (rst_tree (escape_texts r)) = Ok s ∧ read_codra s = Ok (rst_tree r).
Proof.
  intros H1 H2 H3 H4. destruct (dis_round_trip (escape_texts r)) as (s & Hs & Hr).
  - by apply escape_multi.
  - unfold names_dis. by rewrite escape_relations.
  - exact H3.
  - destruct r; [by edestruct H4|done|done].
  - exists s. split; [exact Hs|]. unfold read_codra. rewrite Hr. cbn [rbind]. f_equal. apply clean_tree.
    eapply Forall_impl; [exact H3|]. intros x [_ Hm _ _]. exact Hm.
Qed.
