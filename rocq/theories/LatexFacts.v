(** * LatexFacts: writing RST trees in LaTeX *)
From Verif Require Import PyBase DocGraph Relabel StrNum Query Text Rst Nltk Parsers Latex SpecLatex TextFacts SpanFacts.

(** ** Lines and indentation *)
Lemma concat_lines s : concat (lines_keep s) = s.
Proof.
  enough (H : ∀ n (s : list ascii), length s <= n → concat (lines_keep s) = s) by exact (H (length s) s (le_n _)).
  clear s. induction n as [|n IH]; intros [|c s] Hn; try done; [cbn in Hn; lia|]. cbn [length] in Hn. cbn [lines_keep].
  destruct (decide (c = cr)) as [->|Hc].
  - destruct s as [|d s]; [done|]. destruct (decide (d = nl)) as [->|Hd].
    + cbn [concat app]. rewrite IH by (cbn in Hn; lia). done.
    + cbn [concat]. rewrite (IH (d :: s)) by lia. done.
  - destruct (line_break c).
    + cbn [concat app]. by rewrite IH by lia.
    + pose proof (IH s ltac:(lia)) as E. destruct (lines_keep s) as [|l ls]; cbn [concat app] in *; by rewrite <-E.
Qed.
Lemma solid_app a b : solid (a ++ b) = solid a ++ solid b.
Proof. apply filter_app. Qed.
Lemma solid_tabs n : solid (replicate n tab) = [].
Proof. induction n as [|n IH]; [done|]. cbn [replicate]. unfold solid in *. rewrite filter_cons_False; [exact IH|]. intros [_ H]. by apply H. Qed.
Lemma solid_indent s n : solid (indent_tab s n) = solid s.
Proof.
  unfold indent_tab. rewrite <-(concat_lines s) at 2. induction (lines_keep s) as [|l ls IH]; [done|]. cbn [map concat]. by rewrite !solid_app, solid_tabs, IH.
Qed.
Lemma solid_nl_tab : solid nl_tab = [].
Proof. reflexivity. Qed.
Definition unbroken (w : list ascii) : Prop := Forall (λ c, c ≠ cr ∧ line_break c = false) w.
Lemma lines_unbroken w s : w ≠ [] → unbroken w → ∃ l ls, lines_keep (w ++ s) = (w ++ l) :: ls.
Proof.
  intros Hne H. induction H as [|c w [Hc Hb] H IH]; [done|]. cbn [app lines_keep]. rewrite decide_False by done. rewrite Hb. destruct w as [|d w].
  - cbn [app]. destruct (lines_keep s) as [|l ls]; [by exists [], []|by exists l, ls].
  - destruct (IH ltac:(done)) as (l & ls & E). rewrite E. by exists l, ls.
Qed.
Lemma indent_unbroken w s n : w ≠ [] → unbroken w → ∃ x, indent_tab (w ++ s) n = replicate n tab ++ w ++ x.
Proof.
  intros Hne H. destruct (lines_unbroken w s Hne H) as (l & ls & E). unfold indent_tab. rewrite E. cbn [map concat]. rewrite <-!(assoc_L (++)). eexists. reflexivity.
Qed.

(** ** Commands in texts *)
Lemma is_prefix_iff (a s : list ascii) : is_prefix a s = true ↔ ∃ y, s = a ++ y.
Proof. apply is_prefix_spec. Qed.
Lemma found_iff (a s : list ascii) : found a s = true ↔ part_of a s.
Proof.
  induction s as [|c s IH]; cbn [found]; rewrite orb_true_iff, is_prefix_iff.
  - split; [intros [[y ->]|]; [|done]|intros (x & y & E)].
    + by exists [], y.
    + left. destruct x; [|done]. by exists y.
  - rewrite IH. split.
    + intros [[y E]|(x & y & ->)]; [by exists [], y|by exists (c :: x), y].
    + intros ([|d x] & y & E); [left; by exists y|]. right. injection E as -> ->. by exists x, y.
Qed.
Lemma is_edu_iff s : is_edu_segment s = true ↔ ¬ part_of (chs "\dirrel") s ∧ ¬ part_of (chs "\multirel") s.
Proof. unfold is_edu_segment. rewrite negb_true_iff, orb_false_iff, <-!not_true_iff_false, !found_iff. done. Qed.
Lemma edu_false s : part_of (chs "\dirrel") s ∨ part_of (chs "\multirel") s → is_edu_segment s = false.
Proof. intros H. apply not_true_iff_false. rewrite is_edu_iff. tauto. Qed.
Lemma element_edu s : no_commands s → element (words_of s) = chs "\rstsegment" ++ braces (words_of s).
Proof. intros H. unfold element. by rewrite (proj2 (is_edu_iff _) H). Qed.
Lemma dirrel_out s n : is_edu_segment (indent_tab (chs "\dirrel" ++ s) n) = false.
Proof.
  apply edu_false. left. destruct (indent_unbroken (chs "\dirrel") s n) as (x & ->); [done| |by exists (replicate n tab), x].
  unfold unbroken. apply (bool_decide_unpack _). vm_compute. exact I.
Qed.
Lemma multirel_out s n : is_edu_segment (indent_tab (chs "\multirel" ++ s) n) = false.
Proof.
  apply edu_false. right. destruct (indent_unbroken (chs "\multirel") s n) as (x & ->); [done| |by exists (replicate n tab), x].
  unfold unbroken. apply (bool_decide_unpack _). vm_compute. exact I.
Qed.

(** ** Relations *)
Lemma solid_braces s : solid (in_braces s) = braces (solid s).
Proof. unfold in_braces, braces. change ("{"%char :: s ++ ["}"%char]) with (["{"%char] ++ s ++ ["}"%char]). by rewrite !solid_app. Qed.
Lemma braces_same s : braces s = in_braces s.
Proof. done. Qed.
Lemma solid_solid s : solid (solid s) = solid s.
Proof.
  unfold solid. induction s as [|c s IH]; [done|]. destruct (decide (c ≠ "010"%char ∧ c ≠ "009"%char)).
  - rewrite filter_cons_True by done. rewrite filter_cons_True by done. by rewrite IH.
  - by rewrite filter_cons_False by done.
Qed.
Lemma solid_concat_map {A} (f : A → chars) l : solid (concat (map f l)) = concat (map (λ x, solid (f x)) l).
Proof. induction l as [|x l IH]; [done|]. cbn [map concat]. by rewrite solid_app, IH. Qed.
Lemma solid_join l : solid (join_by nl_tab l) = concat (map solid l).
Proof.
  induction l as [|x l IH]; [done|]. destruct l as [|y l]; [cbn; by rewrite app_nil_r|].
  change (join_by nl_tab (x :: y :: l)) with (x ++ nl_tab ++ join_by nl_tab (y :: l)). rewrite !solid_app, solid_nl_tab. cbn [app]. by rewrite IH.
Qed.

(** [out] is what the writer makes of a tree with the figure [f] *)
Definition drawn (out : chars) (f : fig) : Prop := solid (element out) = solid (tex f).
Definition draws (t : ntree) (f : fig) : Prop := ∀ lvl, ∃ out, rsttree2rstlatex t lvl = Ok out ∧ drawn out f.
Definition pair_fig (rel : string) (b : bool) (fn fs : fig) : fig := if b then Dir [(rel, fs)] fn [] else Dir [] fn [(rel, fs)].
Lemma drawn_relation s n f : is_edu_segment (indent_tab s n) = false → solid s = solid (tex f) → drawn (indent_tab s n) f.
Proof. intros H E. unfold drawn, element. rewrite H. by rewrite solid_indent. Qed.
Lemma drawn_arg out f : drawn out f → solid (in_braces (element out)) = solid (in_braces (tex f)).
Proof. intros H. by rewrite !solid_braces, H. Qed.
(** the parts of the writer *)
Definition type_of (c : ntree) : res string := match c with NLeaf _ => Err AssertionError | NTree k _ => if decide (is_ns k) then Ok k else Err AssertionError end.
Definition subs_of (lvl : nat) (c : ntree) : list (res chars) := match c with NLeaf _ => [] | NTree _ us => map (λ u, rsttree2rstlatex u (S lvl)) us end.
Definition part_of_rel (e : ntree) : res chars := match e with NLeaf _ => Err AttributeError | NTree _ [] => Err IndexError | NTree _ (x :: _) => rsttree2rstlatex x 0 end.
Definition parts_of_rel (u : ntree) : list (res chars) := match u with NLeaf _ => [] | NTree _ es => map part_of_rel es end.
Definition inner_of (c : ntree) : list (list (res chars)) := match c with NLeaf _ => [] | NTree _ us => map parts_of_rel us end.
Definition kid_labels (r : ntree) : res (list string) := match r with NLeaf _ => Err AttributeError | NTree _ es => rmap nlabel es end.
Definition relation_out (l : string) (ts : list ntree) (lvl : nat) (types : list string) (strings : list chars) : res chars :=
  if decide (types ≠ [] ∧ Forall (λ k, k = "N") types) then Ok (indent_tab (make_multinuc l strings) lvl)
  else if decide (l = multisat) then
    let rels := concat (map tree_kids ts) in
    let! names := rmap nlabel rels in
    let! nuctypes := rmap kid_labels rels in
    let! elements := rmap (λ es, rmap (λ r, r) es) (concat (map inner_of ts)) in
    let! s := make_multisat (zip (zip names nuctypes) elements) in
    Ok (indent_tab s lvl)
  else if decide (length types = 2) then
    let! s := make_nucsat l types strings in Ok (indent_tab s lvl)
  else Err AssertionError.
Lemma latex_eq l ts lvl : ¬ is_ns l → rsttree2rstlatex (NTree l ts) lvl =
  let! types := rmap type_of ts in let! strings := rmap (λ r, r) (concat (map (subs_of lvl) ts)) in relation_out l ts lvl types strings.
Proof. intros H. cbn [rsttree2rstlatex]. by rewrite decide_False. Qed.
Lemma latex_rel l ts lvl types strings : ¬ is_ns l → rmap type_of ts = Ok types → concat (map (subs_of lvl) ts) = Ok <$> strings →
  rsttree2rstlatex (NTree l ts) lvl = relation_out l ts lvl types strings.
Proof.
  intros H E1 E2. rewrite latex_eq by done. rewrite E1, E2. cbn [rbind]. replace (rmap (λ r, r) (Ok <$> strings)) with (Ok strings); [done|].
  clear. induction strings as [|x l IH]; [done|]. rewrite fmap_cons. cbn [rmap rbind]. by rewrite <-IH.
Qed.
Lemma pair_draws rel b tn ts fn fs : relname_ok rel → rel ≠ "MONONUC-MULTISAT" → draws tn fn → draws ts fs → draws (pair_tree rel b tn ts) (pair_fig rel b fn fs).
Proof.
  intros [HN HS] Hm Hn Hs lvl. destruct (Hn (S lvl)) as (on & En & Dn). destruct (Hs (S lvl)) as (os & Es & Ds). assert (Hrel : ¬ is_ns rel) by (intros [|]; done).
  unfold pair_tree, pair_fig. destruct b.
  - rewrite (latex_rel _ _ _ ["S"; "N"] [os; on]); [|done|done|cbn [map subs_of concat app]; by rewrite En, Es]. unfold relation_out. rewrite decide_False, decide_False, decide_True; [|done|done|].
    2:{ intros [_ K]. apply Forall_cons in K as [K _]. done. }
    eexists. split; [reflexivity|]. apply drawn_relation; [apply dirrel_out|]. cbn [tex map concat zip zip_with]. rewrite !solid_app. unfold nucsat_arg; cbn [fst snd].
    rewrite decide_False, decide_True by done. unfold sat_template, nuc_template. rewrite !solid_app, solid_nl_tab. cbn [app].
    rewrite (drawn_arg _ _ Ds), (drawn_arg _ _ Dn), !app_nil_r. by rewrite <-!(assoc_L (++)).
  - rewrite (latex_rel _ _ _ ["N"; "S"] [on; os]); [|done|done|cbn [map subs_of concat app]; by rewrite En, Es]. unfold relation_out. rewrite decide_False, decide_False, decide_True; [|done|done|].
    2:{ intros [_ K]. apply Forall_cons in K as [_ K]. apply Forall_cons in K as [K _]. done. }
    eexists. split; [reflexivity|]. apply drawn_relation; [apply dirrel_out|]. cbn [tex map concat zip zip_with]. rewrite !solid_app. unfold nucsat_arg; cbn [fst snd].
    rewrite decide_True, decide_False by done. unfold sat_template, nuc_template. rewrite !solid_app, solid_nl_tab. cbn [app].
    rewrite (drawn_arg _ _ Ds), (drawn_arg _ _ Dn), !app_nil_r. by rewrite <-!(assoc_L (++)).
Qed.
