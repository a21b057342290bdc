(** * RenderFacts: bracketed strings and their trees *)
From Verif Require Import PyBase DocGraph Relabel SpecGraph DocGraphFacts StrNum Query SpecQuery Text SpecText Tree SpecTree
  SpanFacts SelectFacts BfsFacts TreeFacts TravFacts TextFacts Witness.

(** ** the recursion over the successors dict follows the tree *)
Lemma succ_get es n : default [] (dget n (successors_dict es)) = (filter (λ e, e.1 = n) es).*2.
Proof. rewrite successors_dict_get. by destruct ((filter (λ e, e.1 = n) es).*2). Qed.
Section succ.
  Context (g : graph) (es : list (nid * nid)).
  Lemma bracket_step fuel n : tree2bracket_succ (S fuel) g (successors_dict es) n =
    rbind (rmap (tree2bracket_succ fuel g (successors_dict es)) ((filter (λ e, e.1 = n) es).*2))
      (λ ss, node2bracket g n (join_blank ss)).
  Proof. cbn [tree2bracket_succ]. rewrite successors_dict_get. by destruct ((filter (λ e, e.1 = n) es).*2). Qed.
  Lemma freqt_step fuel ip n : sentence2freqt_succ (S fuel) g ip (successors_dict es) n =
    rbind (rmap (sentence2freqt_succ fuel g ip (successors_dict es)) ((filter (λ e, e.1 = n) es).*2))
      (λ ss, node2freqt g ip n (concat ss)).
  Proof. cbn [sentence2freqt_succ]. rewrite successors_dict_get. by destruct ((filter (λ e, e.1 = n) es).*2). Qed.
End succ.

(** ** reading words and groups *)
Definition reads (s : chars) (x : sexp) : Prop := ∀ rest items st,
  read_sexp (s ++ rest) [] (items :: st) = read_sexp rest [] ((x :: items) :: st).
Lemma read_word w : plain_word w → ∀ rest v items st,
  read_sexp (w ++ rest) v (items :: st) = read_sexp rest (reverse w ++ v) (items :: st).
Proof.
  induction w as [|c w IH]; intros (H1 & H2 & H3) rest v items st; [done|].
  apply not_elem_of_cons in H1 as [H1 H1'], H2 as [H2 H2'], H3 as [H3 H3'].
  cbn [app read_sexp]. rewrite !decide_False by congruence. rewrite IH by done.
  by rewrite reverse_cons, <-(assoc_L (++)).
Qed.
Lemma read_blank rest w items st :
  read_sexp (" "%char :: rest) w (items :: st) = read_sexp rest [] (flush w items :: st).
Proof. reflexivity. Qed.
Lemma not_empty_cons (w : chars) ws : not_empty (w :: ws) = match w with [] => not_empty ws | _ => w :: not_empty ws end.
Proof.
  unfold not_empty. rewrite (filter_cons (λ w : chars, w ≠ [])). destruct w; [by rewrite decide_False by naive_solver|by rewrite decide_True].
Qed.
Lemma elem_not_empty (w : chars) ws : w ∈ not_empty ws ↔ w ≠ [] ∧ w ∈ ws.
Proof. unfold not_empty. by rewrite (elem_of_list_filter (λ w : chars, w ≠ [])). Qed.
Lemma flush_reverse (w : chars) items : flush (reverse w ++ []) items = map W (not_empty [w]) ++ items.
Proof.
  rewrite app_nil_r, not_empty_cons. destruct w as [|c w]; [done|]. unfold flush. destruct (reverse (c :: w)) as [|d r] eqn:E.
  - by apply (f_equal length) in E; rewrite reverse_length in E.
  - rewrite <-E, reverse_involutive. done.
Qed.
Lemma read_join ss xs : Forall2 reads ss xs → ∀ rest items st,
  read_sexp (join_blank ss ++ rest) [] (items :: st) = read_sexp rest [] ((reverse xs ++ items) :: st).
Proof.
  induction 1 as [|s x ss xs Hs HF IH]; intros rest items st; [done|].
  destruct ss as [|s' ss].
  - apply Forall2_nil_inv_l in HF as ->. simpl. by rewrite Hs.
  - change (join_blank (s :: s' :: ss)) with (s ++ " "%char :: join_blank (s' :: ss)).
    rewrite <-(assoc_L (++)). cbn [app]. rewrite Hs, read_blank. cbn [flush]. rewrite IH, reverse_cons, <-(assoc_L (++)). done.
Qed.
Lemma reads_parens s xs : (∀ rest items st, ∃ w items', read_sexp (s ++ rest) [] (items :: st) = read_sexp rest w (items' :: st) ∧
    flush w items' = reverse xs ++ items) → reads (parens s) (L xs).
Proof.
  intros H rest items st. unfold parens. cbn [app]. cbn [read_sexp]. rewrite decide_True by done. cbn [flush].
  rewrite <-(assoc_L (++)). destruct (H ([")"%char] ++ rest) [] (items :: st)) as (w & items' & -> & E).
  cbn [app read_sexp]. rewrite decide_False, decide_True by done. rewrite E, app_nil_r, reverse_involutive. done.
Qed.
Lemma nonempty_true s : nonempty s = true ↔ s ≠ [].
Proof. unfold nonempty. rewrite negb_true_iff. apply bool_decide_eq_false. Qed.
Lemma nonempty_false s : nonempty s = false ↔ s = [].
Proof. unfold nonempty. rewrite negb_false_iff. apply bool_decide_eq_true. Qed.
Lemma join_blank_nil ss xs : Forall2 reads ss xs → join_blank ss = [] → xs = [].
Proof.
  intros HF E. pose proof (read_join _ _ HF [] [] []) as H. rewrite E in H. simpl in H.
  rewrite app_nil_r in H. injection H as H. apply (f_equal length) in H. rewrite !reverse_length in H. by destruct xs.
Qed.
Lemma dmem_key (k : string) (a : attrs) : dmem k a = bool_decide (k ∈ dkeys a).
Proof.
  destruct (dmem k a) eqn:E; symmetry.
  - apply bool_decide_eq_true. by apply dmem_spec in E.
  - apply bool_decide_eq_false. by apply dmem_false in E.
Qed.
(** one node *)
Lemma node2bracket_words g n ws : node_words g n = Some ws → Forall plain_word ws → ∀ ss xs, Forall2 reads ss xs →
  ∃ s, node2bracket g n (join_blank ss) = Ok s ∧ reads s (L (map W ws ++ xs)).
Proof.
  intros Hw Hpl ss xs HF. unfold node_words in Hw. unfold node2bracket, istoken, node_attrs.
  destruct (dget n (g_node g)) as [a|] eqn:Ea; [|done]. cbn [rbind]. rewrite dmem_key.
  assert (Hkids : ∀ rest items st, read_sexp (join_blank ss ++ rest) [] (items :: st) =
    read_sexp rest [] ((reverse xs ++ items) :: st)) by by apply read_join.
  destruct (decide ((g_ns g +:+ ":token") ∈ dkeys a)) as [Hk|Hk].
  - rewrite bool_decide_true by done. unfold str_attr in Hw. unfold fstr.
    destruct (default (VStr "") (dget (g_ns g +:+ ":pos") a)) as [| | |p| | |]; try done. cbn [rbind].
    destruct (dget (g_ns g +:+ ":token") a) as [[| | |t| | |]|]; try done. cbn [of_option rbind default from_option id] in *.
    injection Hw as <-. eexists. split; [reflexivity|]. apply reads_parens. intros rest items st.
    assert (Hp : plain_word (chs p)).
    { destruct (chs p) as [|c cs] eqn:E; [by split_and!; apply not_elem_of_nil|]. rewrite not_empty_cons in Hpl. by inversion Hpl. }
    assert (Ht : plain_word (chs t)).
    { destruct (chs t) as [|c cs] eqn:E; [by split_and!; apply not_elem_of_nil|]. rewrite Forall_forall in Hpl. apply Hpl.
      apply elem_not_empty. split; [done|right; left]. }
    rewrite <-!(assoc_L (++)), read_word by done.
    assert (Hst : ∀ r, ∃ v, read_sexp (blank_if (nonempty (chs p)) ++ r) (reverse (chs p) ++ []) (items :: st) =
        read_sexp r [] (v :: st) ∧ v = map W (not_empty [chs p]) ++ items).
    { intros r. destruct (nonempty (chs p)) eqn:Ep.
      - cbn [blank_if app]. rewrite read_blank. eexists. split; [done|]. apply flush_reverse.
      - apply nonempty_false in Ep. rewrite Ep. cbn. by eexists. }
    destruct (Hst (chs t ++ blank_if (nonempty (join_blank ss)) ++ join_blank ss ++ rest)) as (v & -> & ->).
    rewrite read_word by done. set (v := map W _ ++ items).
    assert (Hfl : map W (not_empty [chs t]) ++ v = reverse (map W (not_empty [chs p; chs t])) ++ items).
    { unfold v. rewrite !not_empty_cons. destruct (chs p), (chs t); simpl; rewrite ?reverse_cons, ?reverse_nil; done. }
    destruct (nonempty (join_blank ss)) eqn:Ec.
    + cbn [blank_if app]. rewrite read_blank, Hkids. do 2 eexists. split; [done|]. cbn [flush].
      by rewrite flush_reverse, Hfl, reverse_app, <-(assoc_L (++)).
    + apply nonempty_false in Ec. rewrite Ec. pose proof (join_blank_nil _ _ HF Ec) as ->. cbn [blank_if app].
      do 2 eexists. split; [done|]. by rewrite flush_reverse, Hfl, !app_nil_r.
  - rewrite bool_decide_false by done. unfold str_attr in Hw. unfold fstr.
    destruct (default (VStr "") (dget "label" a)) as [| | |t| | |]; try done. cbn [rbind].
    injection Hw as <-. eexists. split; [reflexivity|]. apply reads_parens. intros rest items st.
    assert (Ht : plain_word (chs t)).
    { destruct (chs t) as [|c cs] eqn:E; [by split_and!; apply not_elem_of_nil|]. rewrite not_empty_cons in Hpl. by inversion Hpl. }
    rewrite <-!(assoc_L (++)), read_word by done.
    assert (Hfl : map W (not_empty [chs t]) ++ items = reverse (map W (not_empty [chs t])) ++ items).
    { rewrite not_empty_cons. by destruct (chs t). }
    destruct (nonempty (chs t)) eqn:Et; cbn [andb].
    + destruct (nonempty (join_blank ss)) eqn:Ec; cbn [blank_if app].
      * rewrite read_blank, Hkids. do 2 eexists. split; [done|]. cbn [flush]. by rewrite flush_reverse, Hfl, reverse_app, <-(assoc_L (++)).
      * apply nonempty_false in Ec. rewrite Ec. pose proof (join_blank_nil _ _ HF Ec) as ->. cbn [app].
        do 2 eexists. split; [done|]. by rewrite flush_reverse, Hfl, !app_nil_r.
    + apply nonempty_false in Et. rewrite Et. cbn. rewrite Hkids. do 2 eexists. split; [done|]. done.
Qed.
Definition words_of (g : graph) (n : nid) : list chars := default [] (node_words g n).
Lemma tree2bracket_reads g es t : ∀ n, tree_of es n t →
  (∀ x, x ∈ preorder t → ∃ ws, node_words g x = Some ws ∧ Forall plain_word ws) →
  ∃ s, (∀ f, height t ≤ f → tree2bracket_succ f g (successors_dict es) n = Ok s) ∧ reads s (sexp_of (words_of g) t).
Proof.
  induction t as [a ts IH] using rose_ind'. intros n Ht Hpl. apply tree_of_inv in Ht as (ts' & [= -> <-] & Hts).
  assert (Hkids : ∃ ss, (∀ f, (∀ t, t ∈ ts → height t ≤ f) →
      rmap (tree2bracket_succ f g (successors_dict es)) ((filter (λ e, e.1 = n) es).*2) = Ok ss) ∧
      Forall2 reads ss (map (sexp_of (words_of g)) ts)).
  { assert (Hpl' : ∀ t x, t ∈ ts → x ∈ preorder t → ∃ ws, node_words g x = Some ws ∧ Forall plain_word ws).
    { intros t x Ht Hx. apply Hpl. rewrite preorder_Rose. right. apply elem_concat. exists (preorder t).
      split; [done|]. by apply elem_of_list_fmap_1. }
    clear Hpl. induction Hts as [|c t cs ts Hc Hts IHts]; [exists []; split; [done|constructor]|].
    inversion IH as [|? ? IHt IHtt]; subst.
    destruct (IHt c Hc) as (s & Hs & Hr); [intros x Hx; by apply (Hpl' t); [left|]|].
    destruct (IHts IHtt) as (ss & Hss & Hrs); [intros t' x Ht' Hx; by apply (Hpl' t'); [right|]|].
    exists (s :: ss). split.
    - intros f Hf. cbn [rmap]. rewrite Hs by (apply Hf; left). cbn [rbind]. rewrite Hss by (intros t' Ht'; apply Hf; by right). done.
    - by constructor. }
  destruct Hkids as (ss & Hss & HF).
  destruct (Hpl n) as (ws & Hws & Hpw); [rewrite preorder_Rose; left|].
  destruct (node2bracket_words g n ws Hws Hpw ss _ HF) as (s & Hs & Hr).
  exists s. split.
  - intros [|f] Hf; [simpl in Hf; lia|]. rewrite bracket_step, Hss; [done|].
    intros t Ht. pose proof (height_child n ts t Ht). lia.
  - cbn [sexp_of]. unfold words_of at 1. rewrite Hws. done.
Qed.
Lemma bracket_tree g f1 f2 sent root es : Consistent g → sorted_bfs_edges f1 f2 g sent root = Ok es →
  ∃ t, tree_of es root t ∧ preorder t ≡ₚ root :: es.*2 ∧
    ((∀ x, x ∈ preorder t → ∃ ws, node_words g x = Some ws ∧ Forall plain_word ws) →
     ∃ s, (∀ f, length es < f → tree2bracket f1 f2 f g sent (Some root) = Ok s) ∧
          parse_sexp s = Some [sexp_of (words_of g) t]).
Proof.
  intros C H. destruct (bfs_edges_ok _ _ _ _ _ _ C H) as [HT _].
  destruct (tree_exists _ _ _ HT 0 root eq_refl) as [t Ht]. exists t. split; [done|].
  pose proof (tree_nodes _ _ _ HT t Ht) as Hp. split; [done|]. intros Hpl.
  destruct (tree2bracket_reads g es t root Ht Hpl) as (s & Hs & Hr). exists s. split.
  - intros f Hf. unfold tree2bracket. cbn [default from_option id]. rewrite H. cbn [rbind]. apply Hs.
    pose proof (height_preorder t) as Hh. rewrite Hp in Hh. simpl in Hh. rewrite fmap_length in Hh. lia.
  - unfold parse_sexp. rewrite <-(app_nil_r s), Hr. done.
Qed.

(** ** FREQT *)
Lemma escape_ok s : freqt_escape (VStr s) = Ok (escaped (chs s)).
Proof.
  unfold freqt_escape, multiple_replace, freqt_escape_dict. cbn [existsb]. rewrite !bool_decide_false by done. cbn [orb]. f_equal.
  induction (chs s) as [|c l IH]; [done|]. unfold escaped in *. cbn [map concat]. rewrite <-IH.
  cbn [xlat first_key is_prefix fst].
  destruct (decide (c = "("%char)) as [->|H1]; [done|]. destruct (decide (c = ")"%char)) as [->|H2]; [done|].
  unfold is_prefix. cbn [length take chs list_ascii_of_string]. rewrite !bool_decide_false by congruence. done.
Qed.
Lemma escaped_free s : "("%char ∉ escaped s ∧ ")"%char ∉ escaped s.
Proof.
  unfold escaped. split; intros (l & Hl & (c & <- & Hc)%elem_of_list_In%in_map_iff)%elem_concat.
  all: destruct (decide (c = "("%char)) as [->|H1]; [revert Hl; vdec|].
  all: destruct (decide (c = ")"%char)) as [->|H2]; [revert Hl; vdec|].
  all: by apply elem_of_list_singleton in Hl.
Qed.
Definition fpush (t : rose chars) (stack : list (chars * list (rose chars))) (top : list (rose chars)) :=
  match stack with [] => ([], t :: top) | (lab, ts) :: st => ((lab, t :: ts) :: st, top) end.
Definition freads (s : chars) (t : rose chars) : Prop := ∀ rest stack top,
  read_freqt (s ++ rest) stack top = let '(stack', top') := fpush t stack top in read_freqt rest stack' top'.
Lemma fread_label s : "("%char ∉ s → ")"%char ∉ s → ∀ rest lab st top,
  read_freqt (s ++ rest) ((lab, []) :: st) top = read_freqt rest ((reverse s ++ lab, []) :: st) top.
Proof.
  induction s as [|c s IH]; intros H1 H2 rest lab st top; [done|].
  apply not_elem_of_cons in H1 as [H1 H1'], H2 as [H2 H2'].
  cbn [app read_freqt]. rewrite !decide_False by congruence. rewrite IH by done. by rewrite reverse_cons, <-(assoc_L (++)).
Qed.
Lemma fread_kids ss ts : Forall2 freads ss ts → ∀ rest lab us st top,
  read_freqt (concat ss ++ rest) ((lab, us) :: st) top = read_freqt rest ((lab, reverse ts ++ us) :: st) top.
Proof.
  induction 1 as [|s t ss ts Hs HF IH]; intros rest lab us st top; [done|].
  cbn [concat]. rewrite <-(assoc_L (++)), Hs. cbn [fpush]. rewrite IH, reverse_cons, <-(assoc_L (++)). done.
Qed.
Lemma freads_node lab ss ts : "("%char ∉ lab → ")"%char ∉ lab → Forall2 freads ss ts →
  freads (parens (lab ++ concat ss)) (Rose lab ts).
Proof.
  intros H1 H2 HF rest stack top. unfold parens. cbn [app]. cbn [read_freqt]. rewrite decide_True by done.
  rewrite <-!(assoc_L (++)), fread_label, (fread_kids _ _ HF) by done. cbn [app read_freqt]. rewrite decide_False, decide_True by done.
  rewrite !app_nil_r, !reverse_involutive. by destruct stack as [|[lab' ts'] st].
Qed.
Lemma node2freqt_reads g ip n us u ss : freqt_node g ip n us = Some u → Forall2 freads ss us →
  ∃ s, node2freqt g ip n (concat ss) = Ok s ∧ freads s u.
Proof.
  intros Hu HF. unfold freqt_node in Hu. unfold node2freqt, istoken, node_attrs.
  destruct (dget n (g_node g)) as [a|] eqn:Ea; [|done]. cbn [rbind]. rewrite dmem_key.
  pose proof escaped_free as Hfree.
  destruct (decide ((g_ns g +:+ ":token") ∈ dkeys a)) as [Hk|Hk].
  - rewrite bool_decide_true by done. unfold str_attr in Hu.
    destruct (dget (g_ns g +:+ ":token") a) as [[| | |t| | |]|]; try done. cbn [of_option rbind default from_option id] in *.
    rewrite escape_ok. cbn [rbind]. destruct ip.
    + destruct (default (VStr "") (dget (g_ns g +:+ ":pos") a)) as [| | |p| | |]; try done.
      rewrite escape_ok. cbn [rbind]. injection Hu as <-. eexists. split; [done|].
      change (parens (escaped (chs t)) ++ concat ss) with (concat (parens (escaped (chs t)) :: ss)).
      apply freads_node; [apply Hfree|apply Hfree|]. constructor; [|done].
      rewrite <-(app_nil_r (escaped (chs t))) at 1. apply (freads_node _ [] []); [apply Hfree|apply Hfree|constructor].
    + injection Hu as <-. eexists. split; [done|]. apply freads_node; [apply Hfree|apply Hfree|done].
  - rewrite bool_decide_false by done. unfold str_attr in Hu. change (nid_val n) with (id_val n).
    destruct (default (id_val n) (dget "label" a)) as [| | |t| | |]; try done.
    rewrite escape_ok. cbn [rbind]. injection Hu as <-. eexists. split; [done|].
    apply freads_node; [apply Hfree|apply Hfree|done].
Qed.
Lemma freqt_trees_Forall2 g ip ts us : freqt_trees g ip ts us ↔ Forall2 (freqt_tree g ip) ts us.
Proof.
  split.
  - revert us. induction ts as [|t ts IH]; intros us; inversion 1; subst; constructor; [done|by apply IH].
  - induction 1; by constructor.
Qed.
Lemma freqt_reads g ip es t : ∀ n u, tree_of es n t → freqt_tree g ip t u →
  ∃ s, (∀ f, height t ≤ f → sentence2freqt_succ f g ip (successors_dict es) n = Ok s) ∧ freads s u.
Proof.
  induction t as [a ts IH] using rose_ind'. intros n u Ht Hu. apply tree_of_inv in Ht as (ts' & [= -> <-] & Hts).
  inversion Hu as [? ? us u' Hus Hn]; subst. apply freqt_trees_Forall2 in Hus.
  assert (Hkids : ∃ ss, (∀ f, (∀ t, t ∈ ts → height t ≤ f) →
      rmap (sentence2freqt_succ f g ip (successors_dict es)) ((filter (λ e, e.1 = n) es).*2) = Ok ss) ∧
      Forall2 freads ss us).
  { clear Hn Hu. revert us Hus. induction Hts as [|c t cs ts Hc Hts IHts]; intros us Hus.
    { apply Forall2_nil_inv_l in Hus as ->. exists []. split; [done|constructor]. }
    inversion IH as [|? ? IHt IHtt]; subst. apply Forall2_cons_inv_l in Hus as (v & vs & Hv & Hvs & ->).
    destruct (IHt c v Hc Hv) as (s & Hs & Hr). destruct (IHts IHtt vs Hvs) as (ss & Hss & Hrs).
    exists (s :: ss). split.
    - intros f Hf. cbn [rmap]. rewrite Hs by (apply Hf; left). cbn [rbind]. rewrite Hss by (intros t' Ht'; apply Hf; by right). done.
    - by constructor. }
  destruct Hkids as (ss & Hss & HF). destruct (node2freqt_reads g ip n us u ss Hn HF) as (s & Hs & Hr).
  exists s. split; [|done]. intros [|f] Hf; [simpl in Hf; lia|]. rewrite freqt_step, Hss; [done|].
  intros t Ht. pose proof (height_child n ts t Ht). lia.
Qed.
Lemma freqt_sentence g f1 f2 sent ip root es : Consistent g → sorted_bfs_edges f1 f2 g sent root = Ok es →
  ∃ t, tree_of es root t ∧ preorder t ≡ₚ root :: es.*2 ∧
    ∀ u, freqt_tree g ip t u →
     ∃ s, (∀ f, length es < f → sentence2freqt f1 f2 f g sent ip root = Ok s) ∧ parse_freqt s = Some [u].
Proof.
  intros C H. destruct (bfs_edges_ok _ _ _ _ _ _ C H) as [HT _].
  destruct (tree_exists _ _ _ HT 0 root eq_refl) as [t Ht]. exists t. split; [done|].
  pose proof (tree_nodes _ _ _ HT t Ht) as Hp. split; [done|]. intros u Hu.
  destruct (freqt_reads g ip es t root u Ht Hu) as (s & Hs & Hr). exists s. split.
  - intros f Hf. unfold sentence2freqt. rewrite H. cbn [rbind]. apply Hs.
    pose proof (height_preorder t) as Hh. rewrite Hp in Hh. simpl in Hh. rewrite fmap_length in Hh. lia.
  - unfold parse_freqt. rewrite <-(app_nil_r s), Hr. done.
Qed.
(** the labels of the FREQT tree in preorder *)
Lemma freqt_tree_labels g ip t u : freqt_tree g ip t u →
  preorder u = concat (map (λ n, match freqt_node g ip n [] with Some v => preorder v | None => [] end) (preorder t)).
Proof.
  revert u. induction t as [n ts IH] using rose_ind'. intros u Hu. inversion Hu as [? ? us u' Hus Hn]; subst.
  apply freqt_trees_Forall2 in Hus. rewrite (preorder_Rose n ts). cbn [map concat].
  assert (E : concat (preorder <$> us) = concat (map (λ n, match freqt_node g ip n [] with Some v => preorder v | None => [] end) (concat (preorder <$> ts)))).
  { clear Hn Hu. revert us Hus. induction IH as [|t ts IHt HF IHF]; intros us Hus.
    - by apply Forall2_nil_inv_l in Hus as ->.
    - apply Forall2_cons_inv_l in Hus as (v & vs & Hv & Hvs & ->). cbn [fmap list_fmap concat].
      rewrite map_app, concat_app, <-(IHt v Hv). f_equal. by apply IHF. }
  rewrite <-E. clear E Hus Hu IH. unfold freqt_node in *.
  destruct (dget n (g_node g)) as [a|]; [|done]. destruct (decide _).
  - destruct (str_attr (g_ns g +:+ ":token") VNone a); [|done]. destruct ip.
    + destruct (str_attr (g_ns g +:+ ":pos") (VStr "") a); [|done]. injection Hn as <-. rewrite !preorder_Rose.
      cbn [fmap list_fmap concat]. rewrite !preorder_Rose. done.
    + injection Hn as <-. by rewrite !preorder_Rose.
  - destruct (str_attr "label" (id_val n) a); [|done]. injection Hn as <-. by rewrite !preorder_Rose.
Qed.
(** ** lines *)
Lemma lines_free s : nl ∉ s → lines s = [s].
Proof.
  induction s as [|c s IH]; [done|]. intros [H1 H2]%not_elem_of_cons. simpl. rewrite decide_False by (unfold nl in H1; congruence). by rewrite IH.
Qed.
Lemma lines_app s r : nl ∉ s → lines (s ++ nl :: r) = s :: lines r.
Proof.
  induction s as [|c s IH]; [done|]. intros [H1 H2]%not_elem_of_cons. cbn [app lines].
  rewrite decide_False by (unfold nl in H1; congruence). by rewrite IH.
Qed.
Lemma lines_join ss : ss ≠ [] → Forall (λ s, nl ∉ s) ss → lines (join_nl ss) = ss.
Proof.
  intros Hne HF. induction HF as [|s ss Hs HF IH]; [done|]. destruct ss as [|s' ss]; [by apply lines_free|].
  change (join_nl (s :: s' :: ss)) with (s ++ nl :: join_nl (s' :: ss)). rewrite lines_app by done. f_equal. by apply IH.
Qed.
Lemma docgraph2freqt_lines f1 f2 f g sent ip ss :
  Forall2 (λ r s, sentence2freqt f1 f2 f g sent ip r = Ok s) (g_sentences g) ss → g_sentences g ≠ [] →
  Forall (λ s, nl ∉ s) ss →
  ∃ s, docgraph2freqt f1 f2 f g sent ip None = Ok s ∧ lines s = ss.
Proof.
  intros HF Hne Hnl. exists (join_nl ss). split.
  - cbn [docgraph2freqt]. assert (rmap (sentence2freqt f1 f2 f g sent ip) (g_sentences g) = Ok ss) as ->; [|done].
    by apply rmap_Ok.
  - apply lines_join; [|done]. intros ->. apply Forall2_nil_inv_r in HF. done.
Qed.
