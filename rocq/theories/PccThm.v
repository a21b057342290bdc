(** * PccThm: documents of the corpus (proofs) *)
From Verif Require Import PyBase DocGraph Relabel StrNum SpanFacts Parsers ConvertFacts SpecGraph Merging SpecMerging MergingThm Pcc SpecPcc PccFacts.

Lemma ids_thm ds tok : Forall2 file_of ds tok → document_ids tok = Ok (isort (lexcmp ascii_cmp) ds).
Proof.
  intros H. unfold document_ids. assert (PyBase.rmap (λ f, of_option AttributeError (docid (basename f))) tok = Ok ds) as ->; [|reflexivity]. apply rmap_Ok. apply Forall2_flip. eapply Forall2_impl; [exact H|]. intros d f Hf. cbn. by rewrite (docid_file d f Hf).
Qed.
Lemma selected_iff layers d x : well_named layers → doc_id d → x ∈ selected layers d ↔ layer_file layers d x.
Proof.
  intros HW Hd. unfold selected, layer_file. rewrite elem_of_list_In, in_concat. destruct x as [l f]. cbn [fst snd]. unfold well_named in HW. rewrite Forall_forall in HW. split.
  - intros (xs & Hxs & Hx). apply elem_of_list_In, elem_of_list_fmap in Hxs as ([l' fs] & -> & Hp). apply elem_of_list_In, elem_of_list_fmap in Hx as (f' & [= -> ->] & Hf). apply elem_of_list_filter in Hf as [Hm Hf]. cbn [fst snd] in *.
    split; [by exists fs|]. specialize (HW _ Hp). cbn in HW. rewrite Forall_forall in HW. destruct (HW _ Hf) as (d' & Hf'). by apply (fnmatch_file d d') in Hm as <-.
  - intros [(fs & Hp & Hf) Hfd]. exists (pair l <$> filter (λ f, fnmatch_id d f = true) fs). split; [apply elem_of_list_In, elem_of_list_fmap; by exists (l, fs)|]. apply elem_of_list_In, elem_of_list_fmap. exists f. split; [done|]. apply elem_of_list_filter. split; [by apply (fnmatch_file d d)|done].
Qed.
Lemma selected_sublist layers d : sublist (selected layers d) (concat ((λ p : string * list chars, pair p.1 <$> p.2) <$> layers)).
Proof.
  unfold selected. induction layers as [|[l fs] layers IH]; [constructor|]. cbn. apply sublist_app; [|exact IH]. induction fs as [|f fs IHf]; [constructor|]. rewrite filter_cons. destruct (decide _); cbn; by constructor.
Qed.
Section corpus.
  Context (read : string → chars → res graph) (layers : list (string * list chars)) (tok : list chars).
  Lemma document_none d r : well_named layers → doc_id d → (∀ x, ¬ layer_file layers d x) → get_document read layers d r ↔ r = Err TypeError.
  Proof.
    intros HW Hd HN. assert (HS : selected layers d = []). { destruct (selected layers d) as [|x xs] eqn:E; [done|]. exfalso. apply (HN x), (selected_iff _ _ _ HW Hd). rewrite E. by left. }
    split; [|intros ->; by apply GD_none]. intros H. destruct H as [e H|H|gs g H Hm|gs g e H Hm]; try done; rewrite HS in H; cbn in H; try done; injection H as <-; inversion Hm.
  Qed.
  Lemma document_all ts d g ogs r : PyBase.rmap (λ x : string * chars, read x.1 x.2) (selected layers d) = Ok (g :: ogs) → layers_of_text ts g ogs → get_document read layers d r → ∃ g', r = Ok g' ∧ all_merged g ogs g'.
  Proof.
    intros HR HL H. destruct H as [e H|H|gs g' H Hm|gs g' e H Hm].
    - congruence.
    - rewrite H in HR. done.
    - rewrite HR in H. injection H as <-. inversion Hm as [? ? ? Hx]; subst. destruct (all_thm _ _ _ _ HL Hx) as (? & [= ->] & A). by eexists.
    - rewrite HR in H. injection H as <-. inversion Hm as [? ? ? Hx]; subst. by destruct (all_thm _ _ _ _ HL Hx) as (? & [=] & _).
  Qed.
  Lemma document_exists ts d g ogs : PyBase.rmap (λ x : string * chars, read x.1 x.2) (selected layers d) = Ok (g :: ogs) → layers_of_text ts g ogs → ∃ r, get_document read layers d r.
  Proof.
    intros HR HL. destruct (all_exists _ _ _ HL) as [r Hr]. destruct (all_thm _ _ _ _ HL Hr) as (g' & -> & _). exists (Ok g'). eapply GD_merge; [exact HR|by constructor].
  Qed.
  Lemma item_thm ds i r : Forall2 file_of ds tok →
    let ids : list chars := isort (lexcmp ascii_cmp) ds in let n := Z.of_nat (length ds) in
    get_item read layers tok i r ↔
      (¬ (- n ≤ i < n)%Z ∧ r = Err IndexError) ∨ (- n ≤ i < n)%Z ∧ ∃ d, ids !! Z.to_nat (i mod n) = Some d ∧ get_document read layers d r.
  Proof.
    intros HF ids n. pose proof (ids_thm ds tok HF) as E. fold ids in E. assert (HL : length ids = length ds) by (unfold ids; by rewrite isort_perm).
    assert (HP : (¬ (- n ≤ i < n)%Z ∧ py_nth ids i = Err IndexError) ∨ (- n ≤ i < n)%Z ∧ ∃ d, ids !! Z.to_nat (i mod n) = Some d ∧ py_nth ids i = Ok d).
    { unfold py_nth. rewrite HL. fold n. destruct (decide (- n ≤ i < n)%Z) as [Hi|Hi]; [right; split; [exact Hi|]|left; split; [exact Hi|]].
      - assert (EM : (if decide (i < 0)%Z then (i + n)%Z else i) = (i mod n)%Z).
        { destruct (decide (i < 0)%Z); [|symmetry; apply Z.mod_small; lia]. replace i with (i + n + (-1) * n)%Z at 2 by lia. rewrite Z.mod_add by lia. symmetry. apply Z.mod_small. lia. }
        rewrite EM. assert (HM : (0 ≤ i mod n < n)%Z) by (apply Z.mod_pos_bound; lia). cbv zeta. rewrite decide_False by lia.
        destruct (lookup_lt_is_Some_2 ids (Z.to_nat (i mod n))) as [d Hd]; [lia|]. exists d. rewrite Hd. done.
      - cbv zeta. destruct (decide (i < 0)%Z).
        + rewrite decide_True by lia. done.
        + rewrite decide_False by lia. rewrite lookup_ge_None_2 by lia. done. }
    clearbody ids n. split.
    - intros H. destruct H as [e H|ids' e H H2|ids' d r H H2 H3]; rewrite E in H; [done| |]; injection H as <-.
      + destruct HP as [[Hi HP]|(Hi & d & _ & HP)]; [left; split; [done|congruence]|congruence].
      + right. destruct HP as [[Hi HP]|(Hi & d' & Hd & HP)]; [congruence|]. split; [done|]. exists d. split; [congruence|done].
    - intros [[Hi ->]|(Hi & d & Hd & Hr)]; destruct HP as [[Hi' HP]|(Hi' & d' & Hd' & HP)]; try done.
      + by eapply GI_range.
      + eapply GI_doc; [exact E| |exact Hr]. congruence.
  Qed.
End corpus.
