(** * DplpFacts: proofs about the DPLP reader *)
From Verif Require Import PyBase DocGraph Relabel SpecGraph StrNum Query Text SpecText TextFacts Rst SpecRst Nltk Dis SpanFacts RstLayout RstRead NltkFacts DisText DisTree Parsers SpecParse ParseFacts.

(** ** assignment to a position *)
Lemma set_at_is_Some T pos v u : subtree_at T pos = Some v → ∃ T', set_at T pos u = Some T'.
Proof.
  revert T. induction pos as [|i pos IH]; intros T H; [by eexists|]. destruct T as [s|l ts]; [done|]. cbn [subtree_at set_at] in *.
  destruct (ts !! i) as [w|]; [|done]. destruct (IH w H) as [w' ->]. by eexists.
Qed.
Lemma subtree_set_at T pos u T' q : set_at T pos u = Some T' → subtree_at T' (pos ++ q) = subtree_at u q.
Proof.
  revert T T'. induction pos as [|i pos IH]; intros T T' H; [by injection H as ->|]. destruct T as [s|l ts]; [done|]. cbn [set_at] in H.
  destruct (ts !! i) as [w|] eqn:E; [|done]. destruct (set_at w pos u) as [w'|] eqn:Ew; [|done]. injection H as <-.
  cbn [app subtree_at]. rewrite list_lookup_insert by (by eapply lookup_lt_Some). by eapply IH.
Qed.
Lemma set_at_twice T pos u T' v : set_at T pos u = Some T' → set_at T' pos v = set_at T pos v.
Proof.
  revert T T'. induction pos as [|i pos IH]; intros T T' H; [done|]. destruct T as [s|l ts]; [done|]. cbn [set_at] in *.
  destruct (ts !! i) as [w|] eqn:E; [|done]. destruct (set_at w pos u) as [w'|] eqn:Ew; [|done]. injection H as <-.
  rewrite list_lookup_insert by (by eapply lookup_lt_Some). rewrite (IH w w' Ew). destruct (set_at w pos v) as [z|]; [|done].
  by rewrite list_insert_insert.
Qed.
Lemma set_at_app T pos q w u w' : subtree_at T pos = Some w → set_at w q u = Some w' → set_at T (pos ++ q) u = set_at T pos w'.
Proof.
  revert T. induction pos as [|i pos IH]; intros T H1 H2; [cbn in *; by injection H1 as ->|]. destruct T as [s|l ts]; [done|]. cbn [subtree_at set_at app] in *.
  destruct (ts !! i) as [z|]; [|done]. by rewrite (IH z H1 H2).
Qed.
Lemma subtree_app T pos q w : subtree_at T pos = Some w → subtree_at T (pos ++ q) = subtree_at w q.
Proof.
  revert T. induction pos as [|i pos IH]; intros T H; [cbn in *; by injection H as ->|]. destruct T as [s|l ts]; [done|]. cbn [subtree_at app] in *.
  destruct (ts !! i) as [z|]; [|done]. by apply IH.
Qed.
Lemma removelast_snoc {A} (l : list A) x : removelast (l ++ [x]) = l.
Proof. apply removelast_last. Qed.

Section fill.
  Context (edus : dict Z (list chars)).
  Definition edu_of (i : nat) : string := str (join_words (default [] (dget (Z.of_nat i) edus))).
  Definition id_leaf (i : nat) : string := str_Z (Z.of_nat i).
  (** the tree after the units have been put in *)
  Fixpoint filled (p : parse nat) : ntree :=
    match p with
    | Unit i => NLeaf (edu_of i)
    | Rel n x y p q => NTree (role_name x +:+ role_name y +:+ "-" +:+ n) [filled p; filled q]
    end.
  Lemma add_edus_block n p : ∀ T pos ps, subtree_at T pos = Some (edu_form id_leaf p) →
    (pos ≠ [] ∨ match p with Unit _ => False | _ => True end) →
    ∃ T', set_at T pos (filled p) = Some T' ∧
      add_edus edus n ((app pos <$> leaf_positions (edu_form id_leaf p)) ++ ps) T = add_edus edus n ps T'.
  Proof.
    induction p as [i|nm x y p IHp q IHq]; intros T pos ps HT Hpos.
    - destruct Hpos as [Hpos|[]]. cbn [edu_form filled] in *. destruct (set_at_is_Some T pos _ (NLeaf (edu_of i)) HT) as [T' HT'].
      exists T'. split; [done|]. rewrite leaf_positions_NTree, lpos_kids_cons, leaf_positions_NLeaf.
      change (lpos_kids 1 []) with (@nil (list nat)). change (app pos <$> (cons 0 <$> [[]]) ++ []) with [pos ++ [0]]. cbn [app].
      cbn [add_edus]. rewrite (subtree_app T pos [0] _ HT). cbn [subtree_at lookup list_lookup]. cbn.
      assert (Hint : py_int (chs (id_leaf i)) = Ok (Z.of_nat i)) by (unfold id_leaf; apply py_int_str_Z).
      rewrite Hint. cbn [rbind]. fold (edu_of i). rewrite removelast_snoc, HT'. cbn [of_option rbind].
      destruct pos as [|a [|b pos]]; [done| |]; cbn [app]; by destruct T.
    - cbn [edu_form filled] in HT |- *. rewrite leaf_positions_NTree. rewrite !lpos_kids_cons. change (lpos_kids 2 []) with (@nil (list nat)).
      rewrite app_nil_r, fmap_app, <-(assoc_L (++)). rewrite <-!list_fmap_compose.
      assert (E0 : ∀ j (l : list (list nat)), (app pos ∘ cons j) <$> l = app (pos ++ [j]) <$> l).
      { intros j l. apply list_fmap_ext. intros ? z _. unfold compose. by rewrite <-(assoc_L (++)). }
      rewrite !E0.
      assert (H0 : subtree_at T (pos ++ [0]) = Some (edu_form id_leaf p)) by by rewrite (subtree_app T pos [0] _ HT).
      destruct (IHp T (pos ++ [0]) ((app (pos ++ [1]) <$> leaf_positions (edu_form id_leaf q)) ++ ps) H0) as (T1 & HT1 & ->); [left; by destruct pos|].
      rewrite (set_at_app T pos [0] _ (filled p) (NTree (role_name x +:+ role_name y +:+ "-" +:+ nm) [filled p; edu_form id_leaf q]) HT eq_refl) in HT1.
      assert (H1 : subtree_at T1 (pos ++ [1]) = Some (edu_form id_leaf q)) by by rewrite (subtree_set_at _ _ _ _ [1] HT1).
      destruct (IHq T1 (pos ++ [1]) ps H1) as (T2 & HT2 & ->); [left; by destruct pos|]. exists T2. split; [|done].
      assert (H1' : subtree_at T1 pos = Some (NTree (role_name x +:+ role_name y +:+ "-" +:+ nm) [filled p; edu_form id_leaf q])).
      { rewrite <-(app_nil_r pos). by rewrite (subtree_set_at _ _ _ _ [] HT1). }
      rewrite (set_at_app T1 pos [1] _ (filled q) (NTree (role_name x +:+ role_name y +:+ "-" +:+ nm) [filled p; filled q]) H1' eq_refl) in HT2.
      by rewrite (set_at_twice _ _ _ _ _ HT1) in HT2.
  Qed.
  Lemma dplp_transform_filled p : Forall one_line (names p) → dplp_transform (filled p) = Ok (parse_tree edu_of p).
  Proof.
    induction p as [s|n x y p IHp q IHq]; intros H; [done|]. cbn [names] in H. apply Forall_cons in H as [Hn H]. apply Forall_app in H as [Hp Hq].
    cbn [filled dplp_transform]. rewrite dplp_match_form by done. rewrite IHp, IHq by done. cbn [rbind]. by rewrite !ch_role.
  Qed.
  Lemma add_edus_doc p : Forall one_line (names p) → ∃ T, add_edus edus (length (leaf_positions (edu_form id_leaf p))) (leaf_positions (edu_form id_leaf p)) (edu_form id_leaf p) = Ok T ∧
    dplp_transform T = Ok (parse_doc edu_of p).
  Proof.
    intros Hn. destruct p as [i|nm x y p q].
    - exists (NTree "N" [NLeaf (edu_of i)]). split; [|reflexivity]. cbn [edu_form]. rewrite leaf_positions_NTree, lpos_kids_cons, leaf_positions_NLeaf. change (lpos_kids 1 []) with (@nil (list nat)).
      rewrite !fmap_cons, fmap_nil. cbn [app length add_edus subtree_at lookup list_lookup]. cbn.
      assert (Hint : py_int (chs (id_leaf i)) = Ok (Z.of_nat i)) by (unfold id_leaf; apply py_int_str_Z). rewrite Hint. done.
    - destruct (add_edus_block (length (leaf_positions (edu_form id_leaf (Rel nm x y p q)))) (Rel nm x y p q) (edu_form id_leaf (Rel nm x y p q)) [] [] eq_refl) as (T' & HT' & E); [by right|].
      injection HT' as <-. exists (filled (Rel nm x y p q)). split; [|by apply dplp_transform_filled].
      rewrite app_nil_r in E. rewrite (list_fmap_ext (app []) id) in E by done. by rewrite list_fmap_id in E.
  Qed.
End fill.

(** ** the merge file *)
Lemma splitlines_line l s : nl ∉ l → cr ∉ l → splitlines (l ++ nl :: s) = l :: splitlines s ∧ splitlines (l ++ cr :: nl :: s) = l :: splitlines s.
Proof.
  intros H1 H2. induction l as [|c l IH].
  - cbn [app splitlines]. rewrite decide_True by done. split; [done|]. rewrite decide_False by done. rewrite decide_True by done. rewrite decide_True by done. done.
  - apply not_elem_of_cons in H1 as [Hc1 H1]. apply not_elem_of_cons in H2 as [Hc2 H2]. destruct (IH H1 H2) as [E1 E2].
    cbn [app splitlines]. rewrite !decide_False by congruence. by rewrite E1, E2.
Qed.
Lemma splitlines_merge rs s : merge_text rs s → Forall (λ r, nl ∉ merge_line r ∧ cr ∉ merge_line r) rs → splitlines s = merge_line <$> rs.
Proof.
  induction 1 as [|r rs eol s Hl _ IH]; intros HF; [done|]. apply Forall_cons in HF as [[H1 H2] HF]. rewrite fmap_cons, <-(IH HF).
  destruct (splitlines_line (merge_line r) s H1 H2) as [E1 E2]. by destruct Hl as [-> | ->].
Qed.
Lemma lstrip_nil s : lstrip s = [] → blanks s.
Proof. induction s as [|c s IH]; intros H; [constructor|]. cbn [lstrip] in H. destruct (is_space c) eqn:E; [|done]. apply List.Forall_cons; [done|by apply IH]. Qed.
Lemma lstrip_suffix s : ∃ a, s = a ++ lstrip s ∧ blanks a.
Proof.
  induction s as [|c s (a & E & Ha)]; [exists []; split; [done|constructor]|]. cbn [lstrip]. destruct (is_space c) eqn:Ec.
  - exists (c :: a). split; [cbn; by f_equal|by apply List.Forall_cons].
  - exists []. split; [done|constructor].
Qed.
Lemma strip_nil s : strip s = [] → blanks s.
Proof.
  unfold strip. intros H. assert (H' : lstrip (reverse (lstrip s)) = []) by (rewrite <-(reverse_involutive (lstrip (reverse (lstrip s)))), H; done).
  apply lstrip_nil in H'. destruct (lstrip_suffix s) as (a & E & Ha). rewrite E. apply Forall_app_2; [done|].
  unfold blanks in H'. rewrite Forall_forall in H'. apply Forall_forall. intros c Hc. apply H'. by apply elem_of_reverse.
Qed.
Lemma joined_elem c sep ws w : w ∈ ws → c ∈ w → c ∈ joined sep ws.
Proof.
  intros Hw Hc. induction ws as [|v ws IH]; [by apply elem_of_nil in Hw|]. destruct ws as [|v' ws].
  - apply elem_of_list_singleton in Hw as ->. done.
  - cbn [joined]. apply elem_of_app. apply elem_of_cons in Hw as [->|Hw]; [by left|]. right. apply elem_of_app. right. by apply IH.
Qed.
Lemma joined_not_elem c sep ws : c ∉ sep → Forall (λ w, c ∉ w) ws → c ∉ joined sep ws.
Proof.
  intros Hs HF. induction HF as [|w ws Hw HF IH]; [by apply not_elem_of_nil|]. destruct ws as [|w' ws]; [done|]. cbn [joined].
  rewrite !elem_of_app. intros [?|[?|?]]; done.
Qed.
Lemma digits_of i : chs (str_Z (Z.of_nat i)) ≠ [] ∧ Forall (λ c, is_space c = false) (chs (str_Z (Z.of_nat i))).
Proof.
  assert (E : str_Z (Z.of_nat i) = str_N (N.of_nat i)) by (unfold str_Z; destruct i; [done|]; simpl; f_equal). rewrite E.
  split; [apply str_N_nonempty|]. eapply Forall_impl; [apply str_N_digits|]. intros c Hc.
  unfold is_space. apply bool_decide_eq_false. intros Hi. repeat (apply elem_of_cons in Hi as [->|Hi]; [done|]). by apply elem_of_nil in Hi.
Qed.
Lemma row_not_blank f : row_ok f → strip (joined [tab] f) ≠ [].
Proof.
  intros (_ & i & Hi) H. apply strip_nil in H. destruct (digits_of i) as [Hne HF].
  destruct (chs (str_Z (Z.of_nat i))) as [|c s] eqn:E; [done|]. apply Forall_cons in HF as [Hc _].
  assert (Hin : c ∈ joined [tab] f) by (eapply joined_elem; [by eapply elem_of_list_lookup_2|left]).
  unfold blanks in H. rewrite Forall_forall in H. apply H in Hin. congruence.
Qed.
Lemma default_dset (e : dict Z (list chars)) i v j : default [] (dget j (dset i v e)) = if decide (j = i) then v else default [] (dget j e).
Proof. destruct (decide (j = i)) as [->|H]; [by rewrite dget_dset_eq|by rewrite dget_dset_ne]. Qed.
Lemma extract_rows rs : Forall (λ r, match r with Some f => row_ok f | None => True end) rs → ∀ e,
  ∃ e', extract_edus (merge_line <$> rs) e = Ok e' ∧
    ∀ i : nat, default [] (dget (Z.of_nat i) e') = default [] (dget (Z.of_nat i) e) ++ unit_tokens (omap id rs) i.
Proof.
  induction 1 as [|r rs Hr HF IH]; intros e.
  - exists e. split; [done|]. intros i. by rewrite app_nil_r.
  - rewrite fmap_cons. cbn [extract_edus]. destruct r as [f|]; cbn [merge_line].
    + change ("009"%char) with tab. rewrite decide_False by by apply row_not_blank. destruct Hr as (Hf & i & Hi).
      assert (Hne : f ≠ []) by by intros ->. rewrite split_joined; [|done|].
      2: { eapply Forall_impl; [exact Hf|]. by intros w (? & _). }
      destruct (lookup_lt_is_Some_2 f 2) as [tk Htk]. { apply lookup_lt_Some in Hi. lia. }
      rewrite Htk. cbn [of_option rbind]. rewrite Hi. cbn [of_option rbind]. rewrite py_int_str_Z. cbn [rbind].
      destruct (IH (dset (Z.of_nat i) (default [] (dget (Z.of_nat i) e) ++ [tk]) e)) as (e' & -> & He'). exists e'. split; [done|].
      intros j. rewrite He', default_dset. change (omap id (Some f :: rs)) with (f :: omap id rs). unfold unit_tokens at 2. rewrite filter_cons.
      destruct (decide (Z.of_nat j = Z.of_nat i)) as [E|E].
      * apply Nat2Z.inj in E as ->. rewrite decide_True by done. rewrite fmap_cons. rewrite <-(assoc_L (++)). cbn beta.
        f_equal. cbn [app]. f_equal. symmetry. exact (f_equal (from_option (λ x : chars, x) []) Htk).
      * rewrite decide_False; [done|]. rewrite Hi. intros [= E2]. apply chs_inj, str_Z_inj in E2. congruence.
    + rewrite decide_True by done. destruct (IH e) as (e' & -> & He'). by exists e'.
Qed.
Definition row_line_ok (r : option (list chars)) : Prop := match r with Some f => row_ok f | None => True end.
Lemma merge_lines_ok rs : Forall row_line_ok rs → Forall (λ r, nl ∉ merge_line r ∧ cr ∉ merge_line r) rs.
Proof.
  intros H. eapply Forall_impl; [exact H|]. intros [f|] Hr; [|split; apply not_elem_of_nil]. destruct Hr as (Hf & _). cbn [merge_line]. split; apply joined_not_elem; try done.
  - by intros ?%elem_of_list_singleton.
  - eapply Forall_impl; [exact Hf|]. by intros w (_ & ? & _).
  - by intros ?%elem_of_list_singleton.
  - eapply Forall_impl; [exact Hf|]. by intros w (_ & _ & ?).
Qed.
Lemma typecast_edu_form {A} (leaf : A → string) k new p : "-"%char ∉ k → "a"%char ∈ k → Forall (λ n, ¬ occurs k (chs n)) (names p) → Forall (λ u, ¬ occurs k (chs (leaf u))) (units p) →
  map_strings (λ s, str (re_sub (lit k new) (chs s))) (edu_form leaf p) = edu_form leaf p.
Proof.
  intros Hb Ha Hn Hu. assert (Hk : k ≠ []) by (intros ->; by apply elem_of_nil in Ha).
  assert (HEDU : ¬ occurs k (chs "EDU")).
  { intros Ho. pose proof (occurs_elem _ _ _ Ho Ha) as Hi. cbn in Hi. repeat (apply elem_of_cons in Hi as [Hi|Hi]; [done|]). by apply elem_of_nil in Hi. }
  induction p as [s|n x y p IHp q IHq]; cbn [edu_form map_strings map names units] in *.
  - apply Forall_cons in Hu as [Hu _]. rewrite (re_sub_none k new (chs "EDU")) by done. rewrite re_sub_none by done. by rewrite !str_chs.
  - apply Forall_cons in Hn as [Hn Hns]. apply Forall_app in Hns as [Hnp Hnq]. apply Forall_app in Hu as [Hup Huq]. rewrite IHp, IHq by done.
    f_equal. rewrite re_sub_none; [by rewrite str_chs|done|]. rewrite !chs_app. rewrite (assoc_L (++)). intros Ho.
    change (chs "-") with ["-"%char] in Ho. cbn [app] in Ho. apply occurs_sep in Ho as [Ho|Ho]; [|done|done].
    pose proof (occurs_elem _ _ _ Ho Ha) as Hi. rewrite !elem_of_app in Hi. destruct x, y; cbn in Hi;
      repeat match type of Hi with _ ∨ _ => destruct Hi as [Hi|Hi] | _ ∈ _ :: _ => apply elem_of_cons in Hi as [Hi|Hi] | _ ∈ [] => by apply elem_of_nil in Hi end; done.
Qed.
Lemma read_dplp_form rs merge p : Forall row_line_ok rs → merge_text rs merge →
  Forall (λ n, one_line n ∧ ¬ occurs (chs "ParentedTree") (chs n)) (names p) →
  read_dplp merge (edu_form id_leaf p) = Ok (parse_doc (λ i, str (join_words (unit_tokens (omap id rs) i))) p).
Proof.
  intros Hrs Hm Hn. unfold read_dplp, dplp_typecast. rewrite typecast_edu_form.
  2: { intros Hi. cbn in Hi. repeat (apply elem_of_cons in Hi as [Hi|Hi]; [done|]). by apply elem_of_nil in Hi. }
  2: { cbn. right; left. }
  2: { eapply Forall_impl; [exact Hn|]. by intros n [_ ?]. }
  2: { apply Forall_forall. intros i _ Ho.
       assert (Ha : "a"%char ∈ chs (id_leaf i)) by (eapply occurs_elem; [exact Ho|cbn; right; left]).
       assert (E : id_leaf i = str_N (N.of_nat i)) by (unfold id_leaf, str_Z; destruct i; [done|]; simpl; f_equal). rewrite E in Ha.
       pose proof (str_N_digits (N.of_nat i)) as HF. rewrite Forall_forall in HF. by apply HF in Ha. }
  cbv zeta. rewrite (splitlines_merge rs merge Hm) by by apply merge_lines_ok.
  destruct (extract_rows rs Hrs []) as (e & -> & He). cbn [rbind].
  assert (Hn' : Forall one_line (names p)) by (eapply Forall_impl; [exact Hn|]; by intros n [? _]).
  destruct (add_edus_doc e p Hn') as (T & HT & HD).
  assert (G : rbind (add_edus e (length (leaf_positions (edu_form id_leaf p))) (leaf_positions (edu_form id_leaf p)) (edu_form id_leaf p)) dplp_transform =
    Ok (parse_doc (λ i, str (join_words (unit_tokens (omap id rs) i))) p)).
  { rewrite HT. cbn [rbind]. rewrite HD. f_equal.
    assert (Ex : ∀ i, edu_of e i = str (join_words (unit_tokens (omap id rs) i))) by (intros i; unfold edu_of; by rewrite He).
    assert (Et : parse_tree (edu_of e) p = parse_tree (λ i, str (join_words (unit_tokens (omap id rs) i))) p).
    { clear -Ex. induction p as [i|n x y p IHp q IHq]; cbn [parse_tree]; [by rewrite Ex|by rewrite IHp, IHq]. }
    destruct p; [cbn [parse_doc]; by rewrite Ex|exact Et]. }
  destruct p; exact G.
Qed.
