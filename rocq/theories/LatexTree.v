(** * LatexTree: whole trees *)
From Verif Require Import PyBase DocGraph Relabel StrNum Query Text Rst Nltk Parsers Latex SpecLatex TextFacts SpanFacts LatexFacts.

Lemma choose_outs {A} (P : A → chars → Prop) l : Forall (λ x, ∃ o, P x o) l → ∃ os, Forall2 P l os.
Proof. induction 1 as [|x l [o Ho] _ [os IH]]; [by exists []|]. exists (o :: os). by apply List.Forall2_cons. Qed.
Lemma multi_draws rel (ps : list (ntree * fig)) : relname_ok rel → ps ≠ [] → Forall (λ p, draws p.1 p.2) ps →
  draws (NTree rel (map (λ p, NTree "N" [p.1]) ps)) (Mul rel (map snd ps)).
Proof.
  intros [HN HS] Hne H lvl. destruct (choose_outs (λ p o, rsttree2rstlatex p.1 (S lvl) = Ok o ∧ drawn o p.2) ps) as (os & Hos).
  { eapply Forall_impl; [exact H|]. intros p Hp. exact (Hp (S lvl)). }
  rewrite (latex_rel _ _ _ (map (λ _, "N") ps) os); [|intros [|]; done|..].
  2:{ clear. induction ps as [|p ps IH]; [done|]. cbn [map rmap]. cbn [type_of]. rewrite decide_True by (by left). cbn [rbind]. by rewrite IH. }
  2:{ clear Hne H. induction Hos as [|p o ps os [E _] _ IH]; [done|]. rewrite fmap_cons.
    change (rsttree2rstlatex p.1 (S lvl) :: concat (map (subs_of lvl) (map (λ p : ntree * fig, NTree "N" [p.1]) ps)) = Ok o :: (Ok <$> os)). by rewrite E, IH. }
  unfold relation_out. rewrite decide_True.
  2:{ split; [by destruct ps|]. clear. induction ps; [apply List.Forall_nil|apply List.Forall_cons; done]. }
  eexists. split; [reflexivity|]. unfold make_multinuc. apply drawn_relation; [apply multirel_out|]. cbn [tex]. rewrite !solid_app. f_equal. f_equal.
  destruct Hos as [|p o ps os Hp Hos]; [done|]. assert (Hall : Forall2 (λ p o, rsttree2rstlatex p.1 (S lvl) = Ok o ∧ drawn o p.2) (p :: ps) (o :: os)) by (by apply List.Forall2_cons).
  clear -Hall. induction Hall as [|p' o' ps' os' [_ D] _ IH]; [done|]. cbn [map concat]. rewrite !solid_app, solid_nl_tab. cbn [app].
  rewrite (drawn_arg _ _ D), IH. done.
Qed.

(** ** Bundles *)
Notation sat_spec := (string * string * bool * rtree)%type.
(** the written satellite *)
Definition sat_seg (p : string * bool * chars) : chars := sat_template p.1.1 (element p.2).
Definition sat_tuple (on : chars) (p : string * bool * chars) : nucsat :=
  if p.1.2 then (p.1.1, ["S"; "N"], [p.2; on]) else (p.1.1, ["N"; "S"], [on; p.2]).
Definition befores (l : list (string * bool * chars)) : list chars := sat_seg <$> filter (λ p, p.1.2 = true) l.
Definition afters (l : list (string * bool * chars)) : list chars := sat_seg <$> filter (λ p, p.1.2 = false) l.
Lemma befores_snoc l p : befores (l ++ [p]) = befores l ++ (if p.1.2 then [sat_seg p] else []).
Proof. unfold befores. rewrite filter_app, fmap_app. f_equal. destruct p as [[r b] o]. destruct b; reflexivity. Qed.
Lemma afters_snoc l p : afters (l ++ [p]) = afters l ++ (if p.1.2 then [] else [sat_seg p]).
Proof. unfold afters. rewrite filter_app, fmap_app. f_equal. destruct p as [[r b] o]. destruct b; reflexivity. Qed.
Lemma bundle_fold on first rest l0 : l0 ≠ [] → (Forall (λ p : string * bool * chars, p.1.2 = true → first = 1) rest) → first <= 1 →
  foldl (λ st t, foldl (add_satellite t.1.1 first) st (imap pair (zip t.1.2 t.2))) (befores l0 ++ nuc_template (element on) :: afters l0, length (befores l0)) (map (sat_tuple on) rest) =
  (befores (l0 ++ rest) ++ nuc_template (element on) :: afters (l0 ++ rest), length (befores (l0 ++ rest))).
Proof.
  intros Hne H Hf. revert l0 Hne. induction H as [|[[rel b] o] rest Hp H IH]; intros l0 Hne; [by rewrite app_nil_r|].
  cbn [map foldl]. rewrite (cons_middle _ l0 rest), (assoc_L (++)). rewrite <-IH by (by destruct l0). f_equal.
  destruct b; cbn [sat_tuple fst snd imap zip zip_with compose foldl] in *.
  - specialize (Hp eq_refl). subst first. rewrite befores_snoc, afters_snoc. cbn [fst snd]. rewrite app_nil_r. unfold add_satellite; cbn [fst snd].
    rewrite (decide_True (P := "N" = "N")) by done. rewrite (decide_False (P := "S" = "N")) by done. rewrite decide_True by lia. cbn [fst snd]. rewrite take_app, drop_app.
    f_equal; [by rewrite <-(assoc_L (++))|]. rewrite app_length. cbn [length]. lia.
  - rewrite befores_snoc, afters_snoc. cbn [fst snd]. rewrite app_nil_r. unfold add_satellite; cbn [fst snd].
    rewrite (decide_True (P := "N" = "N")) by done. rewrite (decide_False (P := "S" = "N")) by done. rewrite decide_False by lia. cbn [fst snd]. f_equal. by rewrite <-(assoc_L (++)).
Qed.
Lemma make_multisat_ok on (l : list (string * bool * chars)) : 2 <= length l →
  (∀ p, p ∈ l → p.1.2 = true → (λ p : string * bool * chars, p.1.2) <$> head l = Some true) →
  make_multisat (map (sat_tuple on) l) = Ok (chs "\dirrel" ++ nl_tab ++ join_by nl_tab (befores l ++ nuc_template (element on) :: afters l)).
Proof.
  intros Hlen Hfirst. unfold make_multisat. rewrite decide_True by (rewrite map_length; lia). destruct l as [|[[rel b] o] rest]; [cbn in Hlen; lia|].
  cbn [map]. cbn [head fmap option_fmap option_map fst snd] in Hfirst. destruct b; cbn [sat_tuple fst snd].
  - cbn [index_N]. rewrite decide_False, decide_True by done. cbn [fmap option_fmap option_map of_option rbind]. cbv zeta.
    pose proof (bundle_fold on 1 rest [(rel, true, o)] ltac:(done) ltac:(apply Forall_forall; done) ltac:(lia)) as E.
    change (befores [(rel, true, o)]) with [sat_seg (rel, true, o)] in E. change (afters [(rel, true, o)]) with (@nil chars) in E. cbn [app length] in E.
    cbn [zip zip_with fmap list_fmap]. unfold nucsat_arg; cbn [fst snd]. rewrite decide_False, decide_True by done.
    unfold sat_seg at 1 in E. cbn [fst snd] in E. rewrite E. done.
  - cbn [index_N]. rewrite decide_True by done. cbn [of_option rbind]. cbv zeta.
    assert (Hno : Forall (λ p : string * bool * chars, p.1.2 = true → 0 = 1) rest).
    { apply Forall_forall. intros p Hp Hb. specialize (Hfirst p ltac:(by right) Hb). done. }
    pose proof (bundle_fold on 0 rest [(rel, false, o)] ltac:(done) Hno ltac:(lia)) as E.
    change (afters [(rel, false, o)]) with [sat_seg (rel, false, o)] in E. change (befores [(rel, false, o)]) with (@nil chars) in E. cbn [app length] in E.
    cbn [zip zip_with fmap list_fmap]. unfold nucsat_arg; cbn [fst snd]. rewrite decide_True, decide_False by done.
    unfold sat_seg at 1 in E. cbn [fst snd] in E. rewrite E. done.
Qed.
Notation sat_in := (string * string * bool * (ntree * fig))%type.
Definition bundle_kid (tn : ntree) (p : sat_in) : ntree := NTree p.1.1.1 [pair_tree p.1.1.2 p.1.2 tn p.2.1].
Definition sat_out (p : sat_in) (o : chars) : string * bool * chars := (p.1.1.2, p.1.2, o).
Definition sat_figs (b : bool) (l : list sat_in) : list (string * fig) := (λ p : sat_in, (p.1.1.2, p.2.2)) <$> filter (λ p : sat_in, p.1.2 = b) l.
Lemma solid_sat rel o f : drawn o f → solid (sat_template rel (element o)) = solid (braces (chs rel) ++ braces (tex f)).
Proof. intros D. unfold sat_template. rewrite !solid_app. by rewrite (drawn_arg _ _ D). Qed.
Lemma solid_segs b l os : Forall2 (λ (p : sat_in) o, drawn o p.2.2) l os →
  concat (map solid (sat_seg <$> filter (λ p, p.1.2 = b) (zip_with sat_out l os))) = solid (concat (map (λ p, braces (chs p.1) ++ braces (tex p.2)) (sat_figs b l))).
Proof.
  induction 1 as [|p o l os D _ IH]; [done|]. cbn [zip_with]. unfold sat_figs in *. destruct (decide (p.1.2 = b)) as [E|E].
  - rewrite filter_cons_True by done. rewrite (filter_cons_True (λ p : sat_in, p.1.2 = b)) by done. rewrite !fmap_cons. cbn [map concat]. rewrite solid_app. f_equal; [|exact IH].
    unfold sat_seg, sat_out. cbn [fst snd]. by apply solid_sat.
  - rewrite filter_cons_False by done. rewrite (filter_cons_False (λ p : sat_in, p.1.2 = b)) by done. exact IH.
Qed.
Lemma bundle_draws tn fn (l : list sat_in) : 2 <= length l → "S" ∈ (λ p : sat_in, p.1.1.1) <$> l →
  (∀ p, p ∈ l → p.1.2 = true → (λ p : sat_in, p.1.2) <$> head l = Some true) → draws tn fn →
  Forall (λ p : sat_in, is_ns p.1.1.1 ∧ relname_ok p.1.1.2 ∧ p.1.1.2 ≠ "MONONUC-MULTISAT" ∧ draws p.2.1 p.2.2) l →
  draws (NTree multisat (map (bundle_kid tn) l)) (Dir (sat_figs true l) fn (sat_figs false l)).
Proof.
  intros Hlen HS Hfirst Hn H lvl. destruct (Hn 0) as (on & En & Dn).
  destruct (choose_outs (λ (p : sat_in) o, rsttree2rstlatex p.2.1 0 = Ok o ∧ drawn o p.2.2) l) as (os & Hos).
  { eapply Forall_impl; [exact H|]. intros p (_ & _ & _ & Hp). exact (Hp 0). }
  destruct (choose_outs (λ (p : sat_in) o, rsttree2rstlatex (pair_tree p.1.1.2 p.1.2 tn p.2.1) (S lvl) = Ok o) l) as (ps & Hps).
  { eapply Forall_impl; [exact H|]. intros p (_ & H1 & H2 & Hp). destruct (pair_draws p.1.1.2 p.1.2 tn p.2.1 fn p.2.2 H1 H2 Hn Hp (S lvl)) as (o & E & _). by exists o. }
  rewrite (latex_rel _ _ _ ((λ p : sat_in, p.1.1.1) <$> l) ps); [|intros [|]; done|..].
  2:{ clear -H. induction H as [|p l [Hp _] _ IH]; [done|]. rewrite fmap_cons.
      change ((let! y := (if decide (is_ns p.1.1.1) then Ok p.1.1.1 else Err AssertionError) in let! ys := rmap type_of (map (bundle_kid tn) l) in Ok (y :: ys)) = Ok (p.1.1.1 :: ((λ p : sat_in, p.1.1.1) <$> l))).
      rewrite decide_True by done. cbn [rbind]. by rewrite IH. }
  2:{ clear -Hps. induction Hps as [|p o l ps E _ IH]; [done|]. rewrite fmap_cons.
      change (rsttree2rstlatex (pair_tree p.1.1.2 p.1.2 tn p.2.1) (S lvl) :: concat (map (subs_of lvl) (map (bundle_kid tn) l)) = Ok o :: (Ok <$> ps)). by rewrite E, IH. }
  unfold relation_out. rewrite decide_False.
  2:{ intros [_ K]. rewrite Forall_forall in K. specialize (K _ HS). done. }
  rewrite decide_True by done.
  replace (concat (map tree_kids (map (bundle_kid tn) l))) with ((λ p : sat_in, pair_tree p.1.1.2 p.1.2 tn p.2.1) <$> l).
  2:{ clear. induction l as [|p l IH]; [done|]. rewrite fmap_cons, IH. done. }
  cbv zeta.
  assert (E1 : rmap nlabel ((λ p : sat_in, pair_tree p.1.1.2 p.1.2 tn p.2.1) <$> l) = Ok ((λ p : sat_in, p.1.1.2) <$> l)).
  { clear. induction l as [|p l IH]; [done|]. rewrite !fmap_cons. cbn [rmap]. rewrite IH. by unfold pair_tree. }
  assert (E2 : rmap kid_labels ((λ p : sat_in, pair_tree p.1.1.2 p.1.2 tn p.2.1) <$> l) = Ok ((λ p : sat_in, if p.1.2 then ["S"; "N"] else ["N"; "S"]) <$> l)).
  { clear. induction l as [|p l IH]; [done|]. rewrite !fmap_cons. cbn [rmap]. rewrite IH. unfold pair_tree. by destruct (p.1.2). }
  assert (E3 : rmap (λ es, rmap (λ r : res chars, r) es) (concat (map inner_of (map (bundle_kid tn) l))) = Ok (zip_with (λ (p : sat_in) o, if p.1.2 then [o; on] else [on; o]) l os)).
  { clear -Hos En. induction Hos as [|p o l os [E _] _ IH]; [done|]. cbn [zip_with].
    replace (concat (map inner_of (map (bundle_kid tn) (p :: l)))) with ((if p.1.2 then [rsttree2rstlatex p.2.1 0; rsttree2rstlatex tn 0] else [rsttree2rstlatex tn 0; rsttree2rstlatex p.2.1 0]) :: concat (map inner_of (map (bundle_kid tn) l))).
    2:{ change (concat (map inner_of (map (bundle_kid tn) (p :: l)))) with (parts_of_rel (pair_tree p.1.1.2 p.1.2 tn p.2.1) :: concat (map inner_of (map (bundle_kid tn) l))). unfold pair_tree. destruct (p.1.2); reflexivity. }
    cbn [rmap]. rewrite IH, E, En. by destruct (p.1.2). }
  rewrite E1, E2, E3. cbn [rbind].
  replace (zip (zip _ _) _) with (map (sat_tuple on) (zip_with sat_out l os)).
  2:{ clear -Hos. induction Hos as [|p o l os _ _ IH]; [done|]. rewrite !fmap_cons. cbn [zip_with map]. rewrite IH. unfold sat_tuple, sat_out. cbn [fst snd zip zip_with]. by destruct (p.1.2). }
  assert (Hlen' : length (zip_with sat_out l os) = length l) by (rewrite zip_with_length; apply Forall2_length in Hos; lia).
  rewrite make_multisat_ok.
  - cbn [rbind]. eexists. split; [reflexivity|]. apply drawn_relation; [apply dirrel_out|]. cbn [tex]. rewrite !solid_app, solid_nl_tab, solid_join. cbn [app].
    assert (HD : Forall2 (λ (p : sat_in) o, drawn o p.2.2) l os) by (eapply Forall2_impl; [exact Hos|]; by intros ? ? [_ ?]).
    f_equal. rewrite map_app, concat_app. change (map solid (nuc_template (element on) :: ?x)) with (solid (nuc_template (element on)) :: map solid x). cbn [concat].
    f_equal; [exact (solid_segs true l os HD)|]. unfold nuc_template. rewrite solid_app, (drawn_arg _ _ Dn), <-(assoc_L (++)). f_equal. f_equal. exact (solid_segs false l os HD).
  - by rewrite Hlen'.
  - destruct Hos as [|p o l os _ Hos]; [cbn in Hlen; lia|]. cbn [zip_with head fmap option_fmap option_map].
    intros q Hq Hb. cbn [head fmap option_fmap option_map] in Hfirst. unfold sat_out; cbn [fst snd].
    destruct (decide (p.1.2 = true)) as [E|E]; [by rewrite E|].
    assert (Hx : ∃ p', p' ∈ p :: l ∧ p'.1.2 = true).
    { apply elem_of_cons in Hq as [-> |Hq]; [by exfalso|]. apply elem_of_lookup_zip_with in Hq as (i & p' & o' & -> & Hp' & _). exists p'. split; [right; by eapply elem_of_list_lookup_2|exact Hb]. }
    destruct Hx as (p' & Hin & Hb'). specialize (Hfirst p' Hin Hb'). exact Hfirst.
Qed.
