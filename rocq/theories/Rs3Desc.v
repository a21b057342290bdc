(** * Rs3Desc: how the description of the nodes grows element by element *)
From Verif Require Import PyBase DocGraph Relabel StrNum Query Text Rst Nltk Parsers Anaphora Conano Decour Ptb Convert Tiger Rs3Graph.
From Verif Require Import SpecGraph DocGraphFacts SpecImport ImportFacts TigerFacts ViewFacts SpecQuery SpecRs3Graph Rs3Facts.

Section Desc.
  Context (ns : string) (d : rs3doc).
  Definition view_desc (P : list xelem) (i : string) : option node_desc :=
    match from i P with
    | x :: _ => Some (element_desc ns d P x)
    | [] => match kids_in P i with [] => None | _ => Some (missing_desc ns d P i) end
    end.
  Definition pview (P : list xelem) : nview := λ n,
    if decide (n = node_named ns "root_node") then (if decide (Exists top P) then None else Some ([ns], []))
    else match name_of ns n with Some i => dinfo ns <$> view_desc P i | None => None end.
  Lemma pview_named P i : i ≠ "root_node" → pview P (node_named ns i) = dinfo ns <$> view_desc P i.
  Proof. intros Hi. unfold pview. rewrite decide_False by (intros E; apply named_inj in E; done). by rewrite name_of_named. Qed.

  Lemma sat_app K x : link_of d x ≠ Satellite → Exists (λ y, link_of d y = Satellite) (K ++ [x]) ↔ Exists (λ y, link_of d y = Satellite) K.
  Proof. intros H. rewrite Exists_app, Exists_cons, Exists_nil. naive_solver. Qed.
  Lemma sat_new K x : link_of d x = Satellite → Exists (λ y, link_of d y = Satellite) (K ++ [x]).
  Proof. intros H. apply Exists_app. right. by constructor. Qed.
  Lemma type_ext P P' x : (∀ i, i = el_id x → kids_in (from i P') i = kids_in (from i P) i ∧ kids_in (before i P') i = kids_in (before i P) i) → type_of d P' x = type_of d P x.
  Proof. intros H. unfold type_of. destruct (H _ eq_refl) as [-> ->]. done. Qed.
  Lemma marked (K : list xelem) x : link_of d x ≠ Plain → last (filter (λ y, link_of d y ≠ Plain) (K ++ [x])) = Some x.
  Proof. intros H. rewrite filter_app, filter_cons_True by done. rewrite filter_nil. apply last_snoc. Qed.
  Lemma unmarked (K : list xelem) x : link_of d x = Plain → filter (λ y, link_of d y ≠ Plain) (K ++ [x]) = filter (λ y, link_of d y ≠ Plain) K.
  Proof. intros H. rewrite filter_app, filter_cons_False by (by intros []). rewrite filter_nil. apply app_nil_r. Qed.

  (** an element that is neither [i] nor attached to [i] *)
  Lemma desc_other P x i : i ≠ el_id x → el_parent x ≠ Some i → view_desc (P ++ [x]) i = view_desc P i.
  Proof.
    intros Hi Hp. assert (HK : kids_in [x] i = []) by (by rewrite kids_one, decide_False).
    assert (Hf : from i [x] = [] ∧ before i [x] = [x]).
    { unfold from, before. cbn. rewrite decide_False by congruence. done. }
    unfold view_desc. destruct (decide (i ∈ el_id <$> P)) as [Hin|Hin].
    - destruct (split_in i P [x] Hin) as [S1 S2]. rewrite S2. destruct (from_head i P Hin) as (y & l' & F & Fi & _). rewrite F. cbn [app]. f_equal. unfold element_desc. rewrite Fi.
      f_equal.
      + f_equal. apply type_ext. intros j ->. rewrite Fi. rewrite S1, S2, kids_app, HK, app_nil_r. done.
      + unfold mark_of. rewrite kids_app, HK, app_nil_r, S1. done.
    - destruct (split_out i P [x] Hin) as [S1 S2]. rewrite S2, (proj1 Hf), (from_nil i P Hin), kids_app, HK, app_nil_r.
      destruct (kids_in P i) as [|k K] eqn:EK; [done|]. f_equal. unfold missing_desc, mark_of.
      rewrite S1, (proj2 Hf), !kids_app, HK, app_nil_r, (before_all i P Hin). done.
  Qed.
  (** an element attached to [i] *)
  Lemma desc_parent P x i : i ≠ el_id x → el_parent x = Some i → view_desc (P ++ [x]) i = Some (parent_desc ns d (view_desc P i) x).
  Proof.
    intros Hi Hp. assert (HK : kids_in [x] i = [x]) by (by rewrite kids_one, decide_True).
    assert (Hf : from i [x] = [] ∧ before i [x] = [x]).
    { unfold from, before. cbn. rewrite decide_False by congruence. done. }
    unfold view_desc. destruct (decide (i ∈ el_id <$> P)) as [Hin|Hin].
    - destruct (split_in i P [x] Hin) as [S1 S2]. rewrite S2. destruct (from_head i P Hin) as (y & l' & F & Fi & _). rewrite F. cbn [app]. f_equal.
      cbn [parent_desc]. unfold element_desc. cbn [nd_layers nd_label nd_text nd_group nd_type nd_rel]. rewrite Fi.
      assert (HT : link_of d x ≠ Satellite → type_of d (P ++ [x]) y = type_of d P y).
      { intros Hl. unfold type_of. rewrite Fi, S1, S2, kids_app, HK. by rewrite (decide_ext _ _ _ _ (sat_app (kids_in (from i P) i) x Hl)). }
      assert (HM : link_of d x ≠ Plain → mark_of d (P ++ [x]) i = Some (relation_of x)) by (intros Hl; unfold mark_of; by rewrite kids_app, HK, marked).
      destruct (link_of d x) eqn:El.
      + rewrite (decide_False (P := Satellite = Plain)) by done. f_equal; [|by apply HM]. f_equal. unfold type_of. rewrite decide_True; [done|]. rewrite Fi, S2, kids_app, HK. by apply sat_new.
      + rewrite (decide_False (P := Nucleus = Plain)) by done. f_equal; [|by apply HM]. f_equal. by apply HT.
      + rewrite (decide_True (P := Plain = Plain)) by done. f_equal; [f_equal; by apply HT|]. unfold mark_of. rewrite kids_app, HK, unmarked, S1 by done. done.
    - destruct (split_out i P [x] Hin) as [S1 S2]. rewrite S2, (proj1 Hf), (from_nil i P Hin), kids_app, HK.
      assert (HM : mark_of d (P ++ [x]) i = if decide (link_of d x = Plain) then
          match last (filter (λ y, link_of d y ≠ Plain) (kids_in P i)) with Some y => Some (relation_of y) | None => relation_of <$> head (kids_in P i ++ [x]) end
        else Some (relation_of x)).
      { unfold mark_of. rewrite S1, (proj2 Hf), !kids_app, HK. destruct (decide _) as [Hl|Hl]; [by rewrite unmarked|by rewrite marked]. }
      destruct (kids_in P i) as [|k K] eqn:EK; cbn [app].
      + f_equal. cbn [parent_desc]. unfold missing_desc. rewrite HM. cbn [filter app]. f_equal.
        * rewrite kids_app, EK, HK. unfold type_from_kids, parent_type. cbn [app head]. destruct (link_of d x) eqn:El.
          -- rewrite decide_True; [done|]. by constructor.
          -- rewrite decide_False; [|intros HE; apply Exists_cons in HE as [Hs|Hs]; [congruence|by apply Exists_nil in Hs]]. rewrite decide_False by congruence. done.
          -- rewrite decide_False; [|intros HE; apply Exists_cons in HE as [Hs|Hs]; [congruence|by apply Exists_nil in Hs]]. rewrite decide_True by done. done.
        * destruct (decide _); done.
      + f_equal. cbn [parent_desc]. unfold missing_desc. cbn [nd_layers nd_label nd_text nd_group nd_type nd_rel]. rewrite HM, kids_app, EK, HK.
        assert (HT : link_of d x ≠ Satellite → type_from_kids d ((k :: K) ++ [x]) = type_from_kids d (k :: K)).
        { intros Hl. unfold type_from_kids. by rewrite (decide_ext _ _ _ _ (sat_app (k :: K) x Hl)). }
        destruct (link_of d x) eqn:El.
        * rewrite !decide_False by done. f_equal. unfold type_from_kids. rewrite decide_True; [done|]. by apply sat_new.
        * rewrite !decide_False by done. f_equal. by apply HT.
        * rewrite !decide_True by done. f_equal; [by apply HT|]. unfold mark_of. rewrite (before_all i P Hin), EK. done.
  Qed.
  (** the element itself *)
  Lemma desc_own P x : el_id x ∉ el_id <$> P → el_parent x ≠ Some (el_id x) →
    view_desc (P ++ [x]) (el_id x) = Some (element_desc ns d (P ++ [x]) x) ∧
    nd_rel (element_desc ns d (P ++ [x]) x) = match view_desc P (el_id x) with Some D => nd_rel D | None => None end ∧
    type_of d (P ++ [x]) x = (if decide (¬ segment x ∧ is_Some (el_parent x) ∧ own_type d x = "span")
      then match view_desc P (el_id x) with Some D => default "span" (nd_type D) | None => "span" end else own_type d x) ∧
    (∀ D, view_desc P (el_id x) = Some D → nd_layers D = [ns] ∧ nd_label D = None ∧ nd_text D = None ∧ nd_group D = None).
  Proof.
    intros Hi Hp. assert (HK : kids_in [x] (el_id x) = []) by (by rewrite kids_one, decide_False).
    assert (Hf : from (el_id x) [x] = [x] ∧ before (el_id x) [x] = []) by (unfold from, before; cbn; by rewrite decide_True).
    destruct (split_out (el_id x) P [x] Hi) as [S1 S2]. unfold view_desc at 1 2 3 4. rewrite S2, (proj1 Hf), (from_nil _ _ Hi). split; [done|]. split; [|split].
    - cbn [element_desc nd_rel]. unfold mark_of. rewrite kids_app, HK, app_nil_r, S1, (proj2 Hf), app_nil_r. destruct (kids_in P (el_id x)) as [|k K] eqn:EK; [done|].
      cbn [missing_desc nd_rel]. unfold mark_of. by rewrite (before_all _ _ Hi), EK.
    - unfold type_of. rewrite S2, (proj1 Hf), S1, (proj2 Hf), HK, app_nil_r. rewrite (decide_False (P := Exists _ [])) by (intros HE; by apply Exists_nil in HE).
      destruct (decide (¬ segment x ∧ is_Some (el_parent x) ∧ own_type d x = "span")) as [(H1 & H2 & H3)|H].
      + destruct (kids_in P (el_id x)) as [|k K] eqn:EK.
        * rewrite decide_False; [done|]. intros (_ & _ & _ & H). by apply Exists_nil in H.
        * cbn [missing_desc nd_type]. rewrite EK. unfold type_from_kids. destruct (decide (Exists _ (k :: K))) as [HE|HE].
          -- by rewrite decide_True.
          -- rewrite decide_False by naive_solver. rewrite H3. cbn [head]. by destruct (decide _).
      + rewrite decide_False by naive_solver. done.
    - intros D. destruct (kids_in P (el_id x)); [done|]. intros [= <-]. done.
  Qed.
End Desc.
