(** * WitBrackets: concrete documents with coreference chains *)
From Verif Require Import PyBase DocGraph Relabel SpecGraph DocGraphFacts History Effects AllHist StrNum Query SpecQuery Text Brackets SpecBrackets Witness WitQuery.

(** an executable check of [rel_dict_of] *)
Definition rel_dict_b (es : list edge) (rel : dict nid (list nid)) : bool :=
  bool_decide (NoDup (dkeys rel)) &&
  forallb (λ p : nid * list nid, bool_decide (NoDup p.2) && negb (bool_decide (p.2 = [])) &&
    forallb (λ t, existsb (λ e : edge, bool_decide (e.1.1.1 = p.1 ∧ e.1.1.2 = t)) es) p.2) rel &&
  forallb (λ e : edge, bool_decide (e.1.1.2 ∈ default [] (dget e.1.1.1 rel))) es.
Lemma check_rel es rel : rel_dict_b es rel = true → rel_dict_of es rel.
Proof.
  unfold rel_dict_b. rewrite !andb_true_iff, !forallb_forall. intros [[H1 H2] H3]. apply bool_decide_eq_true in H1. split; [done|]. split.
  - intros s ts Hp. apply elem_of_list_In, H2 in Hp. rewrite !andb_true_iff in Hp. destruct Hp as [[HA HB] _]. apply bool_decide_eq_true in HA.
    apply negb_true_iff, bool_decide_eq_false in HB. done.
  - intros s t. split.
    + destruct (dget s rel) as [ts|] eqn:E; [|by intros ?%elem_of_nil]. cbn. intros Ht.
      apply dget_Some_elem, elem_of_list_In, H2 in E. rewrite !andb_true_iff, forallb_forall in E. destruct E as [_ E].
      apply elem_of_list_In, E, existsb_exists in Ht as ([[[u v] k] a] & Hin & Hb). apply bool_decide_eq_true in Hb as [Hu Hv]. cbn in Hu, Hv. subst.
      exists k, a. by apply elem_of_list_In.
    + intros (k & a & He). apply elem_of_list_In, H3, bool_decide_eq_true in He. done.
Qed.
Lemma check_chains fuel g layer es rel chains : select_edges_by g layer (Some points_to) = Ok es → rel_dict_b es rel = true →
  chains_of fuel rel = Ok chains → get_pointing_chains fuel g layer (Ok chains).
Proof. intros H1 H2%check_rel <-. by eapply GPC_ok. Qed.

(** a document: the words, the markables (id, span attribute), the pointers *)
Definition number_ids (p : string) (ws : list string) : list (nid * string) :=
  imap (λ i w, (NStr (p +:+ str_Z (Z.of_nat (S i))), w)) ws.
Definition br_ops (words : list string) (ms : list (string * string)) (ps : list (string * string)) : list op :=
  ((λ p : nid * string, OAddNode p.1 (VSet ["mmax"; "mmax:token"]) None [("mmax:token", VStr p.2)]) <$> number_ids "word_" words) ++
  [OSetTokens (fst <$> number_ids "word_" words)] ++
  ((λ p, OAddNode (NStr p.1) (VSet ["mmax"; "mmax:markable"]) None [("mmax:span", VStr p.2)]) <$> ms) ++
  ((λ p, OAddEdge (NStr p.1) (NStr p.2) (VSet ["mmax"; "mmax:coref"]) None None [("edge_type", VStr points_to)]) <$> ps).
Definition br_doc words ms ps : graph := run (init_graph "doc" "mmax" None) (br_ops words ms ps).
Lemma br_ops_plain words ms ps : Forall plain (br_ops words ms ps).
Proof.
  unfold br_ops. rewrite !Forall_app. split_and!.
  - apply Forall_fmap, Forall_forall. done.
  - by repeat constructor.
  - apply Forall_fmap, Forall_forall. done.
  - apply Forall_fmap, Forall_forall. done.
Qed.
Lemma br_doc_reachable words ms ps : reachable no_bare_layers (br_doc words ms ps).
Proof. apply reachable_run; [constructor|]. eapply Forall_impl; [apply br_ops_plain|]. by intros o [? ?]. Qed.

(** an executable check of [mentions] *)
Fixpoint mentions_of (g : graph) (renamed : option (dict nid nid)) (ns : string) (l : list nid) : res (list (nid * nid * nid)) :=
  match l with
  | [] => Ok []
  | m :: l =>
    let! a := of_option KeyError (node_attrs g m) in
    let! r := mentions_of g renamed ns l in
    match dget (ns +:+ ":span") a with
    | None => Ok r
    | Some (VStr s) =>
      let! ts := spanstring2tokens g renamed (chs s) in
      let! t0 := of_option IndexError (head ts) in let! t1 := of_option IndexError (last ts) in Ok ((m, t0, t1) :: r)
    | Some _ => Err TypeError
    end
  end.
Lemma check_mentions g renamed ns l : ∀ ms, mentions_of g renamed ns l = Ok ms → mentions g renamed ns l ms.
Proof.
  induction l as [|m l IH]; intros ms; cbn [mentions_of]; [intros [= <-]; constructor|].
  destruct (node_attrs g m) as [a|] eqn:Ea; [cbn [of_option rbind]|done]. intros (r & Hr & H)%rbind_Ok. apply IH in Hr.
  destruct (dget (ns +:+ ":span") a) as [v|] eqn:Ev; [|injection H as <-; by eapply M_none].
  destruct v; try done. apply rbind_Ok in H as (ts & Hts & H). destruct (head ts) eqn:E0; [|done]. cbn in H. destruct (last ts) eqn:E1; [|done]. injection H as <-.
  by eapply M_span.
Qed.
