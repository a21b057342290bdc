(** * Witness: concrete document graphs used to show that the hypotheses of the
    theorems can be met, and as counterexamples *)
From Verif Require Import PyBase DocGraph Relabel SpecGraph.

(** decide a closed proposition by evaluation *)
Ltac vdec := apply (bool_decide_unpack _); vm_compute; exact I.

Lemma reachable_run (P : op → Prop) g os : reachable P g → Forall P os → reachable P (run g os).
Proof.
  intros Hg Hos. revert g Hg. unfold run. induction Hos as [|o os Ho Hos IH]; intros g Hg; [done|].
  simpl. apply IH. by apply R_step.
Qed.
Definition plain (o : op) : Prop := no_bare_layers o ∧ no_empty_tuple o.

(** a document "Time flies fast" with a phrase node over the first two tokens,
    a pointing relation and parallel edges *)
Definition wit_ops (p ns : string) : list op :=
  let t i := NStr (p +:+ i) in
  let tok := ns +:+ ":token" in
  [ OAddNode (t "1") (VSet [ns; ns +:+ ":token"]) None [(tok, VStr "Time")];
    OAddNode (t "2") (VSet [ns; ns +:+ ":token"]) None [(tok, VStr "flies")];
    OAddNodesFrom [NTup (t "3") [("layers", VSet [ns]); (tok, VStr "fast")]] [("pos", VStr "ADV")];
    OSetTokens [t "1"; t "2"; t "3"];
    OAddNode (t "p") (VSet [ns]) (Some [("label", VStr "S")]) [];
    OAddEdge (t "p") (t "1") (VSet [ns]) None None [("edge_type", VStr spans)];
    OAddEdge (t "p") (t "2") (VSet [ns]) None None [("edge_type", VStr spans)];
    OAddEdge (t "p") (t "2") (VSet [ns; "x"]) None None [("edge_type", VStr points_to)];
    OAddEdge (NStr (ns +:+ ":root_node")) (t "p") (VSet [ns; "dom"]) None None
      [("edge_type", VStr dominates)];
    OAddEdgesFrom [ESpec (t "p") (t "3") (Some (NStr "k")) [("layers", VSet ["y"])]] None
      [("edge_type", VStr spans)];
    OAddLayerNode (t "p") "z" ].
Definition wit (p ns : string) : graph := run (init_graph "doc" ns None) (wit_ops p ns).

Lemma wit_ops_plain p ns : Forall plain (wit_ops p ns).
Proof.
  unfold wit_ops. repeat constructor; try done.
  intros n d Hnd. apply elem_of_list_singleton in Hnd as [= -> ->]. done.
Qed.
Lemma wit_plain p ns : reachable plain (wit p ns).
Proof. apply reachable_run; [constructor|]. apply wit_ops_plain. Qed.
Lemma wit_no_bare p ns : reachable no_bare_layers (wit p ns).
Proof.
  apply reachable_run; [constructor|]. eapply Forall_impl; [apply wit_ops_plain|]. by intros o [? ?].
Qed.

(** the same tokens with other ids, the other graph of merge examples *)
Definition wit_a : graph := wit "a" "A".
Definition wit_b : graph := wit "b" "B".

(** the second graph after its tokens were renamed to those of the first *)
Definition wit_merged : outcome :=
  match relabel_loop wit_b (zip (g_tokens wit_b) (g_tokens wit_a)) (g_tokens wit_b) with
  | (b', None) => merge_renamed wit_a (set_tokens (g_tokens wit_a) b')
  | (b', Some e) => (wit_a, Some e)
  end.

(** an executable run of merge_graphs, for disjoint token ids *)
Definition merge_exec (g og : graph) : outcome :=
  match create_token_mapping og g with
  | Err e => (g, Some e)
  | Ok m => match relabel_loop og m m.*1 with
            | (_, Some e) => (g, Some e)
            | (og', None) =>
              merge_renamed g (match m.*2 with [] => og' | _ => set_tokens m.*2 og' end)
            end
  end.
Lemma merge_exec_ok g og :
  (∀ m, create_token_mapping og g = Ok m → Forall (λ x, x ∉ m.*2) m.*1) →
  merge_graphs g og (merge_exec g og).
Proof.
  intros Hd. unfold merge_exec. destruct (create_token_mapping og g) as [m|e] eqn:Em.
  2: { eapply MG_err. by apply RT_err. }
  specialize (Hd m eq_refl). rewrite Forall_forall in Hd.
  assert (HR : relabel_inplace og m (relabel_loop og m m.*1)).
  { apply RI_disjoint; [|done]. intros (x & H1 & H2). exact (Hd x H1 H2). }
  destruct (relabel_loop og m m.*1) as [og' [e|]] eqn:E.
  - eapply MG_err. by eapply RT_relabel_err.
  - apply MG_ok. by eapply RT_ok.
Qed.
Definition mapping_disjoint (g og : graph) : bool :=
  match create_token_mapping og g with
  | Ok m => bool_decide (Forall (λ x, x ∉ m.*2) m.*1)
  | Err _ => true
  end.
Lemma merge_exec_run g og : mapping_disjoint g og = true → merge_graphs g og (merge_exec g og).
Proof.
  intros H. apply merge_exec_ok. intros m Hm. unfold mapping_disjoint in H. rewrite Hm in H.
  by apply bool_decide_eq_true in H.
Qed.
(** the same document with an edge into its root *)
Definition wit_c : graph :=
  (step wit_b (OAddEdge (NStr "bp") (NStr "B:root_node") VNone None None [])).1.
(** two documents whose root has the same id *)
Definition wit_r (p ns : string) : graph := run (init_graph "doc" ns (Some (NStr "root"))) (wit_ops p ns).
