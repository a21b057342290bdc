(** * PropDot: graphs for graphviz (C100) *)
From Verif Require Import PyBase DocGraph Relabel StrNum SpecGraph AllHist Witness Dot SpecDot DotFacts.

(** ** C100 What is drawn of a document graph *)
Theorem C100_drawn : ∀ P ordn orde g, (∀ l, ordn l ≡ₚ l) → (∀ l, orde l ≡ₚ l) → reachable P g →
  Forall (λ p, showable p.2) (nodes_data g) → Forall (λ e, showable e.2) (edges g) →
  ∃ d, preprocess_for_pydot ordn orde g = Ok d ∧ d_name d = g_name g ∧
    (∃ es, es ≡ₚ edges g ∧ Forall2 edge_shown es (d_edges d)) ∧
    NoDup (d_nodes d).*1 ∧ (∀ q, q ∈ (d_nodes d).*1 ↔ ∃ n, n ∈ nodes g ∧ quoted (id_text n) q) ∧
    (texts_differ g → ∃ ns, ns ≡ₚ nodes_data g ∧ Forall2 node_shown ns (d_nodes d)).
Proof. intros P ordn orde g Hn He H. apply dot_thm; [exact Hn|exact He|]. by eapply reach_consistent. Qed.
Print Assumptions C100_drawn.
Theorem C100_rejected : ∀ P ordn orde g e, (∀ l, ordn l ≡ₚ l) → (∀ l, orde l ≡ₚ l) → reachable P g →
  preprocess_for_pydot ordn orde g = Err e ↔ e = TypeError ∧ (Exists (λ p, ¬ showable p.2) (nodes_data g) ∨ Exists (λ e, ¬ showable e.2) (edges g)).
Proof.
  intros P ordn orde g e Hn He H%reach_consistent. split; [by apply dot_rejects|]. intros [-> HX]. destruct (preprocess_for_pydot ordn orde g) as [d|x] eqn:E.
  - exfalso. unfold preprocess_for_pydot in E. rewrite (nodes_data_eq g H) in E. destruct (PyBase.rmap dot_node (ordn (nodes_data g))) as [ns|] eqn:En; cbn [rbind] in E; [|done]. destruct (PyBase.rmap dot_edge (orde (edges g))) as [es|] eqn:Ee; cbn [rbind] in E; [|done].
    apply SpanFacts.rmap_Ok in En, Ee. destruct HX as [(p & Hp & HX)%Exists_exists|(p & Hp & HX)%Exists_exists].
    + rewrite <-(Hn (nodes_data g)) in Hp. apply elem_of_list_lookup in Hp as [i Hi]. destruct (Forall2_lookup_l _ _ _ _ _ En Hi) as (q & _ & Hq%dot_node_iff). apply HX. apply dot_label_total. exists q.2. apply dot_label_iff, Hq.
    + rewrite <-(He (edges g)) in Hp. apply elem_of_list_lookup in Hp as [i Hi]. destruct (Forall2_lookup_l _ _ _ _ _ Ee Hi) as (q & _ & Hq%dot_edge_iff). apply HX. apply dot_label_total. exists q.2. apply dot_label_iff, Hq.
  - by destruct (dot_rejects ordn orde Hn He g H x E) as [-> _].
Qed.
Print Assumptions C100_rejected.
(** quoting keeps different texts apart *)
Theorem C100_texts : ∀ s t q, quoted s q → quoted t q → s = t.
Proof. exact quoted_inj. Qed.
Print Assumptions C100_texts.
(** but not a number and a string with the same text: two nodes become one *)
Definition clash : graph := run (init_graph "doc" "A" None) [OAddNode (NInt 1) (VSet ["A"]) None [("label", VStr "x")]; OAddNode (NStr "1") (VSet ["A"]) None [("label", VStr "y")]].
Theorem C100_clash_refuted : reachable plain clash ∧ length (nodes clash) = 3 ∧ ∃ d, preprocess_for_pydot (λ l, l) (λ l, l) clash = Ok d ∧ length (d_nodes d) = 2.
Proof.
  split; [|split; [vm_compute; reflexivity|]].
  - apply reachable_run; [constructor|]. repeat apply List.Forall_cons; [done|done|apply List.Forall_nil].
  - eexists. split; [vm_compute; reflexivity|]. reflexivity.
Qed.
Print Assumptions C100_clash_refuted.
Example C100_hyp : reachable plain wit_a ∧ Forall (λ p, showable p.2) (nodes_data wit_a) ∧ Forall (λ e, showable e.2) (edges wit_a) ∧ texts_differ wit_a ∧
  match preprocess_for_pydot (λ l, l) (@rev _) wit_a with Ok d => (dget (chs """ap""") (d_nodes d), length (d_nodes d), length (d_edges d)) = (Some (Some (chs """S""")), 5, 5) | Err _ => False end.
Proof.
  split; [apply wit_plain|]. assert (HL : ∀ a, match dget "label" a with None => True | Some (VStr _) => True | _ => False end → showable a) by (intros a Ha v Hv; rewrite Hv in Ha; destruct v; try done; eexists; constructor).
  split; [|split; [|split]].
  - eapply (Forall_impl (λ p : nid * attrs, match dget "label" p.2 with None => True | Some (VStr _) => True | _ => False end)); [|intros p; apply HL]. vm_compute. repeat apply List.Forall_cons; try exact I. apply List.Forall_nil.
  - eapply (Forall_impl (λ p : nid * nid * nid * attrs, match dget "label" p.2 with None => True | Some (VStr _) => True | _ => False end)); [|intros p; apply HL]. vm_compute. repeat apply List.Forall_cons; try exact I. apply List.Forall_nil.
  - assert (HA : Forall (λ n, match n with NStr _ => true | NInt _ => false end = true) (nodes wit_a)) by vdec. rewrite Forall_forall in HA. intros n m Hx Hy E. apply HA in Hx, Hy. destruct n, m; try done. cbn in E. by rewrite E.
  - vm_compute. reflexivity.
Qed.
