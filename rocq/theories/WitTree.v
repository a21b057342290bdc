(** * WitTree: a sentence tree, and checks of the hypotheses of the tree properties *)
From Verif Require Import PyBase DocGraph Relabel SpecGraph DocGraphFacts History Effects RelabelFacts AllHist
  StrNum Query SpecQuery Text Tree SpecTree SpanFacts SelectFacts BfsFacts TreeFacts TravFacts OrderFacts Witness WitQuery.

(** (S (NP (N Time)) (VP (V flies) (ADV fast))), the children of VP added in
    the wrong order *)
Definition tree_ops : list op :=
  let tok := "A:token" in
  let d a b := OAddEdge (NStr a) (NStr b) (VSet ["A"]) None None [("edge_type", VStr dominates)] in
  [ OAddNode (NStr "t1") (VSet ["A"]) None [(tok, VStr "Time"); ("A:pos", VStr "N")];
    OAddNode (NStr "t2") (VSet ["A"]) None [(tok, VStr "flies"); ("A:pos", VStr "V")];
    OAddNode (NStr "t3") (VSet ["A"]) None [(tok, VStr "fast"); ("A:pos", VStr "ADV")];
    OSetTokens [NStr "t1"; NStr "t2"; NStr "t3"];
    OAddNode (NStr "s") (VSet ["A"]) None [("label", VStr "S")];
    OAddNode (NStr "np") (VSet ["A"]) None [("label", VStr "NP")];
    OAddNode (NStr "vp") (VSet ["A"]) None [("label", VStr "VP")];
    d "s" "vp"; d "s" "np"; d "vp" "t3"; d "vp" "t2"; d "np" "t1";
    OAddEdge (NStr "t1") (NStr "t2") (VSet ["A"]) None None [("edge_type", VStr "precedes")] ].
Definition wit_tree : graph := run (init_graph "doc" "A" None) tree_ops.
Lemma wit_tree_reach : reachable plain wit_tree.
Proof. apply reachable_run; [constructor|]. repeat constructor; done. Qed.
Definition tree_rank (n : nid) : nat :=
  if bool_decide (n = NStr "s") then 2 else if decide (n ∈ [NStr "np"; NStr "vp"]) then 1 else 0.
Definition dom_edges (g : graph) : list (nid * nid * nid) :=
  (filter (λ e : nid * nid * nid * attrs, dget "edge_type" e.2 = Some (VStr "dominates")) (edges g)).*1.
Lemma elem_dom_edges g u v k : Consistent g → (u, v, k) ∈ dom_edges g ↔
  ∃ a, edge_attrs g u v k = Some a ∧ dget "edge_type" a = Some (VStr "dominates").
Proof.
  intros C. unfold dom_edges. rewrite elem_of_list_fmap. split.
  - intros ([[[u' v'] k'] a] & [= -> -> ->] & [Ht He]%elem_of_list_filter). apply elem_edges in He; [|done]. by exists a.
  - intros (a & He & Ht). exists (u, v, k, a). split; [done|]. apply elem_of_list_filter. split; [done|]. by apply elem_edges.
Qed.
Lemma check_dom g rank : Consistent g → forallb (λ e : nid * nid * nid, rank e.1.2 <? rank e.1.1) (dom_edges g) = true → acyclic (dom g).
Proof.
  intros C H. apply (rank_acyclic _ rank). intros u v (k & a & He & Ht). rewrite forallb_forall in H.
  apply Nat.ltb_lt, (H (u, v, k)), elem_of_list_In, elem_dom_edges; [done|]. by exists a.
Qed.
Lemma check_one_parent g : Consistent g → NoDup (dom_edges g).*1.*2 → one_parent g.
Proof.
  intros C H u k a u' k' a' v He Ht He' Ht'.
  assert (H1 : (u, v, k) ∈ dom_edges g) by (apply elem_dom_edges; [done|]; by exists a).
  assert (H2 : (u', v, k') ∈ dom_edges g) by (apply elem_dom_edges; [done|]; by exists a').
  apply elem_of_list_lookup in H1 as [i Hi], H2 as [j Hj].
  assert (i = j) as ->.
  { eapply NoDup_lookup; [exact H| |]; rewrite !list_lookup_fmap; [by rewrite Hi|by rewrite Hj]. }
  rewrite Hi in Hj. by injection Hj as -> ->.
Qed.
Lemma wit_tree_dom u v : dom wit_tree u v ↔
  (u, v) ∈ [(NStr "s", NStr "vp"); (NStr "s", NStr "np"); (NStr "vp", NStr "t3"); (NStr "vp", NStr "t2"); (NStr "np", NStr "t1")].
Proof.
  pose proof (reach_consistent _ _ wit_tree_reach) as C.
  assert (E : dom_edges wit_tree ≡ₚ (λ p : nid * nid, (p, NInt 0)) <$> [(NStr "s", NStr "vp"); (NStr "s", NStr "np"); (NStr "vp", NStr "t3"); (NStr "vp", NStr "t2"); (NStr "np", NStr "t1")]).
  { apply NoDup_Permutation; [vdec|vdec|]. intros x. split.
    - intros Hx. assert (H : Forall (λ x, x ∈ (λ p : nid * nid, (p, NInt 0)) <$> [(NStr "s", NStr "vp"); (NStr "s", NStr "np"); (NStr "vp", NStr "t3"); (NStr "vp", NStr "t2"); (NStr "np", NStr "t1")]) (dom_edges wit_tree)) by vdec.
      rewrite Forall_forall in H. by apply H.
    - intros Hx. assert (H : Forall (λ x, x ∈ dom_edges wit_tree) ((λ p : nid * nid, (p, NInt 0)) <$> [(NStr "s", NStr "vp"); (NStr "s", NStr "np"); (NStr "vp", NStr "t3"); (NStr "vp", NStr "t2"); (NStr "np", NStr "t1")])) by vdec.
      rewrite Forall_forall in H. by apply H. }
  unfold dom. split.
  - intros (k & a & H). assert (Hin : (u, v, k) ∈ dom_edges wit_tree) by (apply elem_dom_edges; [done|]; by exists a).
    rewrite E in Hin. apply elem_of_list_fmap in Hin as (p & [= <- ->] & Hp). done.
  - intros Hp. assert (Hin : (u, v, NInt 0) ∈ dom_edges wit_tree) by (rewrite E; apply elem_of_list_fmap; by exists (u, v)).
    apply elem_dom_edges in Hin as (a & H); [|done]. by exists (NInt 0), a.
Qed.
Lemma wit_tree_typed : typed wit_tree.
Proof. eapply check_typed; [exact wit_tree_reach|]. vm_compute. reflexivity. Qed.
Lemma wit_tree_one : one_parent wit_tree.
Proof. apply check_one_parent; [exact (reach_consistent _ _ wit_tree_reach)|]. vdec. Qed.
Lemma wit_tree_acyclic : acyclic (dom wit_tree).
Proof. apply (check_dom _ tree_rank); [exact (reach_consistent _ _ wit_tree_reach)|]. vm_compute. reflexivity. Qed.
Lemma wit_tree_edges : sorted_bfs_edges 10 20 wit_tree [] (NStr "s") =
  Ok [(NStr "s", NStr "np"); (NStr "s", NStr "vp"); (NStr "np", NStr "t1"); (NStr "vp", NStr "t2"); (NStr "vp", NStr "t3")].
Proof. vm_compute. reflexivity. Qed.
(** everything below each node *)
Definition wit_below (n : nid) : list nid :=
  if decide (n = NStr "s") then [NStr "s"; NStr "np"; NStr "vp"; NStr "t1"; NStr "t2"; NStr "t3"] else
  if decide (n = NStr "np") then [NStr "np"; NStr "t1"] else
  if decide (n = NStr "vp") then [NStr "vp"; NStr "t2"; NStr "t3"] else [n].
Lemma wit_tree_below n x : rtc (dom wit_tree) n x ↔ x ∈ wit_below n.
Proof.
  split.
  - induction 1 as [n|n m x Hnm _ IH].
    + unfold wit_below. repeat (case_decide; [subst; vdec|]). left.
    + apply wit_tree_dom in Hnm. assert (G : Forall (λ p : nid * nid, Forall (λ x, x ∈ wit_below p.1) (wit_below p.2))
        [(NStr "s", NStr "vp"); (NStr "s", NStr "np"); (NStr "vp", NStr "t3"); (NStr "vp", NStr "t2"); (NStr "np", NStr "t1")]) by vdec.
      rewrite Forall_forall in G. specialize (G _ Hnm). simpl in G. rewrite Forall_forall in G. by apply G.
  - assert (D : ∀ a b, (a, b) ∈ [(NStr "s", NStr "vp"); (NStr "s", NStr "np"); (NStr "vp", NStr "t3"); (NStr "vp", NStr "t2"); (NStr "np", NStr "t1")] →
      rtc (dom wit_tree) a b) by (intros a b H; apply rtc_once, wit_tree_dom, H).
    assert (N : ∀ b, b ∈ wit_below (NStr "np") → rtc (dom wit_tree) (NStr "np") b).
    { intros b H. change (b ∈ [NStr "np"; NStr "t1"]) in H. repeat (apply elem_of_cons in H as [->|H]; [first [apply rtc_refl|apply D; vdec]|]). by apply elem_of_nil in H. }
    assert (V : ∀ b, b ∈ wit_below (NStr "vp") → rtc (dom wit_tree) (NStr "vp") b).
    { intros b H. change (b ∈ [NStr "vp"; NStr "t2"; NStr "t3"]) in H. repeat (apply elem_of_cons in H as [->|H]; [first [apply rtc_refl|apply D; vdec]|]). by apply elem_of_nil in H. }
    unfold wit_below. destruct (decide (n = NStr "s")) as [->|Hs].
    + intros H. repeat (apply elem_of_cons in H as [->|H]; [first [apply rtc_refl|by apply D; vdec|
        etrans; [apply (D _ (NStr "np")); vdec|apply N; vdec]|etrans; [apply (D _ (NStr "vp")); vdec|apply V; vdec]]|]). by apply elem_of_nil in H.
    + destruct (decide (n = NStr "np")) as [->|Hn]; [apply N|]. destruct (decide (n = NStr "vp")) as [->|Hv]; [apply V|].
      intros ->%elem_of_list_singleton. apply rtc_refl.
Qed.
Lemma wit_tree_gaps n : rtc (dom wit_tree) (NStr "s") n → no_gaps wit_tree (g_tokens wit_tree) (NStr "s") n.
Proof.
  intros Hn%wit_tree_below i j k x y z Hijk Hi Hj Hk Hx Hz _. apply wit_tree_below in Hx, Hz. apply wit_tree_below.
  change (g_tokens wit_tree) with [NStr "t1"; NStr "t2"; NStr "t3"] in *.
  pose proof (lookup_lt_Some _ _ _ Hk) as Hlen. simpl in Hlen.
  assert (i = 0) as -> by lia. assert (j = 1) as -> by lia. assert (k = 2) as -> by lia.
  simpl in Hi, Hj, Hk. injection Hi as <-. injection Hj as <-. injection Hk as <-.
  assert (G : Forall (λ n, NStr "t1" ∈ wit_below n → NStr "t3" ∈ wit_below n → NStr "t2" ∈ wit_below n) (wit_below (NStr "s"))) by vdec.
  rewrite Forall_forall in G. by apply G.
Qed.
(** a cycle above the only token *)
Definition cycle_ops : list op :=
  let d a b := OAddEdge (NStr a) (NStr b) (VSet ["A"]) None None [("edge_type", VStr dominates)] in
  [ OAddNode (NStr "t1") (VSet ["A"]) None [("A:token", VStr "Time")];
    OSetTokens [NStr "t1"];
    d "x" "y"; d "y" "x"; d "x" "t1" ].
Definition wit_cycle : graph := run (init_graph "doc" "A" None) cycle_ops.
Lemma wit_cycle_reach : reachable plain wit_cycle.
Proof. apply reachable_run; [constructor|]. repeat constructor; done. Qed.
(** a token that is a bracket *)
Definition bracket_ops : list op :=
  [ OAddNode (NStr "t1") (VSet ["A"]) None [("A:token", VStr "(")];
    OSetTokens [NStr "t1"];
    OAddNode (NStr "s") (VSet ["A"]) None [("label", VStr "S")];
    OAddEdge (NStr "s") (NStr "t1") (VSet ["A"]) None None [("edge_type", VStr dominates)] ].
Definition wit_bracket : graph := run (init_graph "doc" "A" None) bracket_ops.
Lemma wit_bracket_reach : reachable plain wit_bracket.
Proof. apply reachable_run; [constructor|]. repeat constructor; done. Qed.
