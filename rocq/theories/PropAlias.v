(** * PropAlias: properties C58 and C59, objects shared between elements and graphs

    [exec_all empty_store cs]: the program [cs] (new graphs, and API calls with
    literal arguments) run from the start, on a heap of dict and set objects.
    [shown]: the graphs of a store, as they print.
    [vexec_all [] cs]: the same program on graphs that are immutable values
    (DocGraph.v), the setting of the other properties. *)
From Verif Require Import PyBase DocGraph SpecGraph Witness Alias SpecAlias AliasFacts AliasOps AliasEdges AliasEdges2 AliasStep AliasProg.

(** ** C58: programs that pass literals see no sharing *)
Theorem C58_values : ∀ cs st es, Forall literal cs → exec_all empty_store cs = (st, es) → (shown st, es) = vexec_all [] cs.
Proof. intros cs st es HL E. exact (proj2 (exec_all_ok cs empty_store st es empty_ok HL E)). Qed.
Print Assumptions C58_values.

(** A graph is the result of the calls made on it, whatever other graphs there are. *)
Theorem C58_isolation : ∀ cs i, Forall literal cs → shown (exec_all empty_store cs).1 !! i = shown (exec_all empty_store (filter (concerns i) cs)).1 !! i.
Proof.
  intros cs i HL. assert (HL' : Forall literal (filter (concerns i) cs)) by (apply Forall_forall; intros c [_ Hc]%elem_of_list_filter; rewrite Forall_forall in HL; by apply HL).
  destruct (exec_all empty_store cs) as [st es] eqn:E. destruct (exec_all empty_store (filter (concerns i) cs)) as [st' es'] eqn:E'.
  pose proof (C58_values _ _ _ HL E) as H. pose proof (C58_values _ _ _ HL' E') as H'.
  pose proof (vexec_other i cs [] [] eq_refl eq_refl) as HV. rewrite <-H, <-H' in HV. exact HV.
Qed.
Print Assumptions C58_isolation.

(** A call changes nothing in the other graphs. *)
Theorem C58_call : ∀ cs i o st st' e j, Forall literal cs → literal (CCall i o) → (exec_all empty_store cs).1 = st → exec st (CCall i o) = (st', e) → j ≠ i → shown st' !! j = shown st !! j.
Proof.
  intros cs i o st st' e j HL Ho <- E Hne. destruct (exec_all empty_store cs) as [st es] eqn:E0. cbn [fst] in *.
  destruct (exec_all_ok cs empty_store st es empty_ok HL E0) as [HI _]. destruct (exec_ok _ _ _ _ HI Ho E) as [_ H].
  cbn [vexec] in H. destruct (shown st !! i) as [g|] eqn:Eg.
  - destruct (step g o) as [g' e']. injection H as -> _. by rewrite list_lookup_insert_ne by done.
  - injection H as -> _. done.
Qed.
Print Assumptions C58_call.

(** the example: two documents built side by side; attribute dictionaries are literals *)
Definition side : list cmd :=
  [CNew "a" "A" None; CNew "b" "B" None] ++ (CCall 0 <$> wit_ops "a" "A") ++ (CCall 1 <$> wit_ops "b" "B") ++
  [CCall 0 (OAddNodesFrom [NTup (NStr "a1") [("layers", VSet ["new"])]; NTup (NStr "x") []] [("layers", VSet ["given"])]);
   CCall 0 (OAddLayerEdge (NStr "ap") (NStr "a2") "late"); CCall 1 (ORemoveNode (NStr "b3")); CCall 1 OAddPrecedence; CCall 0 OAddPrecedence; CCall 7 OAddPrecedence].
Lemma python_call_check o : forallb (λ a, bool_decide (NoDup (dkeys a))) (call_dicts o) = true → python_call o.
Proof. intros H. apply Forall_forall. intros a Ha. rewrite forallb_forall in H. apply elem_of_list_In in Ha. specialize (H a Ha). by apply bool_decide_eq_true_1 in H. Qed.
Lemma side_literal : Forall literal side.
Proof.
  unfold side, wit_ops. repeat (apply List.Forall_cons || apply List.Forall_nil); try exact I;
    (split; [apply python_call_check; vm_compute; reflexivity|]); try (intros []; fail).
  - intros [H _]. revert H. apply (bool_decide_unpack _). vm_compute. exact I.
  - intros [H _]. revert H. apply (bool_decide_unpack _). vm_compute. exact I.
  - intros [_ [n H]]. rewrite !elem_of_cons, elem_of_nil in H. destruct H as [H|[H|H]]; [discriminate|discriminate|exact H].
Qed.
Example C58_values_hyp : Forall literal side ∧ length (shown (exec_all empty_store side).1) = 2 ∧
  (∃ g, shown (exec_all empty_store side).1 !! 0 = Some g ∧ nodes g = NStr <$> ["A:root_node"; "a1"; "a2"; "a3"; "ap"; "x"]).
Proof. split; [exact side_literal|]. split; [vm_compute; reflexivity|]. eexists. split; vm_compute; reflexivity. Qed.
Example C58_isolation_hyp : Forall literal side ∧ length (filter (concerns 1) side) < length side.
Proof. split; [exact side_literal|]. apply Nat.ltb_lt. vm_compute. reflexivity. Qed.
Example C58_call_hyp : Forall literal side ∧ literal (CCall 0 (OAddLayerNode (NStr "a1") "q")) ∧
  (exec (exec_all empty_store side).1 (CCall 0 (OAddLayerNode (NStr "a1") "q"))).2 = None ∧ (shown (exec_all empty_store side).1 !! 1) ≠ None.
Proof. split; [exact side_literal|]. split; [split; [apply python_call_check; reflexivity|intros []]|]. split; [vm_compute; reflexivity|vm_compute; discriminate]. Qed.

(** ** The excluded case: add_nodes_from with a keyword [layers] gives the very same set
    to all the nodes that are given as bare ids and exist already, so that a layer added
    to one of them is added to all. *)
Definition node_layers (st : store) (i : nat) (n : nid) : option pyval :=
  g ← shown st !! i; a ← dget n (g_node g); dget "layers" a.
Theorem C58_keyword_layers_refuted :
  let cs := [CNew "doc" "n" None; CCall 0 (OAddNodesFrom [NBare (NInt 1); NBare (NInt 2)] []);
             CCall 0 (OAddNodesFrom [NBare (NInt 1); NBare (NInt 2)] [("layers", VSet ["x"])]); CCall 0 (OAddLayerNode (NInt 1) "y")] in
  (exec_all empty_store cs).2 = [None; None; None; None] ∧ node_layers (exec_all empty_store cs).1 0 (NInt 2) = Some (VSet ["x"; "y"]) ∧
  (vexec_all [] cs).1 ≠ shown (exec_all empty_store cs).1.
Proof. split; [vm_compute; reflexivity|]. split; [vm_compute; reflexivity|]. vm_compute. discriminate. Qed.
Print Assumptions C58_keyword_layers_refuted.

(** ** C59: calls that are given existing objects *)
(** A call whose dictionary arguments are distinct objects that no graph holds, with [layers]
    sets of their own, does to its graph what it does to values, changes no other graph, and
    leaves all elements with objects of their own. *)
Theorem C59_own_objects : ∀ st i g o st' e, st_graphs st !! i = Some g →
  HInv (st_heap st) (call_objects o ++ held st) → call_sets (st_heap st) (call_objects o ++ held st) o → hexec st i o = (st', e) →
  let r := step (graph_of (st_heap st) g) (call_value (st_heap st) o) in
  shown st' = <[i := r.1]> (shown st) ∧ e = r.2 ∧ HInv (st_heap st') (held st').
Proof.
  intros st i g o st' e Hg HI HC E. destruct (hexec_ok st i o st' e g Hg HI HC E) as (P1 & P2 & P3).
  split; [exact P2|]. split; [exact P3|exact P1].
Qed.
Print Assumptions C59_own_objects.

(** All stores that programs with literals reach are of this kind. *)
Theorem C59_reachable : ∀ cs st es, Forall literal cs → exec_all empty_store cs = (st, es) → HInv (st_heap st) (held st).
Proof. intros cs st es HL E. exact (proj1 (exec_all_ok cs empty_store st es empty_ok HL E)). Qed.
Print Assumptions C59_reachable.

(** the example: a call with objects made before it *)
Definition own_store : store := (exec_all empty_store side).1.
Definition own_call : heap * hop := lit_op (st_heap own_store) (OAddEdge (NStr "ap") (NStr "new") (VSet ["l"]) None (Some [("edge_type", VStr spans)]) [("w", VInt 1)]).
Lemma own_ok st o : HInv (st_heap st) (held st) → python_call o → ¬ shares_layers o → is_Some (st_graphs st !! 0) →
  let c := lit_op (st_heap st) o in
  ∃ g, let st' := mkStore c.1 (st_graphs st) in st_graphs st' !! 0 = Some g ∧
  HInv (st_heap st') (call_objects c.2 ++ held st') ∧ call_sets (st_heap st') (call_objects c.2 ++ held st') c.2.
Proof.
  intros HI Hp Hs [g Hg]. cbv zeta. exists g. split; [exact Hg|].
  destruct (lit_op (st_heap st) o) as [h' o'] eqn:El. destruct (lit_op_ok _ _ _ _ _ HI Hp Hs El) as (P1 & P2 & P3 & P4). split; [exact P1|exact P4].
Qed.
Lemma own_inv : HInv (st_heap own_store) (held own_store).
Proof. unfold own_store. destruct (exec_all empty_store side) as [st es] eqn:E. exact (C59_reachable side st es side_literal E). Qed.
Lemma own_some : is_Some (st_graphs own_store !! 0).
Proof. vm_compute. eexists. reflexivity. Qed.
Example C59_own_objects_hyp :
  (∃ g, let st := mkStore own_call.1 (st_graphs own_store) in st_graphs st !! 0 = Some g ∧
    HInv (st_heap st) (call_objects own_call.2 ++ held st) ∧ call_sets (st_heap st) (call_objects own_call.2 ++ held st) own_call.2) ∧
  (hexec (mkStore own_call.1 (st_graphs own_store)) 0 own_call.2).2 = None.
Proof.
  split; [|vm_compute; reflexivity]. unfold own_call.
  apply (own_ok own_store _ own_inv); [apply python_call_check; reflexivity|intros []|exact own_some].
Qed.

(** ** What happens without this condition *)
(** One [attr_dict] for two nodes: the keyword attributes of the second call appear on the
    first node. *)
Definition two_dicts : heap := mkHeap [] [[("label", HStr "S")]; []; [("x", HInt 5)]; []].
Definition new_graph (h : heap) : store := let '(h, g) := h_init h "doc" "n" None in mkStore h [g].
Fixpoint calls (st : store) (os : list (nat * hop)) : store * list (option exc) :=
  match os with
  | [] => (st, [])
  | (i, o) :: os => let '(st, e) := hexec st i o in let '(st, es) := calls st os in (st, e :: es)
  end.
Definition node_attr (st : store) (i : nat) (n : nid) (k : string) : option pyval :=
  g ← shown st !! i; a ← dget n (g_node g); dget k a.
Definition edge_attr (st : store) (i : nat) (u v key : nid) (k : string) : option pyval :=
  g ← shown st !! i; nb ← dget u (g_succ g); kd ← dget v nb; a ← dget key kd; dget k a.
Theorem C59_shared_dict_refuted :
  let st0 := new_graph two_dicts in
  let '(st1, e1) := calls st0 [(0, HAddNode (NInt 1) HNone (Some 0) 1)] in
  let '(st2, e2) := calls st1 [(0, HAddNode (NInt 2) HNone (Some 0) 2)] in
  e1 = [None] ∧ e2 = [None] ∧ node_attr st1 0 (NInt 1) "x" = None ∧ node_attr st2 0 (NInt 1) "x" = Some (VInt 5).
Proof. vm_compute. repeat split; reflexivity. Qed.
Print Assumptions C59_shared_dict_refuted.

(** One set of layers for two nodes: a layer added to one is added to both. *)
Definition one_set : heap := mkHeap [["l"]] [[]; []].
Theorem C59_shared_layers_refuted :
  let '(st, es) := calls (new_graph one_set) [(0, HAddNode (NInt 1) (HSet 0) None 0); (0, HAddNode (NInt 2) (HSet 0) None 1); (0, HAddLayerNode (NInt 1) "y")] in
  es = [None; None; None] ∧ node_layers st 0 (NInt 2) = Some (VSet ["l"; "y"]).
Proof. vm_compute. repeat split; reflexivity. Qed.
Print Assumptions C59_shared_layers_refuted.

(** The attributes of a node given back to it: its layers are replaced by the given ones. *)
Theorem C59_own_dict_refuted :
  let '(st1, e1) := calls (new_graph (mkHeap [["l"]; ["m"]] [[]; []])) [(0, HAddNode (NInt 1) (HSet 0) None 0)] in
  let '(st2, e2) := calls st1 [(0, HAddNode (NInt 1) (HSet 1) (Some 0) 1)] in
  e1 = [None] ∧ e2 = [None] ∧ node_layers st1 0 (NInt 1) = Some (VSet ["l"]) ∧ node_layers st2 0 (NInt 1) = Some (VSet ["m"]).
Proof. vm_compute. repeat split; reflexivity. Qed.
Print Assumptions C59_own_dict_refuted.

(** [other.nodes(data=True)] and the attribute dictionaries of [other.out_edges(n, data=True)]:
    the objects that the other graph holds (discoursegraph.py:703, 740-742). *)
Definition nodes_data (g : hgraph) : list hnspec := (λ p, HTup p.1 p.2) <$> h_node g.
Definition out_edges_data (g : hgraph) (n : nid) : list (nid * nat) :=
  default [] (dget n (h_succ g)) ≫= λ p, (λ q, (p.1, q.2)) <$> p.2.
(** an additional dictionary object, for the keyword arguments *)
Definition kw (st : store) : store * nat := let '(h, a) := new_dict (st_heap st) [] in (mkStore h (st_graphs st), a).

(** self.add_nodes_from(other.nodes(data=True)), as in merge_graphs (line 703): layers added to
    the merged nodes later appear in the other graph. *)
Definition merge_nodes (st : store) (i j : nat) : store * list (option exc) :=
  let '(st, a) := kw st in
  match st_graphs st !! j with None => (st, []) | Some og => calls st [(i, HAddNodesFrom (nodes_data og) a)] end.
Theorem C59_merge_nodes_refuted :
  let '(st1, e1) := merge_nodes (exec_all empty_store side).1 0 1 in
  let '(st2, e2) := calls st1 [(0, HAddLayerNode (NStr "b1") "later")] in
  e1 = [None] ∧ e2 = [None] ∧ node_layers st1 1 (NStr "b1") = Some (VSet ["B"; "B:token"]) ∧ node_layers st2 1 (NStr "b1") = Some (VSet ["B"; "B:token"; "later"]).
Proof. vm_compute. repeat split; reflexivity. Qed.
Print Assumptions C59_merge_nodes_refuted.

(** self.add_edge(self.root, target, attr_dict=attrs), as in merge_rootnodes (line 742): the edge
    of the other graph loses its layers at once. *)
Definition merge_root (st : store) (i j : nat) : store * list (option exc) :=
  match st_graphs st !! i, st_graphs st !! j with
  | Some g, Some og =>
      let '(st, a) := kw st in
      match out_edges_data og (h_root og) with
      | (target, d) :: _ => calls st [(i, HAddEdge (h_root g) target HNone None (Some d) a)]
      | [] => (st, [])
      end
  | _, _ => (st, [])
  end.
Theorem C59_merge_root_refuted :
  let st := (exec_all empty_store side).1 in
  let '(st1, e1) := merge_root st 0 1 in
  e1 = [None] ∧ edge_attr st 1 (NStr "B:root_node") (NStr "bp") (NInt 0) "layers" = Some (VSet ["B"; "dom"]) ∧
  edge_attr st1 1 (NStr "B:root_node") (NStr "bp") (NInt 0) "layers" = Some (VSet ["A"]).
Proof. vm_compute. repeat split; reflexivity. Qed.
Print Assumptions C59_merge_root_refuted.
