(** * PropAliasMerge: property C60, merging on shared objects

    [h_merge_renamed h g og]: merge_graphs(og) on the graph [g], when no token
    of [og] has to be renamed, on the heap [h].
    [exec_all empty_store cs]: a program that builds graphs, with literal
    arguments (see PropAlias.v); [graph_of h g]: the graph as it prints. *)
From Verif Require Import PyBase DocGraph Relabel SpecGraph Witness Alias SpecAlias AliasMerge SpecAliasMerge AliasMergeProg PropAlias.

(** The receiving graph becomes what merging of values gives. *)
Theorem C60_merge_value : ∀ cs st es i j g og h' g' e, Forall literal cs → exec_all empty_store cs = (st, es) → i ≠ j →
  st_graphs st !! i = Some g → st_graphs st !! j = Some og → plain_tokens (graph_of (st_heap st) og) →
  h_merge_renamed (st_heap st) g og = (h', g', e) →
  (graph_of h' g', e) = merge_renamed (graph_of (st_heap st) g) (graph_of (st_heap st) og).
Proof. intros * HL E Hij Hi Hj Ht Em. exact (proj1 (merge_prog _ _ _ _ _ _ _ _ _ _ HL E Hij Hi Hj Ht Em)). Qed.
Print Assumptions C60_merge_value.

(** All other graphs stay as they are. *)
Theorem C60_merge_others : ∀ cs st es i j k g og gk h' g' e, Forall literal cs → exec_all empty_store cs = (st, es) → i ≠ j →
  st_graphs st !! i = Some g → st_graphs st !! j = Some og → plain_tokens (graph_of (st_heap st) og) →
  h_merge_renamed (st_heap st) g og = (h', g', e) → k ≠ i → k ≠ j → st_graphs st !! k = Some gk →
  graph_of h' gk = graph_of (st_heap st) gk.
Proof.
  intros * HL E Hij Hi Hj Ht Em Hki Hkj Hk. destruct (merge_prog _ _ _ _ _ _ _ _ _ _ HL E Hij Hi Hj Ht Em) as (_ & _ & H & _).
  exact (H k gk Hki Hkj Hk).
Qed.
Print Assumptions C60_merge_others.

(** The graph that is merged in is changed in one respect: all the edges that leave its root
    have, as their only layer, the name space of the receiving graph. *)
Theorem C60_merge_argument : ∀ cs st es i j g og h' g', Forall literal cs → exec_all empty_store cs = (st, es) → i ≠ j →
  st_graphs st !! i = Some g → st_graphs st !! j = Some og → plain_tokens (graph_of (st_heap st) og) →
  h_merge_renamed (st_heap st) g og = (h', g', None) →
  graph_of h' og = relaid_root (h_ns g) (graph_of (st_heap st) og).
Proof.
  intros * HL E Hij Hi Hj Ht Em. destruct (merge_prog _ _ _ _ _ _ _ _ _ _ HL E Hij Hi Hj Ht Em) as (_ & _ & _ & _ & H).
  exact (H eq_refl).
Qed.
Print Assumptions C60_merge_argument.
(** Its nodes stay as they are, also when merging fails. *)
Theorem C60_merge_argument_nodes : ∀ cs st es i j g og h' g' e, Forall literal cs → exec_all empty_store cs = (st, es) → i ≠ j →
  st_graphs st !! i = Some g → st_graphs st !! j = Some og → plain_tokens (graph_of (st_heap st) og) →
  h_merge_renamed (st_heap st) g og = (h', g', e) →
  g_node (graph_of h' og) = g_node (graph_of (st_heap st) og).
Proof.
  intros * HL E Hij Hi Hj Ht Em. destruct (merge_prog _ _ _ _ _ _ _ _ _ _ HL E Hij Hi Hj Ht Em) as (_ & _ & _ & H & _).
  exact H.
Qed.
Print Assumptions C60_merge_argument_nodes.

(** Afterwards the receiving graph and the other graphs have objects of their own, as C59 asks for:
    only the graph that was merged in has to be put aside. *)
Theorem C60_merge_own_objects : ∀ cs st es i j g og h' g' e, Forall literal cs → exec_all empty_store cs = (st, es) → i ≠ j →
  st_graphs st !! i = Some g → st_graphs st !! j = Some og → plain_tokens (graph_of (st_heap st) og) →
  h_merge_renamed (st_heap st) g og = (h', g', e) →
  ∃ rest, st_graphs st ≡ₚ g :: og :: rest ∧ HInv h' (held (mkStore h' (g' :: rest))).
Proof.
  intros * HL E Hij Hi Hj Ht Em. destruct (merge_prog _ _ _ _ _ _ _ _ _ _ HL E Hij Hi Hj Ht Em) as (_ & H & _). exact H.
Qed.
Print Assumptions C60_merge_own_objects.

(** the example: three documents; the second is merged into the first *)
Definition three : list cmd := side ++ [CNew "c" "C" None] ++ (CCall 2 <$> wit_ops "c" "C").
Lemma three_literal : Forall literal three.
Proof.
  unfold three. apply Forall_app. split; [exact side_literal|].
  unfold wit_ops. repeat (apply List.Forall_cons || apply List.Forall_nil); try exact I;
    (split; [apply python_call_check; vm_compute; reflexivity|]); try (intros []; fail).
  intros [H _]. revert H. apply (bool_decide_unpack _). vm_compute. exact I.
Qed.
Definition plainb (g : graph) : bool :=
  forallb (λ p : nid * attrs, match dget (g_ns g +:+ ":token") p.2 with Some (VSet _) => false | _ => true end) (g_node g).
Lemma plain_check g : plainb g = true → plain_tokens g.
Proof.
  intros H n a l Ha Hs. unfold plainb in H. rewrite forallb_forall in H. unfold node_attrs in Ha. apply dget_Some_elem in Ha.
  apply elem_of_list_In in Ha. specialize (H _ Ha). cbn in H. by rewrite Hs in H.
Qed.
Definition pick {A} (l : list A) (d : A) (i : nat) : A := default d (l !! i).
Example C60_hyp : ∃ st es g og gk h' g', Forall literal three ∧ exec_all empty_store three = (st, es) ∧ st_graphs st !! 0 = Some g ∧ st_graphs st !! 1 = Some og ∧
  st_graphs st !! 2 = Some gk ∧ plain_tokens (graph_of (st_heap st) og) ∧ h_merge_renamed (st_heap st) g og = (h', g', None) ∧
  nodes (graph_of h' g') = NStr <$> ["A:root_node"; "a1"; "a2"; "a3"; "ap"; "x"; "b1"; "b2"; "bp"; "b3"] ∧
  graph_of h' og ≠ graph_of (st_heap st) og.
Proof.
  do 7 eexists. split; [exact three_literal|]. split; [vm_compute; reflexivity|]. split; [cbn; reflexivity|]. split; [cbn; reflexivity|].
  split; [cbn; reflexivity|]. split; [apply plain_check; vm_compute; reflexivity|]. split; [vm_compute; reflexivity|].
  split; [vm_compute; reflexivity|]. vm_compute. discriminate.
Qed.

(** What putting it aside is for: a layer given to a node after merging appears in the other graph. *)
Theorem C60_merged_layer_refuted :
  match exec_all empty_store three with
  | (st, _) =>
    match st_graphs st !! 0, st_graphs st !! 1 with
    | Some g, Some og =>
      match h_merge_renamed (st_heap st) g og with
      | (h', g', e) =>
        let st1 := mkStore h' [g'; og] in
        let '(st2, e2) := calls st1 [(0, HAddLayerNode (NStr "b1") "later")] in
        e = None ∧ e2 = [None] ∧ node_layers st1 1 (NStr "b1") = Some (VSet ["B"; "B:token"]) ∧
        node_layers st2 1 (NStr "b1") = Some (VSet ["B"; "B:token"; "later"])
      end
    | _, _ => False
    end
  end.
Proof. vm_compute. repeat split; reflexivity. Qed.
Print Assumptions C60_merged_layer_refuted.
