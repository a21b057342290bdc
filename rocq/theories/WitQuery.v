(** * WitQuery: concrete graphs for the query properties, and executable checks
    of their hypotheses *)
From Verif Require Import PyBase DocGraph Relabel SpecGraph DocGraphFacts History Effects
  RelabelFacts MergeFacts AllHist MergeAll GraphThms StrNum Query SpecQuery NatSort SpanFacts
  OffsetFacts Witness.

Lemma check_text g ss : rmap (token_str g) (g_tokens g) = Ok ss → text_tokens g ss.
Proof. intros H%rmap_Ok. eapply Forall2_impl; [exact H|]. intros t s. apply token_str_is. Qed.
Definition no_offsets_b (g : graph) (ns : string) : bool :=
  forallb (λ p : nid * attrs, negb (dmem (on_key ns) p.2) && negb (dmem (off_key ns) p.2)) (g_node g).
Lemma check_no_offsets g ns : no_offsets_b g ns = true → no_offsets g ns.
Proof.
  intros H n a Hn. unfold no_offsets_b in H. rewrite forallb_forall in H.
  apply dget_Some_elem, elem_of_list_In, H in Hn. apply andb_true_iff in Hn as [H1 H2].
  apply negb_true_iff in H1, H2. unfold dmem, on_key, off_key in *. simpl in *.
  destruct (dget (ns +:+ ":onset") a); [done|]. by destruct (dget (ns +:+ ":offset") a).
Qed.
Definition typed_b (g : graph) : bool := forallb (λ e : nid * nid * nid * attrs, dmem "edge_type" e.2) (edges g).
Lemma check_typed P g : reachable P g → typed_b g = true → typed g.
Proof.
  intros R%reach_consistent H u v k a He. unfold typed_b in H. rewrite forallb_forall in H.
  apply (elem_edges g u v k a) in He; [|done]. apply elem_of_list_In, H in He. unfold dmem in He. simpl in He.
  destruct (dget "edge_type" a); [by eexists|done].
Qed.
Definition ranked_b (g : graph) (rank : nid → nat) : bool :=
  forallb (λ e : nid * nid * nid * attrs,
    bool_decide (e.1.1.1 = e.1.1.2) || bool_decide (dget "edge_type" e.2 = Some (VStr "points_to"))
    || (rank e.1.1.2 <? rank e.1.1.1)) (edges g).
Lemma rank_acyclic {A} (R : A → A → Prop) (rank : A → nat) : (∀ x y, R x y → rank y < rank x) → acyclic R.
Proof.
  intros H x Hx. assert (Hlt : ∀ a b, tc R a b → rank b < rank a).
  { induction 1 as [a b Hab|a b c Hab Hbc IH]; [by apply H|]. specialize (H _ _ Hab). lia. }
  specialize (Hlt _ _ Hx). lia.
Qed.
Lemma check_acyclic P g rank : reachable P g → ranked_b g rank = true → acyclic (covers g).
Proof.
  intros R%reach_consistent H. apply (rank_acyclic _ rank). intros u v (Hne & k & a & He & Ht).
  unfold ranked_b in H. rewrite forallb_forall in H.
  apply (elem_edges g u v k a) in He; [|done]. apply elem_of_list_In, H in He. simpl in He.
  apply orb_true_iff in He as [He|He]; [|by apply Nat.ltb_lt].
  apply orb_true_iff in He as [He|He]; by apply bool_decide_eq_true in He.
Qed.
(** root above the phrase above the tokens *)
Definition wit_rank (n : nid) : nat :=
  if bool_decide (n = NStr "A:root_node") then 2 else if bool_decide (n = NStr "ap") then 1 else 0.
Lemma wit_text : text_tokens wit_a ["Time"; "flies"; "fast"].
Proof. apply check_text. vm_compute. reflexivity. Qed.
Lemma wit_no_offsets : no_offsets wit_a "A".
Proof. apply check_no_offsets. vm_compute. reflexivity. Qed.
Lemma wit_typed : typed wit_a.
Proof. eapply check_typed; [apply (wit_no_bare "a" "A")|]. vm_compute. reflexivity. Qed.
Lemma wit_acyclic : acyclic (covers wit_a).
Proof. eapply (check_acyclic _ _ wit_rank); [apply (wit_no_bare "a" "A")|]. vm_compute. reflexivity. Qed.

(** every token node is listed *)
Definition listed_b (g : graph) : bool :=
  forallb (λ p : nid * attrs, negb (dmem (g_ns g +:+ ":token") p.2) || bool_decide (p.1 ∈ g_tokens g)) (g_node g).
Lemma check_listed g : listed_b g = true → ∀ t, is_token g t → t ∈ g_tokens g.
Proof.
  intros H t (a & Ha & Ht). unfold listed_b in H. rewrite forallb_forall in H.
  apply dget_Some_elem, elem_of_list_In, H in Ha. simpl in Ha. unfold dmem in Ha.
  destruct Ht as [x Hx]. rewrite Hx in Ha. simpl in Ha. by apply bool_decide_eq_true in Ha.
Qed.
Lemma wit_listed : ∀ t, is_token wit_a t → t ∈ g_tokens wit_a.
Proof. apply check_listed. vm_compute. reflexivity. Qed.

(** a coreference graph: m4 -> m3 -> m1, m4 -> m2 -> m1, m5 -> m1 *)
Definition coref_ops : list op :=
  let m i := NStr ("m" +:+ i) in
  let pt u v := OAddEdge (m u) (m v) (VSet ["A"; "A:coref"]) None None [("edge_type", VStr points_to)] in
  [ pt "4" "3"; pt "3" "1"; pt "4" "2"; pt "2" "1"; pt "5" "1" ].
Definition wit_coref : graph := run (wit "a" "A") coref_ops.
Lemma coref_plain : Forall plain coref_ops.
Proof. repeat constructor; done. Qed.
Lemma wit_coref_no_bare : reachable no_bare_layers wit_coref.
Proof.
  apply reachable_run; [apply wit_no_bare|]. eapply Forall_impl; [apply coref_plain|]. by intros o [? ?].
Qed.
Definition points_rank_b (g : graph) (rank : nid → nat) : bool :=
  forallb (λ e : nid * nid * nid * attrs,
    bool_decide (dget "edge_type" e.2 ≠ Some (VStr "points_to")) || (rank e.1.1.2 <? rank e.1.1.1)) (edges g).
Lemma check_points_acyclic P g layer rank : reachable P g → points_rank_b g rank = true → acyclic (points g layer).
Proof.
  intros R%reach_consistent H. apply (rank_acyclic _ rank). intros u v (k & a & He & Ht & _).
  unfold points_rank_b in H. rewrite forallb_forall in H.
  apply (elem_edges g u v k a) in He; [|done]. apply elem_of_list_In, H in He. simpl in He.
  apply orb_true_iff in He as [He|He]; [|by apply Nat.ltb_lt]. by apply bool_decide_eq_true in He.
Qed.
Definition coref_rank (n : nid) : nat :=
  if bool_decide (n ∈ [NStr "m4"; NStr "ap"]) then 2 else if bool_decide (n ∈ [NStr "m3"; NStr "m2"; NStr "m5"]) then 1 else 0.
Lemma wit_coref_acyclic layer : acyclic (points wit_coref layer).
Proof. eapply (check_points_acyclic _ _ _ coref_rank); [apply wit_coref_no_bare|]. vm_compute. reflexivity. Qed.
Lemma wit_coref_typed : typed wit_coref.
Proof. eapply check_typed; [apply wit_coref_no_bare|]. vm_compute. reflexivity. Qed.
Lemma plain_str_check s : plain_lit s = true → plain_str s.
Proof.
  unfold plain_lit. rewrite forallb_forall. intros H c Hc%elem_of_list_In Hin. apply H in Hc.
  apply negb_true_iff, bool_decide_eq_false in Hc. done.
Qed.
