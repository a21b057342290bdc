(** * TigerQuery: queries on syntax graphs *)
From Verif Require Import PyBase DocGraph Relabel StrNum Query Conano Convert Tiger SpecGraph SpecConvert DocGraphFacts History Effects RelabelFacts MergeFacts AllHist MergeAll GraphThms SpecQuery NatSort SpanFacts SelectFacts WitQuery ConvertFacts.

Lemma out_edges_nil g n : Consistent g → out_edges g n = [] ↔ ∀ v k, edge_attrs g n v k = None.
Proof.
  intros C. split.
  - intros E v k. destruct (edge_attrs g n v k) as [a|] eqn:Ea; [|done]. assert (H : (n, v, k, a) ∈ out_edges g n) by (by apply elem_out_edges). rewrite E in H. by apply elem_of_nil in H.
  - intros H. destruct (out_edges g n) as [|[[[u v] k] a] l] eqn:E; [done|]. assert (Hin : (u, v, k, a) ∈ out_edges g n) by (rewrite E; left). apply elem_out_edges in Hin as [-> Ha]; [|done]. by rewrite H in Ha.
Qed.
Lemma filter_split {A} (P : A → Prop) `{∀ x, Decision (P x)} (l : list A) : filter P l ++ filter (λ x, ¬ P x) l ≡ₚ l.
Proof.
  induction l as [|x l IH]; [done|]. rewrite !filter_cons. destruct (decide (P x)) as [Hx|Hx].
  - rewrite (decide_False (P := ¬ P x)) by (intros K; by apply K). cbn [app]. by rewrite IH.
  - rewrite (decide_True (P := ¬ P x)) by done. rewrite <-Permutation_middle. by rewrite IH.
Qed.
Lemma terminals_ok g : Consistent g → ∃ ts ns, terminals_and_nonterminals g = (ts, ns) ∧ sorted nat_cmp ts ∧ sorted nat_cmp ns ∧ ts ++ ns ≡ₚ nodes g ∧
  ∀ n, n ∈ ts ↔ n ∈ nodes g ∧ ∀ v k, edge_attrs g n v k = None.
Proof.
  intros C. unfold terminals_and_nonterminals. eexists _, _. split; [reflexivity|]. split; [apply nat_sorted_sorted|]. split; [apply nat_sorted_sorted|]. split; [rewrite !nat_sorted_perm; apply filter_split|].
  intros n. rewrite nat_sorted_perm, elem_of_list_filter, out_edges_nil by done. tauto.
Qed.
Lemma degree_zero g n : Consistent g → node_degree g n = 0 ↔ ∀ u v k a, edge_attrs g u v k = Some a → u ≠ n ∧ v ≠ n.
Proof.
  intros C. rewrite (degree_ok g n C). unfold degree. rewrite Nat.eq_add_0. split.
  - intros [H1 H2] u v k a Ha. apply (elem_edges g u v k a C) in Ha. apply nil_length_inv in H1, H2. split; intros ->.
    + assert (H : (n, v, k, a) ∈ filter (λ e : nid * nid * nid * attrs, e.1.1.1 = n) (edges g)) by (by apply elem_of_list_filter). rewrite H2 in H. by apply elem_of_nil in H.
    + assert (H : (u, n, k, a) ∈ filter (λ e : nid * nid * nid * attrs, e.1.1.2 = n) (edges g)) by (by apply elem_of_list_filter). rewrite H1 in H. by apply elem_of_nil in H.
  - intros H. split.
    + destruct (filter _ _) as [|[[[u v] k] a] l] eqn:E; [done|]. assert (Hin : (u, v, k, a) ∈ filter (λ e : nid * nid * nid * attrs, e.1.1.2 = n) (edges g)) by (rewrite E; left).
      apply elem_of_list_filter in Hin as [Hv Hin]. apply elem_edges in Hin; [|done]. by destruct (H _ _ _ _ Hin).
    + destruct (filter _ _) as [|[[[u v] k] a] l] eqn:E; [done|]. assert (Hin : (u, v, k, a) ∈ filter (λ e : nid * nid * nid * attrs, e.1.1.1 = n) (edges g)) by (rewrite E; left).
      apply elem_of_list_filter in Hin as [Hv Hin]. apply elem_edges in Hin; [|done]. by destruct (H _ _ _ _ Hin).
Qed.
Lemma unconnected_ok g : Consistent g → sublist (unconnected_nodes g) (nodes g) ∧
  ∀ n, n ∈ unconnected_nodes g ↔ n ∈ nodes g ∧ 1 < length (nodes g) ∧ ∀ u v k a, edge_attrs g u v k = Some a → u ≠ n ∧ v ≠ n.
Proof.
  intros C. split; [apply sublist_filter|]. intros n. unfold unconnected_nodes. rewrite elem_of_list_filter, degree_zero by done. tauto.
Qed.
Lemma subordinate_ok g : Consistent g → ∃ l, subordinate_clauses g = Ok l ∧ ∀ n, n ∈ l ↔
  ¬ is_token g n ∧ ∃ u k a b, edge_attrs g u n k = Some a ∧ (∃ lab, lab ∈ ["MO"; "RC"; "SB"] ∧ dget "tiger:label" a = Some (VStr lab)) ∧
    node_attrs g u = Some b ∧ dget "tiger:cat" b = Some (VStr "S").
Proof.
  intros C. destruct (edges_by_attribute_many g "tiger:label" ["MO"; "RC"; "SB"] C) as (es & Hes & _ & HE).
  { done. } { apply plain_str_check. vm_compute. reflexivity. }
  { intros v. rewrite !elem_of_cons, elem_of_nil. intros [-> |[-> |[-> |[]]]]; apply plain_str_check; vm_compute; reflexivity. }
  unfold subordinate_clauses. rewrite Hes. cbn [rbind]. clear Hes.
  set (f := λ e : edge, let! a := of_option KeyError (node_attrs g e.1.1.1) in
    if decide (dget "tiger:cat" a = Some (VStr "S")) then let! b := istoken g e.1.1.2 in Ok (if b then [] else [e.1.1.2]) else Ok []).
  assert (Hf : ∀ u v k a, edge_attrs g u v k = Some a → ∃ b r, node_attrs g u = Some b ∧ f (u, v, k, a) = Ok r ∧ ∀ n, n ∈ r ↔ n = v ∧ ¬ is_token g n ∧ dget "tiger:cat" b = Some (VStr "S")).
  { intros u v k a Ha. assert (Hu : u ∈ nodes g) by (by eapply edge_node_l). assert (Hv : v ∈ nodes g) by (by eapply edge_node_r). apply node_mem in Hu as [b Hb].
    exists b. unfold f. cbn [fst snd]. rewrite Hb. cbn [of_option rbind]. destruct (decide (dget "tiger:cat" b = Some (VStr "S"))) as [Hc|Hc].
    - destruct (istoken_total g v Hv) as [t Ht]. rewrite Ht. cbn [rbind]. eexists. split; [done|]. split; [reflexivity|]. apply istoken_Ok in Ht as [_ Ht]. intros n. destruct t.
      + split; [by intros ?%elem_of_nil|]. intros (-> & Hn & _). exfalso. by apply Hn, Ht.
      + rewrite elem_of_list_singleton. split; [|by intros [? _]]. intros ->. split; [done|]. split; [|done]. intros Hn. by apply Ht in Hn.
    - exists []. split; [done|]. split; [done|]. intros n. split; [by intros ?%elem_of_nil|]. by intros (_ & _ & ?). }
  assert (G : ∀ es', (∀ e, e ∈ es' → e ∈ es) → ∃ l, rconcat f es' = Ok l ∧ ∀ n, n ∈ l ↔ ∃ e r, e ∈ es' ∧ f e = Ok r ∧ n ∈ r).
  { induction es' as [|[[[u v] k] a] es' IH]; intros Hin.
    - exists []. split; [done|]. intros n. split; [by intros ?%elem_of_nil|]. by intros (e & r & ?%elem_of_nil & _).
    - destruct IH as (l & Hl & HL); [intros e He; apply Hin; by right|]. destruct (HE u v k a) as [HE1 _]. destruct (HE1 (Hin _ ltac:(left))) as [Ha _].
      destruct (Hf u v k a Ha) as (b & r & _ & Hr & _). exists (r ++ l). cbn [rconcat]. rewrite Hr. cbn [rbind]. rewrite Hl. split; [done|]. intros n. rewrite elem_of_app, HL. split.
      + intros [H|(e & r' & He & H)]; [exists (u, v, k, a), r; split; [left|done]|exists e, r'; split; [by right|done]].
      + intros (e & r' & He & Hr' & Hn). apply elem_of_cons in He as [-> |He]; [left; rewrite Hr in Hr'; by injection Hr' as ->|right; by exists e, r']. }
  destruct (G es (λ e He, He)) as (l & Hl & HL). exists l. split; [exact Hl|]. intros n. rewrite HL. split.
  - intros ([[[u v] k] a] & r & He & Hr & Hn). apply HE in He as [Ha Hlab]. destruct (Hf u v k a Ha) as (b & r' & Hb & Hr' & HR). rewrite Hr in Hr'. injection Hr' as <-. apply HR in Hn. destruct Hn as (En & Ht & Hc). subst v.
    split; [exact Ht|]. exists u, k, a, b. split; [exact Ha|]. split; [exact Hlab|]. split; [exact Hb|exact Hc].
  - intros (Ht & u & k & a & b & Ha & Hlab & Hb & Hc). destruct (Hf u n k a Ha) as (b' & r & Hb' & Hr & HR). rewrite Hb in Hb'. injection Hb' as <-.
    exists (u, n, k, a), r. split; [by apply HE|]. split; [exact Hr|]. by apply HR.
Qed.
