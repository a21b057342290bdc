(** * PropQuery: properties C16-C26 (offsets, spans, selection, chains)

    Statements only.  Vocabulary: SpecGraph.v, SpecQuery.v.  [k] is the recursion
    depth available to the interpreter. *)
From Verif Require Import PyBase DocGraph Relabel SpecGraph DocGraphFacts History Effects
  RelabelFacts MergeFacts AllHist MergeAll GraphThms StrNum Query SpecQuery NatSort SpanFacts
  OffsetFacts ChainFacts SelectFacts QueryThms Witness WitQuery.

(** ** C16 Character offsets address the document text *)
Theorem C16_offsets_address_text : ∀ g ns ss, NoDup (g_tokens g) → text_tokens g ss →
  ∃ g', add_offsets g ns = (g', None) ∧ same_but_offsets ns g g' ∧
    (∀ k, get_text k g' None = Ok (str (joined ss))) ∧
    ∀ i t s, g_tokens g !! i = Some t → ss !! i = Some s →
      ∃ p, offset_attrs g' ns t p ∧ text_at (joined ss) p.1 p.2 s ∧
        (i = 0 → p.1 = 0%Z) ∧
        (∀ t', g_tokens g !! S i = Some t' → ∃ p', offset_attrs g' ns t' p' ∧ p'.1 = (p.2 + 1)%Z) ∧
        (S i = length (g_tokens g) → p.2 = Z.of_nat (length (joined ss))).
Proof. exact offsets_thm. Qed.
Print Assumptions C16_offsets_address_text.
Example C16_hyp : NoDup (g_tokens wit_a) ∧ text_tokens wit_a ["Time"; "flies"; "fast"].
Proof. split; [vdec|exact wit_text]. Qed.

(** Without distinct token ids the first occurrence keeps the last offsets. *)
Theorem C16_repeated_id_refuted : ∃ g ss g' p, text_tokens g ss ∧ add_offsets g "A" = (g', None) ∧
  g_tokens g !! 0 = Some (NStr "a1") ∧ offset_attrs g' "A" (NStr "a1") p ∧ p.1 ≠ 0%Z.
Proof.
  exists (set_tokens [NStr "a1"; NStr "a2"; NStr "a1"] wit_a), ["Time"; "flies"; "Time"].
  eexists _, (11, 15)%Z. split; [apply check_text; vm_compute; reflexivity|].
  split; [vm_compute; reflexivity|]. split; [reflexivity|]. split; [|discriminate].
  eexists. split; [vm_compute; reflexivity|]. split; vm_compute; reflexivity.
Qed.
Print Assumptions C16_repeated_id_refuted.

(** ** C17 get_offsets computes offsets on demand *)
Theorem C17_offsets_on_demand : ∀ g ns ss t, NoDup (g_tokens g) → text_tokens g ss →
  no_offsets g ns ∨ current_offsets g ns → t ∈ g_tokens g →
  ∃ g' p, (∀ k, 2 ≤ k → get_offsets k g t ns = (g', Ok p) ∧ get_offsets k g' t ns = (g', Ok p)) ∧
    same_but_offsets ns g g' ∧ current_offsets g' ns ∧
    ∃ g1, add_offsets g ns = (g1, None) ∧ offset_attrs g1 ns t p.
Proof. exact get_offsets_thm. Qed.
Print Assumptions C17_offsets_on_demand.
Example C17_hyp : NoDup (g_tokens wit_a) ∧ text_tokens wit_a ["Time"; "flies"; "fast"] ∧
  no_offsets wit_a "A" ∧ NStr "a2" ∈ g_tokens wit_a.
Proof. split; [vdec|]. split; [exact wit_text|]. split; [exact wit_no_offsets|vdec]. Qed.

(** a node that is no token: AssertionError, nothing changes *)
Theorem C17_non_token : ∀ g ns n k, n ∈ nodes g → ¬ is_token g n → 0 < k →
  get_offsets k g n ns = (g, Err AssertionError).
Proof.
  intros g ns n k Hn Ht Hk. destruct k as [|k]; [lia|]. apply get_offsets_no_token.
  destruct (istoken_total g n Hn) as [b Hb]. rewrite Hb. destruct b; [|reflexivity].
  exfalso. apply Ht. by apply (istoken_Ok g n true Hb).
Qed.
Print Assumptions C17_non_token.
Example C17_non_token_hyp : NStr "ap" ∈ nodes wit_a ∧ istoken wit_a (NStr "ap") = Ok false.
Proof. split; [vdec|vm_compute; reflexivity]. Qed.

(** all tokens at once, once offsets are there *)
Theorem C17_all_offsets : ∀ g ns, current_offsets g ns →
  ∃ r, get_all_offsets g ns = Ok r ∧ (λ x, x.1.1) <$> r = g_tokens g ∧
    ∀ t p, (t, p.1, p.2) ∈ r → offset_attrs g ns t p.
Proof. exact all_offsets_thm. Qed.
Print Assumptions C17_all_offsets.
(** ... but not on demand: for every document without offsets KeyError is
    raised, because the generator runs outside of the try block. *)
Theorem C17_all_on_demand_refuted : ∀ g ns ss, text_tokens g ss → no_offsets g ns → g_tokens g ≠ [] →
  get_all_offsets g ns = Err KeyError.
Proof. exact all_offsets_missing. Qed.
Print Assumptions C17_all_on_demand_refuted.
Example C17_all_hyp : text_tokens wit_a ["Time"; "flies"; "fast"] ∧ no_offsets wit_a "A" ∧ g_tokens wit_a ≠ [].
Proof. split; [exact wit_text|]. split; [exact wit_no_offsets|]. vm_compute. discriminate. Qed.
(** offsets are not recomputed when the tokens change afterwards *)
Definition stale_graph : graph :=
  set_tokens [NStr "a2"; NStr "a1"; NStr "a3"] (add_offsets wit_a "A").1.
Theorem C17_stale_refuted : ∃ g ss p, NoDup (g_tokens g) ∧ text_tokens g ss ∧
  g_tokens g !! 0 = Some (NStr "a2") ∧ (∀ k, 0 < k → get_offsets k g (NStr "a2") "A" = (g, Ok p)) ∧ p.1 ≠ 0%Z.
Proof.
  exists stale_graph, ["flies"; "Time"; "fast"], (5, 10)%Z. split; [vdec|].
  split; [apply check_text; vm_compute; reflexivity|]. split; [vm_compute; reflexivity|]. split; [|discriminate].
  intros k Hk. destruct k as [|k]; [lia|]. vm_compute. reflexivity.
Qed.
Print Assumptions C17_stale_refuted.
(** a token node that is missing in tokens (or an unknown node id): the call
    never ends, whatever the recursion depth *)
Theorem C17_unlisted_diverges : ∀ g ns ss t k, NoDup (g_tokens g) → text_tokens g ss → no_offsets g ns →
  t ∉ g_tokens g → (t ∉ nodes g ∨ is_token g t) → (get_offsets k g t ns).2 = Err OutOfFuel.
Proof.
  intros g ns ss t k Hnd HT HN Ht Hc. apply (get_offsets_unlisted ns t k g ss Hnd HT Ht).
  destruct Hc as [H|(a & Ha & Hx)]; [left; by apply node_nmem|right].
  unfold istoken, stored_offsets, dmem. rewrite Ha. destruct Hx as [x ->]. split; [reflexivity|].
  unfold on_key. rewrite (proj1 (HN t a Ha)). reflexivity.
Qed.
Print Assumptions C17_unlisted_diverges.
Example C17_unlisted_hyp : NoDup (g_tokens wit_a) ∧ text_tokens wit_a ["Time"; "flies"; "fast"] ∧
  no_offsets wit_a "A" ∧ NStr "nope" ∉ g_tokens wit_a ∧ NStr "nope" ∉ nodes wit_a.
Proof. split; [vdec|]. split; [exact wit_text|]. split; [exact wit_no_offsets|]. split; vdec. Qed.

(** ** C18 get_span returns exactly the tokens below a node *)
Theorem C18_span_exact : ∀ P g n, reachable P g → typed g → acyclic (covers g) → n ∈ nodes g →
  ∃ l, (∀ k, length (nodes g) < k → get_span k g n = Ok l) ∧
    (∀ t, t ∈ l ↔ is_token g t ∧ below g n t) ∧
    (∀ i j x y, i ≤ j → l !! i = Some x → l !! j = Some y → nat_cmp x y ≠ Gt).
Proof.
  intros P g n R T Hac Hn. apply reach_consistent in R. destruct (get_span_total g n R T Hac Hn) as [l Hl].
  exists l. split; [exact Hl|]. specialize (Hl (S (length (nodes g))) ltac:(lia)). split.
  - exact (get_span_elem g R _ n l Hl).
  - intros i j x y Hij Hx Hy. destruct (decide (i = j)) as [->|Hne].
    + rewrite Hx in Hy. injection Hy as ->. rewrite nat_cmp_refl. discriminate.
    + apply (get_span_sorted _ _ _ _ Hl i j x y); [lia|exact Hx|exact Hy].
Qed.
Print Assumptions C18_span_exact.
Example C18_hyp : reachable no_bare_layers wit_a ∧ typed wit_a ∧ acyclic (covers wit_a) ∧
  NStr "ap" ∈ nodes wit_a ∧ get_span 7 wit_a (NStr "ap") = Ok [NStr "a1"; NStr "a2"; NStr "a3"].
Proof.
  split; [apply wit_no_bare|]. split; [exact wit_typed|]. split; [exact wit_acyclic|].
  split; [vdec|vm_compute; reflexivity].
Qed.
(** whatever the graph, a returned list is never wrong *)
Theorem C18_span_sound : ∀ P g k n l, reachable P g → get_span k g n = Ok l →
  ∀ t, t ∈ l ↔ is_token g t ∧ below g n t.
Proof. intros P g k n l R%reach_consistent. exact (get_span_elem g R k n l). Qed.
Print Assumptions C18_span_sound.
(** on a node that lies on a cycle the call never returns *)
Theorem C18_cycle_diverges : ∀ P g k n l, reachable P g → tc (covers g) n n → get_span k g n ≠ Ok l.
Proof. intros P g k n l R%reach_consistent. exact (get_span_cycle g R k n l). Qed.
Print Assumptions C18_cycle_diverges.
(** each token once, if no node is covered by two edges *)
Theorem C18_span_once : ∀ P g, reachable P g → acyclic (covers g) →
  (∀ u1 u2 v k1 a1 k2 a2, u1 ≠ v → u2 ≠ v →
     edge_attrs g u1 v k1 = Some a1 → dget "edge_type" a1 ≠ Some (VStr "points_to") →
     edge_attrs g u2 v k2 = Some a2 → dget "edge_type" a2 ≠ Some (VStr "points_to") → u1 = u2 ∧ k1 = k2) →
  ∀ k n l, get_span k g n = Ok l → NoDup l.
Proof. intros P g R%reach_consistent. exact (get_span_NoDup g R). Qed.
Print Assumptions C18_span_once.
(** ... otherwise a token below two paths is listed twice *)
Definition two_paths : graph := run (wit "a" "A")
  [OAddEdge (NStr "A:root_node") (NStr "a1") (VSet ["A"]) None None [("edge_type", VStr spans)]].
Theorem C18_span_once_refuted : ∃ g n l, reachable no_bare_layers g ∧ typed g ∧ acyclic (covers g) ∧
  get_span 7 g n = Ok l ∧ ¬ NoDup l.
Proof.
  exists two_paths, (NStr "A:root_node"), [NStr "a1"; NStr "a1"; NStr "a2"; NStr "a3"].
  assert (R : reachable no_bare_layers two_paths).
  { apply reachable_run; [apply wit_no_bare|]. by repeat constructor. }
  split; [exact R|]. split; [eapply check_typed; [exact R|vm_compute; reflexivity]|].
  split; [eapply (check_acyclic _ _ wit_rank); [exact R|vm_compute; reflexivity]|].
  split; [vm_compute; reflexivity|]. intros [H _]%NoDup_cons. apply H. left.
Qed.
Print Assumptions C18_span_once_refuted.
(** text of a node: the token strings of its span; but a falsy node id means
    the whole document *)
Theorem C18_text_of_node : ∀ k g n l ss, n ≠ NStr "" → n ≠ NInt 0 → get_span k g n = Ok l →
  Forall2 (token_is g) l ss → get_text k g (Some n) = Ok (str (joined ss)).
Proof.
  intros k g n l ss H1 H2 Hs HF. unfold get_text.
  assert (nid_truthy n = true) as ->.
  { destruct n as [z|s]; simpl; [destruct (Z.eqb_spec z 0); [by subst|done]|by destruct s]. }
  rewrite Hs. simpl. by apply tokens2text_is.
Qed.
Print Assumptions C18_text_of_node.
Theorem C18_falsy_id_refuted : ∃ g l ss txt, reachable no_bare_layers g ∧ NInt 0 ∈ nodes g ∧
  get_span 7 g (NInt 0) = Ok l ∧ Forall2 (token_is g) l ss ∧
  get_text 7 g (Some (NInt 0)) = Ok txt ∧ chs txt ≠ joined ss.
Proof.
  exists (run (wit "a" "A") [OAddEdge (NInt 0) (NStr "a2") (VSet ["A"]) None None [("edge_type", VStr spans)]]).
  exists [NStr "a2"], ["flies"], "Time flies fast".
  split; [apply reachable_run; [apply wit_no_bare|by repeat constructor]|]. split; [vdec|].
  split; [vm_compute; reflexivity|]. split; [|split; [vm_compute; reflexivity|vm_compute; discriminate]].
  constructor; [|constructor]. eexists. split; vm_compute; reflexivity.
Qed.
Print Assumptions C18_falsy_id_refuted.

(** ** C19 Span offsets enclose the span *)
Theorem C19_span_offsets : ∀ P g n ss t0, reachable P g → typed g → acyclic (covers g) → n ∈ nodes g →
  NoDup (g_tokens g) → text_tokens g ss → no_offsets g (g_ns g) ∨ current_offsets g (g_ns g) →
  (∀ t, is_token g t → t ∈ g_tokens g) → is_token g t0 → below g n t0 →
  ∀ k, length (nodes g) < k →
  ∃ g' on off, get_span_offsets k g n = (g', Ok (on, off)) ∧ same_but_offsets (g_ns g) g g' ∧
    current_offsets g' (g_ns g) ∧
    (∃ t p, is_token g t ∧ below g n t ∧ offset_attrs g' (g_ns g) t p ∧ p.1 = on) ∧
    (∃ t p, is_token g t ∧ below g n t ∧ offset_attrs g' (g_ns g) t p ∧ p.2 = off) ∧
    (∀ t p, is_token g t → below g n t → offset_attrs g' (g_ns g) t p → (on ≤ p.1 ∧ p.2 ≤ off)%Z).
Proof. intros P g n ss t0 R%reach_consistent. exact (span_offsets_thm g n ss t0 R). Qed.
Print Assumptions C19_span_offsets.
Example C19_hyp : reachable no_bare_layers wit_a ∧ typed wit_a ∧ acyclic (covers wit_a) ∧ NStr "ap" ∈ nodes wit_a ∧
  NoDup (g_tokens wit_a) ∧ text_tokens wit_a ["Time"; "flies"; "fast"] ∧ no_offsets wit_a (g_ns wit_a) ∧
  (∀ t, is_token wit_a t → t ∈ g_tokens wit_a) ∧ is_token wit_a (NStr "a3") ∧ below wit_a (NStr "ap") (NStr "a3").
Proof.
  split; [apply wit_no_bare|]. split; [exact wit_typed|]. split; [exact wit_acyclic|]. split; [vdec|].
  split; [vdec|]. split; [exact wit_text|]. split; [exact wit_no_offsets|]. split; [exact wit_listed|].
  split; [eexists; split; [vm_compute; reflexivity|vm_compute; eauto]|].
  apply rtc_once. split; [discriminate|]. exists (NStr "k"). eexists. split; [vm_compute; reflexivity|].
  vm_compute. discriminate.
Qed.
(** a node without any token: ValueError (the code means to raise KeyError) *)
Theorem C19_empty_span : ∀ P g n, reachable P g → typed g → acyclic (covers g) → n ∈ nodes g →
  (∀ t, is_token g t → ¬ below g n t) →
  ∀ k, length (nodes g) < k → get_span_offsets k g n = (g, Err ValueError).
Proof. intros P g n R%reach_consistent. exact (span_offsets_empty_thm g n R). Qed.
Print Assumptions C19_empty_span.

(** ** C20 is_continuous decides contiguity *)
Theorem C20_is_continuous : ∀ P g n ss t0, reachable P g → typed g → acyclic (covers g) → n ∈ nodes g →
  NoDup (g_tokens g) → text_tokens g ss → no_offsets g (g_ns g) ∨ current_offsets g (g_ns g) →
  (∀ t, is_token g t → t ∈ g_tokens g) → is_token g t0 → below g n t0 →
  ∀ k, length (nodes g) < k →
  ∃ g' b, is_continuous k g n = (g', Ok b) ∧ same_but_offsets (g_ns g) g g' ∧
    (b = true ↔ ∀ i m j ti tm tj, i ≤ m ≤ j → g_tokens g !! i = Some ti → g_tokens g !! m = Some tm →
       g_tokens g !! j = Some tj → below g n ti → below g n tj → below g n tm).
Proof. intros P g n ss t0 R%reach_consistent. exact (continuous_thm g n ss t0 R). Qed.
Print Assumptions C20_is_continuous.
(** both answers occur *)
Example C20_hyp : (is_continuous 7 wit_a (NStr "ap")).2 = Ok true ∧
  (is_continuous 7 (step wit_a (OAddEdge (NStr "q") (NStr "a1") (VSet ["A"]) None None [("edge_type", VStr spans)])).1
     (NStr "q")).2 = Ok true ∧
  (is_continuous 7 (run wit_a [OAddEdge (NStr "q") (NStr "a1") (VSet ["A"]) None None [("edge_type", VStr spans)];
     OAddEdge (NStr "q") (NStr "a3") (VSet ["A"]) None None [("edge_type", VStr spans)]]) (NStr "q")).2 = Ok false.
Proof. vm_compute. repeat split. Qed.

(** ** C21 Node and edge selection are exact filters *)
Theorem C21_nodes_by_layer : ∀ g s, reachable no_bare_layers g →
  ∃ r, select_nodes_by_layer g s = Ok r ∧ sublist r (nodes g) ∧ NoDup r ∧
    ∀ n, n ∈ r ↔ ∃ a, node_attrs g n = Some a ∧ layer_ok a s.
Proof.
  intros g s [C L]%reach_GInv. destruct (nodes_by_layer_ok g s C L) as (r & ? & Hs & ?). exists r.
  split; [done|]. split; [done|]. split; [|done]. eapply NoDup_sub; [exact Hs|apply C].
Qed.
Print Assumptions C21_nodes_by_layer.
Example C21_nodes_hyp : select_nodes_by_layer wit_a (LMany ["A:token"; "z"]) = Ok [NStr "a1"; NStr "a2"; NStr "ap"].
Proof. vm_compute. reflexivity. Qed.
Theorem C21_neighbors_by_layer : ∀ g n s, reachable no_bare_layers g → n ∈ nodes g → s ≠ LAll →
  ∃ r, select_neighbors_by_layer g n s = Ok r ∧ sublist r (successors g n) ∧
    ∀ m, m ∈ r ↔ m ∈ successors g n ∧ ∃ a, node_attrs g m = Some a ∧ layer_ok a s.
Proof. intros g n s [C L]%reach_GInv. exact (neighbors_by_layer_ok g n s C L). Qed.
Print Assumptions C21_neighbors_by_layer.
Theorem C21_nodes_by_attribute : ∀ P g k s, reachable P g →
  sublist (select_nodes_by_attribute g (Some k) s) (nodes g) ∧
  (∀ n, n ∈ select_nodes_by_attribute g (Some k) s ↔ ∃ a, node_attrs g n = Some a ∧ attr_ok a k s) ∧
  select_nodes_by_attribute g None VAny = nodes g.
Proof.
  intros P g k s R%reach_consistent. destruct (nodes_by_attribute_ok g k s R) as [? ?].
  split; [done|]. split; [done|]. exact (nodes_by_attribute_all g).
Qed.
Print Assumptions C21_nodes_by_attribute.
Example C21_attribute_hyp : select_nodes_by_attribute wit_a (Some "A:token") (VIn [VStr "fast"; VStr "Time"]) =
  [NStr "a1"; NStr "a3"].
Proof. vm_compute. reflexivity. Qed.
Theorem C21_edges_by : ∀ g layer ty, reachable no_bare_layers g → (ty ≠ None → typed g) →
  (∀ l, layer = Some l → plain_str l) → (∀ t, ty = Some t → plain_str t) →
  ∃ r, select_edges_by g layer ty = Ok r ∧ sublist r (edges g) ∧
    ∀ u v k a, (u, v, k, a) ∈ r ↔ edge_attrs g u v k = Some a ∧ edge_ok a layer ty.
Proof. intros g layer ty [C L]%reach_GInv. exact (select_edges_by_ok g layer ty C L). Qed.
Print Assumptions C21_edges_by.
Example C21_edges_hyp : typed wit_a ∧ plain_str "x" ∧ plain_str points_to ∧
  rmap (λ e, Ok e.1) (match select_edges_by wit_a (Some "x") (Some points_to) with Ok r => r | Err _ => [] end)
  = Ok [(NStr "ap", NStr "a2", NInt 1)].
Proof.
  split; [exact wit_typed|]. split; [apply plain_str_check; vm_compute; reflexivity|].
  split; [apply plain_str_check; vm_compute; reflexivity|vm_compute; reflexivity].
Qed.
Theorem C21_edges_by_attribute : ∀ P g k val, reachable P g → k ≠ "" → plain_str k →
  (∀ v, val = Some v → plain_str v) →
  ∃ r, select_edges_by_attribute g (Some k) match val with None => EAny | Some v => EEq v end = Ok r ∧
    sublist r (edges g) ∧
    ∀ u v key a, (u, v, key, a) ∈ r ↔ edge_attrs g u v key = Some a ∧
      attr_ok a k match val with None => VAny | Some v => VEq v end.
Proof. intros P g k val R%reach_consistent. exact (edges_by_attribute_ok g k val R). Qed.
Print Assumptions C21_edges_by_attribute.
Theorem C21_edges_by_attribute_many : ∀ P g k vs, reachable P g → k ≠ "" → plain_str k →
  (∀ v, v ∈ vs → plain_str v) →
  ∃ r, select_edges_by_attribute g (Some k) (EIn vs) = Ok r ∧ (NoDup vs → NoDup r) ∧
    ∀ u v key a, (u, v, key, a) ∈ r ↔ edge_attrs g u v key = Some a ∧ ∃ x, x ∈ vs ∧ dget k a = Some (VStr x).
Proof. intros P g k vs R%reach_consistent. exact (edges_by_attribute_many g k vs R). Qed.
Print Assumptions C21_edges_by_attribute_many.
(** one edge without edge_type (the default of add_edge) breaks select_edges_by *)
Theorem C21_untyped_edge_refuted : ∃ g, reachable no_bare_layers g ∧
  select_edges_by g None (Some points_to) = Err KeyError.
Proof.
  exists (step (wit "a" "A") (OAddEdge (NStr "A:root_node") (NStr "a1") VNone None None [])).1.
  split; [apply R_step; [apply wit_no_bare|done]|vm_compute; reflexivity].
Qed.
Print Assumptions C21_untyped_edge_refuted.

(** ** C22 get_pointing_chains yields the maximal chains
    (for every order in which Python lists dict keys and set elements) *)
Theorem C22_pointing_chains : ∀ g layer, reachable no_bare_layers g → typed g →
  (∀ l, layer = Some l → plain_str l) → acyclic (points g layer) →
  ∃ bound, ∀ fuel r, bound < fuel → get_pointing_chains fuel g layer r →
    ∃ cs, r = Ok cs ∧ NoDup cs ∧ (∀ c, c ∈ cs ↔ maximal_chain (points g layer) c) ∧
      (∀ u v, points g layer u v → ∃ c, c ∈ cs ∧ u ∈ c ∧ v ∈ c).
Proof. intros g layer [C L]%reach_GInv. exact (chains_thm g layer C L). Qed.
Print Assumptions C22_pointing_chains.
Definition coref_rel : dict nid (list nid) :=
  [(NStr "m5", [NStr "m1"]); (NStr "m4", [NStr "m2"; NStr "m3"]); (NStr "m3", [NStr "m1"]); (NStr "m2", [NStr "m1"])].
Example C22_hyp : reachable no_bare_layers wit_coref ∧ typed wit_coref ∧ plain_str "A:coref" ∧
  acyclic (points wit_coref (Some "A:coref")) ∧
  chains_of 9 coref_rel = Ok [[NStr "m5"; NStr "m1"]; [NStr "m4"; NStr "m2"; NStr "m1"]; [NStr "m4"; NStr "m3"; NStr "m1"]].
Proof.
  split; [exact wit_coref_no_bare|]. split; [exact wit_coref_typed|].
  split; [apply plain_str_check; vm_compute; reflexivity|]. split; [apply wit_coref_acyclic|vm_compute; reflexivity].
Qed.

(** ** C23 get_kwic cuts the text around the keyword *)
Theorem C23_kwic : ∀ (A : Type) (l : list A) (i w : nat) x, l !! i = Some x →
  ∃ pre before after post, get_kwic l (Z.of_nat i) (Z.of_nat w) = Ok (before, x, after) ∧
    l = pre ++ before ++ [x] ++ after ++ post ∧
    length before = min i w ∧ length (pre ++ before) = i ∧
    length after = min (length l - S i) w.
Proof.
  intros A l i w x Hi. pose proof (lookup_lt_Some _ _ _ Hi) as Hlt.
  exists (take (i - w) l), (take (min i w) (drop (i - w) l)), (take w (drop (S i) l)), (drop w (drop (S i) l)).
  split; [exact (kwic_ok l i w x Hi)|].
  assert (E : take (i - w) l ++ take (min i w) (drop (i - w) l) = take i l).
  { rewrite <-(take_drop (i - w) (take i l)). rewrite take_take, skipn_firstn_comm.
    f_equal; f_equal; lia. }
  split.
  - rewrite (assoc_L (++)), E, take_drop. rewrite <-(take_drop i l) at 1. f_equal.
    rewrite (drop_S l x i Hi). reflexivity.
  - rewrite E, !take_length, !drop_length. lia.
Qed.
Print Assumptions C23_kwic.
Example C23_hyp : get_kwic ["a"; "b"; "c"; "d"; "e"] 3 2 = Ok (["b"; "c"], "d", ["e"]).
Proof. vm_compute. reflexivity. Qed.
Theorem C23_kwic_out_of_range : ∀ (A : Type) (l : list A) (i : nat) (w : Z), length l ≤ i →
  get_kwic l (Z.of_nat i) w = Err IndexError.
Proof. intros A. exact kwic_out. Qed.
Print Assumptions C23_kwic_out_of_range.
(** a negative (from the end) index gets the keyword but not its contexts *)
Theorem C23_negative_refuted : ∃ (l : list string), get_kwic l (-1) 2 = Ok ([], "c", ["a"; "b"]) ∧ l = ["a"; "b"; "c"].
Proof. eexists. split; [|reflexivity]. vm_compute. reflexivity. Qed.
Print Assumptions C23_negative_refuted.

(** ** C24 Natural sort order *)
Theorem C24_preorder : (∀ a, nat_cmp a a = Eq) ∧ (∀ a b, nat_cmp b a = CompOpp (nat_cmp a b)) ∧
  (∀ a b c, nat_cmp a b ≠ Gt → nat_cmp b c ≠ Gt → nat_cmp a c ≠ Gt).
Proof. split; [exact nat_cmp_refl|]. split; [exact nat_cmp_opp|exact nat_cle_trans]. Qed.
Print Assumptions C24_preorder.
(** ids that agree up to a number are ordered by that number *)
Theorem C24_numbers : ∀ (p q r : chars) (n m : N),
  (∀ c, last p = Some c → is_digit c = false) →
  (∀ c, head q = Some c → is_digit c = false) → (∀ c, head r = Some c → is_digit c = false) → n ≠ m →
  nat_cmp (NStr (str (p ++ chs (str_N n) ++ q))) (NStr (str (p ++ chs (str_N m) ++ r))) = N.compare n m.
Proof. exact nat_cmp_number. Qed.
Print Assumptions C24_numbers.
Theorem C24_sorting : ∀ l, nat_sorted l ≡ₚ l ∧
  (∀ i j x y, i < j → nat_sorted l !! i = Some x → nat_sorted l !! j = Some y → nat_cmp x y ≠ Gt) ∧
  (∀ k, filter (λ x, nat_cmp x k = Eq) (nat_sorted l) = filter (λ x, nat_cmp x k = Eq) l).
Proof.
  intros l. split; [exact (nat_sorted_perm l)|]. split; [exact (nat_sorted_sorted l)|].
  intros k. apply nat_sorted_stable.
Qed.
Print Assumptions C24_sorting.
Example C24_hyp : nat_sorted [NStr "t10"; NStr "t9"; NStr "t1"; NInt 3; NStr "s2_t1"; NStr "s1_t11"] =
  [NInt 3; NStr "s1_t11"; NStr "s2_t1"; NStr "t1"; NStr "t9"; NStr "t10"].
Proof. vm_compute. reflexivity. Qed.

(** ** C25 TokenMapper is a bijection between token ids and positions *)
Theorem C25_token_mapper : ∀ tokens, NoDup tokens →
  (∀ t i, dget t (token_mapper tokens).1 = Some i ↔ tokens !! i = Some t) ∧
  (∀ i t, dget i (token_mapper tokens).2 = Some t ↔ tokens !! i = Some t).
Proof. exact token_mapper_ok. Qed.
Print Assumptions C25_token_mapper.
Example C25_hyp : NoDup (g_tokens wit_a) ∧ token_mapper (g_tokens wit_a) =
  ([(NStr "a1", 0); (NStr "a2", 1); (NStr "a3", 2)], [(0, NStr "a1"); (1, NStr "a2"); (2, NStr "a3")]).
Proof. split; [vdec|vm_compute; reflexivity]. Qed.

(** ** C26 Segment token offsets are the first and last index *)
Theorem C26_segment_offsets : ∀ tokens segment, NoDup tokens → segment ≠ [] → segment ⊆ tokens →
  ∃ i j, get_segment_token_offsets segment (token_mapper tokens).1 = Ok (i, j) ∧ i ≤ j ∧
    (∃ t, tokens !! i = Some t ∧ t ∈ segment) ∧ (∃ t, tokens !! j = Some t ∧ t ∈ segment) ∧
    (∀ t k, t ∈ segment → tokens !! k = Some t → i ≤ k ≤ j).
Proof. exact segment_offsets_ok. Qed.
Print Assumptions C26_segment_offsets.
Example C26_hyp : NoDup (g_tokens wit_a) ∧ [NStr "a3"; NStr "a2"] ⊆ g_tokens wit_a ∧
  get_segment_token_offsets [NStr "a3"; NStr "a2"] (token_mapper (g_tokens wit_a)).1 = Ok (1, 2).
Proof.
  split; [vdec|]. split; [|vm_compute; reflexivity]. assert (H : Forall (λ t, t ∈ g_tokens wit_a) [NStr "a3"; NStr "a2"]) by vdec. rewrite Forall_forall in H. exact H.
Qed.
