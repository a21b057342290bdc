(** * PropText: properties C27, C28, C30, C31, C45, C50, C52, C53 (strings, labels)

    Statements only.  Vocabulary: SpecGraph.v, SpecText.v. *)
From Verif Require Import PyBase DocGraph Relabel SpecGraph DocGraphFacts StrNum Query SpecQuery Text SpecText
  SpanFacts NatSort TextFacts LabelFacts Witness WitQuery.

(** ** C27 MMAX2 span strings denote inclusive ranges *)
Theorem C27_spans : ∀ p parts outs, plain_prefix p → Forall2 (part_of p) parts outs →
  concat outs ≠ [] → convert_spanstring (commas parts) = Ok (concat outs).
Proof.
  intros p parts outs Hp HF Hne. rewrite (convert_ok p parts outs Hp HF).
  - destruct (concat outs); [done|reflexivity].
  - intros ->. apply Forall2_nil_inv_l in HF as ->. done.
Qed.
Print Assumptions C27_spans.
Example C27_hyp : plain_prefix (chs "word") ∧
  Forall2 (part_of (chs "word")) [chs "word_9..word_11"; chs "word_15"]
    [[chs "word_9"; chs "word_10"; chs "word_11"]; [chs "word_15"]].
Proof.
  split; [split_and!; vdec|]. constructor; [exact (Part_range (chs "word") 9 11)|].
  constructor; [exact (Part_word (chs "word") 15)|constructor].
Qed.
Example C27_example : convert_spanstring (chs "word_9..word_11,word_15") =
  Ok [chs "word_9"; chs "word_10"; chs "word_11"; chs "word_15"].
Proof. vm_compute. reflexivity. Qed.

(** the words of a range are exactly those with a number between the bounds, in
    ascending order *)
Theorem C27_inclusive : ∀ i j k z, from_to i j !! k = Some z ↔ z = (i + Z.of_nat k)%Z ∧ (z ≤ j)%Z.
Proof. exact from_to_lookup. Qed.
Print Assumptions C27_inclusive.

(** a span string that denotes no word at all (the end lies before the start) *)
Theorem C27_no_words : ∀ p parts outs, plain_prefix p → Forall2 (part_of p) parts outs →
  parts ≠ [] → concat outs = [] → convert_spanstring (commas parts) = Err IndexError.
Proof. intros p parts outs Hp HF Hne E. rewrite (convert_ok p parts outs Hp HF Hne), E. reflexivity. Qed.
Print Assumptions C27_no_words.
Example C27_no_words_hyp : Forall2 (part_of (chs "word")) [chs "word_3..word_2"] [[]].
Proof. constructor; [exact (Part_range (chs "word") 3 2)|constructor]. Qed.

(** every result consists of ids of the form prefix_x with one prefix *)
Theorem C27_one_prefix : ∀ s l, convert_spanstring s = Ok l → ∃ p, "_"%char ∉ p ∧
  ∀ t, t ∈ l → ∃ x, t = p ++ "_"%char :: x ∧ "_"%char ∉ x.
Proof. exact convert_sound. Qed.
Print Assumptions C27_one_prefix.
Example C27_one_prefix_hyp : ∃ l, convert_spanstring (chs "word_1,word_x") = Ok l.
Proof. eexists. vm_compute. reflexivity. Qed.

(** words with leading zeros: the range does not contain its own ends *)
Theorem C27_leading_zeros_refuted : ∃ l, convert_spanstring (chs "word_08..word_10") = Ok l ∧
  chs "word_08" ∉ l.
Proof. eexists. split; [vm_compute; reflexivity|]. vdec. Qed.
Print Assumptions C27_leading_zeros_refuted.

(** the tokens of a graph: in the order of the words, each the node of that
    name or the node it was renamed to; words without a node are left out *)
Theorem C27_tokens : ∀ g renamed s words, convert_spanstring s = Ok words →
  ∃ ls, spanstring2tokens g renamed s = Ok (concat ls) ∧
    Forall2 (λ w, resolves g (default [] renamed) (NStr (str w))) words ls.
Proof. exact spanstring_resolves. Qed.
Print Assumptions C27_tokens.
Example C27_tokens_hyp : convert_spanstring (chs "a_1..a_2") = Ok [chs "a_1"; chs "a_2"].
Proof. vm_compute. reflexivity. Qed.

(** ** C28 pydot quoting round trip *)
Theorem C28_round_trip : ∀ s, nl ∉ s → unquote_from_pydot (quote_for_pydot s) = Ok s.
Proof. intros s Hs. rewrite unquote_quote. destruct (decide (nl ∈ s)); [done|reflexivity]. Qed.
Print Assumptions C28_round_trip.
Example C28_hyp : nl ∉ chs "say ""\\"" twice".
Proof. vdec. Qed.

Theorem C28_line_break : ∀ s, nl ∈ s → unquote_from_pydot (quote_for_pydot s) = Err AttributeError.
Proof. intros s Hs. rewrite unquote_quote. destruct (decide (nl ∈ s)); [reflexivity|done]. Qed.
Print Assumptions C28_line_break.
Example C28_line_break_hyp : nl ∈ ["a"%char; nl; "b"%char].
Proof. vdec. Qed.

(** quoting never maps two strings to one *)
Theorem C28_injective : ∀ s t, quote_for_pydot s = quote_for_pydot t → s = t.
Proof. exact quote_inj. Qed.
Print Assumptions C28_injective.

(** graphviz reads the quoted string as one string, and its text is the
    original one *)
Theorem C28_graphviz : ∀ s, backslash ∉ s → dot_string (quote_for_pydot s) = Some (s, []).
Proof. intros s Hs. exact (dot_body_esc s [] Hs). Qed.
Print Assumptions C28_graphviz.
Example C28_graphviz_hyp : backslash ∉ chs "say ""yes""".
Proof. vdec. Qed.

(** not so with a backslash at the end or before a quote *)
Theorem C28_backslash_refuted :
  (∃ s, nl ∉ s ∧ dot_string (quote_for_pydot s) = None) ∧
  (∃ s t r, nl ∉ s ∧ dot_string (quote_for_pydot s) = Some (t, r) ∧ r ≠ []).
Proof.
  split.
  - exists (chs "a\"). split; [vdec|vm_compute; reflexivity].
  - exists (chs "a\""b"). eexists _, _. split; [vdec|]. split; [vm_compute; reflexivity|discriminate].
Qed.
Print Assumptions C28_backslash_refuted.

(** ** C30 xpointer-compatible ids *)
Theorem C30_no_colon : ∀ s, ∃ t, ensure_xpointer_compatibility (NStr s) = NStr t ∧ ":"%char ∉ chs t ∧
  length (chs t) = length (chs s) ∧
  ∀ i c, chs s !! i = Some c → chs t !! i = Some (if decide (c = ":"%char) then "_"%char else c).
Proof.
  intros s. eexists. split; [reflexivity|]. rewrite chs_str. split; [apply xpointer_free|].
  split; [apply fmap_length|]. intros i c Hc. exact (xpointer_lookup _ _ _ Hc).
Qed.
Print Assumptions C30_no_colon.
Theorem C30_unchanged : (∀ z, ensure_xpointer_compatibility (NInt z) = NInt z) ∧
  (∀ s, ":"%char ∉ chs s → ensure_xpointer_compatibility (NStr s) = NStr s) ∧
  (∀ n, ensure_xpointer_compatibility (ensure_xpointer_compatibility n) = ensure_xpointer_compatibility n).
Proof. exact xpointer_unchanged. Qed.
Print Assumptions C30_unchanged.
Example C30_hyp : ":"%char ∉ chs "tiger_root".
Proof. vdec. Qed.
Theorem C30_collision_refuted : ∃ m n, m ≠ n ∧
  ensure_xpointer_compatibility m = ensure_xpointer_compatibility n.
Proof. exists (NStr "a:b"), (NStr "a_b"). split; [discriminate|vm_compute; reflexivity]. Qed.
Print Assumptions C30_collision_refuted.

(** ** C31 EXMARaLDA ranges are half open *)
Definition tli (z : Z) : chars := "T"%char :: chs (str_Z z).
Theorem C31_half_open : ∀ i j, ∃ l, gen_token_range (tli i) (tli j) = Ok (tli <$> l) ∧
  ∀ k z, l !! k = Some z ↔ z = (i + Z.of_nat k)%Z ∧ (z < j)%Z.
Proof.
  intros i j. exists (from_to i (j - 1)). split; [apply token_range_ok|].
  intros k z. rewrite from_to_lookup. lia.
Qed.
Print Assumptions C31_half_open.
Theorem C31_chaining : ∀ i j k, (i ≤ j)%Z → (j ≤ k)%Z → ∃ a b,
  gen_token_range (tli i) (tli j) = Ok a ∧ gen_token_range (tli j) (tli k) = Ok b ∧
  gen_token_range (tli i) (tli k) = Ok (a ++ b) ∧ (∀ t, t ∈ a → t ∉ b).
Proof. exact token_range_chain. Qed.
Print Assumptions C31_chaining.
Example C31_hyp : (3 ≤ 9)%Z ∧ (9 ≤ 11)%Z ∧ gen_token_range (chs "T9") (chs "T11") = Ok [chs "T9"; chs "T10"].
Proof. split_and!; [lia|lia|vm_compute; reflexivity]. Qed.

(** ** C45 make_labels_explicit *)
Theorem C45_labels : ∀ P g g', reachable P g → single_edges g → make_labels_explicit g = Ok g' →
  nodes g' = nodes g ∧
  (∀ n a, node_attrs g n = Some a → ∃ a', node_attrs g' n = Some a' ∧
     (∀ v, dget "label" a = Some v → ∃ s, label_text v s ∧ relabelled a a' (VStr (s +:+ "_" +:+ nid_str n))) ∧
     (dget "label" a = None → a' = a)) ∧
  (∀ u v k, edge_attrs g u v k = None → edge_attrs g' u v k = None) ∧
  (∀ u v k a, edge_attrs g u v k = Some a → ∃ a' ty, edge_attrs g' u v k = Some a' ∧ dget "edge_type" a = Some ty ∧
     (∀ lab, dget "label" a = Some lab → ∃ s t, label_text lab s ∧ label_text ty t ∧
        relabelled a a' (VStr (s +:+ "_" +:+ t))) ∧
     (dget "label" a = None → relabelled a a' ty)).
Proof. exact labels_thm. Qed.
Print Assumptions C45_labels.
Theorem C45_total : ∀ P g, reachable P g → single_edges g →
  (∀ n a v, node_attrs g n = Some a → dget "label" a = Some v → ∃ s, label_text v s) →
  (∀ u v k a, edge_attrs g u v k = Some a → (∃ ty t, dget "edge_type" a = Some ty ∧ label_text ty t) ∧
     ∀ lab, dget "label" a = Some lab → ∃ s, label_text lab s) →
  ∃ g', make_labels_explicit g = Ok g'.
Proof. exact labels_total_thm. Qed.
Print Assumptions C45_total.
Definition lab_simple : graph := run (init_graph "" "ns" None)
  [OAddNode (NInt 2) VNone None [("label", VStr "NP")];
   OAddEdge (NInt 1) (NInt 2) VNone None None [("edge_type", VStr "spans"); ("label", VStr "x")];
   OAddEdge (NInt 2) (NInt 3) VNone None None [("edge_type", VStr "points_to")]].
Example C45_hyp : reachable (λ _, True) lab_simple ∧ single_edges lab_simple ∧
  ∃ g', make_labels_explicit lab_simple = Ok g' ∧
    oget (node_attrs g' (NInt 2)) "label" = Some (VStr "NP_2") ∧
    oget (edge_attrs g' (NInt 1) (NInt 2) (NInt 0)) "label" = Some (VStr "x_spans") ∧
    oget (edge_attrs g' (NInt 2) (NInt 3) (NInt 0)) "label" = Some (VStr "points_to").
Proof.
  split; [|split].
  - apply reachable_run; [constructor|]. by repeat constructor.
  - apply check_single; vm_compute; reflexivity.
  - eexists. split; [vm_compute; reflexivity|]. split_and!; vm_compute; reflexivity.
Qed.
(** with parallel edges labels are taken from another edge and appended to
    repeatedly *)
Definition lab_graph : graph := run (init_graph "" "ns" None)
  [OAddEdge (NInt 1) (NInt 2) VNone None None [("edge_type", VStr "spans"); ("label", VStr "x")];
   OAddEdge (NInt 1) (NInt 2) VNone None None [("edge_type", VStr "points_to"); ("label", VStr "y")]].
Theorem C45_parallel_refuted : ∃ g', make_labels_explicit lab_graph = Ok g' ∧
  oget (edge_attrs lab_graph (NInt 1) (NInt 2) (NInt 1)) "label" = Some (VStr "y") ∧
  oget (edge_attrs lab_graph (NInt 1) (NInt 2) (NInt 1)) "edge_type" = Some (VStr "points_to") ∧
  oget (edge_attrs g' (NInt 1) (NInt 2) (NInt 1)) "label" ≠ Some (VStr "y_points_to").
Proof.
  eexists. split; [vm_compute; reflexivity|]. split; [vm_compute; reflexivity|]. split; [vm_compute; reflexivity|].
  vm_compute. discriminate.
Qed.
Print Assumptions C45_parallel_refuted.

(** ** C50 Simultaneous replacement *)
Theorem C50_single_pass : ∀ d s, d ≠ [] → Forall (λ p, p.1 ≠ []) d →
  ∃ r, multiple_replace d s = Ok r ∧ replaced d s r ∧
    (prefix_free d → ∀ r', replaced d s r' → r' = r).
Proof. exact replace_thm. Qed.
Print Assumptions C50_single_pass.
Theorem C50_no_key : ∀ d s, d ≠ [] → Forall (λ p, p.1 ≠ []) d →
  (∀ k v, (k, v) ∈ d → ¬ occurs k s) → multiple_replace d s = Ok s.
Proof.
  intros d s Hne Hk Hno. destruct (replace_thm d s Hne Hk) as (r & -> & Hr & _).
  f_equal. exact (replaced_none d s r Hr Hno).
Qed.
Print Assumptions C50_no_key.
(** the order of the dict does not matter if no key begins with another key *)
Theorem C50_any_order : ∀ d d' s, d ≠ [] → Forall (λ p, p.1 ≠ []) d → prefix_free d → d ≡ₚ d' →
  multiple_replace d' s = multiple_replace d s.
Proof. exact replace_order. Qed.
Print Assumptions C50_any_order.
Definition swap_ab : list (chars * chars) := [(chs "a", chs "b"); (chs "b", chs "a")].
Example C50_hyp : swap_ab ≠ [] ∧ Forall (λ p, p.1 ≠ []) swap_ab ∧ prefix_free swap_ab ∧
  multiple_replace swap_ab (chs "abba c") = Ok (chs "baab c").
Proof.
  split; [discriminate|]. split; [repeat constructor; discriminate|]. split; [|vm_compute; reflexivity].
  intros k1 v1 k2 v2. unfold swap_ab. rewrite !elem_of_cons, !elem_of_nil.
  intros [[= -> ->]|[[= -> ->]|[]]] [[= -> ->]|[[= -> ->]|[]]] [t Ht]; try discriminate Ht; split; reflexivity.
Qed.
(** with keys that begin with other keys the result depends on the order *)
Theorem C50_order_refuted : ∃ d d' s, d ≡ₚ d' ∧ Forall (λ p, p.1 ≠ []) d ∧
  multiple_replace d s ≠ multiple_replace d' s.
Proof.
  exists [(chs "a", chs "1"); (chs "ab", chs "2")], [(chs "ab", chs "2"); (chs "a", chs "1")], (chs "ab").
  split; [apply perm_swap|]. split; [repeat constructor; discriminate|]. vm_compute. discriminate.
Qed.
Print Assumptions C50_order_refuted.
(** an empty dict is no identity *)
Theorem C50_empty_refuted : ∀ s, multiple_replace [] s = Err KeyError.
Proof. reflexivity. Qed.
Print Assumptions C50_empty_refuted.

(** ** C52 add_prefix *)
Theorem C52_add_prefix : ∀ (V : Type) (d : dict string V) p, NoDup (dkeys d) →
  (∀ k, dget (p +:+ k) (add_prefix d p) = dget k d) ∧
  (∀ k', k' ∈ dkeys (add_prefix d p) → ∃ k, k ∈ dkeys d ∧ k' = p +:+ k).
Proof. intros V d p Hnd. split; [intros k; by apply add_prefix_get|exact (add_prefix_keys d p)]. Qed.
Print Assumptions C52_add_prefix.
Example C52_hyp : NoDup (dkeys [("id", 1); ("type", 2)]).
Proof. vdec. Qed.

(** ** C53 Sentences in text order *)
Theorem C53_sorted : ∀ roots toks, length roots = length toks → Forall (λ l, l ≠ []) toks →
  ∃ r, sort_sentences roots toks = Ok r ∧ r ≡ₚ zip roots toks ∧
    ∀ i j p q a b, i < j → r !! i = Some p → r !! j = Some q →
      head p.2 = Some a → head q.2 = Some b → nat_cmp b a ≠ Lt.
Proof. exact sentences_thm. Qed.
Print Assumptions C53_sorted.
(** for ids prefix + number that is the order of the numbers *)
Theorem C53_numbers : ∀ (p : chars) (n m : N), (∀ c, last p = Some c → is_digit c = false) →
  nat_cmp (NStr (str (p ++ chs (str_N n)))) (NStr (str (p ++ chs (str_N m)))) ≠ Lt ↔ (m <= n)%N.
Proof. exact sentence_numbers. Qed.
Print Assumptions C53_numbers.
Example C53_hyp : Forall (λ l, l ≠ []) [[NStr "word_10"; NStr "word_11"]; [NStr "word_9"]] ∧
  sort_sentences [NStr "s1"; NStr "s2"] [[NStr "word_10"; NStr "word_11"]; [NStr "word_9"]] =
    Ok [(NStr "s2", [NStr "word_9"]); (NStr "s1", [NStr "word_10"; NStr "word_11"])].
Proof. split; [repeat constructor; discriminate|vm_compute; reflexivity]. Qed.
