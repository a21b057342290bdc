(** * PropGeoff: property C48, Geoff export

    [enc] is the JSON encoder: any function from attribute dicts (layers as lists) to a
    text or an exception. *)
From Verif Require Import PyBase DocGraph SpecGraph DocGraphFacts AllHist Witness StrNum Query Text SpecParse ParseFacts Geoff SpecGeoff GeoffFacts.

(** One line per node, then one line per edge, in the order of the graph; edge lines only
    name nodes; the line shows the id and all attributes.  The only failure is one of the
    encoder. *)
Theorem C48_export : ∀ enc g r, reachable no_bare_layers g → convert_to_geoff enc g r →
  (∃ e d, r = Err e ∧ enc d = Err e ∧ ((∃ n a a', node_attrs g n = Some a ∧ labelled n a a' ∧ shows a' d) ∨ ∃ u v k a, edge_attrs g u v k = Some a ∧ shows a d)) ∨
  ∃ nls els, r = Ok (joined [newline] (nls ++ els)) ∧
    Forall2 (λ n line, ∃ a a' d x, node_attrs g n = Some a ∧ labelled n a a' ∧ shows a' d ∧ enc d = Ok x ∧ line = node_text n x) (nodes g) nls ∧
    Forall2 (λ (e : nid * nid * nid * attrs) line, e.1.1.1 ∈ nodes g ∧ e.1.1.2 ∈ nodes g ∧ ∃ d x, shows e.2 d ∧ enc d = Ok x ∧ line = edge_text e.1.1.1 e.1.1.2 x) (edges g) els.
Proof. intros enc g r [C [HN HE]]%reach_GInv. by apply geoff_ok. Qed.
Print Assumptions C48_export.
Example C48_export_hyp : reachable no_bare_layers (wit "a" "A") ∧ convert_to_geoff (λ _, Ok (chs "{}")) (wit "a" "A")
  (Ok (joined [newline] (map chs ["(A:root_node {})"; "(a1 {})"; "(a2 {})"; "(a3 {})"; "(ap {})";
    "(A:root_node)-[:LINKS_TO {}]->(ap)"; "(ap)-[:LINKS_TO {}]->(a1)"; "(ap)-[:LINKS_TO {}]->(a2)"; "(ap)-[:LINKS_TO {}]->(a2)"; "(ap)-[:LINKS_TO {}]->(a3)"]))).
Proof.
  split; [apply wit_no_bare|]. destruct (reach_GInv _ (wit_no_bare "a" "A")) as [C [HN HE]].
  refine (constant_export (wit "a" "A") (chs "{}") C HN HE _ _ _); vm_compute; reflexivity.
Qed.

(** The lines can be found again by splitting at the line ends, if no id contains one
    (JSON texts do not). *)
Theorem C48_lines : ∀ enc g out, reachable no_bare_layers g → convert_to_geoff enc g (Ok out) →
  (∀ n, n ∈ nodes g → newline ∉ chs (nid_str n)) → (∀ d x, enc d = Ok x → newline ∉ x) → nodes g ≠ [] →
  length (split_char newline out) = length (nodes g) + length (edges g) ∧
  Forall2 (λ n line, ∃ x, line = node_text n x) (nodes g) (take (length (nodes g)) (split_char newline out)) ∧
  Forall2 (λ (e : nid * nid * nid * attrs) line, ∃ x, line = edge_text e.1.1.1 e.1.1.2 x) (edges g) (drop (length (nodes g)) (split_char newline out)).
Proof.
  intros enc g out H Hc Hid Henc Hne. destruct (C48_export enc g _ H Hc) as [(e & d & [=] & _)|(nls & els & [= ->] & HN & HE)].
  assert (Hlit : newline ∉ chs "(" ∧ newline ∉ chs " " ∧ newline ∉ chs ")" ∧ newline ∉ chs ")-[:LINKS_TO " ∧ newline ∉ chs "]->(") by (split_and!; vdec).
  destruct Hlit as (L1 & L2 & L3 & L4 & L5).
  rewrite split_joined.
  - rewrite app_length, <-(Forall2_length _ _ _ HN), <-(Forall2_length _ _ _ HE). split; [done|]. rewrite (Forall2_length _ _ _ HN), take_app, drop_app. split.
    + eapply Forall2_impl; [exact HN|]. intros n l (a & a' & d & x & _ & _ & _ & _ & ->). by exists x.
    + eapply Forall2_impl; [exact HE|]. intros n l (_ & _ & d & x & _ & _ & ->). by exists x.
  - destruct HN; [done|]. done.
  - apply Forall_app. split; apply Forall_forall; intros l [i Hi]%elem_of_list_lookup.
    + destruct (Forall2_lookup_r _ _ _ _ _ HN Hi) as (n & Hn & a & a' & d & x & _ & _ & _ & Hx & ->). apply elem_of_list_lookup_2 in Hn. unfold node_text.
      rewrite !not_elem_of_app. split_and!; [done|by apply Hid|done|by eapply Henc|done].
    + destruct (Forall2_lookup_r _ _ _ _ _ HE Hi) as (e & He & Hu & Hv & d & x & _ & Hx & ->). unfold edge_text.
      rewrite !not_elem_of_app. split_and!; [done|by apply Hid|done|by eapply Henc|done|by apply Hid|done].
Qed.
Print Assumptions C48_lines.
Example C48_lines_hyp : Forall (λ n, newline ∉ chs (nid_str n)) (nodes (wit "a" "A")) ∧ nodes (wit "a" "A") ≠ [] ∧ length (nodes (wit "a" "A")) + length (edges (wit "a" "A")) = 10.
Proof. split; [vdec|]. split; [vdec|vm_compute; reflexivity]. Qed.

(** Ids without blanks and parentheses can be read off the lines. *)
Theorem C48_unambiguous : 
  (∀ n n' x x', " "%char ∉ chs (nid_str n) → " "%char ∉ chs (nid_str n') → node_text n x = node_text n' x' → nid_str n = nid_str n' ∧ x = x') ∧
  (∀ u v u' v' x x', ")"%char ∉ chs (nid_str u) → ")"%char ∉ chs (nid_str u') → "("%char ∉ chs (nid_str v) → "("%char ∉ chs (nid_str v') →
    edge_text u v x = edge_text u' v' x' → nid_str u = nid_str u' ∧ nid_str v = nid_str v' ∧ x = x') ∧
  (∀ n u v x x', ")"%char ∉ chs (nid_str n) → ")"%char ∉ chs (nid_str u) → " "%char ∉ chs (nid_str u) → node_text n x ≠ edge_text u v x').
Proof. split; [exact node_text_inj|]. split; [exact edge_text_inj|exact node_edge_text]. Qed.
Print Assumptions C48_unambiguous.

(** Number ids and text ids are not distinguished. *)
Theorem C48_same_text_refuted : ∃ g enc, reachable no_bare_layers g ∧ NInt 1 ∈ nodes g ∧ NStr "1" ∈ nodes g ∧
  convert_to_geoff enc g (Ok (joined [newline] (map chs ["(ns:root_node {})"; "(1 {})"; "(1 {})"]))).
Proof.
  set (g := run (init_graph "doc" "ns" None) [OAddNode (NInt 1) (VSet ["ns"]) None [("label", VStr "x")]; OAddNode (NStr "1") (VSet ["ns"]) None [("label", VStr "x")]]).
  assert (HR : reachable no_bare_layers g) by (apply reachable_run; [constructor|]; do 2 (apply List.Forall_cons; [done|]); apply List.Forall_nil).
  exists g, (λ _, Ok (chs "{}")). split; [done|]. split; [vdec|]. split; [vdec|]. destruct (reach_GInv _ HR) as [C [HN HE]].
  refine (constant_export g (chs "{}") C HN HE _ _ _); vm_compute; reflexivity.
Qed.
Print Assumptions C48_same_text_refuted.
(** An id with a line end breaks its line in two. *)
Theorem C48_newline_refuted : ∃ g enc out, reachable no_bare_layers g ∧ convert_to_geoff enc g (Ok out) ∧ (∀ d x, enc d = Ok x → newline ∉ x) ∧
  length (nodes g) = 2 ∧ edges g = [] ∧ length (split_char newline out) = 3.
Proof.
  set (g := run (init_graph "doc" "ns" None) [OAddNode (NStr (str ["a"%char; newline; "b"%char])) (VSet ["ns"]) None []]).
  assert (HR : reachable no_bare_layers g) by (apply reachable_run; [constructor|]; do 1 (apply List.Forall_cons; [done|]); apply List.Forall_nil).
  exists g, (λ _, Ok (chs "{}")). eexists. split; [done|]. destruct (reach_GInv _ HR) as [C [HN HE]].
  split; [refine (constant_export g (chs "{}") C HN HE _ _ _); vm_compute; reflexivity|]. split; [intros d x [= <-]; vdec|]. split_and!; vm_compute; reflexivity.
Qed.
Print Assumptions C48_newline_refuted.
