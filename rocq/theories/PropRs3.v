(** * PropRs3: properties C71-C75 (RS3 files as document graphs; see SpecRs3Graph.v and WitRs3.v) *)
From Verif Require Import PyBase DocGraph Relabel StrNum Query Text Rst Nltk Parsers Anaphora Conano Decour Ptb Convert Tiger Rs3Graph.
From Verif Require Import SpecGraph DocGraphFacts SpecImport ImportFacts SpecQuery SpanFacts OffsetFacts SpecRs3Graph Rs3Read Rs3Doc Rs3Span Rs3Rel Rs3Spans Rs3Accept WitRs3.

Notation enough_words tokenize precedence d := (tokenize = true → precedence = true → 1 < length (segments d ≫= words)).
Example C71_hyp : rs3_ok rs_doc ∧ plain_ids rs_doc ∧ (1 < length (segments rs_doc ≫= words)) ∧ rst_tree_ok rs_doc.
Proof.
  split; [apply check_rs; vm_compute; reflexivity|]. split; [apply check_rs_plain; vm_compute; reflexivity|].
  split; [apply (bool_decide_unpack _); vm_compute; exact I|apply (check_rs_tree rs_rank); vm_compute; reflexivity].
Qed.

(** ** C71: the nodes *)
Theorem C71_nodes : ∀ base name ns tokenize precedence d, rs3_ok d → (tokenize = true → plain_ids d) → enough_words tokenize precedence d →
  ∃ g edus, read_rs3_graph base name ns tokenize precedence d = (g, edus, None) ∧ Consistent g ∧
    has_node_set g (rs3_nodes ns tokenize d) ∧ g_root g = root_of ns (elements_of d) ∧ g_root g ∈ nodes g ∧ g_ns g = ns.
Proof.
  intros base name ns tokenize precedence d H1 H2 H3. destruct (document_read base name ns tokenize precedence d H1 H2 H3) as (g & E & G & HN & _ & Hns & Hr & _).
  exists g, (node_of_el ns <$> segments d). split; [exact E|]. split; [apply G|]. split; [exact HN|]. split; [exact Hr|]. split; [rewrite Hr; exact (root_there _ _ _ _ HN)|exact Hns].
Qed.
Print Assumptions C71_nodes.
(** what the file needs for that *)
Theorem C71_accepted : ∀ base name ns tokenize precedence d, NoDup (el_id <$> d_body d) → Forall (λ x, el_parent x ≠ Some (el_id x)) (d_body d) →
  Forall (λ x, el_id x ≠ "root_node" ∧ el_parent x ≠ Some "root_node") (d_body d) → length (filter top (d_body d)) ≤ 1 → plain_ids d →
  (read_rs3_graph base name ns tokenize precedence d).2 = None ↔
  Forall (λ x, is_Some (el_parent x) → is_Some (el_relname x)) (d_body d) ∧ Forall (λ x, match x with Grp _ None _ _ => False | _ => True end) (d_body d) ∧
  enough_words tokenize precedence d.
Proof. exact rs3_iff. Qed.
Print Assumptions C71_accepted.
(** a satellite makes its nucleus a nucleus only if the nucleus segment comes first in the file *)
Theorem C71_order_refuted : ∃ g edus a, read_rs3_graph "a.rs3" None "rst" true false rs_back = (g, edus, None) ∧ rs3_ok rs_back ∧
  link_of rs_back (Seg "2" (Some "1") (Some "elaboration") "Very much .") = Satellite ∧
  node_attrs g (NStr "rst:1") = Some a ∧ dget "rst:segment_type" a = Some (VStr "span").
Proof.
  set (r := read_rs3_graph "a.rs3" None "rst" true false rs_back). exists r.1.1, r.1.2, (default [] (node_attrs r.1.1 (NStr "rst:1"))).
  split; [vm_compute; reflexivity|]. split; [apply check_rs; vm_compute; reflexivity|]. repeat split; vm_compute; reflexivity.
Qed.
Print Assumptions C71_order_refuted.
(** of two roots, the first one vanishes without an error, and with it the link of its segment *)
Theorem C71_roots_refuted : ∃ g edus, read_rs3_graph "a.rs3" None "rst" true false rs_two = (g, edus, None) ∧
  Grp "2" (Some "span") None None ∈ d_body rs_two ∧ NStr "rst:2" ∉ nodes g ∧ predecessors g (NStr "rst:1") = [].
Proof.
  set (r := read_rs3_graph "a.rs3" None "rst" true false rs_two). exists r.1.1, r.1.2. split; [vm_compute; reflexivity|]. split; [right; left|].
  split; [|vm_compute; reflexivity]. apply (bool_decide_unpack _). vm_compute. exact I.
Qed.
Print Assumptions C71_roots_refuted.

(** ** C72: the edges *)
Theorem C72_edges : ∀ base name ns tokenize precedence d, rs3_ok d → (tokenize = true → plain_ids d) → enough_words tokenize precedence d →
  ∃ g edus, read_rs3_graph base name ns tokenize precedence d = (g, edus, None) ∧ Consistent g ∧ has_edges g (rs3_edges ns tokenize precedence d).
Proof.
  intros base name ns tokenize precedence d H1 H2 H3. destruct (document_read base name ns tokenize precedence d H1 H2 H3) as (g & E & G & _ & HE & _).
  exists g, (node_of_el ns <$> segments d). split; [exact E|]. split; [apply G|exact HE].
Qed.
Print Assumptions C72_edges.
(** in another namespace, the edges to tokens are in the layer "rst" nevertheless *)
Theorem C72_layer_refuted : ∃ g edus a, read_rs3_graph "a.rs3" None "hild" true false rs_doc = (g, edus, None) ∧
  edge_attrs g (NStr "hild:1") (NStr "hild:hild:1_0") (NInt 0) = Some a ∧ has_layer a "rst" ∧ ¬ has_layer a "hild".
Proof.
  set (r := read_rs3_graph "a.rs3" None "hild" true false rs_doc). exists r.1.1, r.1.2, (default [] (edge_attrs r.1.1 (NStr "hild:1") (NStr "hild:hild:1_0") (NInt 0))).
  split; [vm_compute; reflexivity|]. split; [vm_compute; reflexivity|].
  assert (E : dget "layers" (default [] (edge_attrs r.1.1 (NStr "hild:1") (NStr "hild:hild:1_0") (NInt 0))) = Some (VSet ["rst"; "rst:token"])) by (vm_compute; reflexivity).
  split; [exists ["rst"; "rst:token"]; split; [exact E|left]|]. intros (l & Hl & Hin). rewrite E in Hl. injection Hl as <-. revert Hin. apply (bool_decide_unpack _). vm_compute. exact I.
Qed.
Print Assumptions C72_layer_refuted.

(** ** C73: tokens, text and units *)
Theorem C73_text : ∀ base name ns precedence d, rs3_ok d → plain_ids d → enough_words true precedence d →
  ∃ g, read_rs3_graph base name ns true precedence d = (g, node_of_el ns <$> segments d, None) ∧
    g_tokens g = (doc_tokens ns d).*1 ∧ NoDup (g_tokens g) ∧ text_tokens g (segments d ≫= words) ∧
    (∀ fuel, get_text fuel g None = Ok (str (joined (segments d ≫= words)))) ∧
    (∀ objs, objs 0 = Some (node_of_el ns <$> segments d) → get_edus g objs ns = Ok (node_of_el ns <$> segments d)).
Proof.
  intros base name ns precedence d H1 H2 H3. destruct (document_read base name ns true precedence d H1 (λ _, H2) H3) as (g & E & G & HN & _ & Hns & Hr & Ht & Hm).
  exists g. split; [exact E|]. split; [exact Ht|]. pose proof (texts_ok ns d g Hns HN Ht) as HT. split; [|split; [exact HT|split]].
  - rewrite Ht. change (doc_tokens ns d) with (toks_of ns (segments d)). apply toks_NoDup. pose proof (ro_ids _ H1) as HD. rewrite <-(elements_perm d) in HD. unfold elements_of in HD. rewrite fmap_app in HD. by apply NoDup_app in HD as [? _].
  - intros fuel. cbn [get_text]. by apply tokens2text_is.
  - intros objs Ho. unfold get_edus. rewrite Hm. assert (Hroot : dmem (g_root g) (g_node g) = true) by (rewrite dmem_spec, Hr; exact (root_there _ _ _ _ HN)). rewrite Hroot. cbn [dget]. rewrite decide_True by done. cbn [of_option rbind]. by rewrite Ho.
Qed.
Print Assumptions C73_text.
(** without tokens: the same units *)
Theorem C73_edus : ∀ base name ns precedence d, rs3_ok d →
  ∃ g, read_rs3_graph base name ns false precedence d = (g, node_of_el ns <$> segments d, None) ∧ g_tokens g = [].
Proof.
  intros base name ns precedence d H1. destruct (document_read base name ns false precedence d H1) as (g & E & _ & _ & _ & _ & _ & Ht & _); [done|done|]. by exists g.
Qed.
Print Assumptions C73_edus.

(** ** C74: the tokens of an element *)
(** the words of all segments within the element, sorted by id *)
Theorem C74_span : ∀ base name ns d, rs3_ok d → plain_ids d → (∀ x, ¬ tc (attached_to d) x x) →
  ∃ g edus, read_rs3_graph base name ns true false d = (g, edus, None) ∧
    ∀ x, x ∈ d_body d → ∃ l, (∀ fuel, length (nodes g) < fuel → get_span fuel g (node_of_el ns x) = Ok l) ∧ sorted nat_cmp l ∧ NoDup l ∧
      ∀ t, t ∈ l ↔ ∃ s i w, segment s ∧ within d s x ∧ words s !! i = Some w ∧ t = token_node ns s i.
Proof.
  intros base name ns d H1 H2 H3. destruct (document_read base name ns true false d H1 (λ _, H2)) as (g & E & G & HN & HE & Hns & Hr & Ht & Hm); [done|].
  exists g, (node_of_el ns <$> segments d). split; [exact E|]. intros x Hx. assert (HH : holds ns d g) by (split; [apply G|exact HN|exact HE|exact Hns|exact Ht]).
  destruct (element_span ns d H1 H2 g x HH H3 (proj2 (el_in d x) Hx)) as (l & Hl & Hs & Hi). exists l. split; [exact Hl|]. split; [exact Hs|]. split; [|exact Hi].
  apply (span_once ns d H1 H2 g _ _ l HH H3 (Hl (S (length (nodes g))) ltac:(lia))).
Qed.
Print Assumptions C74_span.
(** with precedence relations, an element also spans the rest of the document, and words occur twice *)
Theorem C74_precedence_refuted : ∃ g edus l, read_rs3_graph "a.rs3" None "rst" true true rs_doc = (g, edus, None) ∧
  get_span 50 g (NStr "rst:3") = Ok l ∧ token_node "rst" (Seg "4" (Some "6") (Some "contrast") "they left") 0 ∈ l.
Proof.
  set (r := read_rs3_graph "a.rs3" None "rst" true true rs_doc). exists r.1.1, r.1.2, [NStr "rst:rst:3_0"; NStr "rst:rst:3_1"; NStr "rst:rst:3_1"; NStr "rst:rst:4_0"; NStr "rst:rst:4_0"; NStr "rst:rst:4_1"; NStr "rst:rst:4_1"].
  split; [vm_compute; reflexivity|]. split; [vm_compute; reflexivity|]. apply (bool_decide_unpack _). vm_compute. exact I.
Qed.
Print Assumptions C74_precedence_refuted.

(** ** C75: the spans of relations *)
(** [order]: Python lists the nuclei of an element in any order *)
Theorem C75_relations : ∀ base name d, rs3_ok d → plain_ids d → rst_tree_ok d →
  ∃ g edus, read_rs3_graph base name "rst" true false d = (g, edus, None) ∧ ∀ fuel, length (nodes g) < fuel →
    ∃ l order, get_rst_spans fuel g = Ok l ∧ (∀ x, x ∈ d_body d → order x ≡ₚ attached d Nucleus x) ∧
      ∃ l', l ≡ₚ l' ∧ Forall2 span_says l' (x ← d_body d; relation_spans "rst" d (order x) x).
Proof.
  intros base name d H1 H2 H3. destruct (document_read base name "rst" true false d H1 (λ _, H2)) as (g & E & G & HN & HE & Hns & Hr & Ht & Hm); [done|].
  exists g, (node_of_el "rst" <$> segments d). split; [exact E|]. intros fuel Hf. apply (spans_ok d g fuel H1 H2 H3); [|exact Hf]. split; [apply G|exact HN|exact HE|exact Hns|exact Ht].
Qed.
Print Assumptions C75_relations.
(** ... and for any graph with those nodes, edges and tokens, in whatever order Python lists them *)
Theorem C75_graph : ∀ d g, rs3_ok d → plain_ids d → rst_tree_ok d → Consistent g → has_node_set g (rs3_nodes "rst" true d) →
  has_edges g (rs3_edges "rst" true false d) → g_ns g = "rst" → g_tokens g = (doc_tokens "rst" d).*1 →
  ∀ fuel, length (nodes g) < fuel →
    ∃ l order, get_rst_spans fuel g = Ok l ∧ (∀ x, x ∈ d_body d → order x ≡ₚ attached d Nucleus x) ∧
      ∃ l', l ≡ₚ l' ∧ Forall2 span_says l' (x ← d_body d; relation_spans "rst" d (order x) x).
Proof. intros d g H1 H2 H3 H4 H5 H6 H7 H8 fuel Hf. apply (spans_ok d g fuel H1 H2 H3); [|exact Hf]. by split. Qed.
Print Assumptions C75_graph.
(** the relations of the example *)
Example C75_shown : get_rst_spans 50 (read_rs3_graph "a.rs3" None "rst" true false rs_doc).1.1 = Ok
  [("rst:1-rst:2", "N", VStr "elaboration", 0, 2); ("rst:1-rst:2", "S", VStr "elaboration", 3, 5);
   ("rst:1-rst:6", "N", VStr "elaboration", 0, 5); ("rst:1-rst:6", "S", VStr "elaboration", 6, 9);
   ("rst:6-rst:3-rst:4", "N1", VStr "contrast", 6, 7); ("rst:6-rst:3-rst:4", "N2", VStr "contrast", 8, 9)].
Proof. vm_compute. reflexivity. Qed.
(** with precedence relations, the spans are too long *)
Theorem C75_precedence_refuted : ∃ g edus l, read_rs3_graph "a.rs3" None "rst" true true rs_doc = (g, edus, None) ∧ get_rst_spans 50 g = Ok l ∧
  ("rst:6-rst:3-rst:4", "N1", VStr "contrast", 6, 9) ∈ l.
Proof.
  set (r := read_rs3_graph "a.rs3" None "rst" true true rs_doc). exists r.1.1, r.1.2.
  exists [("rst:1-rst:2", "N", VStr "elaboration", 0, 2); ("rst:1-rst:2", "S", VStr "elaboration", 3, 9);
   ("rst:1-rst:6", "N", VStr "elaboration", 0, 9); ("rst:1-rst:6", "S", VStr "elaboration", 6, 9);
   ("rst:6-rst:3-rst:4", "N1", VStr "contrast", 6, 9); ("rst:6-rst:3-rst:4", "N2", VStr "contrast", 8, 9)].
  split; [vm_compute; reflexivity|]. split; [vm_compute; reflexivity|]. do 4 right. left.
Qed.
Print Assumptions C75_precedence_refuted.
(** a segment without words: no relations at all *)
Theorem C75_blank_refuted : ∃ g edus, read_rs3_graph "a.rs3" None "rst" true false rs_blank = (g, edus, None) ∧ get_rst_spans 50 g = Err ValueError.
Proof.
  set (r := read_rs3_graph "a.rs3" None "rst" true false rs_blank). exists r.1.1, r.1.2. split; vm_compute; reflexivity.
Qed.
Print Assumptions C75_blank_refuted.
(** in another namespace: no relations *)
Theorem C75_namespace_refuted : ∃ g edus, read_rs3_graph "a.rs3" None "hild" true false rs_doc = (g, edus, None) ∧ get_rst_spans 50 g = Ok [].
Proof.
  set (r := read_rs3_graph "a.rs3" None "hild" true false rs_doc). exists r.1.1, r.1.2. split; vm_compute; reflexivity.
Qed.
Print Assumptions C75_namespace_refuted.
