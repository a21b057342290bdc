(** * SpecTiger: what a TigerXML sentence describes (C61-C63)

    Read from the elements, in document order. *)
From stdpp Require Import relations.
From Verif Require Import PyBase DocGraph Query Conano SpecGraph SpecImport.

(** the elements a/b/c below an element *)
Fixpoint elements (path : list string) (x : xml) : list xml :=
  match path with
  | [] => [x]
  | tag :: path => y ← filter (λ k, x_tag k = tag) (x_kids x); elements path y
  end.
Definition tokens_in (x : xml) : list xml := elements ["graph"; "terminals"; "t"] x.
Definition phrases_in (x : xml) : list xml := elements ["graph"; "nonterminals"; "nt"] x.
Definition edges_in (x : xml) : list xml := elements ["edge"] x.
Definition secedges_in (x : xml) : list xml := elements ["secedge"] x.
(** an attribute of an element *)
Definition att (key : string) (x : xml) : string := default "" (dget key (x_attrib x)).
Definition has_att (x : xml) (key : string) : Prop := is_Some (dget key (x_attrib x)).
Definition node_of (key : string) (x : xml) : nid := NStr (att key x).
(** the attributes of an element, in the namespace *)
Definition in_ns (ns : string) (x : xml) : attrs := (λ p : string * string, (ns +:+ ":" +:+ p.1, VStr p.2)) <$> x_attrib x.
Definition sentence_root (x : xml) : nid := default (NStr "") (node_of "root" <$> head (elements ["graph"] x)).

(** the sentence has everything the reader needs *)
Record complete (x : xml) : Prop := {
  k_root : ∃ y, head (elements ["graph"] x) = Some y ∧ has_att y "root";
  k_tokens : ∀ t, t ∈ tokens_in x → has_att t "id" ∧ has_att t "word" ∧ ∀ e, e ∈ secedges_in t → has_att e "idref";
  k_phrases : ∀ n, n ∈ phrases_in x → has_att n "id" ∧ has_att n "cat" ∧
    (∀ e, e ∈ edges_in n → has_att e "idref" ∧ has_att e "label") ∧ (∀ e, e ∈ secedges_in n → has_att e "idref");
  (** a phrase with a secondary edge has an edge, or one before it has *)
  k_label : ∀ pre n post, phrases_in x = pre ++ n :: post → secedges_in n ≠ [] → (p ← pre ++ [n]; edges_in p) ≠ [];
}.
(** no element has two attributes of the same name (XML) *)
Definition well_formed (x : xml) : Prop :=
  ∀ y, y ∈ tokens_in x ++ phrases_in x ++ (p ← tokens_in x ++ phrases_in x; edges_in p ++ secedges_in p) → NoDup (dkeys (x_attrib y)).

(** no phrase has an attribute "token" (it would be taken for a token) *)
Definition no_token_att (x : xml) : Prop := ∀ n, n ∈ phrases_in x → ¬ has_att n "token".
Definition good_sentence (s : xml) : Prop := well_formed s ∧ complete s ∧ no_token_att s.

(** ** Nodes
    A node is mentioned as the root of the sentence, declared as a token or as a
    phrase, or is the target of an edge; a token that is the root gets a virtual root
    above it. *)
Inductive role := TheRoot | AToken | APhrase | ATarget | TheVirtualRoot.
Global Instance role_eq_dec : EqDecision role.
Proof. solve_decision. Defined.
Definition role_layers (ns : string) (r : role) : list string :=
  match r with
  | TheRoot => [ns; ns +:+ ":sentence"; ns +:+ ":sentence:root"; ns +:+ ":syntax"]
  | AToken => [ns; ns +:+ ":token"]
  | APhrase => [ns; ns +:+ ":syntax"]
  | ATarget => [ns; ns +:+ ":secedge"]
  | TheVirtualRoot => ["tiger"; "tiger:syntax"; "tiger:sentence"; "tiger:sentence:root"]
  end.
Notation mention := (nid * role * attrs)%type.
Definition who (m : mention) : nid := m.1.1.
Definition targets (es : list xml) : list mention := (λ e, (node_of "idref" e, ATarget, [])) <$> es.
Definition token_feats (ns : string) (t : xml) : attrs :=
  [("label", VStr (att "word" t)); (ns +:+ ":token", VStr (att "word" t))] ++ in_ns ns t.
Definition phrase_feats (ns : string) (n : xml) : attrs := ("label", VStr (att "cat" n)) :: in_ns ns n.
Definition token_mentions (ns : string) (t : xml) : list mention :=
  (node_of "id" t, AToken, token_feats ns t) :: targets (secedges_in t).
Definition phrase_mentions (ns : string) (n : xml) : list mention :=
  (node_of "id" n, APhrase, phrase_feats ns n) :: targets (edges_in n ++ secedges_in n).
Definition token_ids (x : xml) : list nid := node_of "id" <$> tokens_in x.
(** in document order; [i] is the list of the tokens of the sentence *)
Definition base_mentions (i : nat) (ns : string) (x : xml) : list mention :=
  (sentence_root x, TheRoot, []) :: (t ← tokens_in x; token_mentions ns t) ++
  (sentence_root x, TheRoot, [("tokens", VObj i)]) :: (n ← phrases_in x; phrase_mentions ns n).
Definition mentions (i : nat) (ns : string) (x : xml) : list mention :=
  base_mentions i ns x ++ (if decide (sentence_root x ∈ token_ids x) then [(NStr (ns +:+ ":VROOT"), TheVirtualRoot, [])] else []).
(** the first occurrences *)
Definition distinct (l : list nid) : list nid := foldl (λ acc n, if decide (n ∈ acc) then acc else acc ++ [n]) [] l.
Definition about (n : nid) (M : list mention) : list mention := filter (λ m, who m = n) M.
(** the first mention gives the layers; root, virtual root and tokens get their layers
    in any case *)
Definition layers_given (ns : string) (n : nid) (M : list mention) : list string :=
  match head (about n M) with Some m => role_layers ns m.1.2 | None => [] end ++
  (m ← filter (λ m : mention, m.1.2 ∈ [TheRoot; AToken; TheVirtualRoot]) (about n M); role_layers ns m.1.2).
(** later attributes replace earlier ones *)
Definition attrs_given (n : nid) (M : list mention) : attrs := foldl (λ a m, dupdate a m.2) [] (about n M).
Definition described (ns : string) (M : list mention) : list node_info :=
  (λ n, (n, layers_given ns n M, attrs_given n M)) <$> distinct (who <$> M).

(** ** Edges *)
Definition token_edges (ns : string) (t : xml) : list edge_info :=
  (λ e, (node_of "id" t, node_of "idref" e, [ns; ns +:+ ":secedge"], ("edge_type", VStr "points_to") :: in_ns ns e)) <$> secedges_in t.
(** [last]: the label of the last edge of the phrases before *)
Definition phrase_edges (ns : string) (toks : list nid) (last : string) (n : xml) : list edge_info :=
  ((λ e, (node_of "id" n, node_of "idref" e, [ns; ns +:+ ":edge"],
      ("label", VStr (att "label" e)) :: ("edge_type", VStr (if decide (node_of "idref" e ∈ toks) then "spans" else "dominates")) :: in_ns ns e))
    <$> edges_in n) ++
  ((λ e, (node_of "id" n, node_of "idref" e, [ns; ns +:+ ":secedge"],
      ("label", VStr (List.last (att "label" <$> edges_in n) last)) :: ("edge_type", VStr "points_to") :: in_ns ns e))
    <$> secedges_in n).
Fixpoint phrases_edges (ns : string) (toks : list nid) (last : string) (ps : list xml) : list edge_info :=
  match ps with
  | [] => []
  | n :: ps => phrase_edges ns toks last n ++ phrases_edges ns toks (List.last (att "label" <$> edges_in n) last) ps
  end.
Definition annotated_edges (ns : string) (x : xml) : list edge_info :=
  (t ← tokens_in x; token_edges ns t) ++ phrases_edges ns (token_ids x) "" (phrases_in x).
(** the nodes without any edge, unless there is only one node, are attached to the root *)
Definition alone (E : list edge_info) (n : nid) : Prop := Forall (λ e : edge_info, e.1.1.1 ≠ n ∧ e.1.1.2 ≠ n) E.
Definition unattached (i : nat) (ns : string) (x : xml) : list nid :=
  let all := distinct (who <$> base_mentions i ns x) in
  if decide (1 < length all) then filter (alone (annotated_edges ns x)) all else [].
Definition final_root (ns : string) (x : xml) : nid :=
  if decide (sentence_root x ∈ token_ids x) then NStr (ns +:+ ":VROOT") else sentence_root x.
Definition attached (ns : string) (root n : nid) : edge_info :=
  (root, n, [ns; ns +:+ ":sentence"; ns +:+ ":unconnected"], [("edge_type", VStr "dominates")]).
Definition sentence_edges (i : nat) (ns : string) (x : xml) : list edge_info :=
  annotated_edges ns x ++ (attached ns (final_root ns x) <$> unattached i ns x).

(** ** Documents *)
Definition sentences_in (x : xml) : list xml := elements ["body"; "s"] x.
(** the same node may be described several times: layers are collected, later
    attributes replace earlier ones *)
Definition combined (L : list node_info) : list node_info :=
  (λ n, (n, y ← filter (λ y : node_info, y.1.1 = n) L; y.1.2, foldl (λ a (y : node_info), dupdate a y.2) [] (filter (λ y : node_info, y.1.1 = n) L)))
    <$> distinct ((λ y : node_info, y.1.1) <$> L).
Definition doc_root (ns : string) : nid := NStr (ns +:+ ":root_node").
(** sentences have the namespace "tiger" *)
Definition document_nodes (ns : string) (x : xml) : list node_info :=
  (doc_root ns, [ns], []) :: concat (imap (λ i s, described "tiger" (mentions i "tiger" s)) (sentences_in x)).
Definition document_edges (ns : string) (x : xml) : list edge_info :=
  concat (imap (λ i s, sentence_edges i "tiger" s ++
    [(doc_root ns, final_root "tiger" s, [ns; ns +:+ ":sentence"], [("edge_type", VStr "dominates")])]) (sentences_in x)).

(** ** Constituents *)
(** the phrase [u] has an edge to [v] *)
Definition child (x : xml) (u v : nid) : Prop :=
  ∃ n e, n ∈ phrases_in x ∧ e ∈ edges_in n ∧ u = node_of "id" n ∧ v = node_of "idref" e.
(** ... or [v] was attached to the root *)
Definition under (i : nat) (ns : string) (x : xml) (u v : nid) : Prop :=
  child x u v ∨ u = final_root ns x ∧ v ∈ unattached i ns x.
(** the ends of all edges and secondary edges *)
Definition linked_ids (x : xml) : list nid :=
  (t ← tokens_in x; e ← secedges_in t; [node_of "id" t; node_of "idref" e]) ++
  (n ← phrases_in x; e ← edges_in n ++ secedges_in n; [node_of "id" n; node_of "idref" e]).
(** the constituents are a tree, apart from nodes without any edge *)
Record tree_shaped (x : xml) : Prop := {
  ts_acyclic : ∀ n, ¬ tc (child x) n n;
  ts_parent : NoDup (n ← phrases_in x; node_of "idref" <$> edges_in n);
  (** a node that occurs in an edge or secondary edge is the root or a child *)
  ts_root : ∀ n, n ∈ linked_ids x → n = sentence_root x ∨ ∃ u, child x u n;
}.
(** different identifiers differ in natural order *)
Definition distinct_keys (l : list nid) : Prop := ∀ t t', t ∈ l → t' ∈ l → nat_cmp t t' = Eq → t = t'.
