(** * SpecMmax: what an MMAX2 project describes (C65-C67)

    Read from the elements of the files of the project. *)
From Verif Require Import PyBase DocGraph Relabel StrNum Query Text Conano Mmax SpecGraph SpecImport SpecTiger.

(** the name of a file without its last five characters (".mmax") *)
Definition stem (f : string) : string := str (take (length (chs f) - 5) (chs f)).
Definition graph_name (base : string) (name : option string) : string :=
  match name with Some n => if decide (n = "") then base else n | None => base end.

(** ** Elements *)
Definition word_text (w : xml) : string := default "" (str <$> x_text w).
(** the words a span denotes (C27) *)
Definition span_words (x : xml) : list nid :=
  match convert_spanstring (chs (att "span" x)) with Ok l => (λ t, NStr (str t)) <$> l | Err _ => [] end.
Definition has_span (x : xml) : Prop := has_att x "span" ∧ ∃ l, convert_spanstring (chs (att "span" x)) = Ok l.
(** the antecedents of a markable, separated by semicolons *)
Definition antecedents (x : xml) : list nid :=
  match dget "anaphor_antecedent" (x_attrib x) with
  | None => []
  | Some a => if decide (a = "empty") then [] else (λ s, NStr (str s)) <$> split_char ";"%char (chs a)
  end.
(** no antecedent has the form layer:id *)
Definition plain_antecedents (x : xml) : Prop := ":"%char ∉ chs (att "anaphor_antecedent" x).
(** ** The project *)
Definition word_ids (p : mmax) : list nid := node_of "id" <$> mx_words p.
(** the elements of the file of a level *)
Definition level_file (f : string) (p : mmax) (level : string) : option (list xml) :=
  match dget level (mx_levels p) with Some ext => mx_file p (stem f +:+ ext) | None => None end.
(** the markables of all levels, level by level *)
Definition markables (base : string) (order : list string) (p : mmax) : list (string * xml) :=
  layer ← order; pair layer <$> default [] (level_file base p layer).
Definition sentences (f : string) (p : mmax) : list xml := default [] (level_file f p "sentence").
(** the words of a sentence that exist *)
Definition sentence_words (p : mmax) (x : xml) : list nid := filter (λ w, w ∈ word_ids p) (span_words x).

(** the reader finds what it needs *)
Definition complete_words (p : mmax) : Prop := Forall (λ w, has_att w "id" ∧ is_Some (x_text w)) (mx_words p).
Record complete_levels (base : string) (order : list string) (p : mmax) : Prop := {
  cl_files : Forall (λ layer, is_Some (level_file base p layer)) order;
  cl_markables : Forall (λ m : string * xml, has_att m.2 "id" ∧ has_span m.2) (markables base order p);
}.
Record complete_sentences (f : string) (p : mmax) : Prop := {
  cs_file : is_Some (level_file f p "sentence");
  cs_some : sentences f p ≠ [];
  cs_sentences : Forall (λ x, has_att x "id" ∧ has_span x ∧ sentence_words p x ≠ []) (sentences f p);
}.
Record project_complete (base f : string) (precedence : bool) (order : list string) (p : mmax) : Prop := {
  pc_words : complete_words p;
  pc_precedence : precedence = true → 1 < length (mx_words p);
  pc_levels : complete_levels base order p;
  pc_sentences : complete_sentences f p;
}.
(** no markable has two attributes of the same name (XML), and all antecedents are in
    the file of the markable *)
Definition project_plain (base : string) (order : list string) (p : mmax) : Prop :=
  Forall (λ m : string * xml, NoDup (dkeys (x_attrib m.2)) ∧ plain_antecedents m.2) (markables base order p).

(** ** Nodes
    What the files say, in reading order.  An antecedent that is not known yet becomes a
    node, too ([optional]). *)
Inductive mm_mention := Always (x : node_info) | Optional (x : node_info).
Fixpoint effective (seen : list nid) (M : list mm_mention) : list node_info :=
  match M with
  | [] => []
  | Always x :: M => x :: effective (x.1.1 :: seen) M
  | Optional x :: M => if decide (x.1.1 ∈ seen) then effective seen M else x :: effective (x.1.1 :: seen) M
  end.
Definition level_layers (ns layer : string) : list string := [ns; ns +:+ ":markable"; ns +:+ ":" +:+ layer].
Definition word_info (ns : string) (w : xml) : node_info :=
  (node_of "id" w, [ns; ns +:+ ":token"], [(ns +:+ ":token", VStr (word_text w)); ("label", VStr (word_text w))]).
Definition markable_info (ns : string) (m : string * xml) : node_info :=
  (node_of "id" m.2, level_layers ns m.1, ("label", VStr (att "id" m.2 +:+ ":" +:+ m.1)) :: in_ns ns m.2).
Definition markable_mentions (ns : string) (m : string * xml) : list mm_mention :=
  Always (markable_info ns m) :: ((λ a, Optional (a, level_layers ns m.1, [])) <$> antecedents m.2).
Definition sentence_info (ns : string) (x : xml) : node_info := (node_of "id" x, [ns; ns +:+ ":sentence"], []).
(** [r]: the sentences in text order; the i-th list of tokens belongs to the i-th *)
Definition project_mentions (base f ns : string) (order : list string) (p : mmax) (r : list nid) : list mm_mention :=
  Always (doc_root ns, [ns], []) :: (Always <$> (word_info ns <$> mx_words p)) ++
  (m ← markables base order p; markable_mentions ns m) ++
  (Always <$> (sentence_info ns <$> sentences f p)) ++
  (Always <$> imap (λ i s, (s, [], [("tokens", VObj i)])) r).
Definition project_nodes (base f ns : string) (order : list string) (p : mmax) (r : list nid) : list node_info :=
  combined (effective [] (project_mentions base f ns order p r)).

(** ** Edges *)
Definition word_edges (ns : string) (precedence connected : bool) (p : mmax) : list edge_info :=
  if precedence then
    (λ e : nid * nid, (e.1, e.2, [ns; ns +:+ ":precedence"], [("edge_type", VStr "precedes")])) <$> zip (doc_root ns :: word_ids p) (word_ids p)
  else if connected then (λ w, (doc_root ns, w, [ns; ns +:+ ":token"], [])) <$> word_ids p
  else [].
(** the edges of a markable to those of its words that are nodes, and to its antecedents *)
Definition markable_edges (ns : string) (seen : list nid) (m : string * xml) : list edge_info :=
  ((λ w, (node_of "id" m.2, w, level_layers ns m.1, [("edge_type", VStr "spans"); ("label", VStr (ns +:+ ":" +:+ m.1))]))
    <$> filter (λ w, w ∈ seen) (span_words m.2)) ++
  ((λ a, (node_of "id" m.2, a, level_layers ns m.1, [("edge_type", VStr "points_to"); ("label", VStr (ns +:+ ":antecedent"))]))
    <$> antecedents m.2).
(** [seen]: the nodes so far *)
Fixpoint markables_edges (ns : string) (seen : list nid) (l : list (string * xml)) : list edge_info :=
  match l with
  | [] => []
  | m :: l => markable_edges ns (node_of "id" m.2 :: seen) m ++ markables_edges ns (node_of "id" m.2 :: antecedents m.2 ++ seen) l
  end.
Definition project_edges (base ns : string) (precedence connected : bool) (order : list string) (p : mmax) : list edge_info :=
  word_edges ns precedence connected p ++ markables_edges ns (doc_root ns :: word_ids p) (markables base order p).
(** the ids of markables and antecedents *)
Definition markable_ids (base : string) (order : list string) (p : mmax) : list nid :=
  m ← markables base order p; node_of "id" m.2 :: antecedents m.2.
(** no markable, no antecedent and not the root has the id of a word, or of a word in a span *)
Definition ids_apart (base ns : string) (order : list string) (p : mmax) : Prop :=
  ∀ w, w ∈ word_ids p ∨ (∃ m, m ∈ markables base order p ∧ w ∈ span_words m.2) → w ∉ doc_root ns :: markable_ids base order p.
(** no markable has an attribute "token" (it would be taken for a token) *)
Definition no_token_atts (base : string) (order : list string) (p : mmax) : Prop :=
  Forall (λ m : string * xml, ¬ has_att m.2 "token") (markables base order p).
(** a markable (of the level) has the antecedent [v] *)
Definition refers (base : string) (order : list string) (p : mmax) (level : option string) (u v : nid) : Prop :=
  ∃ m, m ∈ markables base order p ∧ match level with Some l => m.1 = l | None => True end ∧ u = node_of "id" m.2 ∧ v ∈ antecedents m.2.

(** ** Sentences *)
Definition sentence_list (f : string) (p : mmax) : list (nid * list nid) := (λ x, (node_of "id" x, sentence_words p x)) <$> sentences f p.
(** sorted by their first tokens, in natural order *)
Definition in_text_order (r : list (nid * list nid)) : Prop :=
  ∀ i j p q a b, i < j → r !! i = Some p → r !! j = Some q → head p.2 = Some a → head q.2 = Some b → nat_cmp b a ≠ Lt.

(** ** Phrases of syntax trees (C68) *)
Definition phrase (g : graph) (n : nid) (cat : string) : Prop :=
  ∃ a, node_attrs g n = Some a ∧ has_layer a "tiger:syntax" ∧ dget "tiger:cat" a = Some (VStr cat).
Definition has_cat (g : graph) (n : nid) (cat : string) : Prop := ∃ a, node_attrs g n = Some a ∧ dget "tiger:cat" a = Some (VStr cat).
Definition parent (g : graph) (u n : nid) : Prop := ∃ k a, edge_attrs g u n k = Some a.
Definition categorised (g : graph) : Prop := ∀ n a, node_attrs g n = Some a → has_layer a "tiger:syntax" → is_Some (dget "tiger:cat" a).
