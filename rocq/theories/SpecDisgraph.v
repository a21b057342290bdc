(** * SpecDisgraph: what a .dis file says, and what its document graph says (C93-C95) *)
From Verif Require Import PyBase DocGraph Relabel StrNum Query Text SpecText Rst SpecRst SpecGraph SpecImport SpecQuery.

(** ** The file: a root over nuclei and satellites, which are units or spans of units *)
Inductive disunit :=
| Unit (sat : bool) (rel id text : string)
| Span (sat : bool) (rel from to : string) (parts : list disunit).
Record disdoc := DisDoc { dd_from : string; dd_to : string; dd_parts : list disunit }.
Definition is_sat (u : disunit) : bool := match u with Unit s _ _ _ => s | Span s _ _ _ _ => s end.
Definition rel_of (u : disunit) : string := match u with Unit _ r _ _ => r | Span _ r _ _ _ => r end.
(** all units and spans of a unit, and all units of the text *)
Fixpoint all_inside (u : disunit) : list disunit :=
  u :: match u with Unit _ _ _ _ => [] | Span _ _ _ _ us => concat (all_inside <$> us) end.
Definition all_of (d : disdoc) : list disunit := u ← dd_parts d; all_inside u.
Definition is_unit (u : disunit) : Prop := match u with Unit _ _ _ _ => True | _ => False end.
Global Instance is_unit_dec u : Decision (is_unit u).
Proof. destruct u; apply _. Defined.
Definition text_of (u : disunit) : string := match u with Unit _ _ _ s => s | _ => "" end.
Definition words_of (u : disunit) : list string := str <$> split_blanks (chs (text_of u)).

(** *** as a tree of brackets *)
(** the elements of two lists are related one by one *)
Definition one_by_one {A B} (R : A → B → Prop) : list A → list B → Prop := fix go l l' :=
  match l, l' with
  | [], [] => True
  | a :: l, b :: l' => R a b ∧ go l l'
  | _, _ => False
  end.
(** a text between marks *)
Definition marked_text (s : string) (t : ntree) : Prop := ∃ ms : list string,
  t = NTree "text" (NLeaf <$> ms) ∧ join_words (chs <$> ms) = chs "_!" ++ chs s ++ chs "_!" ∧
  ¬ occurs (chs "_!") (chs s) ∧ nl ∉ chs s.
Definition role_name (sat : bool) : string := if sat then "Satellite" else "Nucleus".
Fixpoint unit_form (u : disunit) (t : ntree) : Prop :=
  match u with
  | Unit sat rel i s => ∃ x, marked_text s x ∧
      t = NTree (role_name sat) [NTree "leaf" [NLeaf i]; NTree "rel2par" [NLeaf rel]; x]
  | Span sat rel a b us => ∃ ts, one_by_one unit_form us ts ∧
      t = NTree (role_name sat) (NTree "span" [NLeaf a; NLeaf b] :: NTree "rel2par" [NLeaf rel] :: ts)
  end.
Definition doc_form (d : disdoc) (t : ntree) : Prop :=
  ∃ ts, one_by_one unit_form (dd_parts d) ts ∧ t = NTree "Root" (NTree "span" [NLeaf (dd_from d); NLeaf (dd_to d)] :: ts).

(** ** What is read: of a span, all parts but the first *)
Definition parts_read (u : disunit) : list disunit := match u with Span _ _ _ _ us => tail us | _ => [] end.
Fixpoint read_inside (u : disunit) : list disunit :=
  u :: match u with Unit _ _ _ _ => [] | Span _ _ _ _ us => concat (tail (read_inside <$> us)) end.
Definition read_of (d : disdoc) : list disunit := u ← dd_parts d; read_inside u.
(** the combinations of parts that are known: nuclei; one satellite of a nucleus; and a
    satellite alone, in a nucleus *)
Definition combination_ok (u : disunit) : Prop :=
  let sats := filter (λ v, is_sat v = true) (parts_read u) in
  let nucs := filter (λ v, is_sat v = false) (parts_read u) in
  length sats = 0 ∨ (length sats = 1 ∧ (length nucs = 1 ∨ (length nucs = 0 ∧ is_sat u = false))).

(** ** The graph *)
Section Graph.
  Context (ns : string) (tokenize : bool).
  Definition span_name (a b : string) : nid := NStr (ns +:+ ":span:" +:+ a +:+ "-" +:+ b).
  Definition name_of (u : disunit) : nid := match u with Unit _ _ i _ => NStr (ns +:+ ":" +:+ i) | Span _ _ a b _ => span_name a b end.
  Definition root_name (d : disdoc) : nid := span_name (dd_from d) (dd_to d).
  (** the word number [k] of the unit [i] *)
  Definition token_name (i : string) (k : nat) : nid := NStr (ns +:+ ":" +:+ i +:+ "_" +:+ str_Z (Z.of_nat k)).
  Definition unit_tokens (u : disunit) : list nid :=
    match u with Unit _ _ i _ => if tokenize then imap (λ k _, token_name i k) (words_of u) else [] | _ => [] end.
  (** what a unit or span says about nodes (all of them have the layer [ns]) *)
  Definition about_nodes (u : disunit) : list node_info :=
    match u with
    | Unit _ _ i s =>
      (name_of u, [], [(ns +:+ ":text", VStr s); ("label", VStr (ns +:+ ":" +:+ i +:+ ": " +:+ str (take 20 (chs s))))]) ::
      if tokenize then imap (λ k w, (token_name i k, [], [(ns +:+ ":token", VStr w); ("label", VStr w)])) (words_of u) else []
    | Span _ rel _ _ _ => [(name_of u, [], [(ns +:+ ":rel_type", VStr rel); (ns +:+ ":node_type", VStr "span")])]
    end.
  Definition related (u v : nid) (rel : string) (edge_type : option string) : edge_info :=
    (u, v, [ns], match edge_type with Some ty => [("edge_type", VStr ty)] | None => [] end ++ [(ns +:+ ":rel_type", VStr rel)]).
  (** and about edges: a unit has an edge to each word; a span of nuclei has one to each of
      them, a nucleus over a satellite dominates it, and otherwise a span spans the nucleus, which
      dominates the satellite *)
  Definition about_edges (u : disunit) : list edge_info :=
    match u with
    | Unit _ _ _ _ => (λ t, (name_of u, t, [ns], [])) <$> unit_tokens u
    | Span _ rel _ _ _ =>
      match filter (λ v, is_sat v = true) (parts_read u), filter (λ v, is_sat v = false) (parts_read u) with
      | [], nucs => (λ v, related (name_of u) (name_of v) rel None) <$> nucs
      | s :: _, [] => [related (name_of u) (name_of s) rel (Some "dominates")]
      | s :: _, n :: _ => [related (name_of u) (name_of n) "span" (Some "spans"); related (name_of n) (name_of s) rel (Some "dominates")]
      end
    end.
  Definition facts (us : list disunit) : list node_info := u ← us; about_nodes u.
  Definition links (us : list disunit) : list edge_info := u ← us; about_edges u.
  (** the root dominates its parts *)
  Definition doc_links (d : disdoc) : list edge_info :=
    u ← dd_parts d; (root_name d, name_of u, [ns], [("edge_type", VStr "dominates")]) :: links (read_inside u).
  Definition doc_facts (d : disdoc) : list node_info := facts (read_of d).
  Definition doc_tokens (d : disdoc) : list nid := u ← read_of d; unit_tokens u.
  Definition doc_words (d : disdoc) : list string := u ← read_of d; words_of u.
  Definition edge_ends (E : list edge_info) : list nid := e ← E; [e.1.1.1; e.1.1.2].
  Definition known_nodes (d : disdoc) : list nid :=
    root_name d :: ((λ f : node_info, f.1.1) <$> doc_facts d) ++ edge_ends (doc_links d).
  (** a later attribute of a node replaces an earlier one *)
  Definition attrs_about (F : list node_info) (n : nid) : attrs := f ← reverse (filter (λ f : node_info, f.1.1 = n) F); f.2.
  (** root -> first token -> second token -> ... *)
  Definition order_links (root : nid) (ts : list nid) : list edge_info :=
    (λ e : nid * nid, (e.1, e.2, [ns; ns +:+ ":precedence"], [("edge_type", VStr "precedes")])) <$> zip (root :: ts) ts.
  (** the graph says exactly what the units and spans that are read say *)
  Record says_exactly (precedence : bool) (d : disdoc) (g : graph) : Prop := {
    se_nodes : ∀ n, n ∈ nodes g ↔ n ∈ known_nodes d;
    se_about : ∀ n a, node_attrs g n = Some a → attrs_are a [ns] (attrs_about (doc_facts d) n);
    se_edges : has_edges g (doc_links d ++ if precedence then order_links (root_name d) (doc_tokens d) else []);
  }.
  (** which files can be read *)
  Definition readable (precedence : bool) (d : disdoc) : Prop :=
    Forall combination_ok (read_of d) ∧ (precedence = true → 1 < length (doc_tokens d)).
End Graph.

(** the ids of units *)
Definition unit_ids (us : list disunit) : list string := u ← us; match u with Unit _ _ i _ => [i] | _ => [] end.

(** ** The file of a rhetorical structure tree *)
Definition unit_number (n : nat) : string := str_Z (Z.of_nat n).
(** the parts of the units lo+1, lo+2, ... of the text *)
Fixpoint rst_parts (lo : nat) (r : rst) {struct r} : list disunit :=
  let part := λ (sat : bool) (rel : string) (lo : nat) (c : rst), match c with
    | Edu s => Unit sat rel (unit_number (S lo)) s
    | _ => Span sat rel (unit_number (S lo)) (unit_number (lo + length (edus c))) (rst_parts lo c)
    end in
  match r with
  | Edu s => []
  | Mono rel true n s => [part false "span" lo n; part true rel (lo + length (edus n)) s]
  | Mono rel false n s => [part true rel lo s; part false "span" (lo + length (edus s)) n]
  | Multi rel l => (fix go lo l := match l with [] => [] | c :: l => part false rel lo c :: go (lo + length (edus c)) l end) lo l
  end.
Definition rst_doc (r : rst) : disdoc := DisDoc "1" (unit_number (length (edus r))) (rst_parts 0 r).
(** the texts that are left of a part of the tree, and of the tree *)
Fixpoint kept (r : rst) : list string :=
  match r with
  | Edu s => [s]
  | Mono _ true _ s => kept s
  | Mono _ false n _ => kept n
  | Multi _ l => concat (tail (kept <$> l))
  end.
Definition kept_of (r : rst) : list string :=
  match r with
  | Edu s => [s]
  | Mono _ true n s => kept n ++ kept s
  | Mono _ false n s => kept s ++ kept n
  | Multi _ l => concat (kept <$> l)
  end.
(** a part that is a satellite itself cannot have its nucleus before its satellite *)
Fixpoint fine (sat : bool) (r : rst) : Prop :=
  match r with
  | Edu _ => True
  | Mono _ true _ s => sat = false ∧ fine true s
  | Mono _ false n _ => fine false n
  | Multi _ l => foldr and True (tail (fine false <$> l))
  end.
Definition fine_of (r : rst) : Prop :=
  match r with
  | Edu _ => False
  | Mono _ _ n s => fine false n ∧ fine true s
  | Multi _ l => Forall (fine false) l
  end.
Definition text_words (s : string) : list string := str <$> split_blanks (chs s).
(** the root has only units below it *)
Definition flat_tree (r : rst) : Prop :=
  match r with
  | Edu _ => True
  | Mono _ _ n s => match n, s with Edu _, Edu _ => True | _, _ => False end
  | Multi _ l => Forall (λ c, match c with Edu _ => True | _ => False end) l
  end.
