(** * SpecRs3Graph: what an RS3 file describes (C71-C75)

    Read from the elements of the file and the relations of its header. *)
From Verif Require Import PyBase DocGraph Relabel StrNum Query Text Rst Nltk SpecGraph SpecQuery SpecImport.

(** ** Elements *)
Definition el_id (x : xelem) : string := match x with Seg i _ _ _ => i | Grp i _ _ _ => i end.
Definition el_parent (x : xelem) : option string := match x with Seg _ p _ _ => p | Grp _ _ p _ => p end.
Definition el_relname (x : xelem) : option string := match x with Seg _ _ r _ => r | Grp _ _ _ r => r end.
Definition segment (x : xelem) : Prop := match x with Seg _ _ _ _ => True | _ => False end.
Global Instance segment_dec x : Decision (segment x).
Proof. destruct x; cbn; apply _. Defined.
Definition segments (d : rs3doc) : list xelem := filter segment (d_body d).
Definition groups (d : rs3doc) : list xelem := filter (λ x, ¬ segment x) (d_body d).
(** all segments, then all groups *)
Definition elements_of (d : rs3doc) : list xelem := segments d ++ groups d.
(** a group that hangs from nothing: the root of the document *)
Definition top (x : xelem) : Prop := ¬ segment x ∧ el_parent x = None.
Global Instance top_dec x : Decision (top x).
Proof. unfold top. apply _. Defined.
Definition node_named (ns i : string) : nid := NStr (ns +:+ ":" +:+ i).
Definition node_of_el (ns : string) (x : xelem) : nid := node_named ns (el_id x).
(** the type of a relation in the header; the last declaration counts *)
Definition declared (d : rs3doc) (rel : string) : string :=
  default "" (last (snd <$> filter (λ p : string * string, p.1 = rel) (d_rels d))).
Inductive link := Satellite | Nucleus | Plain.
Global Instance link_eq_dec : EqDecision link.
Proof. solve_decision. Defined.
(** how an element is attached to its parent *)
Definition relation_of (x : xelem) : string := default "" (el_relname x).
Definition link_of (d : rs3doc) (x : xelem) : link :=
  if decide (declared d (relation_of x) = "rst") then Satellite
  else if decide (declared d (relation_of x) = "multinuc") then Nucleus else Plain.
(** the elements attached to the element [i] *)
Definition kids_in (l : list xelem) (i : string) : list xelem := filter (λ x, el_parent x = Some i) l.

(** the file can be read: ids are distinct, nothing is its own parent, no name is that of
    the default root, relation names and group types are there, and there is at most one
    root *)
Record rs3_ok (d : rs3doc) : Prop := {
  ro_ids : NoDup (el_id <$> d_body d);
  ro_self : Forall (λ x, el_parent x ≠ Some (el_id x)) (d_body d);
  ro_names : Forall (λ x, el_id x ≠ "root_node" ∧ el_parent x ≠ Some "root_node") (d_body d);
  ro_relations : Forall (λ x, is_Some (el_parent x) → is_Some (el_relname x)) (d_body d);
  ro_types : Forall (λ x, match x with Grp _ None _ _ => False | _ => True end) (d_body d);
  ro_root : length (filter top (d_body d)) ≤ 1;
}.
(** every parent is there *)
Definition closed (d : rs3doc) : Prop := ∀ x p, x ∈ d_body d → el_parent x = Some p → p ∈ el_id <$> d_body d.
(** ids without colons, so that they differ from the ids of tokens *)
Definition plain_ids (d : rs3doc) : Prop :=
  Forall (λ x, ":"%char ∉ chs (el_id x) ∧ ∀ p, el_parent x = Some p → ":"%char ∉ chs p) (d_body d).

(** ** Nodes *)
(** what is stored at a node *)
Record node_desc := NodeDesc {
  nd_layers : list string;
  nd_label : option string;
  nd_text : option string;
  nd_group : option string;
  nd_type : option string;
  nd_rel : option string;
}.
Definition entry (key : string) (v : option string) : attrs := match v with Some s => [(key, VStr s)] | None => [] end.
Definition desc_attrs (ns : string) (x : node_desc) : attrs :=
  entry "label" (nd_label x) ++ entry (ns +:+ ":text") (nd_text x) ++ entry (ns +:+ ":group_type") (nd_group x) ++
  entry (ns +:+ ":segment_type") (nd_type x) ++ entry (ns +:+ ":rel_name") (nd_rel x).
Definition desc_info (ns : string) (n : nid) (x : node_desc) : node_info := (n, nd_layers x, desc_attrs ns x).

(** the type of an element as such *)
Definition own_type (d : rs3doc) (x : xelem) : string :=
  match el_parent x with
  | None => if decide (segment x) then "isolated" else "span"
  | Some _ => match link_of d x with Satellite => "satellite" | Nucleus => "nucleus" | Plain => "span" end
  end.
(** the elements before the element [i], and those from it on *)
Fixpoint split_at (i : string) (l : list xelem) : list xelem * list xelem :=
  match l with
  | [] => ([], [])
  | x :: l => if decide (el_id x = i) then ([], x :: l) else (x :: (split_at i l).1, (split_at i l).2)
  end.
Definition before (i : string) (l : list xelem) : list xelem := (split_at i l).1.
Definition from (i : string) (l : list xelem) : list xelem := (split_at i l).2.
(** the type of a node known from the elements [K] attached to it, if it was created by
    the first of them *)
Definition type_from_kids (d : rs3doc) (K : list xelem) : option string :=
  if decide (Exists (λ y, link_of d y = Satellite) K) then Some "nucleus"
  else match head K with Some y => if decide (link_of d y = Plain) then Some "span" else None | None => None end.
(** the type of the element [x] in the file [l]: a satellite that is read after the
    element makes it a nucleus; one that is read before only if the element is a group
    in a span *)
Definition type_of (d : rs3doc) (l : list xelem) (x : xelem) : string :=
  if decide (Exists (λ y, link_of d y = Satellite) (kids_in (from (el_id x) l) (el_id x))) then "nucleus"
  else if decide (¬ segment x ∧ is_Some (el_parent x) ∧ own_type d x = "span" ∧
                  Exists (λ y, link_of d y = Satellite) (kids_in (before (el_id x) l) (el_id x))) then "nucleus"
  else own_type d x.
(** the relation stored at the parent [i]: that of the last element attached to it by a
    relation; if there is none, that of the first element, if it is read before [i] *)
Definition mark_of (d : rs3doc) (l : list xelem) (i : string) : option string :=
  match last (filter (λ y, link_of d y ≠ Plain) (kids_in l i)) with
  | Some y => Some (relation_of y)
  | None => relation_of <$> head (kids_in (before i l) i)
  end.
(** the text of a segment, without blanks at both ends *)
Definition text_of (x : xelem) : string := match x with Seg _ _ _ t => str (strip (chs t)) | _ => "" end.
Definition label_of (ns : string) (d : rs3doc) (x : xelem) : string :=
  match x with
  | Seg i _ _ _ => "[" +:+ str (take 1 (chs (own_type d x))) +:+ "]:" +:+ i +:+ ": " +:+ str (take 20 (chs (text_of x))) +:+ "..."
  | Grp i ty _ _ => ns +:+ ":group:" +:+ default "" ty +:+ ":" +:+ i
  end.
Definition layer_of (x : xelem) : string := if decide (segment x) then "segment" else if decide (top x) then "root" else "group".
Definition element_desc (ns : string) (d : rs3doc) (l : list xelem) (x : xelem) : node_desc := {|
  nd_layers := [ns; ns +:+ ":" +:+ layer_of x];
  nd_label := Some (label_of ns d x);
  nd_text := if decide (segment x) then Some (text_of x) else None;
  nd_group := match x with Grp _ ty _ _ => ty | _ => None end;
  nd_type := Some (type_of d l x);
  nd_rel := mark_of d l (el_id x);
|}.
(** a parent that is no element of the file *)
Definition missing_desc (ns : string) (d : rs3doc) (l : list xelem) (i : string) : node_desc := {|
  nd_layers := [ns]; nd_label := None; nd_text := None; nd_group := None;
  nd_type := type_from_kids d (kids_in l i);
  nd_rel := mark_of d l i;
|}.
(** the root of the document *)
Definition root_of (ns : string) (l : list xelem) : nid :=
  match last (filter top l) with Some x => node_of_el ns x | None => node_named ns "root_node" end.
(** parents that are no elements of the file *)
Definition missing_names (d : rs3doc) : list string :=
  remove_dups (filter (λ i, i ∉ el_id <$> d_body d) (omap el_parent (elements_of d))).

(** ** Edges *)
Definition link_edge (ns : string) (d : rs3doc) (x : xelem) : list edge_info :=
  match el_parent x with
  | None => []
  | Some p =>
    [(node_named ns p, node_of_el ns x, [ns],
      [(ns +:+ ":rel_name", VStr (relation_of x)); (ns +:+ ":rel_type", VStr (declared d (relation_of x)));
       ("label", VStr (ns +:+ ":" +:+ relation_of x));
       ("edge_type", VStr (if decide (link_of d x = Plain) then "spans" else "dominates"))])]
  end.
Definition link_edges (ns : string) (d : rs3doc) : list edge_info := x ← elements_of d; link_edge ns d x.

(** ** Tokens *)
Definition words (x : xelem) : list string := match x with Seg _ _ _ t => str <$> split_blanks (chs t) | _ => [] end.
Definition token_node (ns : string) (x : xelem) (i : nat) : nid :=
  NStr (ns +:+ ":" +:+ ns +:+ ":" +:+ el_id x +:+ "_" +:+ str_Z (Z.of_nat i)).
Definition segment_tokens (ns : string) (x : xelem) : list (nid * string) := imap (λ i w, (token_node ns x i, w)) (words x).
Definition doc_tokens (ns : string) (d : rs3doc) : list (nid * string) := x ← segments d; segment_tokens ns x.
Definition rs3_token_info (ns : string) (t : nid * string) : node_info :=
  (t.1, [ns; ns +:+ ":token"], [(ns +:+ ":token", VStr t.2); ("label", VStr t.2)]).
Definition token_edges_of (ns : string) (d : rs3doc) : list edge_info :=
  x ← segments d; (λ t : nid * string, (node_of_el ns x, t.1, ["rst"; "rst:token"], [("edge_type", VStr "spans")])) <$> segment_tokens ns x.
(** the nodes of the document; the default root is there only if no group is the root *)
Definition rs3_nodes (ns : string) (tokenize : bool) (d : rs3doc) : list node_info :=
  (if decide (Exists top (d_body d)) then [] else [(node_named ns "root_node", [ns], [])]) ++
  ((λ x, desc_info ns (node_of_el ns x) (element_desc ns d (elements_of d) x)) <$> elements_of d) ++
  ((λ i, desc_info ns (node_named ns i) (missing_desc ns d (elements_of d) i)) <$> missing_names d) ++
  (if tokenize then rs3_token_info ns <$> doc_tokens ns d else []).
(** the nodes of [g] are exactly [l], in some order *)
Definition has_node_set (g : graph) (l : list node_info) : Prop := nodes g ≡ₚ (λ x, x.1.1) <$> l ∧ Forall (node_is g) l.
Definition order_edges (ns : string) (root : nid) (l : list nid) : list edge_info :=
  (λ e : nid * nid, (e.1, e.2, [ns; ns +:+ ":precedence"], [("edge_type", VStr "precedes")])) <$> zip (root :: l) l.
Definition rs3_edges (ns : string) (tokenize precedence : bool) (d : rs3doc) : list edge_info :=
  link_edges ns d ++
  (if tokenize then token_edges_of ns d ++
     (if precedence then order_edges ns (root_of ns (elements_of d)) (doc_tokens ns d).*1 else [])
   else []).

(** ** Spans *)
(** [y] is attached to [x], directly or not, or is [x] *)
Definition attached_to (d : rs3doc) (y x : xelem) : Prop := x ∈ d_body d ∧ y ∈ d_body d ∧ el_parent y = Some (el_id x).
Definition within (d : rs3doc) : xelem → xelem → Prop := rtc (attached_to d).
(** the k-th token of the document is within the element *)
Definition covered (ns : string) (d : rs3doc) (x : xelem) (k : nat) : Prop :=
  ∃ s i w, segment s ∧ s ∈ d_body d ∧ within d s x ∧ words s !! i = Some w ∧ doc_tokens ns d !! k = Some (token_node ns s i, w).
(** the k-th token of the document is one of the words of the segment *)
Definition spoken (ns : string) (d : rs3doc) (s : xelem) (k : nat) : Prop :=
  ∃ i w, segment s ∧ words s !! i = Some w ∧ doc_tokens ns d !! k = Some (token_node ns s i, w).
(** from the first to the last of some tokens *)
Definition is_extent (P : nat → Prop) (i j : nat) : Prop := P i ∧ P j ∧ ∀ k, P k → i ≤ k ∧ k ≤ j.
Definition attached (d : rs3doc) (k : link) (x : xelem) : list xelem := filter (λ y, link_of d y = k) (kids_in (elements_of d) (el_id x)).
(** the nucleus of the satellites of [x]: an element in the same span; all nuclei, if [x]
    is multinuclear; or the text of the segment [x] *)
Definition nucleus_name (ns : string) (d : rs3doc) (x : xelem) : string :=
  nid_str (node_of_el ns (default x (head (attached d Plain x)))).
Definition nucleus_cover (ns : string) (d : rs3doc) (x : xelem) (k : nat) : Prop :=
  match attached d Plain x, attached d Nucleus x with
  | y :: _, _ => covered ns d y k
  | [], [] => spoken ns d x k
  | [], l => Exists (λ y, covered ns d y k) l
  end.
Fixpoint dashed (l : list string) : string := match l with [] => "" | [s] => s | s :: l => s +:+ "-" +:+ dashed l end.
(** the spans of the relations below [x]: name, role, relation, tokens; [nuclei] are the
    nuclei of [x] in the order in which they are listed *)
Definition multinuclear_name (ns : string) (x : xelem) (nuclei : list xelem) : string :=
  dashed ((λ y, nid_str (node_of_el ns y)) <$> (x :: nuclei)).
Definition relation_spans (ns : string) (d : rs3doc) (nuclei : list xelem) (x : xelem) : list (string * string * string * (nat → Prop)) :=
  imap (λ i y, (multinuclear_name ns x nuclei, "N" +:+ str_Z (Z.of_nat (S i)), relation_of y, covered ns d y)) nuclei ++
  (s ← attached d Satellite x;
   let name := nucleus_name ns d x +:+ "-" +:+ nid_str (node_of_el ns s) in
   [(name, "N", relation_of s, nucleus_cover ns d x); (name, "S", relation_of s, covered ns d s)]).
(** the file is a tree of relations: every parent is there, nothing is within itself,
    every element contains a word, an element has at most one nucleus in a span, every
    satellite has a nucleus, and no relation is called "span" *)
Record rst_tree_ok (d : rs3doc) : Prop := {
  rt_closed : closed d;
  rt_acyclic : ∀ x, ¬ tc (attached_to d) x x;
  rt_words : ∀ x, x ∈ d_body d → ∃ s, within d s x ∧ words s ≠ [];
  rt_one : ∀ x, x ∈ d_body d → length (attached d Plain x) ≤ 1;
  rt_nucleus : ∀ x, x ∈ d_body d → attached d Satellite x ≠ [] → attached d Plain x ≠ [] ∨ attached d Nucleus x ≠ [] ∨ words x ≠ [];
  rt_span : ∀ x, x ∈ d_body d → relation_of x = "span" → link_of d x = Plain;
}.
(** a 5-tuple (name, role, relation, first, last) says this *)
Definition span_says (p : string * string * pyval * nat * nat) (q : string * string * string * (nat → Prop)) : Prop :=
  p.1.1.1.1 = q.1.1.1 ∧ p.1.1.1.2 = q.1.1.2 ∧ p.1.1.2 = VStr q.1.2 ∧ is_extent q.2 p.1.2 p.2.
