(** * SpecUrml: what a URML document describes (C76-C78) *)
From Verif Require Import PyBase DocGraph Relabel StrNum Query Text Rst Nltk SpecGraph SpecQuery SpecImport Urml.

(** ** Segments and tokens *)
Definition named (ns i : string) : nid := NStr (ns +:+ ":" +:+ i).
(** a segment with children is divided into tokens; otherwise its text is divided at
    blanks, if that is asked for *)
Definition tokens_in (tokenize : bool) (s : useg) : list pyval :=
  match us_children s with
  | [] => if tokenize then (λ w, VStr (str w)) <$> split_blanks (chs (default "" (us_text s))) else []
  | l => default VNone ∘ fmap VStr <$> l
  end.
(** the texts of the children, joined by blanks, or the text of the segment, without
    blanks at both ends *)
Definition text_in (s : useg) : string :=
  match us_children s with
  | [] => str (strip (chs (default "" (us_text s))))
  | l => str (strip (joined (omap id l)))
  end.
(** how the document mentions the segment last: nucleus or satellite *)
Definition type_in (d : urmldoc) (s : useg) : string :=
  default "isolated" (last (fst <$> filter (λ p : string * string, p.2 = us_id s ∧ (p.1 = "nucleus" ∨ p.1 = "satellite")) (r ← ud_rels d; ur_parts r))).
Definition label_in (ns : string) (tokenize : bool) (d : urmldoc) (s : useg) : string :=
  "[" +:+ str (take 1 (chs (type_in d s))) +:+ "]:" +:+
  (if tokenize then ns +:+ ":segment:" +:+ us_id s else us_id s +:+ ": " +:+ str (take 20 (chs (text_in s))) +:+ "...").
Definition segment_info (ns : string) (tokenize : bool) (d : urmldoc) (s : useg) : node_info :=
  (named ns (us_id s), [ns; ns +:+ ":segment"], [(ns +:+ ":text", VStr (text_in s)); ("label", VStr (label_in ns tokenize d s))]).
Definition token_name (ns : string) (s : useg) (i : nat) : nid := NStr (ns +:+ ":" +:+ us_id s +:+ "_" +:+ str_Z (Z.of_nat i)).
Definition tokens_of (ns : string) (tokenize : bool) (s : useg) : list (nid * pyval) := imap (λ i v, (token_name ns s i, v)) (tokens_in tokenize s).
Definition all_tokens (ns : string) (tokenize : bool) (d : urmldoc) : list (nid * pyval) := s ← ud_segs d; tokens_of ns tokenize s.
Definition token_info (ns : string) (t : nid * pyval) : node_info := (t.1, [ns; ns +:+ ":token"], [(ns +:+ ":token", t.2); ("label", t.2)]).

(** ** Relations *)
(** the relations that are read *)
Definition relations (d : urmldoc) : list urel := filter (λ r, ur_tag r = "parRelation" ∨ ur_tag r = "hypRelation") (ud_rels d).
Definition relation_info (ns : string) (r : urel) : node_info :=
  (named ns (ur_id r), [ns; ns +:+ ":relation"], [(ns +:+ ":rel_name", VStr (ur_type r)); (ns +:+ ":rel_type", VStr (ur_tag r))]).
(** a nucleus and a satellite, in either order *)
Definition hypotactic (r : urel) (nuc sat : string) : Prop :=
  ur_parts r = [("nucleus", nuc); ("satellite", sat)] ∨ ur_parts r = [("satellite", sat); ("nucleus", nuc)].
Definition well_formed (r : urel) : Prop := ur_tag r = "hypRelation" → ∃ nuc sat, hypotactic r nuc sat.
Definition part (tag : string) (r : urel) : string := default "" (head (snd <$> filter (λ p : string * string, p.1 = tag) (ur_parts r))).
(** what a relation links: itself to all parts, or itself to the nucleus and the nucleus
    to the satellite *)
Definition linked_by (r : urel) : list (string * string) :=
  if decide (ur_tag r = "parRelation") then (λ p : string * string, (ur_id r, p.2)) <$> ur_parts r
  else [(ur_id r, part "nucleus" r); (part "nucleus" r, part "satellite" r)].
Definition relation_attrs (ns : string) (r : urel) : attrs :=
  [(ns +:+ ":rel_name", VStr (ur_type r)); (ns +:+ ":rel_type", VStr (ur_tag r)); ("label", VStr (ns +:+ ":" +:+ ur_type r));
   ("edge_type", VStr (if decide (ur_tag r = "parRelation") then "spans" else "dominates"))].
Definition relation_edges (ns : string) (r : urel) : list edge_info :=
  (λ e : string * string, (named ns e.1, named ns e.2, [ns], relation_attrs ns r)) <$> linked_by r.
Definition segment_edges (ns : string) (tokenize : bool) (s : useg) : list edge_info :=
  (λ t : nid * pyval, (named ns (us_id s), t.1, [ns; ns +:+ ":token"], [("edge_type", VStr "spans")])) <$> tokens_of ns tokenize s.
Definition structure_edges (ns : string) (tokenize : bool) (d : urmldoc) : list edge_info :=
  (s ← ud_segs d; segment_edges ns tokenize s) ++ (r ← relations d; relation_edges ns r).

(** ** The graph *)
Definition described (ns : string) (tokenize : bool) (d : urmldoc) : list node_info :=
  (s ← ud_segs d; (token_info ns <$> tokens_of ns tokenize s) ++ [segment_info ns tokenize d s]) ++ (relation_info ns <$> relations d).
(** linked, but not described *)
Definition undescribed (ns : string) (tokenize : bool) (d : urmldoc) : list nid :=
  remove_dups (filter (λ n, n ∉ (λ x : node_info, x.1.1) <$> described ns tokenize d) (r ← relations d; e ← linked_by r; [named ns e.1; named ns e.2])).
Definition urml_nodes (ns : string) (tokenize : bool) (d : urmldoc) : list node_info :=
  described ns tokenize d ++ ((λ n, (n, [ns], [])) <$> undescribed ns tokenize d).
(** the nodes of [g] are exactly [l], in some order *)
Definition node_set (g : graph) (l : list node_info) : Prop := nodes g ≡ₚ (λ x, x.1.1) <$> l ∧ Forall (node_is g) l.
(** ids are distinct, and none is that of the default root *)
Definition distinct_ids (ns : string) (tokenize : bool) (d : urmldoc) : Prop :=
  NoDup ((λ x : node_info, x.1.1) <$> described ns tokenize d) ∧ named ns "root_node" ∉ (λ x : node_info, x.1.1) <$> urml_nodes ns tokenize d.
(** ** Paths *)
Definition step (E : list edge_info) (u v : nid) : Prop := ∃ l a, (u, v, l, a) ∈ E.
Fixpoint path (E : list edge_info) (l : list nid) : Prop :=
  match l with
  | u :: ((v :: _) as l') => step E u v ∧ path E l'
  | _ => True
  end.
(** the node where a longest path starts *)
Definition starts_longest (E : list edge_info) (n : nid) : Prop :=
  ∃ l, path E (n :: l) ∧ l ≠ [] ∧ ∀ l', path E l' → length l' ≤ S (length l).
(** what the reader needs: distinct ids, a nucleus and a satellite in each hypRelation, links
    without cycles, at least one link, and two words if precedence relations are asked for *)
Definition readable (ns : string) (tokenize precedence : bool) (d : urmldoc) : Prop :=
  distinct_ids ns tokenize d ∧ Forall well_formed (relations d) ∧ acyclic (step (structure_edges ns tokenize d)) ∧ structure_edges ns tokenize d ≠ [] ∧
  (tokenize = true → precedence = true → 1 < length (all_tokens ns tokenize d)).
(** ** Text *)
(** one unit is linked to another *)
Definition linked_to (d : urmldoc) (a b : string) : Prop := ∃ r, r ∈ relations d ∧ (a, b) ∈ linked_by r.
(** relations hold between units, not between words *)
Definition units_only (ns : string) (tokenize : bool) (d : urmldoc) : Prop :=
  ∀ a b, linked_to d a b → named ns a ∉ (all_tokens ns tokenize d).*1 ∧ named ns b ∉ (all_tokens ns tokenize d).*1.
(** all words have a text *)
Definition complete (d : urmldoc) : Prop := Forall (λ s, Forall is_Some (us_children s)) (ud_segs d).
Definition words_in (tokenize : bool) (s : useg) : list string :=
  match us_children s with
  | [] => if tokenize then str <$> split_blanks (chs (default "" (us_text s))) else []
  | l => default "" <$> l
  end.
