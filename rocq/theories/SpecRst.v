(** * SpecRst: vocabulary of the RST properties *)
From stdpp Require Import relations.
From Verif Require Import PyBase DocGraph Relabel StrNum Query Text Rst.

(** ** Rhetorical structure trees *)
(** an elementary discourse unit; a relation between a nucleus and a satellite,
    in either order; a relation between several nuclei *)
Inductive rst :=
| Edu (text : string)
| Mono (rel : string) (nuc_first : bool) (nuc sat : rst)
| Multi (rel : string) (nuclei : list rst).
(** the nltk tree below a nuclearity node *)
Fixpoint body (r : rst) : ntree :=
  match r with
  | Edu s => NLeaf s
  | Mono rel true n s => NTree rel [NTree "N" [body n]; NTree "S" [body s]]
  | Mono rel false n s => NTree rel [NTree "S" [body s]; NTree "N" [body n]]
  | Multi rel l => NTree rel (map (λ c, NTree "N" [body c]) l)
  end.
(** the tree of a document; a single unit is put under an N *)
Definition rst_tree (r : rst) : ntree := match r with Edu s => NTree "N" [NLeaf s] | _ => body r end.
(** the units in text order *)
Fixpoint edus (r : rst) : list string :=
  match r with
  | Edu s => [s]
  | Mono _ true n s => edus n ++ edus s
  | Mono _ false n s => edus s ++ edus n
  | Multi _ l => (fix go l := match l with [] => [] | c :: l => edus c ++ go l end) l
  end.
(** the relations in preorder, each with its type *)
Fixpoint relations (r : rst) : list (string * string) :=
  match r with
  | Edu _ => []
  | Mono rel true n s => (rel, "rst") :: relations n ++ relations s
  | Mono rel false n s => (rel, "rst") :: relations s ++ relations n
  | Multi rel l => (rel, "multinuc") :: (fix go l := match l with [] => [] | c :: l => relations c ++ go l end) l
  end.
(** a multinuclear relation has at least two nuclei *)
Fixpoint multi_ok (r : rst) : Prop :=
  match r with
  | Edu _ => True
  | Mono _ _ n s => multi_ok n ∧ multi_ok s
  | Multi _ l => 2 ≤ length l ∧ (fix go l := match l with [] => True | c :: l => multi_ok c ∧ go l end) l
  end.
(** names that mean something else in trees and rs3 files *)
Definition rel_ok (rel : string) : Prop := rel ≠ "" ∧ rel ≠ "N" ∧ rel ≠ "S" ∧ rel ≠ "span".
(** every relation name is used with one type only *)
Definition one_type (rels : list (string * string)) : Prop := ∀ rel a b, (rel, a) ∈ rels → (rel, b) ∈ rels → a = b.
Record rst_ok (r : rst) : Prop := {
  ro_multi : multi_ok r;
  ro_names : Forall (λ p, rel_ok p.1) (relations r);
  ro_types : one_type (relations r);
}.
(** text without superfluous white space: one or more words, single blanks *)
Definition is_word (w : chars) : Prop := w ≠ [] ∧ Forall (λ c, is_space c = false) w.
Definition normal_text (s : string) : Prop := ∃ ws, ws ≠ [] ∧ Forall is_word ws ∧ chs s = join_words ws.

(** ** rs3 documents *)
Definition xid (x : xelem) : string := match x with Seg i _ _ _ => i | Grp i _ _ _ => i end.
Definition xparent (x : xelem) : option string := match x with Seg _ p _ _ => p | Grp _ _ p _ => p end.
Definition xrelname (x : xelem) : option string := match x with Seg _ _ r _ => r | Grp _ _ _ r => r end.
Definition xtext (x : xelem) : list string := match x with Seg _ _ _ s => [s] | Grp _ _ _ _ => [] end.
(** a well-formed rs3 document with these units: ids are unique, one element
    has no parent, all others have the id of an element as parent and climb up
    to the root; relation names are declared or 'span' *)
Record rs3_wf (d : rs3doc) : Prop := {
  wf_ids : NoDup (xid <$> d_body d);
  wf_root : ∃ x, filter (λ x, xparent x = None) (d_body d) = [x];
  wf_parents : ∀ x p, x ∈ d_body d → xparent x = Some p → ∃ y, y ∈ d_body d ∧ xid y = p;
  wf_up : ∀ x, x ∈ d_body d → ∃ y, y ∈ d_body d ∧ xparent y = None ∧
    rtc (λ a b, a ∈ d_body d ∧ b ∈ d_body d ∧ xparent a = Some (xid b)) x y;
  wf_rels : ∀ x, x ∈ d_body d → match xparent x, xrelname x with
    | None, None => True
    | Some _, Some rel => rel = "span" ∨ ∃ ty, (rel, ty) ∈ d_rels d
    | _, _ => False end;
}.
(** the leaves of a tree, left to right *)
Fixpoint nleaves (t : ntree) : list string :=
  match t with NLeaf s => [s] | NTree _ ts => (fix go ts := match ts with [] => [] | t :: ts => nleaves t ++ go ts end) ts end.
(** the class dictionary after writing these trees *)
Definition after_writing (ts : list ntree) : dict string string := foldl (λ d t, (write_rs3 d t).1) default_relations ts.
(** the type that a name is last used with *)
Definition last_use (rel : string) (l : list (string * string)) : option string := last (filter (λ p : string * string, p.1 = rel) l).*2.
