(** * SpecLatex: RST trees and rst.sty figures (C69, C70) *)
From Verif Require Import PyBase DocGraph Relabel StrNum Query Text Rst.

(** ** RST trees *)
(** a unit; a relation of a nucleus and a satellite, in either order; a relation of
    several nuclei; several relations with the same nucleus (each with its label N or S,
    its name, whether the satellite comes first, and the satellite) *)
Inductive rtree :=
| REdu (text : string)
| RMono (rel : string) (sat_first : bool) (nuc sat : rtree)
| RMulti (rel : string) (nuclei : list rtree)
| RBundle (nuc : rtree) (sats : list (string * string * bool * rtree)).
Definition pair_tree (rel : string) (sat_first : bool) (nuc sat : ntree) : ntree :=
  NTree rel (if sat_first then [NTree "S" [sat]; NTree "N" [nuc]] else [NTree "N" [nuc]; NTree "S" [sat]]).
(** the nltk tree *)
Fixpoint to_tree (r : rtree) : ntree :=
  match r with
  | REdu s => NLeaf s
  | RMono rel b n s => pair_tree rel b (to_tree n) (to_tree s)
  | RMulti rel l => NTree rel (map (λ c, NTree "N" [to_tree c]) l)
  | RBundle n l => NTree "MONONUC-MULTISAT" (map (λ p, NTree p.1.1.1 [pair_tree p.1.1.2 p.1.2 (to_tree n) (to_tree p.2)]) l)
  end.

(** ** Figures *)
(** a segment; a nucleus with the satellites before and after it; a multinuclear relation *)
Inductive fig :=
| Seg (text : chars)
| Dir (before : list (string * fig)) (nuc : fig) (after : list (string * fig))
| Mul (rel : string) (nuclei : list fig).
Definition braces (s : chars) : chars := "{"%char :: s ++ ["}"%char].
(** the LaTeX commands of a figure, without line ends *)
Fixpoint tex (f : fig) : chars :=
  match f with
  | Seg t => chs "\rstsegment" ++ braces t
  | Dir b n a => chs "\dirrel" ++ concat (map (λ p, braces (chs p.1) ++ braces (tex p.2)) b) ++ braces [] ++ braces (tex n) ++
      concat (map (λ p, braces (chs p.1) ++ braces (tex p.2)) a)
  | Mul rel l => chs "\multirel" ++ braces (chs rel) ++ concat (map (λ c, braces (tex c)) l)
  end.
(** the words of a text with one blank between them *)
Definition words_of (s : string) : chars := join_words (split_blanks (chs s)).
Fixpoint figure (r : rtree) : fig :=
  match r with
  | REdu s => Seg (words_of s)
  | RMono rel b n s => if b then Dir [(rel, figure s)] (figure n) [] else Dir [] (figure n) [(rel, figure s)]
  | RMulti rel l => Mul rel (map figure l)
  | RBundle n l =>
      let sats := map (λ p, (p.1.2, (p.1.1.2, figure p.2))) l in
      Dir (filter (λ p, p.1 = true) sats).*2 (figure n) (filter (λ p, p.1 = false) sats).*2
  end.
(** the text without line ends and tabs *)
Definition solid (s : list ascii) : list ascii := filter (λ c, c ≠ "010"%char ∧ c ≠ "009"%char) s.

(** ** Which trees can be drawn *)
Definition part_of (a s : chars) : Prop := ∃ x y, s = x ++ a ++ y.
(** a text that does not contain the commands of relations *)
Definition no_commands (s : string) : Prop := ¬ part_of (chs "\dirrel") (words_of s) ∧ ¬ part_of (chs "\multirel") (words_of s).
Definition relname_ok (rel : string) : Prop := rel ≠ "N" ∧ rel ≠ "S".
Fixpoint drawable (r : rtree) : Prop :=
  match r with
  | REdu s => no_commands s
  | RMono rel _ n s => relname_ok rel ∧ rel ≠ "MONONUC-MULTISAT" ∧ drawable n ∧ drawable s
  | RMulti rel l => relname_ok rel ∧ l ≠ [] ∧ (fix go l := match l with [] => True | c :: l => drawable c ∧ go l end) l
  | RBundle n l =>
      2 ≤ length l ∧ "S" ∈ (λ p : string * string * bool * rtree, p.1.1.1) <$> l ∧
      (* the first satellite, or none, comes before the nucleus *)
      (∀ p, p ∈ l → p.1.2 = true → (λ p : string * string * bool * rtree, p.1.2) <$> head l = Some true) ∧
      drawable n ∧ (fix go l := match l with [] => True
        | p :: l => ((p.1.1.1 = "N" ∨ p.1.1.1 = "S") ∧ relname_ok p.1.1.2 ∧ p.1.1.2 ≠ "MONONUC-MULTISAT" ∧ drawable p.2) ∧ go l end) l
  end.
(** not a single unit *)
Definition is_relation (r : rtree) : Prop := match r with REdu _ => False | _ => True end.

(** ** Plain figures *)
Definition brace_free (s : chars) : Prop := "{"%char ∉ s ∧ "}"%char ∉ s.
Definition plain_text (s : chars) : Prop := brace_free s ∧ "010"%char ∉ s ∧ "009"%char ∉ s.
(** relation names are not empty; no braces, line ends or tabs *)
Fixpoint plain_fig (f : fig) : Prop :=
  match f with
  | Seg t => plain_text t
  | Dir b n a => (fix go l := match l with [] => True | p :: l => (p.1 ≠ "" ∧ plain_text (chs p.1) ∧ plain_fig p.2) ∧ go l end) b ∧ plain_fig n ∧
      (fix go l := match l with [] => True | p :: l => (p.1 ≠ "" ∧ plain_text (chs p.1) ∧ plain_fig p.2) ∧ go l end) a
  | Mul rel l => plain_text (chs rel) ∧ (fix go l := match l with [] => True | c :: l => plain_fig c ∧ go l end) l
  end.
(** ** Braces *)
(** the number of open braces after [s], if no brace is closed too much *)
Fixpoint depth (n : nat) (s : chars) : option nat :=
  match s with
  | [] => Some n
  | c :: s => if decide (c = "{"%char) then depth (S n) s
              else if decide (c = "}"%char) then match n with O => None | S n => depth n s end
              else depth n s
  end.
Definition balanced (s : chars) : Prop := depth 0 s = Some 0.
Fixpoint balanced_parts (r : rtree) : Prop :=
  match r with
  | REdu s => balanced (chs s)
  | RMono rel _ n s => balanced (chs rel) ∧ balanced_parts n ∧ balanced_parts s
  | RMulti rel l => balanced (chs rel) ∧ (fix go l := match l with [] => True | c :: l => balanced_parts c ∧ go l end) l
  | RBundle n l => balanced_parts n ∧ (fix go l := match l with [] => True | p :: l => (balanced (chs p.1.1.2) ∧ balanced_parts p.2) ∧ go l end) l
  end.

(** ** Which trees are accepted at all (C70) *)
Definition all_kids {A} (P : A → Prop) : list A → Prop := fix go l := match l with [] => True | x :: l => P x ∧ go l end.
Definition tree_label (t : ntree) : option string := match t with NLeaf _ => None | NTree l _ => Some l end.
Definition tree_kids (t : ntree) : list ntree := match t with NLeaf _ => [] | NTree _ ts => ts end.
Definition grandkids (ts : list ntree) : list ntree := c ← ts; tree_kids c.
(** every part of a relation of a bundle has a first child, and the first relation has a nucleus *)
Definition bundle_shape (rels : list ntree) : Prop :=
  2 ≤ length rels ∧ ("N" ∈ omap tree_label (default [] (tree_kids <$> head rels))) ∧
  Forall (λ r, is_Some (tree_label r) ∧ Forall (λ e, is_Some (tree_label e) ∧ tree_kids e ≠ []) (tree_kids r)) rels.
Definition relation_shape (l : string) (ts : list ntree) : Prop :=
  let labels := omap tree_label ts in
  (labels ≠ [] ∧ Forall (λ k, k = "N") labels) ∨
  (l = "MONONUC-MULTISAT" ∧ "S" ∈ labels ∧ bundle_shape (grandkids ts)) ∨
  (l ≠ "MONONUC-MULTISAT" ∧ length ts = 2 ∧ "N" ∈ labels ∧ "S" ∈ labels ∧ length (grandkids ts) = 2).
Fixpoint accepted (t : ntree) : Prop :=
  match t with
  | NLeaf _ => True
  | NTree l ts =>
    if decide (l = "N" ∨ l = "S") then ts ≠ []
    else all_kids (λ c, match c with NLeaf _ => False | NTree k us => (k = "N" ∨ k = "S") ∧ all_kids accepted us end) ts ∧ relation_shape l ts ∧
      (* the parts of the relations of a bundle *)
      (l = "MONONUC-MULTISAT" → "S" ∈ omap tree_label ts →
       all_kids (λ c, match c with NLeaf _ => True | NTree _ us => all_kids (λ u, match u with NLeaf _ => True | NTree _ es =>
         all_kids (λ e, match e with NTree _ (x :: _) => accepted x | _ => True end) es end) us end) ts)
  end.

(** ** Trees without bundles *)
Fixpoint no_bundles (r : rtree) : Prop :=
  match r with
  | REdu _ => True
  | RMono _ _ n s => no_bundles n ∧ no_bundles s
  | RMulti _ l => (fix go l := match l with [] => True | c :: l => no_bundles c ∧ go l end) l
  | RBundle _ _ => False
  end.
(** the same tree with normalised white space *)
Fixpoint normalised (r : rtree) : rtree :=
  match r with
  | REdu s => REdu (str (words_of s))
  | RMono rel b n s => RMono rel b (normalised n) (normalised s)
  | RMulti rel l => RMulti rel (map normalised l)
  | RBundle n l => RBundle (normalised n) (map (λ p, (p.1, normalised p.2)) l)
  end.
