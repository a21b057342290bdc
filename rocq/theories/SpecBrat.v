(** * SpecBrat: vocabulary of C49, brat standoff files *)
From Verif Require Import PyBase DocGraph Relabel StrNum Query Text SpecQuery.

(** the tokens named by the span attribute of a markable *)
Definition span_of (g : graph) (renamed : option (dict nid nid)) (ns : string) (m : nid) (ts : list nid) : Prop :=
  ∃ a s, node_attrs g m = Some a ∧ dget (ns +:+ ":span") a = Some (VStr s) ∧ spanstring2tokens g renamed (chs s) = Ok ts.
(** one after the other in the text, from token number [i] on *)
Definition contiguous (g : graph) (i : nat) (ts : list nid) : Prop :=
  ts ≠ [] ∧ ∃ post, drop i (g_tokens g) = ts ++ post.

(** an annotated stretch of text *)
Record entity := Entity { en_markable : nid; en_number : nat; en_from : Z; en_to : Z; en_text : string }.
Definition tab : ascii := "009"%char.
Definition newline : ascii := "010"%char.
Definition number (k : nat) : chars := chs (str_Z (Z.of_nat k)).
(** T1 TAB Markable 0 5 TAB words *)
Definition entity_line (e : entity) : chars :=
  chs "T" ++ number (en_number e) ++ [tab] ++ chs "Markable " ++ chs (str_Z (en_from e)) ++ chs " " ++ chs (str_Z (en_to e)) ++ [tab] ++ chs (en_text e) ++ [newline].
(** R1 TAB Coreference Arg1:T2 Arg2:T1 *)
Definition relation_line (k a b : nat) : chars :=
  chs "R" ++ number k ++ [tab] ++ chs "Coreference Arg1:T" ++ number a ++ chs " Arg2:T" ++ number b ++ [newline].
(** [k] is the last position, counted from 1, of [m] in [l] *)
Definition last_position (l : list nid) (m : nid) (k : nat) : Prop :=
  0 < k ∧ l !! (k - 1) = Some m ∧ ∀ j, k ≤ j → l !! j ≠ Some m.
(** [l'] has the elements of [l] in increasing / decreasing natural order *)
Definition increasing (l' l : list nid) : Prop := l' ≡ₚ l ∧ ∀ i j x y, i < j → l' !! i = Some x → l' !! j = Some y → nat_cmp x y ≠ Gt.
Definition decreasing (l' l : list nid) : Prop := l' ≡ₚ l ∧ ∀ i j x y, i < j → l' !! i = Some x → l' !! j = Some y → nat_cmp x y ≠ Lt.
(** the entity marks the text of its markable: the characters of the document text from
    en_from to en_to are the words of the span, and they are the words at its position *)
Definition marks (g : graph) (renamed : option (dict nid nid)) (ns : string) (ss : list string) (e : entity) : Prop :=
  text_at (joined ss) (en_from e) (en_to e) (en_text e) ∧
  ∃ ts i ws stop, span_of g renamed ns (en_markable e) ts ∧ contiguous g i ts ∧ Forall2 (token_is g) ts ws ∧
    chs (en_text e) = joined ws ∧ word_offsets 0 ss !! i = Some (en_from e, stop).
