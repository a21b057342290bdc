(** * SpecCodra: vocabulary of the CODRA property *)
From Verif Require Import PyBase DocGraph Relabel StrNum Query Text SpecText Rst SpecRst.

Definition quote_char : ascii := "034"%char.
(** an escaped quote: three backslashes and a quote *)
Definition escaped_quote : chars := ["\"%char; "\"%char; "\"%char; quote_char].
(** the first mark is left out, if there is one *)
Definition opened (s s' : chars) : Prop :=
  s = chs "_!" ++ s' ∨ (¬ ∃ r, s = chs "_!" ++ r) ∧ s' = s.
(** every escaped quote is replaced by a quote *)
Inductive unescaped : chars → chars → Prop :=
| U_last p : ¬ occurs escaped_quote p → unescaped p p
| U_next p a b : ¬ occurs escaped_quote p → unescaped a b →
    unescaped (p ++ escaped_quote ++ a) (p ++ quote_char :: b).
(** the last mark is left out, if there is one (a line break may follow it) *)
Definition last_mark (s s' : chars) : Prop :=
  ∃ b, s = b ++ chs "_!" ∧ s' = b ∨ s = b ++ chs "_!" ++ [nl] ∧ s' = b ++ [nl].
Definition closed (s s' : chars) : Prop := last_mark s s' ∨ (¬ ∃ r, last_mark s r) ∧ s' = s.
Definition cleaned (s s' : string) : Prop :=
  ∃ a b, opened (chs s) a ∧ unescaped a b ∧ closed b (chs s').
(** the same tree with cleaned leaves *)
Inductive cleaned_tree : ntree → ntree → Prop :=
| CT_leaf s s' : cleaned s s' → cleaned_tree (NLeaf s) (NLeaf s')
| CT_node l ts us : Forall2 cleaned_tree ts us → cleaned_tree (NTree l ts) (NTree l us).
(** how CODRA writes the text of a unit *)
Definition codra_escape (s : chars) : chars := s ≫= λ c, if decide (c = quote_char) then escaped_quote else [c].
Definition codra_text (s : string) : string := str (chs "_!" ++ codra_escape (chs s) ++ chs "_!").
(** a tree whose texts are escaped *)
Fixpoint escape_texts (r : rst) : rst :=
  match r with
  | Edu s => Edu (str (codra_escape (chs s)))
  | Mono rel nf n s => Mono rel nf (escape_texts n) (escape_texts s)
  | Multi rel l => Multi rel (map escape_texts l)
  end.
