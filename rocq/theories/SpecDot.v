(** * SpecDot: what is drawn of a graph (C100) *)
From Verif Require Import PyBase DocGraph Relabel StrNum Text Dot.

(** [q] is the string [s] in quotes, its own quotes preceded by backslashes *)
Inductive quoted_body : chars → chars → Prop :=
| QB_nil : quoted_body [] []
| QB_quote s b : quoted_body s b → quoted_body ("034"%char :: s) ("092"%char :: "034"%char :: b)
| QB_other c s b : c ≠ "034"%char → quoted_body s b → quoted_body (c :: s) (c :: b).
Definition quoted (s : string) (q : chars) : Prop := ∃ b, quoted_body (chs s) b ∧ q = "034"%char :: b ++ ["034"%char].
Definition id_text (n : nid) : string := match n with NInt z => str_Z z | NStr s => s end.
(** values that can be shown *)
Inductive shown : pyval → string → Prop :=
| Sh_str s : shown (VStr s) s
| Sh_int z : shown (VInt z) (str_Z z)
| Sh_true : shown (VBool true) "True"
| Sh_false : shown (VBool false) "False".
Definition label_shown (a : attrs) (l : option chars) : Prop :=
  match dget "label" a with None => l = None | Some v => ∃ s q, shown v s ∧ quoted s q ∧ l = Some q end.
Definition node_shown (p : nid * attrs) (q : chars * option chars) : Prop := quoted (id_text p.1) q.1 ∧ label_shown p.2 q.2.
Definition edge_shown (e : nid * nid * nid * attrs) (q : chars * chars * option chars) : Prop :=
  quoted (id_text e.1.1.1) q.1.1 ∧ quoted (id_text e.1.1.2) q.1.2 ∧ label_shown e.2 q.2.
(** the nodes with their attributes *)
Definition nodes_data (g : graph) : list (nid * attrs) := (λ n, (n, default [] (node_attrs g n))) <$> nodes g.
(** the label of an element with these attributes can be shown *)
Definition showable (a : attrs) : Prop := ∀ v, dget "label" a = Some v → ∃ s, shown v s.
(** no number has the text of a string *)
Definition texts_differ (g : graph) : Prop := ∀ n m, n ∈ nodes g → m ∈ nodes g → id_text n = id_text m → n = m.
