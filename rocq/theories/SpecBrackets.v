(** * SpecBrackets: vocabulary of C40, bracketed text *)
From Verif Require Import PyBase DocGraph Relabel StrNum Query Text SpecQuery.

(** the namespace of the span attribute: that of the layer up to the first colon,
    that of the graph if no layer is given *)
Inductive namespace_of (g : graph) : option string → string → Prop :=
| NS_none : namespace_of g None (g_ns g)
| NS_empty : namespace_of g (Some "") (g_ns g)
| NS_plain l : l ≠ "" → ":"%char ∉ chs l → namespace_of g (Some l) l
| NS_sub ns rest : ":"%char ∉ chs ns → namespace_of g (Some (ns +:+ ":" +:+ rest)) ns.

(** ** Markables *)
(** the mentions among the markables [l]: (markable, first token, last token)
    for each markable with a span attribute in namespace [ns] *)
Inductive mentions (g : graph) (renamed : option (dict nid nid)) (ns : string) : list nid → list (nid * nid * nid) → Prop :=
| M_nil : mentions g renamed ns [] []
| M_none m a l ms : node_attrs g m = Some a → dget (ns +:+ ":span") a = None →
    mentions g renamed ns l ms → mentions g renamed ns (m :: l) ms
| M_span m a s ts t0 t1 l ms : node_attrs g m = Some a → dget (ns +:+ ":span") a = Some (VStr s) →
    spanstring2tokens g renamed (chs s) = Ok ts → head ts = Some t0 → last ts = Some t1 →
    mentions g renamed ns l ms → mentions g renamed ns (m :: l) ((m, t0, t1) :: ms).
(** the tokens of a mention are in the document, the first one not after the last one *)
Definition in_order (tokens : list nid) (x : nid * nid * nid) : Prop :=
  ∃ i j, i ≤ j ∧ tokens !! i = Some x.1.2 ∧ tokens !! j = Some x.2.
(** markable m is part of a chain that starts with c *)
Definition in_chain (chains : list (list nid)) (m c : nid) : Prop := ∃ chain, chain ∈ chains ∧ head chain = Some c ∧ m ∈ chain.

(** ** Balance *)
Definition count (c : ascii) (s : list ascii) : nat := length (filter (λ x, x = c) s).
Definition balanced (s : chars) : Prop :=
  (∀ p q, s = p ++ q → count "]"%char p ≤ count "["%char p) ∧ count "["%char s = count "]"%char s.
Definition no_bracket (s : string) : Prop := "["%char ∉ chs s ∧ "]"%char ∉ chs s.
(** a closing bracket with its index *)
Definition closing_label (c : nid) : chars := chs "]_{" ++ chs (nid_str c) ++ chs "}".

(** ** Nested spans *)
Inductive btree := BTok (t : nid) | BSpan (m : nid) (ts : list btree).
Fixpoint btokens (x : btree) : list nid :=
  match x with BTok t => [t] | BSpan _ ts => concat (map btokens ts) end.
Definition first_of (l : list nid) : nid := default (NStr "") (head l).
Definition last_of (l : list nid) : nid := default (NStr "") (last l).
(** the spans: (markable, first token, last token), outer spans first *)
Fixpoint bspans (x : btree) : list (nid * nid * nid) :=
  match x with
  | BTok _ => []
  | BSpan m ts => (m, first_of (btokens (BSpan m ts)), last_of (btokens (BSpan m ts))) :: concat (map bspans ts)
  end.
(** no span is empty, and of two spans that start at the same token the id of the
    outer one comes first in the natural order of ids *)
Definition id_before (m m' : nid) : Prop := m = m' ∨ nat_cmp m m' = Lt.
Inductive bwf : btree → Prop :=
| BW_tok t : bwf (BTok t)
| BW_span m x ts : Forall bwf (x :: ts) → (∀ m' us, x = BSpan m' us → id_before m m') → bwf (BSpan m (x :: ts)).
(** the text: blanks between the parts, "[" and "]_{label}" around a span *)
Fixpoint brender (word : nid → chars) (label : nid → nid) (x : btree) : chars :=
  match x with
  | BTok t => word t
  | BSpan m ts =>
    "["%char :: (fix parts ts := match ts with
                 | [] => []
                 | [x] => brender word label x
                 | x :: ts => brender word label x ++ " "%char :: parts ts
                 end) ts ++ closing_label (label m)
  end.
Definition bdocument (word : nid → chars) (label : nid → nid) (xs : list btree) : chars :=
  concat ((λ x, brender word label x ++ [" "%char]) <$> xs).
(** ** The text of a token: opening brackets, the token, closing brackets, a blank *)
Definition piece (opened : nat) (s : string) (labels : list nid) : chars :=
  replicate opened "["%char ++ chs s ++ concat (closing_label <$> labels) ++ [" "%char].
Definition begin_at (ms : list (nid * nid * nid)) (t : nid) : nat := length (filter (λ x, x.1.2 = t) ms).
Definition end_at (ms : list (nid * nid * nid)) (t : nid) : nat := length (filter (λ x, x.2 = t) ms).
