(** * SpecConll: vocabulary of C42, CoNLL 2009 files with a coreference column *)
From Verif Require Import PyBase DocGraph Relabel SpecGraph AllHist StrNum Query Text SpecQuery.

Definition tab : ascii := "009"%char.
Definition newline : ascii := "010"%char.
Definition number (k : nat) : chars := chs (str_Z (Z.of_nat k)).

(** ** Chains and markables *)
(** the number of a chain is its position; markables that are in no chain are
    numbered after the chains *)
Definition in_chain_no (chains : list (list nid)) (ms : list nid) (m : nid) (c : nat) : Prop :=
  (∃ chain, chains !! c = Some chain ∧ m ∈ chain) ∨
  (∃ i, filter (λ m, m ∉ concat chains) ms !! i = Some m ∧ c = length chains + i).
(** "(3" at the first token of a span, "3)" at the last one, "(3)" if it is the only
    one, "3" in between *)
Definition coref_entry (span : list nid) (t : nid) (c : nat) : chars :=
  (if decide (head span = Some t) then chs "(" else []) ++ number c ++ (if decide (last span = Some t) then chs ")" else []).
(** the words separated by bars *)
Fixpoint bars (l : list chars) : chars :=
  match l with
  | [] => []
  | [s] => s
  | s :: l => s ++ "|"%char :: bars l
  end.
(** the column of token [t]: an entry for each markable [m] that covers it and each
    chain of [m], in any order; "_" if there is none *)
Definition column (chains : list (list nid)) (ms : list nid) (span : nid → list nid) (t : nid) (col : chars) : Prop :=
  ∃ ps : list (nid * nat), NoDup ps ∧ (∀ m c, (m, c) ∈ ps ↔ m ∈ ms ∧ t ∈ span m ∧ in_chain_no chains ms m c) ∧
    col = if decide (ps = []) then chs "_" else bars ((λ p, coref_entry (span p.1) t p.2) <$> ps).

(** ** The file *)
Definition row (i : nat) (w : string) (col : chars) : chars :=
  number i ++ [tab] ++ chs w ++ concat (replicate 12 (tab :: chs "_")) ++ [tab] ++ col ++ [newline].
(** a sentence: rows numbered from 1, then a blank line *)
Definition sentence (ws : list string) (cols : list chars) : chars :=
  concat (imap (λ i p, row (S i) p.1 p.2) (zip ws cols)) ++ [newline].
Definition conll_file (words : list (list string)) (cols : list (list chars)) : chars :=
  chs "#begin document (__); __" ++ [newline] ++ concat (zip_with sentence words cols) ++ chs "#end document".
(** the rows of a text: the lines that contain a tab, as lists of fields *)
Definition rows_of (text : chars) : list (list chars) :=
  filter (λ f, 1 < length f) (split_char tab <$> split_char newline text).
Definition field (k : nat) (text : chars) : list chars := omap (λ f, f !! k) (rows_of text).
Definition one_field (s : string) : Prop := tab ∉ chs s ∧ newline ∉ chs s.

(** ** Balance *)
(** the openings / closings of chain [c] in a column *)
Definition opens (c : nat) (e : chars) : Prop := e = chs "(" ++ number c ∨ e = chs "(" ++ number c ++ chs ")".
Definition closes (c : nat) (e : chars) : Prop := e = number c ++ chs ")" ∨ e = chs "(" ++ number c ++ chs ")".
Definition opened (c : nat) (col : chars) : nat := length (filter (opens c) (split_char "|"%char col)).
Definition closed (c : nat) (col : chars) : nat := length (filter (closes c) (split_char "|"%char col)).
Definition total (f : chars → nat) (cols : list chars) : nat := sum_list_with f cols.

(** ** The document *)
(** the layer of the markables: the given one or that of the graph *)
Definition markable_layer (g : graph) (mlayer : option string) : string :=
  match mlayer with Some l => l | None => g_ns g +:+ ":markable" end.
(** the maximal chains of pointing relations; the nodes of the layer; their tokens *)
Definition lists_chains (g : graph) (clayer : option string) (chains : list (list nid)) : Prop :=
  NoDup chains ∧ ∀ c, c ∈ chains ↔ maximal_chain (points g clayer) c.
Definition lists_markables (g : graph) (l : string) (ms : list nid) : Prop :=
  NoDup ms ∧ ∀ m, m ∈ ms ↔ ∃ a, node_attrs g m = Some a ∧ has_layer a l.
Definition spans_of (g : graph) (ms : list nid) (span : nid → list nid) : Prop :=
  ∀ m, m ∈ ms → (∀ t, t ∈ span m ↔ is_token g t ∧ below g m t) ∧
    ∀ i j x y, i < j → span m !! i = Some x → span m !! j = Some y → x ≠ y ∧ nat_cmp x y ≠ Gt.
(** a document with typed edges and no cycles, whose sentences are lists of tokens,
    and where no markable reaches a token twice *)
Record exportable (g : graph) (clayer mlayer : option string) (toks_of : nid → res (list nid)) (sents : list (list nid)) (words : list (list string)) : Prop := {
  ex_reach : reachable no_bare_layers g;
  ex_typed : typed g;
  ex_plain : ∀ l, clayer = Some l → plain_str l;
  ex_points : acyclic (points g clayer);
  ex_covers : acyclic (covers g);
  ex_once : ∀ fuel m a ts, node_attrs g m = Some a → has_layer a (markable_layer g mlayer) → get_span fuel g m = Ok ts → NoDup ts;
  ex_sents : Forall2 (λ s ts, toks_of s = Ok ts) (g_sentences g) sents;
  ex_words : Forall2 (Forall2 (token_is g)) sents words }.
