(** * SpecExbWrite: what an exported Exmaralda document says (C81, C82) *)
From Verif Require Import PyBase DocGraph Relabel StrNum Query Text Rst SpecGraph SpecQuery SpanFacts Exb.

(** the n-th point of the timeline *)
Definition tick (i : nat) : string := "T" +:+ str_Z (Z.of_nat i).
(** an event from the i-th to before the j-th point *)
Definition at_points (i j : nat) (s : string) : event := Ev (tick i) (tick j) (Some s).
Definition nth_tier (n : nat) (category display : string) (es : list event) : tier :=
  Tier ("TIE" +:+ str_Z (Z.of_nat n)) category "t" ("[" +:+ display +:+ "]") es.
(** the order of a Python dictionary or set: any *)
Definition any_order (order : ∀ A, list A → list A) : Prop := ∀ A (l : list A), order A l ≡ₚ l.

(** ** Attributes of tokens *)
(** attributes that are not exported: layers, label, and ..:token, ..:id, ..:word, ..:morph, ..:lemma *)
Definition exported (k : string) : Prop := k ∉ ["layers"; "label"] ∧ last_part k ∉ ["token"; "id"; "word"; "morph"; "lemma"].
(** the i-th token has the value [v] for [k] *)
Definition token_value (g : graph) (k : string) (i : nat) (v : pyval) : Prop := ∃ n a, g_tokens g !! i = Some n ∧ node_attrs g n = Some a ∧ dget k a = Some v.
(** one event for each token that has the attribute *)
Definition attr_events (g : graph) (k : string) (es : list event) : Prop :=
  ∃ ps : list (nat * string), es = (λ p, at_points p.1 (S p.1) p.2) <$> ps ∧ NoDup ps ∧ ∀ i s, (i, s) ∈ ps ↔ token_value g k i (VStr s).

(** ** Annotations *)
(** the first and the last token of the span of a node are the i-th and the j-th token *)
Definition token_extent (fuel : nat) (g : graph) (n : nid) (i j : nat) : Prop :=
  ∃ l a b, get_span fuel g n = Ok l ∧ head l = Some a ∧ last l = Some b ∧ g_tokens g !! i = Some a ∧ g_tokens g !! j = Some b.
Definition label_is (g : graph) (n : nid) (s : string) : Prop := ∃ a, node_attrs g n = Some a ∧ default (VStr "") (dget "label" a) = VStr s.
(** one event for each node that spans tokens; [said] is its text *)
Definition node_events (fuel : nat) (g : graph) (ns : list nid) (said : nid → string → Prop) (es : list event) : Prop :=
  Forall (λ n, is_Some (match get_span fuel g n with Ok l => Some l | Err _ => None end)) ns ∧
  Forall2 (λ n e, ∃ i j s, token_extent fuel g n i j ∧ said n s ∧ e = at_points i (S j) s) (filter (λ n, get_span fuel g n ≠ Ok []) ns) es.
Definition layer_events (fuel : nat) (g : graph) (layer : string) (es : list event) : Prop :=
  ∃ ns, sublist ns (nodes g) ∧ (∀ n, n ∈ ns ↔ ohas_layer (node_attrs g n) layer) ∧ node_events fuel g ns (label_is g) es.
(** layers that say little *)
Definition uninformative : list string := ["tiger"; "tiger:token"; "tiger:sentence:root"; "tiger:sentence:vroot"; "tiger:edge"; "tiger:secedge"; "exmaralda"; "exmaralda:tier"; "discoursegraph"].
Definition used_layer (g : graph) (layer : string) : Prop := (∃ n, ohas_layer (node_attrs g n) layer) ∨ ∃ e, e ∈ edges g ∧ has_layer e.2 layer.

(** ** Chains *)
Definition chain_said (i m j : nat) : string := "chain_" +:+ str_Z (Z.of_nat i) +:+ ": " +:+ str_Z (Z.of_nat (m - j)) +:+ "/" +:+ str_Z (Z.of_nat m).
(** the j-th node of the i-th chain, m nodes long, says "chain_i: m-j/m" *)
Definition chain_events (fuel : nat) (g : graph) (i : nat) (c : list nid) (es : list event) : Prop :=
  ∃ ess, es = concat ess ∧ Forall2 (λ p es, node_events fuel g [p.2] (λ _ s, s = chain_said i (length c) p.1) es) (imap pair c) ess.

(** ** The document *)
Definition words_tier (ss : list string) : tier := nth_tier 0 "tok" "tok" (imap (λ i s, at_points i (S i) s) ss).
Definition exported_as (fuel : nat) (g : graph) (redundant : bool) (chains : list (list nid)) (d : exb) : Prop :=
  ∃ ss ks ls t1 t2 t3,
    text_tokens g ss ∧
    (NoDup ks ∧ ∀ k, k ∈ ks ↔ exported k ∧ ∃ i v, token_value g k i v) ∧
    (NoDup ls ∧ ∀ l, l ∈ ls ↔ used_layer g l ∧ (redundant = true ∨ l ∉ uninformative)) ∧
    Forall2 (λ p t, ∃ es, t = nth_tier (1 + p.1) (last_part p.2) p.2 es ∧ attr_events g p.2 es) (imap pair ks) t1 ∧
    Forall2 (λ p t, ∃ es, t = nth_tier (1 + length ks + p.1) (last_part p.2) p.2 es ∧ layer_events fuel g p.2 es) (imap pair ls) t2 ∧
    Forall2 (λ p t, ∃ es, t = nth_tier (1 + length ks + length ls + p.1) "chain" ("coref-chain-" +:+ str_Z (Z.of_nat p.1)) es ∧ chain_events fuel g p.1 p.2 es)
      (filter (λ p : nat * list nid, 3 ≤ length p.2) (imap pair chains)) t3 ∧
    ex_timeline d = (λ i, (tick i, Z.of_nat i)) <$> seq 0 (S (length (g_tokens g))) ∧
    ex_tiers d = words_tier ss :: t1 ++ t2 ++ t3.

(** ** What the exporter needs *)
Definition spanned_ok (fuel : nat) (g : graph) (n : nid) : Prop := get_span fuel g n = Ok [] ∨ ∃ i j, token_extent fuel g n i j.
Definition exportable (fuel : nat) (g : graph) (redundant : bool) (chains : list (list nid)) : Prop :=
  (∃ ss, text_tokens g ss) ∧
  (∀ k i v, exported k → token_value g k i v → ∃ s, v = VStr s) ∧
  (∀ n l, ohas_layer (node_attrs g n) l → redundant = true ∨ l ∉ uninformative → spanned_ok fuel g n ∧ (get_span fuel g n = Ok [] ∨ ∃ s, label_is g n s)) ∧
  (∀ c n, c ∈ chains → 3 ≤ length c → n ∈ c → spanned_ok fuel g n).

(** ** Reading it again *)
Definition exported_attribute (g : graph) (k : string) : Prop := exported k ∧ ∃ i v, token_value g k i v.
Definition exported_layer (g : graph) (redundant : bool) (l : string) : Prop := used_layer g l ∧ (redundant = true ∨ l ∉ uninformative).
(** the reader would take tok for words, and writes the words as ..:token *)
Definition no_other_words (g : graph) (redundant : bool) : Prop := ∀ k, exported_attribute g k ∨ exported_layer g redundant k → last_part k ∉ ["tok"; "token"].
(** nothing else is exported under the same category *)
Definition alone (g : graph) (redundant : bool) (k : string) : Prop :=
  (∀ k', exported_attribute g k' ∨ exported_layer g redundant k' → last_part k' = last_part k → k' = k) ∧ last_part k ≠ "chain".
Definition attr_of (g : graph) (n : nid) (key : string) : option pyval := match node_attrs g n with Some a => dget key a | None => None end.
Definition from_to (i j : nat) : list nid := (λ k, NStr (tick k)) <$> seq i (j - i).
