(** * SpecConvert: vocabulary of C51, integer labels *)
From Verif Require Import PyBase DocGraph StrNum SpecGraph.

(** the order of labels in Python 2: numbers first, then texts in dictionary order *)
Inductive label_before : nid → nid → Prop :=
| LB_int x y : (x < y)%Z → label_before (NInt x) (NInt y)
| LB_mixed x s : label_before (NInt x) (NStr s)
| LB_prefix s t c r : chs t = chs s ++ c :: r → label_before (NStr s) (NStr t)
| LB_char s t p c d r r' : chs s = p ++ c :: r → chs t = p ++ d :: r' → (N_of_ascii c < N_of_ascii d)%N → label_before (NStr s) (NStr t).
(** how many edges end or start at a node; loops count twice *)
Definition degree (g : graph) (n : nid) : nat :=
  length (filter (λ e : nid * nid * nid * attrs, e.1.1.2 = n) (edges g)) + length (filter (λ e : nid * nid * nid * attrs, e.1.1.1 = n) (edges g)).
Definition orderings : list string := ["default"; "sorted"; "increasing degree"; "decreasing degree"].
(** the nodes of [g] are numbered in the requested order *)
Definition in_order (g : graph) (ordering : string) (f : nid → Z) : Prop :=
  ∀ x y, x ∈ nodes g → y ∈ nodes g → (f x < f y)%Z ↔
    if decide (ordering = "default") then ∃ i j, i < j ∧ nodes g !! i = Some x ∧ nodes g !! j = Some y
    else if decide (ordering = "sorted") then label_before x y
    else if decide (ordering = "increasing degree") then degree g x < degree g y ∨ (degree g x = degree g y ∧ label_before x y)
    else degree g y < degree g x ∨ (degree g x = degree g y ∧ label_before y x).
(** [f] numbers the nodes of [g] from [first] on, without gaps, in the requested order *)
Definition numbering (g : graph) (first : Z) (ordering : string) (f : nid → Z) : Prop :=
  (∀ x y, x ∈ nodes g → y ∈ nodes g → f x = f y → x = y) ∧
  (∀ z, (first ≤ z < first + Z.of_nat (length (nodes g)))%Z ↔ ∃ n, n ∈ nodes g ∧ f n = z) ∧
  in_order g ordering f.
(** no node carries one of the new numbers already *)
Definition numbers_free (g : graph) (first : Z) : Prop :=
  ∀ z, (first ≤ z < first + Z.of_nat (length (nodes g)))%Z → NInt z ∉ nodes g.
(** the result has the numbers as nodes and is otherwise the same document *)
Definition renumbered (f : nid → Z) (g g' : graph) : Prop :=
  iso (λ n, NInt (f n)) g g' ∧
  g_name g' = "(" +:+ g_name g +:+ ")_with_int_labels" ∧ g_ns g' = g_ns g ∧ g_root g' = g_root g ∧
  g_tokens g' = g_tokens g ∧ g_sentences g' = g_sentences g ∧ g_meta g' = g_meta g.
