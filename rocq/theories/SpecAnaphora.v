(** * SpecAnaphora: vocabulary of C41, anaphoricity annotation *)
From Verif Require Import PyBase DocGraph Relabel StrNum Query Text Rst SpecGraph SpecRst SpecParse SpecImport.

(** the white-space separated words of a text *)
Inductive words_in : chars → list chars → Prop :=
| WI_nil : words_in [] []
| WI_blank c s ws : is_space c = true → words_in s ws → words_in (c :: s) ws
| WI_last w : is_word w → words_in w [w]
| WI_word w c s ws : is_word w → is_space c = true → words_in s ws → words_in (w ++ c :: s) (w :: ws).

(** the annotated words and the types of annotation *)
Definition anaphors : list string := ["das"; "Das"; "es"; "Es"].
Definition anno_kinds : list (ascii * string) :=
  [("n"%char, "nominal"); ("a"%char, "abstract"); ("r"%char, "relative"); ("p"%char, "pleonastic")].
(** in [w] the anaphor [tok] with annotation [x] begins after [p]; [q] follows *)
Definition anno_at (w p : chars) (tok : string) (x : ascii) (q : chars) : Prop :=
  tok ∈ anaphors ∧ x ∈ anno_kinds.*1 ∧ w = p ++ chs tok ++ "/"%char :: x :: q.
(** the leftmost one; it is uncertain if a question mark follows *)
Definition annotated (w : chars) (tok : string) (x : ascii) (uncertain : Prop) : Prop :=
  ∃ p q, anno_at w p tok x q ∧ (∀ p' tok' x' q', anno_at w p' tok' x' q' → length p ≤ length p') ∧
    (uncertain ↔ head q = Some "?"%char).
Definition unannotated (w : chars) : Prop := ∀ p tok x q, ¬ anno_at w p tok x q.

(** the node of the i-th word *)
Inductive word_node (ns : string) (i : nat) (w : chars) : node_info → Prop :=
| WN_plain : unannotated w →
    word_node ns i w (NInt (Z.of_nat i), [ns; ns +:+ ":token"], [(ns +:+ ":token", VStr (str w)); ("label", VStr (str w))])
| WN_anno tok x ty (uncertain : bool) : annotated w tok x (uncertain = true) → (x, ty) ∈ anno_kinds →
    word_node ns i w (NInt (Z.of_nat i), [ns; ns +:+ ":token"; ns +:+ ":annotated"],
      [(ns +:+ ":annotation", VStr ty); (ns +:+ ":certainty", VStr (if uncertain then "0.5" else "1.0"));
       (ns +:+ ":token", VStr tok); ("label", VStr (tok +:+ "_" +:+ ty))]).
(** the root nodes: the one of the base class, if the namespace is another one, and the own one *)
Definition root_nodes (ns : string) : list node_info :=
  (if decide (ns = "anaphoricity") then [] else [(NStr "anaphoricity:root_node", ["anaphoricity"], [])]) ++
  [(NStr (ns +:+ ":root_node"), [ns], [])].

(** connected: an edge from the root to every token *)
Definition root_edges (ns : string) (connected : bool) (n : nat) : list edge_info :=
  if connected then (λ i, (NStr (ns +:+ ":root_node"), NInt (Z.of_nat i), [ns; ns +:+ ":token"], [])) <$> seq 0 n else [].

(** [tok] is the anaphor [a] in any case *)
Definition cased (a tok : string) : Prop := to_lower <$> chs tok = chs a.
(** how a word that was read is written: with its annotation (and a question mark,
    see C41_certain_refuted) if it is the chosen anaphor *)
Inductive written (a : string) (w : chars) : chars → Prop :=
| WR_plain : unannotated w → written a w w
| WR_anno tok x u : annotated w tok x u → cased a tok → written a w (chs tok ++ "/"%char :: x :: ["?"%char])
| WR_other tok x u : annotated w tok x u → ¬ cased a tok → written a w (chs tok).
(** the same for the token [t], [s] of any graph *)
Inductive token_written (g : graph) (a : string) (t : nid) (s : string) : chars → Prop :=
| TW_anno b x ty : node_attrs g t = Some b → has_layer b (g_ns g +:+ ":annotated") → cased a s →
    dget (g_ns g +:+ ":annotation") b = Some (VStr ty) → (x, ty) ∈ anno_kinds →
    token_written g a t s (chs s ++ "/"%char :: x :: ["?"%char])
| TW_plain b : node_attrs g t = Some b → ¬ (has_layer b (g_ns g +:+ ":annotated") ∧ cased a s) → token_written g a t s (chs s).
(** words with a blank after each *)
Definition spaced (ws : list chars) : chars := concat ((λ w, w ++ [" "%char]) <$> ws).
