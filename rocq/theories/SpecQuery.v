(** * SpecQuery: vocabulary of the query properties (C16-C26) *)
From stdpp Require Export relations.
From Verif Require Import PyBase DocGraph Relabel SpecGraph StrNum.

(** an edge u->v that is neither a self loop nor a pointing relation *)
Definition covers (g : graph) (u v : nid) : Prop :=
  u ≠ v ∧ ∃ k a, edge_attrs g u v k = Some a ∧ dget "edge_type" a ≠ Some (VStr "points_to").
(** v is n or can be reached from n over such edges *)
Definition below (g : graph) : nid → nid → Prop := rtc (covers g).
Definition acyclic {A} (R : A → A → Prop) : Prop := ∀ x, ¬ tc R x x.
(** every edge has an edge type *)
Definition typed (g : graph) : Prop :=
  ∀ u v k a, edge_attrs g u v k = Some a → is_Some (dget "edge_type" a).
(** a token node in the namespace of the graph *)
Definition is_token (g : graph) (t : nid) : Prop :=
  ∃ a, node_attrs g t = Some a ∧ is_Some (dget (g_ns g +:+ ":token") a).
Definition token_is (g : graph) (t : nid) (s : string) : Prop :=
  ∃ a, node_attrs g t = Some a ∧ dget (g_ns g +:+ ":token") a = Some (VStr s).
(** the token strings of the document *)
Definition text_tokens (g : graph) (ss : list string) : Prop :=
  Forall2 (token_is g) (g_tokens g) ss.

(** the character offsets of words joined by single blanks: (start, end) *)
Fixpoint word_offsets (start : Z) (ss : list string) : list (Z * Z) :=
  match ss with
  | [] => []
  | s :: ss' => (start, start + Z.of_nat (String.length s))%Z
                :: word_offsets (start + Z.of_nat (String.length s) + 1) ss'
  end.
(** the words joined by single blanks *)
Fixpoint joined (ss : list string) : chars :=
  match ss with
  | [] => []
  | [s] => chs s
  | s :: ss' => chs s ++ " "%char :: joined ss'
  end.
(** text[on:off] is s *)
Definition text_at (text : chars) (on off : Z) (s : string) : Prop :=
  ∃ pre post, text = pre ++ chs s ++ post ∧ Z.of_nat (length pre) = on ∧
    Z.of_nat (length (pre ++ chs s)) = off.
(** the (onset, offset) attributes of a node in namespace ns *)
Definition offset_attrs (g : graph) (ns : string) (t : nid) (p : Z * Z) : Prop :=
  ∃ a, node_attrs g t = Some a ∧ dget (ns +:+ ":onset") a = Some (VInt p.1) ∧
       dget (ns +:+ ":offset") a = Some (VInt p.2).
(** no token carries an offset *)
Definition no_offsets (g : graph) (ns : string) : Prop :=
  ∀ n a, node_attrs g n = Some a →
    dget (ns +:+ ":onset") a = None ∧ dget (ns +:+ ":offset") a = None.
(** the tokens carry the offsets of the current document text *)
Definition current_offsets (g : graph) (ns : string) : Prop :=
  ∃ ss, text_tokens g ss ∧ Forall2 (offset_attrs g ns) (g_tokens g) (word_offsets 0 ss).

(** a chain of length >= 2 of a relation *)
Fixpoint linked {A} (R : A → A → Prop) (l : list A) : Prop :=
  match l with
  | x :: (y :: _) as l' => R x y ∧ linked R l'
  | _ => True
  end.
Definition maximal_chain {A} (R : A → A → Prop) (c : list A) : Prop :=
  2 ≤ length c ∧ linked R c ∧
  (∀ x, head c = Some x → ∀ y, ¬ R y x) ∧ (∀ x, last c = Some x → ∀ y, ¬ R x y).
(** u points to v (in a layer) *)
Definition points (g : graph) (layer : option string) (u v : nid) : Prop :=
  ∃ k a, edge_attrs g u v k = Some a ∧ dget "edge_type" a = Some (VStr "points_to") ∧
    match layer with None => True | Some l => has_layer a l end.

(** g' differs from g only in the onset/offset attributes of namespace ns *)
Record same_but_offsets (ns : string) (g g' : graph) : Prop := {
  so_nodes : nodes g' = nodes g;
  so_attrs : ∀ n a, node_attrs g n = Some a → ∃ a', node_attrs g' n = Some a' ∧
    ∀ key, key ≠ ns +:+ ":onset" → key ≠ ns +:+ ":offset" → dget key a' = dget key a;
  so_edges : edges g' = edges g;
  so_doc : same_doc g g';
}.

(** ** Selection *)
From Verif Require Import Query.
(** the element with attributes a meets the layer filter *)
Definition layer_ok (a : attrs) (s : lsel) : Prop :=
  match s with
  | LAll => True
  | LOne l => has_layer a l
  | LMany ls => ∃ l, l ∈ ls ∧ has_layer a l
  end.
(** ... has the attribute (if one is asked for), with (one of) the value(s) *)
Definition attr_ok (a : attrs) (attribute : string) (s : vsel) : Prop :=
  ∃ v, dget attribute a = Some v ∧
  match s with VAny => True | VEq x => v = VStr x | VIn vs => v ∈ vs end.
Definition edge_ok (a : attrs) (layer edge_type : option string) : Prop :=
  match layer with None => True | Some l => has_layer a l end ∧
  match edge_type with None => True | Some t => dget "edge_type" a = Some (VStr t) end.
(** strings that can be spliced into an eval string: no quote, backslash, line break *)
Definition plain_str (s : string) : Prop :=
  ∀ c, c ∈ chs s → c ∉ ["'"%char; "\"%char; "010"%char; "013"%char].
