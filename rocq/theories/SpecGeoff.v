(** * SpecGeoff: vocabulary of C48, Geoff export *)
From Verif Require Import PyBase DocGraph StrNum Query.
(** what the JSON encoder is given *)
From Verif Require Import Geoff.

(** the JSON view of an attribute dict: the same keys and values, layers as a list with
    the same elements *)
Record shows (a : attrs) (d : jattrs) : Prop := {
  sh_keys : d.*1 ≡ₚ a.*1;
  sh_layers : ∀ l, ("layers", VSet l) ∈ a → ∃ l', ("layers", JList l') ∈ d ∧ l' ≡ₚ l;
  sh_other : ∀ k v, k ≠ "layers" → (k, v) ∈ a ↔ (k, JVal v) ∈ d;
}.
(** the attributes of a node with its id as label, if it has none *)
Definition labelled (n : nid) (a a' : attrs) : Prop :=
  match n with
  | NInt _ => a' = a
  | NStr s => (dget "label" a ≠ None ∧ a' = a) ∨ (dget "label" a = None ∧ a' = a ++ [("label", VStr s)])
  end.
(** (id {...}) *)
Definition node_text (n : nid) (json : chars) : chars := chs "(" ++ chs (nid_str n) ++ chs " " ++ json ++ chs ")".
(** (id)-[:LINKS_TO {...}]->(id) *)
Definition edge_text (u v : nid) (json : chars) : chars :=
  chs "(" ++ chs (nid_str u) ++ chs ")-[:LINKS_TO " ++ json ++ chs "]->(" ++ chs (nid_str v) ++ chs ")".
Definition newline : ascii := "010"%char.
