(** * SpecText: vocabulary of the text properties *)
From Verif Require Import PyBase DocGraph Relabel SpecGraph StrNum Query Text.

(** the word id "prefix_z" *)
Definition word (p : chars) (z : Z) : chars := p ++ "_"%char :: chs (str_Z z).
(** the integers i, i+1, ..., j *)
Definition from_to (i j : Z) : list Z := (λ k : nat, (i + Z.of_nat k)%Z) <$> seq 0 (Z.to_nat (j - i + 1)).
(** one part of a span string and the words it denotes *)
Inductive part_of (p : chars) : chars → list chars → Prop :=
| Part_word z : part_of p (word p z) [word p z]
| Part_range i j : part_of p (word p i ++ chs ".." ++ word p j) (word p <$> from_to i j).
(** parts separated by commas *)
Fixpoint commas (parts : list chars) : chars :=
  match parts with
  | [] => []
  | [x] => x
  | x :: l => x ++ ","%char :: commas l
  end.
Definition plain_prefix (p : chars) : Prop :=
  "_"%char ∉ p ∧ ","%char ∉ p ∧ "."%char ∉ p.

(** ** DOT strings *)
(** reading a quoted string the way graphviz does (lib/cgraph/scan.l): the text
    up to the first unescaped double quote, and the rest of the input *)
Fixpoint dot_body (s : chars) : option (chars * chars) :=
  match s with
  | [] => None
  | x :: s' =>
    if decide (x = """"%char) then Some ([], s')
    else match s' with
         | y :: s'' =>
           if decide (x = "\"%char ∧ y = """"%char) then
             match dot_body s'' with Some (t, r) => Some (""""%char :: t, r) | None => None end
           else if decide (x = "\"%char ∧ y = "\"%char) then
             match dot_body s'' with Some (t, r) => Some (x :: y :: t, r) | None => None end
           else match dot_body s' with Some (t, r) => Some (x :: t, r) | None => None end
         | [] => None
         end
  end.
Definition dot_string (s : chars) : option (chars * chars) :=
  match s with """"%char :: s' => dot_body s' | _ => None end.

(** ** Replacement *)
(** r is the result of replacing keys of d in s in a single pass from left to
    right: at each position either a key that starts there is replaced, or no
    key starts there and the character is kept *)
Inductive replaced (d : list (chars * chars)) : chars → chars → Prop :=
| Rep_nil : replaced d [] []
| Rep_key k v s r : (k, v) ∈ d → k ≠ [] → replaced d s r → replaced d (k ++ s) (v ++ r)
| Rep_char c s r : (∀ k v, (k, v) ∈ d → ¬ prefix k (c :: s)) → replaced d s r →
    replaced d (c :: s) (c :: r).
(** no key begins with another key *)
Definition prefix_free (d : list (chars * chars)) : Prop := ∀ k1 v1 k2 v2,
  (k1, v1) ∈ d → (k2, v2) ∈ d → prefix k1 k2 → k1 = k2 ∧ v1 = v2.
(** k occurs somewhere in s *)
Definition occurs (k s : chars) : Prop := ∃ a b, s = a ++ k ++ b.

(** ** Tokens of a span string *)
(** the node for the token id t: the node of that name, or else the node it was
    renamed to; none if neither exists *)
Inductive resolves (g : graph) (renamed : dict nid nid) (t : nid) : list nid → Prop :=
| Res_node : t ∈ nodes g → resolves g renamed t [t]
| Res_renamed m : t ∉ nodes g → dget t renamed = Some m → m ∈ nodes g → resolves g renamed t [m]
| Res_none : t ∉ nodes g → (∀ m, dget t renamed = Some m → m ∉ nodes g) → resolves g renamed t [].

(** ** Explicit labels *)
(** the text of a label, which is a string or a number *)
Inductive label_text : pyval → string → Prop :=
| LT_str s : label_text (VStr s) s
| LT_int z : label_text (VInt z) (str_Z z).
(** a' is a with label [lab] *)
Definition relabelled (a a' : attrs) (lab : pyval) : Prop :=
  dget "label" a' = Some lab ∧ ∀ key, key ≠ "label" → dget key a' = dget key a.
(** at most one edge between two nodes *)
Definition single_edges (g : graph) : Prop := ∀ u v k k' a a',
  edge_attrs g u v k = Some a → edge_attrs g u v k' = Some a' → k = k'.
