(** * SpecConllRead: vocabulary of C54-C56, reading CoNLL files *)
From Verif Require Import PyBase DocGraph Relabel StrNum Query Text Rst Nltk SpecGraph SpecQuery SpecParse SpecImport SpecDecour SpecConll ConllRead.

(** ** Files *)
(** a file has sentences, separated by blank lines; a line of a sentence is a comment
    or a row of values *)
Inductive line := LComment (c : chars) | LRow (values : list chars).
Definition line_text (l : line) : chars := match l with LComment c => "#"%char :: c | LRow vs => joined [tab] vs end.
Definition sentence_text (ls : list line) : chars := joined [newline] (line_text <$> ls).
(** blanks around the whole text do not matter *)
Definition white (s : chars) : Prop := Forall (λ c, Rst.is_space c = true) s.
Definition written (doc : list (list line)) (text : chars) : Prop :=
  ∃ pre post, white pre ∧ white post ∧ text = pre ++ joined [newline; newline] (sentence_text <$> doc) ++ post.

(** the columns of the two formats *)
Definition common_columns : list string :=
  ["word_id"; "token"; "lemma"; "plemma"; "pos"; "ppos"; "feat"; "pfeat"; "head"; "phead"; "deprel"; "pdeprel"].
Definition columns (fmt : string) : list string :=
  common_columns ++ if decide (fmt = "2010") then ["ne"; "pne"; "pred"; "ppred"; "coref"] else ["fillpred"; "pred"].
(** the value of a column; in the 2009 format, rows may be longer *)
Definition value (fmt column : string) (vs : list chars) (v : string) : Prop :=
  ∃ i, columns fmt !! i = Some column ∧ vs !! i = Some (chs v).
(** digits with an optional sign, and blanks around them *)
Definition is_integer (s : chars) (z : Z) : Prop :=
  ∃ pre sign ds post, white pre ∧ white post ∧ s = pre ++ sign ++ ds ++ post ∧ ds ≠ [] ∧ Forall (λ c, is_digit c = true) ds ∧
    ((sign = [] ∨ sign = ["+"%char]) ∧ z = Z.of_N (dec_val ds) ∨ sign = ["-"%char] ∧ z = (- Z.of_N (dec_val ds))%Z).

Definition line_ok (fmt : string) (l : line) : Prop :=
  match l with
  | LComment c => newline ∉ c
  | LRow vs =>
    Forall (λ v, tab ∉ v ∧ newline ∉ v) vs ∧ head (joined [tab] vs) ≠ Some "#"%char ∧
    (if decide (fmt = "2010") then length vs = length (columns fmt) else length (columns fmt) ≤ length vs) ∧
    ∃ w z, value fmt "word_id" vs w ∧ is_integer (chs w) z
  end.
(** the first and the last character are no blanks, so that the file has a sentence *)
Definition solid (s : chars) : Prop := (∃ c, head s = Some c ∧ Rst.is_space c = false) ∧ ∃ c, last s = Some c ∧ Rst.is_space c = false.
Definition readable (fmt : string) (doc : list (list line)) : Prop :=
  Forall (λ ls, ls ≠ [] ∧ Forall (line_ok fmt) ls) doc ∧ solid (joined [newline; newline] (sentence_text <$> doc)).
Record options_ok (o : conll_options) : Prop := {
  oo_format : co_format o ∈ ["2009"; "2010"];
  oo_deprel : co_deprel o ∈ columns (co_format o);
  oo_feat : co_feat o ∈ columns (co_format o);
  oo_head : co_head o ∈ columns (co_format o) }.

(** ** Grammatical features *)
(** the feature values that need no name: what they say *)
Definition known_values : list (string * (string * pyval)) :=
  [("Masc", ("gender", VStr "masc")); ("Fem", ("gender", VStr "fem")); ("Neut", ("gender", VStr "neut"));
   ("Sg", ("number", VStr "sg")); ("Pl", ("number", VStr "pl"));
   ("Nom", ("case", VStr "nom")); ("Gen", ("case", VStr "gen")); ("Dat", ("case", VStr "dat")); ("Acc", ("case", VStr "acc"));
   ("Pos", ("degree", VStr "pos")); ("Comp", ("degree", VStr "comp")); ("Sup", ("degree", VStr "sup"));
   ("Pres", ("tense", VStr "pres")); ("Past", ("tense", VStr "past"));
   ("Ind", ("mood", VStr "ind")); ("Subj", ("mood", VStr "subj"));
   ("Inf", ("finiteness", VStr "inf")); ("Psp", ("finiteness", VStr "psp")); ("Imp", ("finiteness", VStr "imp")); ("Infzu", ("finiteness", VStr "infzu"));
   ("1", ("person", VInt 1)); ("2", ("person", VInt 2)); ("3", ("person", VInt 3))].
Inductive value_feature : chars → option (string * pyval) → Prop :=
| VF_known v f : (v, f) ∈ known_values → value_feature (chs v) (Some f)
| VF_unknown v : (∀ f, (v, f) ∉ known_values) → value_feature (chs v) None.
(** name=value; the value "*" means unspecified; a person is a number; anything else
    is ignored *)
Inductive named_feature : chars → option (string * pyval) → Prop :=
| NF_pair a v : "="%char ∉ a → "="%char ∉ v → a ≠ chs "person" → v ≠ chs "*" → named_feature (a ++ "="%char :: v) (Some (str a, VStr (str v)))
| NF_star a : "="%char ∉ a → a ≠ chs "person" → named_feature (a ++ "="%char :: chs "*") None
| NF_person v z : "="%char ∉ v → is_integer v z → named_feature (chs "person" ++ "="%char :: v) (Some ("person", VInt z))
| NF_no_person v : "="%char ∉ v → (∀ z, ¬ is_integer v z) → named_feature (chs "person" ++ "="%char :: v) None
| NF_no_pair (s : list ascii) : length (filter (λ c, c = "="%char) s) ≠ 1 → named_feature s None.
(** features are separated by bars, in one of the two notations *)
Definition features (s : chars) (fs : list (string * pyval)) : Prop :=
  ∃ parts os, Forall (λ p, "|"%char ∉ p) parts ∧ parts ≠ [] ∧ s = joined ["|"%char] parts ∧
    Forall2 (if decide ("="%char ∈ s) then named_feature else value_feature) parts os ∧ fs = omap id os.

(** ** The graph *)
(** a row: word id, its number, token, head, relation, features *)
Record word := Word { w_id : string; w_no : Z; w_form : string; w_head : string; w_rel : string; w_feats : list (string * pyval); w_values : list (string * string) }.
Definition word_of (o : conll_options) (vs : list chars) (w : word) : Prop :=
  let fmt := co_format o in
  value fmt "word_id" vs (w_id w) ∧ is_integer (chs (w_id w)) (w_no w) ∧ value fmt "token" vs (w_form w) ∧
  value fmt (co_head o) vs (w_head w) ∧ value fmt (co_deprel o) vs (w_rel w) ∧
  (∃ f, value fmt (co_feat o) vs f ∧ features (chs f) (w_feats w)) ∧ w_values w = zip (columns fmt) (str <$> vs).
Definition rows (ls : list line) : list (list chars) := omap (λ l, match l with LRow vs => Some vs | LComment _ => None end) ls.
Definition words_of_doc (o : conll_options) (doc : list (list line)) (ws : list (list word)) : Prop :=
  Forall2 (λ ls, Forall2 (word_of o) (rows ls)) doc ws.

Definition sent_id (i : nat) : string := "s" +:+ str_Z (Z.of_nat i).
Definition tok_id (i : nat) (w : string) : nid := NStr (sent_id i +:+ "_t" +:+ w).
Definition conll_root (ns : string) : nid := NStr (ns +:+ ":root_node").
(** the attributes of a token; the first entry for a key counts *)
Definition token_attrs (ns : string) (i : nat) (w : word) : attrs :=
  [("sent_pos", VInt (Z.of_nat i))] ++ reverse ((λ f : string * pyval, (ns +:+ ":" +:+ f.1, f.2)) <$> w_feats w) ++
  [("word_pos", VInt (w_no w)); ("label", VStr (w_form w)); (ns +:+ ":token", VStr (w_form w))] ++ ((λ p : string * string, (p.1, VStr p.2)) <$> w_values w).
Definition token_node (ns : string) (i : nat) (w : word) : node_info := (tok_id i (w_id w), [ns; ns +:+ ":token"], token_attrs ns i w).
(** heads that are no words of the sentence have nodes without attributes *)
Definition lost_heads (ws : list word) : list string := remove_dups (filter (λ h, h ≠ "0" ∧ h ∉ (w_id <$> ws)) (w_head <$> ws)).
Definition sentence_nodes (ns : string) (i : nat) (ws : list word) : list node_info :=
  (NStr (sent_id i), [ns; ns +:+ ":sentence"], [("tokens", VObj i)]) :: (token_node ns i <$> ws) ++ ((λ h, (tok_id i h, [ns], [])) <$> lost_heads ws).
(** the sentence is the head of words whose head is "0" *)
Definition head_node (i : nat) (h : string) : nid := if decide (h = "0") then NStr (sent_id i) else tok_id i h.
Definition dependency (ns : string) (i : nat) (w : word) : edge_info :=
  (head_node i (w_head w), tok_id i (w_id w), [ns; ns +:+ ":dependency"], [("edge_type", VStr dominates); ("label", VStr (w_rel w)); ("relation_type", VStr (w_rel w))]).
Definition sentence_edges (ns : string) (i : nat) (ws : list word) : list edge_info :=
  (conll_root ns, NStr (sent_id i), [ns; ns +:+ ":sentence"], [("edge_type", VStr dominates)]) :: (dependency ns i <$> ws).
Definition conll_nodes (ns : string) (ws : list (list word)) : list node_info := decour_base ns ++ concat (imap (λ i, sentence_nodes ns (S i)) ws).
Definition conll_edges (ns : string) (ws : list (list word)) : list edge_info := concat (imap (λ i, sentence_edges ns (S i)) ws).
Definition conll_tokens (ws : list (list word)) : list (list nid) := imap (λ i l, (λ w, tok_id (S i) (w_id w)) <$> l) ws.

(** ** Dependencies *)
(** the chain of heads of a word reaches [h]: a word id, or "0" for the sentence *)
Inductive governed (ws : list word) (h : string) : word → Prop :=
| G_here w : w ∈ ws → w_head w = h → governed ws h w
| G_up w v : w ∈ ws → v ∈ ws → w_head w = w_id v → w_head w ≠ "0" → governed ws h v → governed ws h w.
(** all chains of heads end: no word is its own head, directly or indirectly *)
Definition no_cycle (ws : list word) : Prop := ∀ w, w ∈ ws → ∃ h, (h = "0" ∨ h ∉ w_id <$> ws) ∧ governed ws h w.
(** words with different ids, whose heads are no ids of other documents *)
Definition no_colon (s : string) : Prop := ":"%char ∉ chs s.
Definition plain_words (ws : list word) : Prop := NoDup (w_id <$> ws) ∧ Forall (λ w, no_colon (w_head w)) ws.
(** the heads of a word, from the nearest on, and where they end *)
Inductive heads (ws : list word) : word → list word → string → Prop :=
| H_end w : (w_head w = "0" ∨ w_head w ∉ w_id <$> ws) → heads ws w [] (w_head w)
| H_up w v l h : v ∈ ws → w_head w = w_id v → w_head w ≠ "0" → heads ws v l h → heads ws w (v :: l) h.
(** words numbered from 1 *)
Definition numbered_words (ws : list word) : Prop := ∀ j w, ws !! j = Some w → w_id w = str_Z (Z.of_nat (S j)).
(** the non-empty values of a column *)
Definition column_values (column : string) (ws : list word) : list pyval :=
  omap (λ w, match dget column (w_values w) with Some v => if decide (v = "") then None else Some (VStr v) | None => None end) ws.
