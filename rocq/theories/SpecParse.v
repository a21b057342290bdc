(** * SpecParse: the output of discourse parsers, and bracketed text *)
From Verif Require Import PyBase DocGraph Relabel StrNum Query Text SpecText Rst SpecRst.

(** ** Binary parses: units of type A, relations with the role of each part *)
Inductive role := Nuc | Sat.
Global Instance role_eq_dec : EqDecision role.
Proof. solve_decision. Defined.
Definition role_name (r : role) : string := match r with Nuc => "N" | Sat => "S" end.
Inductive parse (A : Type) := Unit (u : A) | Rel (name : string) (r1 r2 : role) (p1 p2 : parse A).
Arguments Unit {A} u.
Arguments Rel {A} name r1 r2 p1 p2.
Fixpoint units {A} (p : parse A) : list A :=
  match p with Unit u => [u] | Rel _ _ _ p q => units p ++ units q end.
Fixpoint names {A} (p : parse A) : list string :=
  match p with Unit _ => [] | Rel n _ _ p q => n :: names p ++ names q end.
(** a relation has a nucleus *)
Fixpoint nuclear {A} (p : parse A) : Prop :=
  match p with Unit _ => True | Rel _ x y p q => ¬ (x = Sat ∧ y = Sat) ∧ nuclear p ∧ nuclear q end.
(** the tree a reader returns: relation nodes and N/S nodes alternate *)
Fixpoint parse_tree {A} (text : A → string) (p : parse A) : ntree :=
  match p with
  | Unit u => NLeaf (text u)
  | Rel n x y p q => NTree n [NTree (role_name x) [parse_tree text p]; NTree (role_name y) [parse_tree text q]]
  end.
(** the same, a single unit put under an N *)
Definition parse_doc {A} (text : A → string) (p : parse A) : ntree :=
  match p with Unit u => NTree "N" [NLeaf (text u)] | _ => parse_tree text p end.
(** the trees in the files.  HILDA: Contrast[S][N] over the units *)
Fixpoint hilda_form (p : parse string) : ntree :=
  match p with
  | Unit s => NLeaf s
  | Rel n x y p q => NTree (n +:+ "[" +:+ role_name x +:+ "][" +:+ role_name y +:+ "]") [hilda_form p; hilda_form q]
  end.
(** DPLP and StageDP: NS-elaboration over (EDU ...) *)
Fixpoint edu_form {A} (leaf : A → string) (p : parse A) : ntree :=
  match p with
  | Unit u => NTree "EDU" [NLeaf (leaf u)]
  | Rel n x y p q => NTree (role_name x +:+ role_name y +:+ "-" +:+ n) [edu_form leaf p; edu_form leaf q]
  end.
Definition one_line (s : string) : Prop := "010"%char ∉ chs s.
(** words joined by a separator *)
Fixpoint joined (sep : chars) (ws : list chars) : chars :=
  match ws with [] => [] | [w] => w | w :: ws => w ++ sep ++ joined sep ws end.

(** a unit of StageDP, _!tok_tok!_; the tokens <P> and <S> are marks *)
Definition stagedp_leaf (toks : list chars) : string := str (chs "_!" ++ joined ["_"%char] toks ++ chs "!_").
Definition unmarked (toks : list chars) : string :=
  str (join_words (filter (λ w : list ascii, w ≠ chs "<P>" ∧ w ≠ chs "<S>") toks)).

(** ** Bracketed text: any white space between label, children and bracket *)
Definition blanks (s : chars) : Prop := Forall (λ c, is_space c = true) s.
Inductive text_of : ntree → chars → Prop :=
| TO_leaf s : text_of (NLeaf s) (chs s)
| TO_node l ts pre ss post : blanks pre → Forall2 (λ t p, p.1 ≠ [] ∧ blanks p.1 ∧ text_of t p.2) ts ss → blanks post →
    text_of (NTree l ts) ("("%char :: pre ++ chs l ++ concat ((λ p : chars * chars, p.1 ++ p.2) <$> ss) ++ post ++ [")"%char]).
(** a file *)
Definition file_of (t : ntree) (s : chars) : Prop := ∃ a b c, s = a ++ b ++ c ∧ blanks a ∧ blanks c ∧ text_of t b.
(** strings that can be labels or leaves *)
Definition symbol (s : chars) : Prop := s ≠ [] ∧ Forall (λ c, c ≠ "("%char ∧ c ≠ ")"%char ∧ is_space c = false) s.

(** ** DPLP merge files: one row of tab separated fields per token, the tenth field is the
    number of the unit *)
Definition row_ok (fields : list chars) : Prop :=
  Forall (λ f, "009"%char ∉ f ∧ "010"%char ∉ f ∧ "013"%char ∉ f) fields ∧
  ∃ i, fields !! 9 = Some (chs (str_Z (Z.of_nat i))).
(** the tokens of the unit number i *)
Definition unit_tokens (rows : list (list chars)) (i : nat) : list chars :=
  (λ f : list chars, default [] (f !! 2)) <$> filter (λ f : list chars, f !! 9 = Some (chs (str_Z (Z.of_nat i)))) rows.
(** the text of a merge file: rows and empty lines, each ended by a line break *)
Definition merge_line (r : option (list chars)) : chars := match r with Some f => joined ["009"%char] f | None => [] end.
Inductive merge_text : list (option (list chars)) → chars → Prop :=
| MT_nil : merge_text [] []
| MT_line r rs eol s : eol = ["010"%char] ∨ eol = ["013"%char; "010"%char] → merge_text rs s →
    merge_text (r :: rs) (merge_line r ++ eol ++ s).

(** ** Heilman/Sagae parses *)
Inductive hs := HUnit (i : nat) | HNode (kids : list (role * string * hs)).
Definition hs_label (r : role) (name : string) : string := match r with Nuc => "nucleus:" | Sat => "satellite:" end +:+ name.
Fixpoint hs_kids (h : hs) : list ntree :=
  match h with
  | HUnit i => [NTree "text" [NLeaf (str_Z (Z.of_nat i))]]
  | HNode kids => map (λ k : role * string * hs, NTree (hs_label k.1.1 k.1.2) (hs_kids k.2)) kids
  end.
Definition hs_form (h : hs) : ntree := NTree "ROOT" (hs_kids h).
Definition nuclei (kids : list (role * string * hs)) : list (role * string * hs) := filter (λ k, k.1.1 = Nuc) kids.
Definition satellites (kids : list (role * string * hs)) : list (role * string * hs) := filter (λ k, k.1.1 = Sat) kids.
(** relation names are symbols; relations have one nucleus and satellites, or
    several nuclei; units are those of the document *)
Inductive hs_wf (n : nat) : hs → Prop :=
| HW_unit i : i < n → hs_wf n (HUnit i)
| HW_node kids : Forall (λ k : role * string * hs, symbol (chs k.1.2) ∧ hs_wf n k.2) kids →
    (length (nuclei kids) = 1 ∧ satellites kids ≠ []) ∨ (2 ≤ length (nuclei kids) ∧ satellites kids = []) →
    hs_wf n (HNode kids).
(** some nucleus has several satellites *)
Inductive several_sats : hs → Prop :=
| SS_here kids : 2 ≤ length (satellites kids) → several_sats (HNode kids)
| SS_below kids k : k ∈ kids → several_sats k.2 → several_sats (HNode kids).
(** a relation name as the documents write it: first letter upper case, the others lower case *)
Definition lower_case : chars := chs "abcdefghijklmnopqrstuvwxyz".
Definition upper_case : chars := chs "ABCDEFGHIJKLMNOPQRSTUVWXYZ".
Definition to_upper (c : ascii) : ascii := default c (dget c (zip lower_case upper_case)).
Definition to_lower (c : ascii) : ascii := default c (dget c (zip upper_case lower_case)).
Definition capitalized (s : string) : string :=
  str (match chs s with [] => [] | c :: r => to_upper c :: (to_lower <$> r) end).
(** the converted tree; [cap] turns the name of a relation into its label *)
Inductive hs_tree (cap : string → string) (docs : list (list chars)) : hs → ntree → Prop :=
| HT_unit i toks : docs !! i = Some toks → hs_tree cap docs (HUnit i) (NLeaf (str (join_words toks)))
| HT_multi kids us k rest : kids = k :: rest → rest ≠ [] → Forall (λ k : role * string * hs, k.1.1 = Nuc) kids →
    Forall2 (λ k u, hs_tree cap docs k.2 u) kids us →
    hs_tree cap docs (HNode kids) (NTree (cap k.1.2) ((λ u, NTree "N" [u]) <$> us))
| HT_nuc_sat x rel n s a b : hs_tree cap docs n a → hs_tree cap docs s b →
    hs_tree cap docs (HNode [(Nuc, x, n); (Sat, rel, s)]) (NTree (cap rel) [NTree "N" [a]; NTree "S" [b]])
| HT_sat_nuc x rel n s a b : hs_tree cap docs n a → hs_tree cap docs s b →
    hs_tree cap docs (HNode [(Sat, rel, s); (Nuc, x, n)]) (NTree (cap rel) [NTree "S" [b]; NTree "N" [a]]).
