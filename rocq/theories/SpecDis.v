(** * SpecDis: vocabulary of the .dis properties *)
From Verif Require Import PyBase DocGraph Relabel StrNum Query Text SpecText Rst SpecRst.

(** ** What can be written to a .dis file *)
(** text that contains an escape sequence for a bracket, or would after the
    brackets of the text are escaped *)
Definition looks_escaped (s : chars) : Prop := ∃ x y,
  (x ∈ ["-"%char; "("%char; ")"%char] ∧ y ∈ ["-"%char; "("%char; ")"%char] ∧ occurs (x :: chs "LRB" ++ [y]) s) ∨
  (x ∈ ["-"%char; ")"%char] ∧ y ∈ ["-"%char; ")"%char] ∧ occurs (x :: chs "RRB" ++ [y]) s).
(** the text of a unit: words separated by single blanks; neither the mark _!
    nor the comment )//TT_ERR nor an escape sequence occurs in it *)
Record dis_text (s : string) : Prop := {
  dt_normal : normal_text s;
  dt_mark : ¬ occurs (chs "_!") (chs s);
  dt_err : ¬ occurs (chs ")//TT_ERR") (chs s);
  dt_esc : ¬ looks_escaped (chs s);
}.
(** the name of a relation: a word without brackets *)
Record dis_name (s : string) : Prop := {
  dn_word : is_word (chs s);
  dn_brackets : "("%char ∉ chs s ∧ ")"%char ∉ chs s;
  dn_mark : ¬ occurs (chs "_!") (chs s);
  dn_esc : ¬ looks_escaped (chs s);
  dn_nuc : s ≠ "N" ∧ s ≠ "S";
}.

(** ** What a .dis tree says about the units i..j *)
Definition number (n : nat) : ntree := NLeaf (str_Z (Z.of_nat n)).
(** the node of the unit number i of the text *)
Inductive dis_unit (units : list string) (i : nat) : ntree → Prop :=
| DU s lab rel ws : units !! (i - 1) = Some s → 1 ≤ i → lab = "Nucleus" ∨ lab = "Satellite" →
    ws ≠ [] → Forall is_word ws → chs s = join_words ws →
    (* the words with _! before the first and after the last *)
    ∀ ms, join_words (chs <$> ms) = chs "_!" ++ join_words ws ++ chs "_!" → length ms = length ws →
    dis_unit units i (NTree lab [NTree "leaf" [number i]; NTree "rel2par" [NLeaf rel]; NTree "text" (NLeaf <$> ms)]).
(** a node over the units i..j, and nodes that cover i..j one after the other *)
Inductive dis_node (units : list string) : nat → nat → ntree → Prop :=
| DN_leaf i t : dis_unit units i t → dis_node units i i t
| DN_span i j lab rel ts : i < j → lab = "Nucleus" ∨ lab = "Satellite" → dis_nodes units i j ts →
    dis_node units i j (NTree lab (NTree "span" [number i; number j] :: NTree "rel2par" [NLeaf rel] :: ts))
with dis_nodes (units : list string) : nat → nat → list ntree → Prop :=
| DN_one i j t : dis_node units i j t → dis_nodes units i j [t]
| DN_more i k j t ts : dis_node units i k t → dis_nodes units (S k) j ts → dis_nodes units i j (t :: ts).

(** ** The .dis form of a tree *)
(** the span of the units i..j *)
Definition units_span (i j : nat) : ntree := if decide (i = j) then NTree "leaf" [number i] else NTree "span" [number i; number j].
Definition node (role rel : string) (i j : nat) (ts : list ntree) : ntree :=
  NTree role (units_span i j :: NTree "rel2par" [NLeaf rel] :: ts).
(** [written r i j ts]: the trees [ts] are the .dis form of [r], whose units
    have the numbers i..j.  A satellite bears the relation to its nucleus, the
    nucleus is marked span; all nuclei of a multinuclear relation bear it. *)
Inductive written : rst → nat → nat → list ntree → Prop :=
| W_unit i s ws ms : ws ≠ [] → Forall is_word ws → chs s = join_words ws →
    join_words (chs <$> ms) = chs "_!" ++ join_words ws ++ chs "_!" → length ms = length ws →
    written (Edu s) i i [NTree "text" (NLeaf <$> ms)]
| W_nuc_sat rel n s i k j ts us : written n i k ts → written s (S k) j us →
    written (Mono rel true n s) i j [node "Nucleus" "span" i k ts; node "Satellite" rel (S k) j us]
| W_sat_nuc rel n s i k j ts us : written s i k ts → written n (S k) j us →
    written (Mono rel false n s) i j [node "Satellite" rel i k ts; node "Nucleus" "span" (S k) j us]
| W_multi rel l i j ts : written_all rel l i j ts → written (Multi rel l) i j ts
with written_all : string → list rst → nat → nat → list ntree → Prop :=
| WA_one rel r i j ts : written r i j ts → written_all rel [r] i j [node "Nucleus" rel i j ts]
| WA_more rel r l i k j ts us : written r i k ts → written_all rel l (S k) j us →
    written_all rel (r :: l) i j (node "Nucleus" rel i k ts :: us).
