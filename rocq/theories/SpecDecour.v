(** * SpecDecour: vocabulary of C44, court transcripts *)
From Verif Require Import PyBase DocGraph Relabel StrNum Query SpecGraph SpecQuery SpecParse SpecImport SpecAnaphora SpecOutline Conano SpecConano.

(** the child elements with this tag *)
Definition children (tag : string) (x : xml) : list xml := filter (λ k, x_tag k = tag) (x_kids x).
(** the words of the text of an element (before any child element) *)
Definition spoken (x : xml) (ws : list chars) : Prop := ∃ text, x_text x = Some text ∧ words_in text ws.
Definition unit_layers (ns : string) : list string := [ns; ns +:+ ":unit"].
(** words with the normalised forms, lemmas and part-of-speech tags in the same
    positions; further ones are ignored *)
Inductive tagged_words (ns : string) : list chars → list chars → list chars → list chars → list item → Prop :=
| TW_nil n l p : tagged_words ns [] n l p []
| TW_cons w ws a n b l c p its : tagged_words ns ws n l p its →
    tagged_words ns (w :: ws) (a :: n) (b :: l) (c :: p)
      (IWord (str w) [(ns +:+ ":norm", VStr (str a)); (ns +:+ ":lemma", VStr (str b)); (ns +:+ ":pos", VStr (str c))] :: its).
(** an utterance: its words and three child elements with the annotations *)
Inductive utterance_content (ns : string) : xml → item → Prop :=
| UC x nr n l p ws norm lemma pos its : dget "nrgen" (x_attrib x) = Some nr → x_kids x = [n; l; p] →
    spoken x ws → spoken n norm → spoken l lemma → spoken p pos → tagged_words ns ws norm lemma pos its →
    utterance_content ns x (INode ("utterance_" +:+ nr) (unit_layers ns) its).
(** the act of a turn: the first act element; acts are numbered *)
Inductive turn_act (ns : string) (k : Z) (x : xml) : Z → list item → Prop :=
| TA_none : children "act" x = [] → turn_act ns k x k []
| TA_first a more ws : children "act" x = a :: more → spoken a ws →
    turn_act ns k x (k + 1) [INode ("act_" +:+ str_Z k) (unit_layers ns) (word_items ws)].
Inductive turns_content (ns : string) : Z → list xml → list item → Prop :=
| TC_nil k : turns_content ns k [] []
| TC_cons k x nr k' act uts xs its : dget "nrgen" (x_attrib x) = Some nr → turn_act ns k x k' act →
    Forall2 (utterance_content ns) (children "utterance" x) uts → turns_content ns k' xs its →
    turns_content ns k (x :: xs) (INode ("turn_" +:+ nr) (unit_layers ns) (act ++ uts) :: its).
(** an optional part of the document *)
Inductive conclusion (ns : string) (x : xml) : list item → Prop :=
| CO_none : children "conclu" x = [] → conclusion ns x []
| CO_first c more ws : children "conclu" x = c :: more → spoken c ws → conclusion ns x [INode "conclu" (unit_layers ns) (word_items ws)].
Inductive decour_content (ns : string) (x : xml) : list item → Prop :=
| DC i more ws turns end_ : children "intro" x = i :: more → spoken i ws →
    turns_content ns 1 (children "turn" x) turns → conclusion ns x end_ →
    decour_content ns x (INode "intro" (unit_layers ns) (word_items ws) :: turns ++ end_).

Definition decour_root (ns : string) : nid := NStr (ns +:+ ":root_node").
Definition decour_style (ns : string) : style := Style "token_" [ns; ns +:+ ":discourse"] [ns; ns +:+ ":unit"].
(** the root node; a node that the class DiscourseDocumentGraph creates is left over *)
Definition decour_base (ns : string) : list node_info :=
  (if decide (ns = "discoursegraph") then [] else [(NStr "discoursegraph:root_node", ["discoursegraph"], [])]) ++ [(decour_root ns, [ns], [])].
Definition decour_parts (ns : string) (items : list item) : list (list nid * nid * part) := outline_parts (decour_style ns) (decour_root ns) items.
(** the numbers of all turns, and of all utterances *)
Definition turn_numbers (x : xml) : list (option string) := (λ t, dget "nrgen" (x_attrib t)) <$> children "turn" x.
Definition utterance_numbers (x : xml) : list (option string) :=
  t ← children "turn" x; (λ u, dget "nrgen" (x_attrib u)) <$> children "utterance" t.
