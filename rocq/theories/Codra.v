(** * Codra: clean-up of the trees of the CODRA parser

    Model of readwrite/rst/dis/codra.py:10-35.  A CODRA file is read like a .dis file
    (read_dis of Dis.v); then the text of each unit is cleaned.  Texts are bytes. *)
From Verif Require Import PyBase DocGraph Relabel StrNum Query Text Rst Nltk Dis.

Definition dquote : ascii := "034"%char.
Definition backslash : ascii := "\"%char.
(** codra.py:12 TRIPLE_ESCAPE_RE *)
Definition triple_escape : chars := [backslash; backslash; backslash; dquote].
(** codra.py:30: EDU_START_RE.sub *)
Definition edu_start (s : chars) : chars := if is_prefix (chs "_!") s then drop 2 s else s.
(** codra.py:32: EDU_END_RE.sub; a dollar sign matches at the end and before a final line break *)
Fixpoint edu_end (s : chars) : chars :=
  match s with
  | [] => []
  | c :: s' => if decide (s = chs "_!" ∨ s = chs "_!" ++ [nl]) then drop 2 s else c :: edu_end s'
  end.
(** codra.py:28-34, the body of the loop *)
Definition cleanup_edu (s : string) : string :=
  str (edu_end (re_sub (lit triple_escape [dquote]) (edu_start (chs s)))).
(** codra.py:21-35: __init__ and cleanup_codra_edus *)
Definition read_codra (s : chars) : res ntree :=
  let! t := read_dis s in Ok (map_leaves cleanup_edu t).
