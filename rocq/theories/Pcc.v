(** * Pcc: access to the documents of the Potsdam Commentary Corpus

    Model of corpora.py:31-117.  The file system is given: [tok] are the tokenization files, [layers]
    the layers with their files (in the order of the dictionary), [read] reads a file of a layer.
    The property document_ids uses the module's own corpus [pcc]; here it is the same corpus.
    File names are bytes without newlines.  Slices and random documents are not modelled. *)
From Verif Require Import PyBase DocGraph Relabel StrNum Parsers Merging.

Fixpoint prefixb (p s : chars) : bool :=
  match p, s with
  | [], _ => true
  | _ :: _, [] => false
  | c :: p', x :: s' => if decide (c = x) then prefixb p' s' else false
  end.
Fixpoint contains (p s : chars) : bool := if prefixb p s then true else match s with [] => false | _ :: s' => contains p s' end.
(** corpora.py:97: fnmatch(layer_file, '*<id>.*') for an [id] without wildcards *)
Definition fnmatch_id (d f : chars) : bool := contains (d ++ ["."%char]) f.
(** os.path.basename *)
Fixpoint basename (s : chars) : chars :=
  match s with
  | [] => []
  | c :: s' => if decide ("/"%char ∈ s') then basename s' else if decide (c = "/"%char) then s' else s
  end.
Fixpoint digit_run (s : chars) : chars * chars :=
  match s with
  | [] => ([], [])
  | c :: s' => if is_digit c then let '(a, b) := digit_run s' in (c :: a, b) else ([], s)
  end.
(** corpora.py:31: PCC_DOCID_RE; the leading [.*] is greedy, so the last match counts *)
Definition docid_at (s : chars) : option chars :=
  if prefixb (chs "maz-") s then
    match digit_run (drop 4 s) with
    | (c :: a, x :: _) => if decide (x = "."%char) then Some (chs "maz-" ++ c :: a) else None
    | _ => None
    end
  else None.
Fixpoint docid (s : chars) : option chars :=
  match s with
  | [] => None
  | _ :: s' => match docid s' with Some d => Some d | None => docid_at s end
  end.
(** corpora.py:78-83 *)
Definition document_ids (tok : list chars) : res (list chars) :=
  let! ds := rmap (λ f, of_option AttributeError (docid (basename f))) tok in
  Ok (isort (lexcmp ascii_cmp) ds).
(** corpora.py:85-87 *)
Definition corpus_len (tok : list chars) : res nat := let! ids := document_ids tok in Ok (length ids).

Section corpus.
  Context (read : string → chars → res graph) (layers : list (string * list chars)) (tok : list chars).
  (** the files that match the id, in all layers *)
  Definition selected (d : chars) : list (string * chars) :=
    concat ((λ p : string * list chars, pair p.1 <$> filter (λ f, fnmatch_id d f = true) p.2) <$> layers).
  (** corpora.py:89-107 *)
  Inductive get_document (d : chars) : res graph → Prop :=
  | GD_read e : rmap (λ p : string * chars, read p.1 p.2) (selected d) = Err e → get_document d (Err e)
  | GD_none : selected d = [] → get_document d (Err TypeError)
  | GD_merge gs g : rmap (λ p : string * chars, read p.1 p.2) (selected d) = Ok gs → merge_layers gs (g, None) → get_document d (Ok g)
  | GD_fail gs g e : rmap (λ p : string * chars, read p.1 p.2) (selected d) = Ok gs → merge_layers gs (g, Some e) → get_document d (Err e).
  (** corpora.py:109-117, by index *)
  Inductive get_item (i : Z) : res graph → Prop :=
  | GI_ids e : document_ids tok = Err e → get_item i (Err e)
  | GI_range ids e : document_ids tok = Ok ids → py_nth ids i = Err e → get_item i (Err e)
  | GI_doc ids d r : document_ids tok = Ok ids → py_nth ids i = Ok d → get_document d r → get_item i r.
End corpus.
