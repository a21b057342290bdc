(** * ConllRead: CoNLL 2009/2010 input

    Model of the import half of readwrite/conll.py (ConllDocumentGraph,
    traverse_dependencies_up).  Simplifications: the file is its text, made of bytes;
    white space is that of byte strings (Unicode has more); [name] is the name of the document after the default was
    applied.  The attribute "tokens" of sentence number i is the list object i: the
    model keeps the contents of these lists beside the graph. *)
From Verif Require Import PyBase DocGraph Relabel StrNum Query Text Rst Nltk Parsers Anaphora Conano Decour Brat.

(** conll.py:56-75 *)
Definition columns_2009 : list string :=
  ["word_id"; "token"; "lemma"; "plemma"; "pos"; "ppos"; "feat"; "pfeat"; "head"; "phead"; "deprel"; "pdeprel"; "fillpred"; "pred"].
Definition columns_2010 : list string :=
  ["word_id"; "token"; "lemma"; "plemma"; "pos"; "ppos"; "feat"; "pfeat"; "head"; "phead"; "deprel"; "pdeprel"; "ne"; "pne"; "pred"; "ppred"; "coref"].
(** conll.py:77-87; no value is in two of the sets, so that the order of the
    categories does not matter *)
Definition morphological_features : list (string * list string) :=
  [("gender", ["Masc"; "Fem"; "Neut"]); ("person", ["1"; "2"; "3"]); ("number", ["Sg"; "Pl"]); ("case", ["Nom"; "Gen"; "Dat"; "Acc"]);
   ("degree", ["Pos"; "Comp"; "Sup"]); ("tense", ["Pres"; "Past"]); ("mood", ["Ind"; "Subj"]); ("finiteness", ["Inf"; "Psp"; "Imp"; "Infzu"])].
(** the parameters conll_format, deprel_attr, feat_attr, head_attr *)
Record conll_options := ConllOptions { co_format : string; co_deprel : string; co_feat : string; co_head : string }.
Definition conll_columns (fmt : string) : list string := if decide (fmt = "2009") then columns_2009 else columns_2010.

(** [s.split("\n\n")] *)
Fixpoint split_paragraphs (s : chars) : list chars :=
  match s with
  | [] => [[]]
  | c :: s1 =>
    match s1 with
    | d :: s2 => if decide (c = nl ∧ d = nl) then [] :: split_paragraphs s2
                 else match split_paragraphs s1 with p :: ps => (c :: p) :: ps | [] => [[c]] end
    | [] => [[c]]
    end
  end.

(** [int(s)]: blanks around the number are ignored *)
Definition int_of (s : chars) : res Z := py_int (strip s).
(** conll.py:302-311, add_val_only_features *)
Fixpoint conll_category (cats : list (string * list string)) (v : string) : option string :=
  match cats with
  | [] => None
  | (c, vs) :: cats => if decide (v ∈ vs) then Some c else conll_category cats v
  end.
Definition val_only_feature (ns : string) (v : chars) (d : attrs) : res attrs :=
  match conll_category morphological_features (str v) with
  | None => Ok d
  | Some c => if decide (c = "person") then let! z := int_of v in Ok (dset (ns +:+ ":" +:+ c) (VInt z) d)
              else Ok (dset (ns +:+ ":" +:+ c) (VStr (str (lower v))) d)
  end.
(** conll.py:313-324, add_attrib_val_features: a ValueError skips the feature *)
Definition attrib_val_feature (ns : string) (v : chars) (d : attrs) : attrs :=
  match split_char "="%char v with
  | [attrib; val] =>
    let key := ns +:+ ":" +:+ str attrib in
    if decide (attrib = chs "person") then match int_of val with Ok z => dset key (VInt z) d | Err _ => d end
    else if decide (val = chs "*") then d else dset key (VStr (str val)) d
  | _ => d
  end.
(** conll.py:284-335, __add_morph_features with the format 'unknown' *)
Definition morph_features (ns : string) (s : chars) (d : attrs) : res attrs :=
  if decide ("="%char ∈ s) then Ok (foldl (λ d v, attrib_val_feature ns v d) d (split_char "|"%char s))
  else rfold (λ d v, val_only_feature ns v d) d (split_char "|"%char s).

(** a row: the columns and their values *)
Definition conll_row_dict (fmt : string) (fields : list chars) : dict string string := zip (conll_columns fmt) (str <$> fields).
(** conll.py:181-199, one line: None for a comment; a namedtuple needs the right
    number of values *)
Definition conll_parse_line (fmt : string) (line : chars) : res (option (dict string string)) :=
  match line with
  | "#"%char :: _ => Ok None
  | _ =>
    let fields := split_char tab line in
    let fields := if decide (fmt = "2009") then take 14 fields else fields in
    if decide (length fields = length (conll_columns fmt)) then Ok (Some (conll_row_dict fmt fields)) else Err TypeError
  end.
(** conll.py:239-249: the attributes of a token *)
Definition conll_feats (o : conll_options) (ns : string) (word : dict string string) : res attrs :=
  let! i := of_option AttributeError (dget "word_id" word) in
  let! t := of_option AttributeError (dget "token" word) in
  let! z := int_of (chs i) in
  let feats := dupdate ((λ p : string * string, (p.1, VStr p.2)) <$> word) [(ns +:+ ":token", VStr t); ("label", VStr t); ("word_pos", VInt z)] in
  let! f := of_option KeyError (dget (co_feat o) feats) in
  match f with
  | VStr f => morph_features ns (chs f) feats
  | _ => Err TypeError
  end.
(** '{0}_t{1}' *)
Definition conll_token_id (sent word : string) : string := sent +:+ "_t" +:+ word.
(** the graph and the tokens of the sentence *)
Notation cstate := (graph * list nid)%type.
(** conll.py:226-254, __add_token *)
Definition conll_add_token (o : conll_options) (i : nat) (sent : string) (word : dict string string) (s : cstate) : cstate * option exc :=
  let '(g, ts) := s in
  match (let! w := of_option AttributeError (dget "word_id" word) in let! feats := conll_feats o (g_ns g) word in Ok (NStr (conll_token_id sent w), feats)) with
  | Err e => (s, Some e)
  | Ok (t, feats) =>
    match add_node g t (VSet [g_ns g; g_ns g +:+ ":token"]) (Some feats) [("sent_pos", VInt (Z.of_nat i))] with
    | (g, Some e) => ((g, ts), Some e)
    | (g, None) => ((set_tokens (g_tokens g ++ [t]) g, ts ++ [t]), None)
    end
  end.
(** conll.py:256-282, __add_dependency: an AssertionError of add_edge is printed *)
Definition conll_add_dependency (o : conll_options) (sent : string) (word : dict string string) (g : graph) : outcome :=
  match (let! h := of_option AttributeError (dget (co_head o) word) in
         let! d := of_option AttributeError (dget (co_deprel o) word) in
         let! w := of_option AttributeError (dget "word_id" word) in Ok (h, d, w)) with
  | Err e => (g, Some e)
  | Ok (h, d, w) =>
    let source := NStr (if decide (h = "0") then sent else conll_token_id sent h) in
    match (if decide (h = "0" ∨ source ∈ nodes g) then (g, None) else add_node g source (VSet [g_ns g]) None []) with
    | (g, Some e) => (g, Some e)
    | (g, None) =>
      match add_edge g source (NStr (conll_token_id sent w)) (VSet [g_ns g; g_ns g +:+ ":dependency"]) None None
              [("relation_type", VStr d); ("label", VStr d); ("edge_type", VStr dominates)] with
      | (g, Some AssertionError) => (g, None)
      | r => r
      end
    end
  end.
(** conll.py:171-173 and 181-199: one line of a sentence *)
Definition conll_line (o : conll_options) (i : nat) (sent : string) (line : chars) (s : cstate) : cstate * option exc :=
  match conll_parse_line (co_format o) line with
  | Err e => (s, Some e)
  | Ok None => (s, None)
  | Ok (Some word) =>
    match conll_add_token o i sent word s with
    | (s, Some e) => (s, Some e)
    | ((g, ts), None) => let r := conll_add_dependency o sent word g in ((r.1, ts), r.2)
    end
  end.
(** conll.py:201-224, __add_sentence_root_node *)
Definition conll_sentence_node (i : nat) (g : graph) : graph * option exc :=
  let sent := "s" +:+ str_Z (Z.of_nat i) in
  match add_node g (NStr sent) (VSet [g_ns g; g_ns g +:+ ":sentence"]) None [("tokens", VObj i)] with
  | (g, Some e) => (g, Some e)
  | (g, None) =>
    match add_edge g (g_root g) (NStr sent) (VSet [g_ns g; g_ns g +:+ ":sentence"]) None None [("edge_type", VStr dominates)] with
    | (g, Some e) => (g, Some e)
    | (g, None) => (set_sentences (g_sentences g ++ [NStr sent]) g, None)
    end
  end.
(** the graph and the lists of tokens of the sentences *)
Notation fstate := (graph * list (list nid))%type.
(** conll.py:169-173: the loop over the sentences, numbered from [i] *)
Fixpoint conll_sentences (o : conll_options) (i : nat) (sents : list chars) (s : fstate) : fstate * option exc :=
  match sents with
  | [] => (s, None)
  | sent :: sents =>
    match conll_sentence_node i s.1 with
    | (g, Some e) => ((g, s.2), Some e)
    | (g, None) =>
      match loop (conll_line o i ("s" +:+ str_Z (Z.of_nat i))) (split_char nl sent) (g, []) with
      | ((g, ts), Some e) => ((g, s.2 ++ [ts]), Some e)
      | ((g, ts), None) => conll_sentences o (S i) sents (g, s.2 ++ [ts])
      end
    end
  end.
(** conll.py:108-179, __init__ and _parse_conll *)
Definition read_conll (name ns : string) (o : conll_options) (precedence : bool) (text : chars) : fstate * option exc :=
  let root := NStr (ns +:+ ":root_node") in
  match add_node (set_document name ns root (init_graph "" "discoursegraph" None)) root (VSet [ns]) None [] with
  | (g, Some e) => ((g, []), Some e)
  | (g, None) =>
    if decide (co_format o ∈ ["2009"; "2010"]) then
      match conll_sentences o 1 (split_paragraphs (strip text)) (g, []) with
      | (s, Some e) => (s, Some e)
      | ((g, ls), None) => let r := if precedence then add_precedence_relations g else (g, None) in ((r.1, ls), r.2)
      end
    else ((g, []), Some AssertionError)
  end.
(** the attribute "tokens" of a sentence node *)
Definition sentence_tokens (s : fstate) (n : nid) : res (list nid) :=
  let! a := of_option KeyError (node_attrs s.1 n) in
  let! v := of_option KeyError (dget "tokens" a) in
  match v with VObj i => of_option IndexError (s.2 !! (i - 1)) | _ => Err TypeError end.

(** conll.py:480-497, traverse_dependencies_up, as the list of what it yields.
    [node_attr] defaults to docgraph.lemma_attr. *)
Fixpoint traverse_up (fuel : nat) (g : graph) (n : nid) (attr : string) : res (list pyval) :=
  match fuel with
  | O => Err OutOfFuel
  | S fuel =>
    let! e := of_option IndexError (head (in_edges g n)) in
    let src := e.1.1.1 in
    let! a := of_option KeyError (node_attrs g src) in
    let here := match dget attr a with Some v => if truthy v then [v] else [] | None => [] end in
    let! b := istoken g src in
    let! rest := if b then traverse_up fuel g src attr else Ok [] in
    Ok (here ++ rest)
  end.
