(** * Latex: RST trees as rst.sty figures

    Model of readwrite/rst/rstlatex.py.  Trees are nltk trees (Rst.v); text is ASCII,
    white space is that of [Rst.is_space]. *)
From Verif Require Import PyBase DocGraph Relabel StrNum Query Text Rst Nltk Parsers.

(** [l.splitlines(True)] of a unicode string *)
Definition line_break (c : ascii) : bool :=
  bool_decide (c ∈ ["010"%char; "011"%char; "012"%char; "028"%char; "029"%char; "030"%char]).
Fixpoint lines_keep (s : chars) : list chars :=
  match s with
  | [] => []
  | c :: s' =>
    if decide (c = cr) then
      match s' with
      | d :: s'' => if decide (d = nl) then [cr; nl] :: lines_keep s'' else [cr] :: lines_keep s'
      | [] => [[cr]]
      end
    else if line_break c then [c] :: lines_keep s'
    else match lines_keep s' with l :: ls => (c :: l) :: ls | [] => [[c]] end
  end.
(** rstlatex.py:206-213, indent and indent_tab *)
Definition indent_tab (s : chars) (n : nat) : chars := concat (map (λ l, replicate n tab ++ l) (lines_keep s)).

(** rstlatex.py:23: the name of a bundle of relations *)
Definition multisat : string := "MONONUC-MULTISAT".
(** [re.search] of a literal text *)
Fixpoint found (pat s : chars) : bool :=
  is_prefix pat s || match s with [] => false | _ :: s' => found pat s' end.
(** rstlatex.py:31 and 73-75, is_edu_segment: the pattern is \\(dirrel|multirel) *)
Definition is_edu_segment (s : chars) : bool := negb (found (chs "\dirrel") s || found (chs "\multirel") s).
(** rstlatex.py:25-29 and 78-80: the templates *)
Definition in_braces (s : chars) : chars := "{"%char :: s ++ ["}"%char].
Definition wrap_edu_segment (s : chars) : chars := chs "\rstsegment" ++ in_braces s.
Definition nuc_template (s : chars) : chars := in_braces [] ++ in_braces s.
Definition sat_template (rel : string) (s : chars) : chars := in_braces (chs rel) ++ in_braces s.
(** an element of a relation: [is_edu_segment] and [wrap_edu_segment] *)
Definition element (s : chars) : chars := if is_edu_segment s then wrap_edu_segment s else s.
Definition nl_tab : chars := [nl; tab].
(** one argument of a relation *)
Definition nucsat_arg (rel : string) (p : string * chars) : chars :=
  if decide (p.1 = "N") then nuc_template (element p.2) else sat_template rel (element p.2).
(** rstlatex.py:83-102, make_nucsat *)
Definition make_nucsat (rel : string) (types : list string) (elements : list chars) : res chars :=
  if decide (length elements = 2 ∧ length types = 2) then
    if decide ("N" ∈ types ∧ "S" ∈ types ∧ Forall (λ t, t = "N" ∨ t = "S") types) then
      Ok (chs "\dirrel" ++ concat (map (λ p, nl_tab ++ nucsat_arg rel p) (zip types elements)))
    else Err AssertionError
  else Err AssertionError.
(** rstlatex.py:105-114, make_multinuc: the join with "\n\t" in front of each part *)
Definition make_multinuc (rel : string) (nuclei : list chars) : chars :=
  chs "\multirel" ++ in_braces (chs rel) ++ match nuclei with
    | [] => nl_tab
    | _ => concat (map (λ s, nl_tab ++ in_braces (element s)) nuclei)
    end.
(** [sep.join(l)] *)
Fixpoint join_by (sep : chars) (l : list chars) : chars :=
  match l with
  | [] => []
  | [x] => x
  | x :: l => x ++ sep ++ join_by sep l
  end.
(** rstlatex.py:144-159: the satellites of the relations after the first one; [first] is
    the position of the nucleus in the first relation, [cur] its position in the result *)
Definition add_satellite (rel : string) (first : nat) (st : list chars * nat) (p : nat * (string * chars)) : list chars * nat :=
  if decide (p.2.1 = "N") then st
  else
    let seg := sat_template rel (element p.2.2) in
    if decide (p.1 < first) then (take st.2 st.1 ++ [seg] ++ drop st.2 st.1, S st.2) else (st.1 ++ [seg], st.2).
(** [l.index("N")] *)
Fixpoint index_N (l : list string) : option nat :=
  match l with
  | [] => None
  | x :: l => if decide (x = "N") then Some 0 else S <$> index_N l
  end.
Notation nucsat := (string * list string * list chars)%type.
(** rstlatex.py:117-161, make_multisat *)
Definition make_multisat (tuples : list nucsat) : res chars :=
  if decide (1 < length tuples) then
    match tuples with
    | [] => Err AssertionError
    | (rel, types, elements) :: rest =>
      let! pos := of_option ValueError (index_N types) in
      let segs := nucsat_arg rel <$> zip types elements in
      let r := foldl (λ st t, foldl (add_satellite t.1.1 pos) st (imap pair (zip t.1.2 t.2))) (segs, pos) rest in
      Ok (chs "\dirrel" ++ nl_tab ++ join_by nl_tab r.1)
    end
  else Err AssertionError.

(** [str(x)] of a leaf or a tree *)
Definition node_text (t : ntree) : chars := match t with NLeaf s => chs s | NTree _ _ => pformat 0 t end.
Definition is_ns (l : string) : Prop := l = "N" ∨ l = "S".
Global Instance is_ns_dec l : Decision (is_ns l).
Proof. unfold is_ns. apply _. Defined.
(** rstlatex.py:164-203, rsttree2rstlatex.  The results for the subtrees are computed
    first (they are values here, exceptions included); an exception is only raised where
    the code computes the subtree.  Line 200 has "\r" (a carriage return) in the template. *)
Fixpoint rsttree2rstlatex (t : ntree) (lvl : nat) : res chars :=
  match t with
  | NLeaf s => Ok (join_words (split_blanks (chs s)))
  | NTree l ts =>
    if decide (is_ns l) then
      match ts with
      | [] => Err IndexError
      | u :: _ => Ok (indent_tab (cr :: chs "stsegment" ++ in_braces (node_text u)) lvl)
      end
    else
      let subs := map (λ c, match c with NLeaf _ => [] | NTree _ us => map (λ u, rsttree2rstlatex u (S lvl)) us end) ts in
      let inner := map (λ c, match c with
        | NLeaf _ => []
        | NTree _ us => map (λ u, match u with
          | NLeaf _ => []
          | NTree _ es => map (λ e, match e with
            | NLeaf _ => Err AttributeError
            | NTree _ [] => Err IndexError
            | NTree _ (x :: _) => rsttree2rstlatex x 0 end) es end) us end) ts in
      let! types := rmap (λ c, match c with NLeaf _ => Err AssertionError | NTree k _ => if decide (is_ns k) then Ok k else Err AssertionError end) ts in
      let! strings := rmap (λ r, r) (concat subs) in
      if decide (types ≠ [] ∧ Forall (λ k, k = "N") types) then Ok (indent_tab (make_multinuc l strings) lvl)
      else if decide (l = multisat) then
        let rels := concat (map (λ c, match c with NLeaf _ => [] | NTree _ us => us end) ts) in
        let! names := rmap nlabel rels in
        let! nuctypes := rmap (λ r, match r with NLeaf _ => Err AttributeError | NTree _ es => rmap nlabel es end) rels in
        let! elements := rmap (λ es, rmap (λ r, r) es) (concat inner) in
        let! s := make_multisat (zip (zip names nuctypes) elements) in
        Ok (indent_tab s lvl)
      else if decide (length types = 2) then
        let! s := make_nucsat l types strings in Ok (indent_tab s lvl)
      else Err AssertionError
  end.
(** rstlatex.py:34-46 and 216-218, write_rstlatex *)
Definition write_rstlatex (t : ntree) : res chars := rsttree2rstlatex t 0.
