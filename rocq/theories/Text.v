(** * Text: the string functions of util.py, readwrite/generic.py, mmax2.py,
    dot.py and exmaralda.py

    Strings are ASCII byte strings (Python 2 [str]); [chars] is a list of
    characters. *)
From Verif Require Import PyBase DocGraph Relabel StrNum Query.

Definition nl : ascii := "010"%char.
Definition dquote : ascii := """"%char.
Definition backslash : ascii := "\"%char.

(** ** str.split, int() *)
(** [s.split(c)] for a one-character separator *)
Fixpoint split_char (c : ascii) (s : chars) : list chars :=
  match s with
  | [] => [[]]
  | x :: s' =>
    if decide (x = c) then [] :: split_char c s'
    else match split_char c s' with p :: ps => (x :: p) :: ps | [] => [[x]] end
  end.
(** [s.split('..')] *)
Fixpoint split_dots (s : chars) : list chars :=
  match s with
  | [] => [[]]
  | x :: s' =>
    match s' with
    | y :: s'' =>
      if decide (x = "."%char ∧ y = "."%char) then [] :: split_dots s''
      else match split_dots s' with p :: ps => (x :: p) :: ps | [] => [[x]] end
    | [] => [[x]]
    end
  end.
(** [int(s)]: optional sign and decimal digits.  Python also strips blanks;
    such strings are ValueError here. *)
Definition all_digits_b (s : chars) : bool := forallb is_digit s.
Definition py_int (s : chars) : res Z :=
  let digits d := if decide (d = []) then Err ValueError
                  else if all_digits_b d then Ok (Z.of_N (dec_val d)) else Err ValueError in
  match s with
  | "-"%char :: d => let! n := digits d in Ok (- n)%Z
  | "+"%char :: d => digits d
  | d => digits d
  end.

(** ** MMAX2 span strings *)
(** generic.py:189-201, one element of the comma separated list *)
Definition underscore : ascii := "_"%char.
Definition span_part (span : chars) : res (list chars) :=
  match split_dots span with
  | [w] => Ok [w]
  | [st; en] =>
    match split_char underscore st, split_char underscore en with
    | [p; i], [q; j] =>
      if decide (p = q) then
        let! i := py_int i in let! j := py_int j in
        Ok ((λ z, p ++ underscore :: chs (str_Z z)) <$> xrange i (j + 1))
      else Err AssertionError
    | _, _ => Err ValueError (* tuple unpacking *)
    end
  | _ => Err ValueError
  end.
(** generic.py:158-210, convert_spanstring *)
Definition convert_spanstring (s : chars) : res (list chars) :=
  match s with
  | [] => Ok []
  | _ =>
    let! tokens := rconcat span_part (split_char ","%char s) in
    match tokens with
    | [] => Err IndexError
    | t0 :: _ =>
      let first_prefix := default [] (head (split_char underscore t0)) in
      if forallb (λ t, match split_char underscore t with
                       | [p; _] => bool_decide (p = first_prefix) | _ => false end) tokens
      then Ok tokens else Err AssertionError
    end
  end.
(** mmax2.py:361-403, spanstring2tokens; [renamed] is the dict renamed_nodes,
    [None] if the graph has no such attribute *)
Definition spanstring2tokens (g : graph) (renamed : option (dict nid nid)) (s : chars) : res (list nid) :=
  let! tokens := convert_spanstring s in
  Ok (t ← tokens;
      let n := NStr (str t) in
      if dmem n (g_node g) then [n]
      else match renamed with
           | None => []
           | Some d => match dget n d with
                       | Some m => if dmem m (g_node g) then [m] else []
                       | None => [] end
           end).
(** mmax2.py:416-444, sort_sentences_by_token_order; [IndexError] for a
    sentence without tokens *)
Definition first_token (p : nid * list nid) : nid := default (NStr "") (head p.2).
Definition sort_sentences (roots : list nid) (toks : list (list nid)) : res (list (nid * list nid)) :=
  let l := zip roots toks in
  if forallb (λ p : nid * list nid, negb (bool_decide (p.2 = []))) l
  then Ok (isort (λ p q, nat_cmp (first_token p) (first_token q)) l)
  else Err IndexError.

(** ** pydot quoting *)
(** dot.py:20-28, quote_for_pydot (of a string) *)
Definition quote_for_pydot (s : chars) : chars :=
  dquote :: (c ← s; if decide (c = dquote) then [backslash; dquote] else [c]) ++ [dquote].
(** [s.replace('\\"', '"')] *)
Fixpoint unescape (s : chars) : chars :=
  match s with
  | [] => []
  | x :: s' =>
    match s' with
    | y :: s'' => if decide (x = backslash ∧ y = dquote) then dquote :: unescape s'' else x :: unescape s'
    | [] => [x]
    end
  end.
(** [re.match('^"( .* )"$', s).groups()[0]] (without the blanks): the dot does
    not match a line break, [$] also matches before a final one *)
Definition unwrap (s : chars) : option chars :=
  let body := match reverse s with
              | c :: r => if decide (c = nl) then reverse r else s
              | [] => [] end in
  match body with
  | c :: t => if decide (c = dquote) then
                match reverse t with
                | d :: r => if decide (d = dquote ∧ nl ∉ r) then Some (reverse r) else None
                | [] => None
                end
              else None
  | [] => None
  end.
(** dot.py:31-35, unquote_from_pydot; no match is AttributeError (None.groups) *)
Definition unquote_from_pydot (s : chars) : res chars :=
  match unwrap s with Some b => Ok (unescape b) | None => Err AttributeError end.

(** ** Ids *)
(** util.py:144-166, ensure_xpointer_compatibility *)
Definition xpointer_str (s : chars) : chars := (λ c, if decide (c = ":"%char) then underscore else c) <$> s.
Definition ensure_xpointer_compatibility (n : nid) : nid :=
  match n with NInt z => NInt z | NStr s => NStr (str (xpointer_str (chs s))) end.
(** util.py:169-192, add_prefix, dict comprehension in the order of items *)
Definition add_prefix {V} (d : dict string V) (prefix : string) : dict string V :=
  foldl (λ acc p, dset (prefix +:+ p.1) p.2 acc) [] d.

(** ** EXMARaLDA *)
(** exmaralda.py:426-428, tokenid2index *)
Definition tokenid2index (t : chars) : res Z := py_int (tail t).
(** exmaralda.py:437-449, gen_token_range *)
Definition gen_token_range (start stop : chars) : res (list chars) :=
  let! i := tokenid2index start in
  let! j := tokenid2index stop in
  Ok ((λ z, "T"%char :: chs (str_Z z)) <$> xrange i j).

(** ** Replacing several strings in one pass *)
(** util.py:389-397: [re.compile('|'.join(map(re.escape, adict)))]: at a
    position the alternatives are tried in the order of the dict. *)
Definition is_prefix (k s : chars) : bool := bool_decide (take (length k) s = k).
Fixpoint first_key (d : list (chars * chars)) (s : chars) : option (chars * chars) :=
  match d with
  | [] => None
  | (k, v) :: d' => if is_prefix k s then Some (k, v) else first_key d' s
  end.
(** [rx.sub(one_xlat, text)] for non-empty keys; [skip] characters of a match
    remain to be passed over *)
Fixpoint xlat (d : list (chars * chars)) (skip : nat) (s : chars) : chars :=
  match s with
  | [] => []
  | c :: s' =>
    match skip with
    | S k => xlat d k s'
    | O => match first_key d s with
           | Some (k, v) => v ++ xlat d (length k - 1) s'
           | None => c :: xlat d 0 s'
           end
    end
  end.
(** util.py:378-397.  The pattern of an empty dict is the empty pattern: it
    matches at position 0 and the lookup of '' fails.  An empty key matches
    everywhere and is outside the model (NotImplementedError). *)
Definition multiple_replace (d : list (chars * chars)) (s : chars) : res chars :=
  match d with
  | [] => Err KeyError
  | _ => if existsb (λ p : chars * chars, bool_decide (p.1 = [])) d then Err NotImplementedError
         else Ok (xlat d 0 s)
  end.

(** ** make_labels_explicit *)
(** [u"{0}_{1}".format(label, x)]: labels are strings or ints *)
Definition fmt (v : pyval) : res string :=
  match v with VStr s => Ok s | VInt z => Ok (str_Z z) | _ => Err NotImplementedError end.
(** util.py:296-301 *)
Definition explicit_nodes (g : graph) : res graph :=
  let! l := rmap (λ p : nid * attrs,
    match dget "label" p.2 with
    | None => Ok p
    | Some v => let! s := fmt v in
                Ok (p.1, dset "label" (VStr (s +:+ "_" +:+ nid_str p.1)) p.2)
    end) (g_node g) in
  Ok (set_node l g).
(** util.py:304-309, the inner loop over the keys of (from, to), the data dict
    of the outer loop being the one stored under key [k0]: it is read again
    after each write because the dict is shared. *)
Definition explicit_keydict1 (k0 : nid) (kd : dict nid attrs) (k : nid) : res (dict nid attrs) :=
  let e := default [] (dget k0 kd) in
  let a := default [] (dget k kd) in
  let! ty := of_option KeyError (dget "edge_type" e) in
  if dmem "label" a then
    let! lab := of_option KeyError (dget "label" e) in
    let! s := fmt lab in let! t := fmt ty in
    Ok (dset k (dset "label" (VStr (s +:+ "_" +:+ t)) a) kd)
  else Ok (dset k (dset "label" ty a) kd).
Fixpoint rfold {A B} (f : A → B → res A) (a : A) (l : list B) : res A :=
  match l with [] => Ok a | x :: l' => let! a' := f a x in rfold f a' l' end.
(** util.py:303-311: the outer loop visits every edge, hence a pair with
    several edges several times *)
Definition explicit_keydict (kd : dict nid attrs) : res (dict nid attrs) :=
  rfold (λ kd k0, rfold (explicit_keydict1 k0) kd (dkeys kd)) kd (dkeys kd).
Definition explicit_edges (g : graph) : res graph :=
  let! s := rmap (λ p : nid * dict nid (dict nid attrs),
      let! nb := rmap (λ q : nid * dict nid attrs, let! kd := explicit_keydict q.2 in Ok (q.1, kd)) p.2 in
      Ok (p.1, nb)) (g_succ g) in
  Ok (set_succ s g).
(** util.py:278-312 *)
Definition make_labels_explicit (g : graph) : res graph :=
  let! g1 := explicit_nodes g in explicit_edges g1.
