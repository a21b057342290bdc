(** * Nltk: trees as text

    The nltk functions that the readers and writers of bracketed files call
    (nltk 3, nltk/tree.py; not part of /repo, modelled from its source) and
    [re.sub] as a left-to-right scan.  Strings are ASCII; the white space
    characters are those of [is_space]. *)
From Verif Require Import PyBase DocGraph Relabel StrNum Query Text Rst.

(** ** re.sub(pattern, f, s) for patterns without empty matches *)
(** [m s] is [Some (n, out)] if the pattern matches S n characters at the
    beginning of [s] and [out] is the replacement *)
Fixpoint scan (m : chars → option (nat * chars)) (skip : nat) (s : chars) : chars :=
  match s with
  | [] => []
  | c :: s' =>
    match skip with
    | S k => scan m k s'
    | O => match m s with
           | Some (n, out) => out ++ scan m n s'
           | None => c :: scan m 0 s'
           end
    end
  end.
Definition re_sub (m : chars → option (nat * chars)) (s : chars) : chars := scan m 0 s.
(** a literal pattern *)
Definition lit (pat new : chars) (s : chars) : option (nat * chars) :=
  if is_prefix pat s then Some (length pat - 1, new) else None.
(** the text before the first "_!"; without DOTALL it must not contain a line
    break *)
Fixpoint upto_mark (dotall : bool) (s : chars) : option chars :=
  match s with
  | [] => None
  | c :: s' =>
    if is_prefix (chs "_!") s then Some []
    else if andb (bool_decide (c = nl)) (negb dotall) then None
    else match upto_mark dotall s' with Some b => Some (c :: b) | None => None end
  end.
(** the pattern _!( .*? )_! (without the blanks); [f] gets the group *)
Definition region (dotall : bool) (f : chars → chars) (s : chars) : option (nat * chars) :=
  if is_prefix (chs "_!") s then
    match upto_mark dotall (drop 2 s) with
    | Some b => Some (length b + 3, f b)
    | None => None
    end
  else None.

(** ** Tree.pformat *)
Definition lpar : ascii := "("%char.
Definition rpar : ascii := ")"%char.
Definition sp : ascii := " "%char.
(** Tree._pformat_flat *)
Fixpoint pflat (t : ntree) : chars :=
  match t with
  | NLeaf s => chs s
  | NTree l ts => lpar :: chs l ++ sp :: (fix go ts := match ts with
      | [] => [rpar]
      | [t] => pflat t ++ [rpar]
      | t :: ts => pflat t ++ sp :: go ts end) ts
  end.
(** Tree.pformat with the default margin of 70 columns *)
Fixpoint pformat (indent : nat) (t : ntree) : chars :=
  match t with
  | NLeaf s => chs s
  | NTree l ts =>
    if decide (length (pflat t) + indent < 70) then pflat t
    else lpar :: chs l ++ (fix go ts := match ts with
      | [] => [rpar]
      | t :: ts => nl :: replicate (indent + 2) sp ++ pformat (indent + 2) t ++ go ts end) ts
  end.

(** ** Tree.fromstring *)
Inductive tok := TOpen (label : chars) | TClose | TWord (w : chars).
(** the state of the tokenizer: between tokens, after an opening bracket and
    blanks, in the label of a node, in a leaf *)
Inductive lexst := LOut | LOpen | LLabel (acc : chars) | LWord (acc : chars).
Definition flush (st : lexst) : list tok :=
  match st with LOut => [] | LOpen => [TOpen []] | LLabel a => [TOpen a] | LWord a => [TWord a] end.
(** token_re.finditer(s) *)
Fixpoint lex (st : lexst) (s : chars) : list tok :=
  match s with
  | [] => flush st
  | c :: s =>
    if decide (c = lpar) then flush st ++ lex LOpen s
    else if decide (c = rpar) then flush st ++ TClose :: lex LOut s
    else if is_space c then match st with LOpen => lex LOpen s | _ => flush st ++ lex LOut s end
    else match st with
         | LOut => lex (LWord [c]) s
         | LOpen => lex (LLabel [c]) s
         | LLabel a => lex (LLabel (a ++ [c])) s
         | LWord a => lex (LWord (a ++ [c])) s
         end
  end.
(** the loop over the tokens.  [stack]: the open nodes, innermost first, each
    with its children so far; [done]: the children of the bottom of the stack *)
Fixpoint build (stack : list (chars * list ntree)) (done : list ntree) (l : list tok) : res (list ntree) :=
  match l with
  | [] => match stack with [] => Ok done | _ => Err ValueError end
  | TOpen lab :: l =>
    match stack, done with
    | [], _ :: _ => Err ValueError
    | _, _ => build ((lab, []) :: stack) done l
    end
  | TClose :: l =>
    match stack with
    | [] => Err ValueError
    | [(lab, ts)] => build [] (done ++ [NTree (str lab) ts]) l
    | (lab, ts) :: (lab', ts') :: stack => build ((lab', ts' ++ [NTree (str lab) ts]) :: stack) done l
    end
  | TWord w :: l =>
    match stack with
    | [] => Err ValueError
    | (lab, ts) :: stack => build ((lab, ts ++ [NLeaf (str w)]) :: stack) done l
    end
  end.
Definition fromstring (s : chars) : res ntree :=
  let! ts := build [] [] (lex LOut s) in
  match ts with
  | [] => Err ValueError
  | [t] => Ok t
  | _ => Err AssertionError
  end.
(** s.strip() *)
Fixpoint lstrip (s : chars) : chars := match s with c :: s' => if is_space c then lstrip s' else s | [] => [] end.
Definition strip (s : chars) : chars := reverse (lstrip (reverse (lstrip s))).
(** Tree.leaves() *)
Fixpoint leaves (t : ntree) : list string :=
  match t with NLeaf s => [s] | NTree _ ts => (fix go ts := match ts with [] => [] | t :: ts => leaves t ++ go ts end) ts end.
Fixpoint map_leaves (f : string → string) (t : ntree) : ntree :=
  match t with NLeaf s => NLeaf (f s) | NTree l ts => NTree l (map (map_leaves f) ts) end.
