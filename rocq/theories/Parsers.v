(** * Parsers: reading the output of discourse parsers

    Model of readwrite/rst/hilda.py, dplp.py, stagedp.py and
    heilman_sagae_2015.py.  [word_wrap] is 0 (word_wrap_tree then changes
    nothing) and DGParentedTree.convert only changes the class of the nodes.
    The Python expression eval'ed by HILDA and DPLP is represented by the tree
    it denotes; JSON by the values it denotes. *)
From Verif Require Import PyBase DocGraph Relabel StrNum Query Text Rst Nltk Dis.

Definition cr : ascii := "013"%char.
Definition tab : ascii := "009"%char.
(** [$] at the end of a pattern also matches before a final line break *)
Definition chop_nl (s : chars) : chars :=
  match reverse s with c :: r => if decide (c = nl) then reverse r else s | [] => s end.
Definition is_nuc (c : ascii) : Prop := c = "N"%char ∨ c = "S"%char.
Global Instance is_nuc_dec c : Decision (is_nuc c).
Proof. unfold is_nuc. apply _. Defined.
Definition ch (c : ascii) : string := str [c].
(** a changed text inside all string literals of the eval'ed expression *)
Fixpoint map_strings (f : string → string) (t : ntree) : ntree :=
  match t with NLeaf s => NLeaf (f s) | NTree l ts => NTree (f l) (map (map_strings f) ts) end.

(** ** HILDA *)
(** hilda.py:20, the pattern REL[N or S][N or S] up to the end *)
Definition hilda_match (label : string) : option (string * ascii * ascii) :=
  match reverse (chop_nl (chs label)) with
  | "]"%char :: y :: "["%char :: "]"%char :: x :: "["%char :: r =>
    if decide (is_nuc x ∧ is_nuc y ∧ nl ∉ (r : list ascii)) then Some (str (reverse r), x, y) else None
  | _ => None
  end.
(** hilda.py:62-93, transform *)
Fixpoint hilda_transform (t : ntree) : res ntree :=
  match t with
  | NLeaf s => Ok (NLeaf s)
  | NTree l [a; b] =>
    match hilda_match l with
    | Some (rel, x, y) =>
      let! a := hilda_transform a in
      let! b := hilda_transform b in
      Ok (NTree rel [NTree (ch x) [a]; NTree (ch y) [b]])
    | None => Err AssertionError
    end
  | NTree _ _ => Err AssertionError
  end.
(** hilda.py:50-55: the substitution applies to the whole text *)
Definition hilda_typecast (s : string) : string := str (re_sub (lit (chs "ParseTree") (chs "Tree")) (chs s)).
(** hilda.py:27-36 *)
Definition read_hilda (t : ntree) : res ntree := hilda_transform (map_strings hilda_typecast t).

(** ** DPLP *)
(** dplp.py:21 and stagedp.py:20, the pattern N or S, N or S, -REL up to the end *)
Definition dplp_match (label : string) : option (ascii * ascii * string) :=
  match chs label with
  | x :: y :: "-"%char :: r =>
    if decide (is_nuc x ∧ is_nuc y ∧ nl ∉ (chop_nl r : list ascii)) then Some (x, y, str (chop_nl r)) else None
  | _ => None
  end.
(** [s.splitlines()] of a byte string *)
Fixpoint splitlines (s : chars) : list chars :=
  match s with
  | [] => []
  | c :: s' =>
    if decide (c = nl) then [] :: splitlines s'
    else if decide (c = cr) then
      [] :: match s' with d :: s'' => if decide (d = nl) then splitlines s'' else splitlines s' | [] => [] end
    else match splitlines s' with l :: ls => (c :: l) :: ls | [] => [[c]] end
  end.
(** dplp.py:67-82, extract_edus; edus[i] of the defaultdict is [default [] (dget i edus)] *)
Fixpoint extract_edus (lines : list chars) (edus : dict Z (list chars)) : res (dict Z (list chars)) :=
  match lines with
  | [] => Ok edus
  | line :: lines =>
    if decide (strip line = []) then extract_edus lines edus
    else
      let! token := of_option IndexError (split_char tab line !! 2) in
      let! field := of_option IndexError (split_char tab line !! 9) in
      let! edu_id := py_int field in
      extract_edus lines (dset edu_id (default [] (dget edu_id edus) ++ [token]) edus)
  end.
(** tree[pos] = u *)
Fixpoint set_at (t : ntree) (pos : list nat) (u : ntree) : option ntree :=
  match pos with
  | [] => Some u
  | i :: pos =>
    match t with
    | NLeaf _ => None
    | NTree l ts => match ts !! i with
                    | Some v => match set_at v pos u with Some v => Some (NTree l (<[i:=v]> ts)) | None => None end
                    | None => None
                    end
    end
  end.
(** dplp.py:84-96, add_edus; [n] is the number of leaf positions.  tree[pos]
    fails if an earlier assignment has replaced the parent of the leaf. *)
Fixpoint add_edus (edus : dict Z (list chars)) (n : nat) (ps : list (list nat)) (t : ntree) : res ntree :=
  match ps with
  | [] => Ok t
  | pos :: ps =>
    match subtree_at t pos with
    | Some (NLeaf s) =>
      let! edu_id := py_int (chs s) in
      let text := NLeaf (str (join_words (default [] (dget edu_id edus)))) in
      match pos, t with
      | [i], NTree _ ts =>
        if decide (n = 1) then add_edus edus n ps (NTree "N" (<[i:=text]> ts)) else Err AssertionError
      | _, _ =>
        let! t := of_option TypeError (set_at t (removelast pos) text) in
        add_edus edus n ps t
      end
    | _ => Err TypeError
    end
  end.
(** dplp.py:102-121, transform *)
Fixpoint dplp_transform (t : ntree) : res ntree :=
  match t with
  | NLeaf s => Ok (NLeaf s)
  | NTree l [a] => Ok (NTree l [a])
  | NTree l [a; b] =>
    match dplp_match l with
    | Some (x, y, rel) =>
      let! a := dplp_transform a in
      let! b := dplp_transform b in
      Ok (NTree rel [NTree (ch x) [a]; NTree (ch y) [b]])
    | None => Err AssertionError
    end
  | NTree _ _ => Err AssertionError
  end.
Definition dplp_typecast (s : string) : string := str (re_sub (lit (chs "ParentedTree") (chs "Tree")) (chs s)).
(** dplp.py:26-46; [merge] and [t]: the text before the first ParentedTree and
    the tree denoted by the rest.  A tree that is a string has no treepositions *)
Definition read_dplp (merge : chars) (t : ntree) : res ntree :=
  let t := map_strings dplp_typecast t in
  let! edus := extract_edus (splitlines merge) [] in
  match t with
  | NLeaf _ => Err AttributeError
  | NTree _ _ =>
    let ps := leaf_positions t in
    let! t := add_edus edus (length ps) ps t in
    dplp_transform t
  end.

(** ** StageDP *)
(** stagedp.py:55-59, cleanup_edu_text *)
Definition cleanup_edu_text (s : string) : string :=
  let text := chs s in
  str (join_words (filter (λ w : list ascii, w ≠ chs "<P>" ∧ w ≠ chs "<S>") (split_char underscore (drop 2 (take (length text - 2) text))))).
(** stagedp.py:65-113, transform *)
Fixpoint stagedp_transform (root : bool) (t : ntree) : res ntree :=
  match t with
  | NLeaf s => Ok (NLeaf s)
  | NTree l [a] =>
    if decide (l = "EDU") then Ok (if root then NTree "N" [a] else a) else Err AssertionError
  | NTree l [a; b] =>
    match dplp_match l with
    | Some (x, y, rel) =>
      let! a := stagedp_transform false a in
      let! b := stagedp_transform false b in
      Ok (NTree rel [NTree (ch x) [a]; NTree (ch y) [b]])
    | None => Err AssertionError
    end
  | NTree _ _ => Err ValueError
  end.
(** stagedp.py:27-53 *)
Definition read_stagedp (s : chars) : res ntree :=
  let! t := fromstring s in
  stagedp_transform true (map_leaves cleanup_edu_text t).

(** ** Heilman and Sagae (2015) *)
(** s.lower(), s.capitalize() *)
Definition lower_ascii (c : ascii) : ascii :=
  let n := nat_of_ascii c in if decide (65 ≤ n ∧ n ≤ 90) then ascii_of_nat (n + 32) else c.
Definition upper_ascii (c : ascii) : ascii :=
  let n := nat_of_ascii c in if decide (97 ≤ n ∧ n ≤ 122) then ascii_of_nat (n - 32) else c.
Definition lower (s : chars) : chars := lower_ascii <$> s.
Definition capitalize (s : chars) : chars := match s with [] => [] | c :: s => upper_ascii c :: lower s end.
Definition subtree_types : list string := ["leaf"; "nucleus"; "root"; "satellite"; "text"].
(** heilman_sagae_2015.py:210-223, get_tree_type *)
Definition hs_type (t : ntree) : res string :=
  match t with
  | NLeaf _ => Ok "leaf"
  | NTree l _ =>
    let ty := str (default [] (head (split_char ":"%char (lower (chs l))))) in
    if decide (ty ∈ subtree_types) then Ok ty else Err AssertionError
  end.
(** heilman_sagae_2015.py:24 and 162-168, the pattern nucleus:REL or satellite:REL up to the end *)
Definition capitalized_relname (t : ntree) : res string :=
  match t with
  | NLeaf _ => Err AttributeError
  | NTree l _ =>
    let rest k := let r := chop_nl (drop (length k) (chs l)) in
                  if decide (nl ∉ (r : list ascii)) then Ok (str (capitalize r)) else Err AttributeError in
    if is_prefix (chs "nucleus:") (chs l) then rest (chs "nucleus:")
    else if is_prefix (chs "satellite:") (chs l) then rest (chs "satellite:")
    else Err AttributeError (* match is None *)
  end.
(** the indices of the children of a type *)
Definition indices (ty : string) (types : list string) : list nat :=
  (λ p : nat * string, p.1) <$> filter (λ p : nat * string, p.2 = ty) (imap pair types).
(** heilman_sagae_2015.py:71-157 (transform) and 243-275.  A converted child is looked at
    (and its exception raised) only where transform is called on it.
    Simplification: transform(text node) returns None in the code, which then
    becomes a leaf; here it is AssertionError. *)
Fixpoint hs_transform (t : ntree) : res ntree :=
  match t with
  | NLeaf s => Ok (NLeaf s)
  | NTree l ts =>
    let! ty := hs_type t in
    if decide (ty ∈ ["root"; "nucleus"; "satellite"]) then
      let kids := map (λ u, (u, hs_transform u)) ts in
      let! types := rmap hs_type ts in
      let nucs := indices "nucleus" types in
      let sats := indices "satellite" types in
      if decide (types ≠ [] ∧ Forall (λ x, x = "text") types) then
        match ts with NTree _ (u :: _) :: _ => Ok u | _ => Err IndexError end
      else match nucs, sats with
        | [], _ => Err AssertionError
        | [_], [] => Err AssertionError
        | _ :: _ :: _, [] =>
          let! subs := rmap (λ p : ntree * res ntree, p.2) kids in
          let! first := of_option IndexError (head ts) in
          let! rel := capitalized_relname first in
          Ok (NTree rel (map (λ u, NTree "N" [u]) subs))
        | [n], [s] =>
          let! nuc := of_option IndexError (kids !! n) in
          let! sat := of_option IndexError (kids !! s) in
          let! rel := capitalized_relname sat.1 in
          if decide (n < s) then
            let! a := nuc.2 in let! b := sat.2 in Ok (NTree rel [NTree "N" [a]; NTree "S" [b]])
          else
            let! b := sat.2 in let! a := nuc.2 in Ok (NTree rel [NTree "S" [b]; NTree "N" [a]])
        | [_], _ => Err NameError (* line 119: first_sat_id is not defined *)
        | _, _ => Err AssertionError
        end
    else Err AssertionError
  end.
(** l[i] with negative indices *)
Definition py_nth {A} (l : list A) (i : Z) : res A :=
  let j := if decide (i < 0)%Z then (i + Z.of_nat (length l))%Z else i in
  if decide (j < 0)%Z then Err IndexError else of_option IndexError (l !! Z.to_nat j).
(** heilman_sagae_2015.py:303-322, _add_edus_to_tree *)
Fixpoint hs_add_edus (edus : list (list chars)) (t : ntree) : res ntree :=
  match t with
  | NLeaf s => let! i := py_int (chs s) in let! toks := py_nth edus i in Ok (NLeaf (str (join_words toks)))
  | NTree l ts =>
    let! ts := (fix go ts := match ts with
      | [] => Ok []
      | t :: ts => let! t := hs_add_edus edus t in let! ts := go ts in Ok (t :: ts) end) ts in
    Ok (NTree l ts)
  end.
(** heilman_sagae_2015.py:58-65 and 171-201; [edus] and [s]: the values of
    edu_tokens and of the tree of the first parse *)
Definition read_hs2015 (edus : list (list chars)) (s : chars) : res ntree :=
  let! t := fromstring s in
  let! t := hs_add_edus edus t in
  hs_transform t.
