(** * Dis: the .dis writer and reader

    Model of readwrite/rst/dis/disfilewriter.py, dis/common.py and
    dis/distree.py on text.  Files are the text itself (utf-8 encoding and file
    access are the identity). *)
From Verif Require Import PyBase DocGraph Relabel StrNum Query Text Rst Nltk.

Definition num (n : nat) : ntree := NLeaf (str_Z (Z.of_nat n)).
(** ** The writer *)
Definition leaf_here (t : ntree) (p : list nat) : bool :=
  match subtree_at t p with Some (NLeaf _) => true | _ => false end.
(** t.treepositions('leaves') *)
Definition leaf_positions (t : ntree) : list (list nat) := filter (λ p, leaf_here t p = true) (treepositions t).
Section dis_writer.
  Context (T : ntree). (* the whole tree *)
  (** disfilewriter.py:77-91, all_leaf_positions(tree).index(pos) + 1 *)
  Definition leaf_number (pos : list nat) : res nat :=
    match list_find (λ p, p = pos) (leaf_positions T) with Some (i, _) => Ok (S i) | None => Err ValueError end.
  (** disfilewriter.py:94-119, make_span of a subtree that is not the root *)
  Definition make_span (pos : list nat) (t : ntree) : res ntree :=
    match app pos <$> leaf_positions t with
    | [] => Err NotImplementedError
    | [p] => let! i := leaf_number p in Ok (NTree "leaf" [num i])
    | p :: ps => let! i := leaf_number p in let! j := leaf_number (List.last ps p) in Ok (NTree "span" [num i; num j])
    end.
  (** disfilewriter.py:122-156, get_siblings and make_rel2par of the child
      number [i] of a node with label [plabel] and children [sibs]; [l] is the
      label of the child, N or S *)
  Definition make_rel2par (plabel : string) (sibs : list ntree) (i : nat) (l : string) : res ntree :=
    if decide (l = "S") then Ok (NTree "rel2par" [NLeaf plabel])
    else
      let! labels := rmap nlabel sibs in (* a leaf has no treeposition() *)
      let others := take i labels ++ drop (S i) labels in
      if decide (others = ["S"]) then Ok (NTree "rel2par" [NLeaf "span"])
      else if forallb (λ x, bool_decide (x = "N")) others then Ok (NTree "rel2par" [NLeaf plabel])
      else Err ValueError.
  (** disfilewriter.py:159-163, make_edu *)
  Definition mark_first (ws : list chars) : list chars := match ws with [] => [] | w :: ws => (chs "_!" ++ w) :: ws end.
  Fixpoint mark_last (ws : list chars) : list chars :=
    match ws with [] => [] | [w] => [w ++ chs "_!"] | w :: ws => w :: mark_last ws end.
  Definition make_edu (s : string) : res ntree :=
    match split_blanks (chs s) with
    | [] => Err IndexError
    | ws => Ok (NTree "text" ((λ w, NLeaf (str w)) <$> mark_last (mark_first ws)))
    end.
  (** disfilewriter.py:191-197 *)
  Definition convert_label (l : string) : string :=
    if decide (l = "N") then "Nucleus" else if decide (l = "S") then "Satellite" else l.
  (** disfilewriter.py:52-70 and 166-180: what the child number [i] of a node
      (label [plabel], children [sibs]) contributes to the converted tree *)
  Fixpoint cv (plabel : string) (sibs : list ntree) (pos : list nat) (i : nat) (t : ntree) : res (list ntree) :=
    match t with
    | NLeaf s => let! e := make_edu s in Ok [e]
    | NTree l ts =>
      let pos := pos ++ [i] in
      let go := (fix go j us := match us with
        | [] => Ok []
        | u :: us => let! a := cv l ts pos j u in let! b := go (S j) us in Ok (a ++ b) end) in
      if decide (l = "N" ∨ l = "S") then
        let! span := make_span pos t in
        let! rel := make_rel2par plabel sibs i l in
        let! cs := go 0 ts in
        Ok [NTree (convert_label l) (span :: rel :: cs)]
      else go 0 ts
    end.
End dis_writer.
(** disfilewriter.py:52-70, convert *)
Definition convert (T : ntree) : res ntree :=
  match T with
  | NLeaf s => make_edu s
  | NTree l ts =>
    let! cs := (fix go j us := match us with
      | [] => Ok []
      | u :: us => let! a := cv T l ts [] j u in let! b := go (S j) us in Ok (a ++ b) end) 0 ts in
    Ok (NTree "Root" (NTree "span" [NLeaf "1"; num (length (leaf_positions T))] :: cs))
  end.
(** disfilewriter.py:200-204, join_lines; the text between the marks has no
    final line break, so that splitlines() is a split at line breaks *)
Definition join_lines (group : chars) : chars :=
  filter (λ c, c ≠ nl) (join_words (strip <$> split_char nl (chs "_!" ++ group ++ chs "_!"))).
(** disfilewriter.py:30-33, to_dis_format: the text of DisFileWriter(tree) *)
Definition write_dis (T : ntree) : res chars :=
  let! d := convert T in
  Ok (re_sub (region true join_lines) (pformat 0 d)).

(** ** The reader *)
Definition lrb : chars := chs "-LRB-".
Definition rrb : chars := chs "-RRB-".
(** dis/common.py:147-156, fix_rst_treebank_tree_str *)
Definition fix_tt (s : chars) : chars := re_sub (lit (chs ")//TT_ERR") [rpar]) s.
(** dis/common.py:159-170, convert_parens_in_rst_tree_str *)
Definition escape_parens (s : chars) : chars := re_sub (lit [rpar] rrb) (re_sub (lit [lpar] lrb) s).
Definition convert_parens (s : chars) : chars :=
  re_sub (region false (λ g, escape_parens (chs "_!" ++ g ++ chs "_!"))) s.
(** dis/common.py:47-52: the brackets of leaves are unescaped *)
Definition unescape_leaf (s : string) : string := str (re_sub (lit rrb [rpar]) (re_sub (lit lrb [lpar]) (chs s))).
(** dis/common.py:38-52, DisFile(text).tree *)
Definition dis_file (s : chars) : res ntree :=
  let! t := fromstring (convert_parens (fix_tt (strip s))) in
  Ok (map_leaves unescape_leaf t).
(** dis/common.py:65-69, get_edu_text *)
Definition get_edu_text (t : ntree) : res string :=
  match t with
  | NLeaf _ => Err AttributeError
  | NTree l _ =>
    if decide (l = "text") then Ok (str (re_sub (region false id) (join_words (chs <$> leaves t))))
    else Err AssertionError
  end.
Definition tree_types : list string := ["Root"; "Nucleus"; "Satellite"].
(** dis/common.py:72-83, get_tree_type *)
Definition get_tree_type (t : ntree) : res string :=
  let! l := nlabel t in if decide (l ∈ tree_types) then Ok l else Err AssertionError.
(** dis/common.py:86-97, get_node_type (is it 'leaf'?) *)
Definition is_leaf_node (ts : list ntree) : res bool :=
  match ts with
  | [] => Err IndexError
  | u :: _ => let! l := nlabel u in
              if decide (l = "leaf") then Ok true else if decide (l = "span") then Ok false else Err AssertionError
  end.
(** dis/common.py:118-133, get_relation_type: tree[1][0]; a relation that is a
    tree makes t() fail *)
Definition get_relation_type (t : ntree) : res string :=
  match t with
  | NLeaf _ => Err AttributeError
  | NTree _ (_ :: NTree _ (NLeaf rel :: _) :: _) => Ok rel
  | NTree _ (_ :: NTree _ (NTree _ _ :: _) :: _) => Err TypeError
  | NTree _ (_ :: NLeaf (String c _) :: _) => Ok (String c "")
  | _ => Err IndexError
  end.
Definition nuc_label (l : string) : string := if decide (l = "Nucleus") then "N" else "S".
(** distree.py:66-109, dis2tree, and 112-141; a converted child is only looked
    at (and its exception raised) where dis2tree is called on it *)
Fixpoint dis2tree (wrap_tree : bool) (t : ntree) : res ntree :=
  match t with
  | NLeaf _ => Err AttributeError
  | NTree l ts =>
    if decide (l ∈ tree_types) then
      let! leaf := is_leaf_node ts in
      if leaf : bool then
        match ts with
        | _ :: _ :: text :: _ => let! s := get_edu_text text in Ok (NTree (nuc_label l) [NLeaf s])
        | _ => Err IndexError
        end
      else
        let children := drop (if decide (l = "Root") then 1 else 2) (map (λ u, (u, dis2tree true u)) ts) in
        let! types := rmap (λ p : ntree * res ntree, get_tree_type p.1) children in
        let of_type := λ x, filter (λ p : string * (ntree * res ntree), p.1 = x) (zip types children) in
        let nucs := of_type "Nucleus" in
        let sats := of_type "Satellite" in
        let! body :=
          match of_type "Root", sats, nucs with
          | [], [], (_, (c, _)) :: _ :: _ =>
            let! subs := rmap (λ p : string * (ntree * res ntree), p.2.2) nucs in
            let! rel := get_relation_type c in Ok (NTree rel subs)
          | [], [(_, (sat, rs))], [(_, (_, rn))] =>
            let! n := rn in let! s := rs in
            let! rel := get_relation_type sat in
            Ok (NTree rel (if decide (types = ["Nucleus"; "Satellite"]) then [n; s] else [s; n]))
          | _, _, _ => Err AssertionError
          end in
        Ok (if wrap_tree then NTree (nuc_label l) [body] else body)
    else Err AssertionError
  end.
(** distree.py:22-34, DisRSTTree(text).tree; word_wrap_tree with width 0
    changes nothing *)
Definition read_dis (s : chars) : res ntree := let! t := dis_file s in dis2tree false t.
