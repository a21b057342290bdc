(** * Tree: rooted ordered trees out of document graphs

    Model of readwrite/tree.py:103-270 and readwrite/freqt.py.  Generators are
    modelled as fully consumed lists.  [fuel] bounds while loops and
    recursions; OutOfFuel stands for a loop that does not end. *)
From Verif Require Import PyBase DocGraph Relabel StrNum Query Text.

(** tree.py:103-110 *)
Definition get_child_nodes (g : graph) (n : nid) : res (list nid) :=
  select_neighbors_by_edge_attribute g n (Some "edge_type") (VIn [VStr dominates]).
(** tree.py:113-141, get_parents(strict=True).  For a node that is not in the
    graph networkx tries to iterate over the id; outside the model. *)
Definition get_parents (g : graph) (n : nid) : res (list nid) :=
  if dmem n (g_node g) then
    let! parents := rconcat (λ e : nid * nid * nid * attrs,
      let! ty := of_option KeyError (dget "edge_type" e.2) in
      Ok (if decide (ty = VStr dominates) then [e.1.1.1] else [])) (in_edges g n) in
    match parents with _ :: _ :: _ => Err ValueError | _ => Ok parents end
  else Err NotImplementedError.
(** tree.py:157-161, the while loop for token number [i] *)
Fixpoint climb (fuel : nat) (g : graph) (i : nat) (start : nid) (path : dict nid nat) : res (dict nid nat) :=
  match fuel with
  | O => Err OutOfFuel
  | S fuel =>
    let! ps := get_parents g start in
    match ps with
    | [] => Ok path
    | p :: _ => climb fuel g i p (if dmem start path then path else dset start i path)
    end
  end.
(** tree.py:156-162, the for loop *)
Fixpoint positions_from (fuel : nat) (g : graph) (i : nat) (toks : list nid) (path : dict nid nat) : res (dict nid nat) :=
  match toks with
  | [] => Ok path
  | t :: toks' => let! path' := climb fuel g i t path in positions_from fuel g (S i) toks' path'
  end.
(** tree.py:144-162, horizontal_positions(docgraph, root).  [sent_tokens] holds
    the list valued node attribute 'tokens' (node attributes of the graph model
    have no lists). *)
Definition horizontal_positions (fuel : nat) (g : graph) (sent_tokens : dict nid (list nid)) (root : nid)
    : res (dict nid nat) :=
  if decide (root = g_root g) then positions_from fuel g 0 (g_tokens g) []
  else if dmem root (g_node g) then
    match dget root sent_tokens with
    | None => positions_from fuel g 0 (g_tokens g) []
    | Some toks => positions_from fuel g 0 toks [(root, 0)]
    end
  else Err KeyError.
(** [sorted(children, key=lambda x: xpos[x])]: all keys are computed first *)
Definition sort_by_pos (xpos : dict nid nat) (l : list nid) : res (list nid) :=
  if forallb (λ x, dmem x xpos) l
  then Ok (isort (λ x y, Nat.compare (default 0 (dget x xpos)) (default 0 (dget y xpos))) l)
  else Err KeyError.
Definition sorted_children (g : graph) (xpos : dict nid nat) (n : nid) : res (list nid) :=
  let! cs := get_child_nodes g n in sort_by_pos xpos cs.
(** tree.py:190-204, the while loop over the queue of (parent, remaining
    children) pairs; [kids] computes the sorted children of a node *)
Fixpoint bfs_loop (kids : nid → res (list nid)) (fuel : nat) (queue : list (nid * list nid)) (visited : list nid)
    : res (list (nid * nid)) :=
  match fuel with
  | O => Err OutOfFuel
  | S fuel =>
    match queue with
    | [] => Ok []
    | (_, []) :: q => bfs_loop kids fuel q visited
    | (p, c :: cs) :: q =>
      if decide (c ∈ visited) then bfs_loop kids fuel ((p, cs) :: q) visited
      else let! gc := kids c in
           let! es := bfs_loop kids fuel ((p, cs) :: q ++ [(c, gc)]) (c :: visited) in
           Ok ((p, c) :: es)
    end
  end.
(** tree.py:164-204, list(sorted_bfs_edges(G, source)); the fuels are those of
    the climbs to the root and of the queue loop *)
Definition sorted_bfs_edges (fuel1 fuel2 : nat) (g : graph) (sent_tokens : dict nid (list nid)) (source : nid)
    : res (list (nid * nid)) :=
  let! xpos := horizontal_positions fuel1 g sent_tokens source in
  let! cs := sorted_children g xpos source in
  bfs_loop (sorted_children g xpos) fuel2 [(source, cs)] [source].
(** tree.py:226-229, sorted_bfs_successors *)
Definition successors_dict (es : list (nid * nid)) : dict nid (list nid) :=
  foldl (λ d e, dset e.1 (default [] (dget e.1 d) ++ [e.2]) d) [] es.

(** ** PTB-style brackets *)
(** the value of a [str.format] field; values other than strings are outside
    the model *)
Definition fstr (v : pyval) : res chars := match v with VStr s => Ok (chs s) | _ => Err NotImplementedError end.
Definition blank_if (b : bool) : chars := if b then [" "%char] else [].
Definition nonempty (s : chars) : bool := negb (bool_decide (s = [])).
Definition parens (s : chars) : chars := "("%char :: s ++ [")"%char].
(** tree.py:232-246, node2bracket *)
Definition node2bracket (g : graph) (n : nid) (child : chars) : res chars :=
  match node_attrs g n with
  | None => Err KeyError
  | Some a =>
    let! tok := istoken g n in
    if tok then
      let! pos := fstr (default (VStr "") (dget (g_ns g +:+ ":pos") a)) in
      let! v := of_option KeyError (dget (g_ns g +:+ ":token") a) in
      let! token := fstr v in
      Ok (parens (pos ++ blank_if (nonempty pos) ++ token ++ blank_if (nonempty child) ++ child))
    else
      let! label := fstr (default (VStr "") (dget "label" a)) in
      Ok (parens (label ++ blank_if (nonempty label && nonempty child) ++ child))
  end.
(** ' '.join of chars *)
Fixpoint join_blank (l : list chars) : chars :=
  match l with
  | [] => []
  | [s] => s
  | s :: l' => s ++ " "%char :: join_blank l'
  end.
(** tree.py:249-266, tree2bracket with the successors dict *)
Fixpoint tree2bracket_succ (fuel : nat) (g : graph) (succ : dict nid (list nid)) (root : nid) : res chars :=
  match fuel with
  | O => Err OutOfFuel
  | S fuel =>
    match dget root succ with
    | Some cs => let! ss := rmap (tree2bracket_succ fuel g succ) cs in
                 node2bracket g root (join_blank ss)
    | None => node2bracket g root []
    end
  end.
Definition tree2bracket (fuel1 fuel2 fuel : nat) (g : graph) (sent_tokens : dict nid (list nid)) (root : option nid)
    : res chars :=
  let root := default (g_root g) root in
  let! es := sorted_bfs_edges fuel1 fuel2 g sent_tokens root in
  tree2bracket_succ fuel g (successors_dict es) root.

(** ** FREQT *)
(** freqt.py:17-18 *)
Definition freqt_escape_dict : list (chars * chars) := [(chs "(", chs "-LRB-"); (chs ")", chs "-RRB-")].
(** FREQT_ESCAPE_FUNC: re.sub raises TypeError for anything but a string *)
Definition freqt_escape (v : pyval) : res chars :=
  match v with VStr s => multiple_replace freqt_escape_dict (chs s) | _ => Err TypeError end.
Definition nid_val (n : nid) : pyval := match n with NInt z => VInt z | NStr s => VStr s end.
(** freqt.py:21-38, node2freqt *)
Definition node2freqt (g : graph) (include_pos : bool) (n : nid) (child : chars) : res chars :=
  match node_attrs g n with
  | None => Err KeyError
  | Some a =>
    let! tok := istoken g n in
    if tok then
      let! v := of_option KeyError (dget (g_ns g +:+ ":token") a) in
      let! token := freqt_escape v in
      if include_pos then
        let! pos := freqt_escape (default (VStr "") (dget (g_ns g +:+ ":pos") a)) in
        Ok (parens (pos ++ parens token ++ child))
      else Ok (parens (token ++ child))
    else
      let! label := freqt_escape (default (nid_val n) (dget "label" a)) in
      Ok (parens (label ++ child))
  end.
(** freqt.py:41-58, sentence2freqt with the successors dict *)
Fixpoint sentence2freqt_succ (fuel : nat) (g : graph) (include_pos : bool) (succ : dict nid (list nid)) (root : nid)
    : res chars :=
  match fuel with
  | O => Err OutOfFuel
  | S fuel =>
    match dget root succ with
    | Some cs => let! ss := rmap (sentence2freqt_succ fuel g include_pos succ) cs in
                 node2freqt g include_pos root (concat ss)
    | None => node2freqt g include_pos root []
    end
  end.
Definition sentence2freqt (fuel1 fuel2 fuel : nat) (g : graph) (sent_tokens : dict nid (list nid))
    (include_pos : bool) (root : nid) : res chars :=
  let! es := sorted_bfs_edges fuel1 fuel2 g sent_tokens root in
  sentence2freqt_succ fuel g include_pos (successors_dict es) root.
(** "\n".join *)
Fixpoint join_nl (l : list chars) : chars :=
  match l with
  | [] => []
  | [s] => s
  | s :: l' => s ++ nl :: join_nl l'
  end.
(** freqt.py:61-72, docgraph2freqt *)
Definition docgraph2freqt (fuel1 fuel2 fuel : nat) (g : graph) (sent_tokens : dict nid (list nid))
    (include_pos : bool) (root : option nid) : res chars :=
  match root with
  | None => let! ss := rmap (sentence2freqt fuel1 fuel2 fuel g sent_tokens include_pos) (g_sentences g) in
            Ok (join_nl ss)
  | Some r => sentence2freqt fuel1 fuel2 fuel g sent_tokens include_pos r
  end.
