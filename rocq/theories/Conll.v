(** * Conll: CoNLL 2009 output

    Model of the export half of readwrite/conll.py (Conll2009File, write_conll).
    The chains are those of get_pointing_chains (a relation in Query.v); [order]
    is the order in which Python iterates over a set.  The list of the tokens of a
    sentence is an attribute of the sentence node; attribute values of this model
    have no lists, so [toks_of] gives it.  Files are values. *)
From Verif Require Import PyBase DocGraph Relabel StrNum Query Text Dis Brackets Brat.

(** [d[k].add(v)] of a defaultdict(set) *)
Definition dadd (k v : nid) (d : dict nid (list nid)) : dict nid (list nid) :=
  let l := default [] (dget k d) in dset k (if decide (v ∈ l) then l else l ++ [v]) d.
(** conll.py:379-384, markable2chains from the chains, counted from [c] *)
Fixpoint conll_chains (chains : list (list nid)) (c : nat) (d : dict nid (list nat)) : dict nid (list nat) :=
  match chains with
  | [] => d
  | chain :: chains => conll_chains chains (S c) (foldl (λ d m, dappend m c d) d chain)
  end.
Record conll_maps := ConllMaps { cm_t2m : dict nid (list nid); cm_m2t : dict nid (list nid); cm_m2c : dict nid (list nat) }.
(** conll.py:389-401, the loop over the markables; [sid] is singleton_id *)
Fixpoint conll_markables (fuel : nat) (g : graph) (ms : list nid) (sid : nat) (d : conll_maps) : res conll_maps :=
  match ms with
  | [] => Ok d
  | m :: ms =>
    let! span := get_span fuel g m in
    let m2t := dset m span (cm_m2t d) in
    let t2m := foldl (λ d t, dadd t m d) (cm_t2m d) span in
    match dget m (cm_m2c d) with
    | Some _ => conll_markables fuel g ms sid (ConllMaps t2m m2t (cm_m2c d))
    | None => conll_markables fuel g ms (S sid) (ConllMaps t2m m2t (dset m [sid] (cm_m2c d)))
    end
  end.
(** conll.py:358-403, __build_markable_token_mapper *)
Definition conll_mapper (fuel : nat) (g : graph) (mlayer : string) (chains : list (list nid)) : res conll_maps :=
  let! ms := select_nodes_by_layer g (LOne mlayer) in
  conll_markables fuel g ms (length chains) (ConllMaps [] [] (conll_chains chains 0 [])).

(** [list.index] *)
Fixpoint list_index (x : nid) (l : list nid) : res nat :=
  match l with
  | [] => Err ValueError
  | y :: l => if decide (x = y) then Ok 0 else let! i := list_index x l in Ok (S i)
  end.
(** conll.py:438-467, __gen_coref_str *)
Definition gen_coref_str (d : conll_maps) (t m : nid) (c : nat) : res chars :=
  let span := default [] (dget m (cm_m2t d)) in
  let! i := list_index t span in
  Ok ((if decide (i = 0) then ["("%char] else []) ++ chs (str_Z (Z.of_nat c)) ++
      (if decide (Z.of_nat i = Z.of_nat (length span) - 1)%Z then [")"%char] else [])).
(** conll.py:414-428: the coreference column of a token, [join_with "|"] *)
Fixpoint join_with (sep : chars) (l : list chars) : chars :=
  match l with
  | [] => []
  | [s] => s
  | s :: l => s ++ sep ++ join_with sep l
  end.
Definition coref_column (order : list nid → list nid) (d : conll_maps) (t : nid) : res chars :=
  match dget t (cm_t2m d) with
  | Some ms =>
    let! es := rconcat (λ m, rmap (gen_coref_str d t m) (default [] (dget m (cm_m2c d)))) (order ms) in
    Ok (tab :: join_with (chs "|") es)
  | None => Ok [tab; "_"%char]
  end.
(** get_token and ensure_utf8 (util.py:109-122) *)
Definition conll_word (g : graph) (t : nid) : res string :=
  let! v := get_token g t in match v with VStr s => Ok s | _ => Err ValueError end.
(** conll.py:430-433, the row of a token *)
Definition conll_row (order : list nid → list nid) (g : graph) (d : conll_maps) (i : nat) (t : nid) : res chars :=
  let! col := coref_column order d t in
  let! w := conll_word g t in
  Ok (chs (str_Z (Z.of_nat i)) ++ tab :: chs w ++ concat (replicate 12 [tab; "_"%char]) ++ col ++ [nl]).
(** conll.py:411-434, the rows of a sentence, counted from [i], and a blank line *)
Fixpoint conll_rows (order : list nid → list nid) (g : graph) (d : conll_maps) (ts : list nid) (i : nat) : res chars :=
  match ts with
  | [] => Ok [nl]
  | t :: ts => let! r := conll_row order g d i t in let! rs := conll_rows order g d ts (S i) in Ok (r ++ rs)
  end.
(** conll.py:405-436, __str__ *)
Definition conll_doc (order : list nid → list nid) (g : graph) (toks_of : nid → res (list nid)) (d : conll_maps) : res chars :=
  let! body := rconcat (λ s, let! ts := toks_of s in conll_rows order g d ts 1) (g_sentences g) in
  Ok (chs "#begin document (__); __" ++ [nl] ++ body ++ chs "#end document").
(** conll.py:342-356, __init__: the default layer of the markables *)
Definition conll_mlayer (g : graph) (mlayer : option string) : string := default (g_ns g +:+ ":markable") mlayer.
(** conll.py:504-524, write_conll: the contents of the file *)
Inductive write_conll (fuel : nat) (g : graph) (clayer mlayer : option string) (toks_of : nid → res (list nid)) (order : list nid → list nid) : res chars → Prop :=
| WC_err e : get_pointing_chains fuel g clayer (Err e) → write_conll fuel g clayer mlayer toks_of order (Err e)
| WC_ok chains : get_pointing_chains fuel g clayer (Ok chains) →
    write_conll fuel g clayer mlayer toks_of order (let! d := conll_mapper fuel g (conll_mlayer g mlayer) chains in conll_doc order g toks_of d).
