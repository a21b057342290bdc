(** * Brat: brat standoff annotation output

    Model of readwrite/brat.py.  The chains are those of get_pointing_chains (a
    relation in Query.v: the order of Python sets is open); the two files are
    values.  create_visual_conf (never called) and annotation.conf (a constant)
    are not modelled. *)
From Verif Require Import PyBase DocGraph Relabel StrNum Query Text Brackets.

Definition tab : ascii := "009"%char.
(** brat.py:86-88, the line of a markable *)
Definition entity_text (k : nat) (onset stop : Z) (text : chars) : chars :=
  chs "T" ++ chs (str_Z (Z.of_nat k)) ++ tab :: chs "Markable " ++ chs (str_Z onset) ++ chs " " ++ chs (str_Z stop) ++ tab :: text ++ [nl].
(** brat.py:98-99, the line of a relation *)
Definition relation_text (k arg1 arg2 : nat) : chars :=
  chs "R" ++ chs (str_Z (Z.of_nat k)) ++ tab :: chs "Coreference Arg1:T" ++ chs (str_Z (Z.of_nat arg1)) ++ chs " Arg2:T" ++ chs (str_Z (Z.of_nat arg2)) ++ [nl].
(** brat.py:73-79: the loop over the chains and their markables, here over the
    sequence [ms] of all of them; [k] is markable_index.  A markable needs a
    span attribute. *)
Fixpoint brat_markables (g : graph) (renamed : option (dict nid nid)) (ns : string) (ms : list nid) (k : nat)
    (first : dict nid (list nid)) (md : dict nid (nat * string)) : res (dict nid (list nid) * dict nid (nat * string)) :=
  match ms with
  | [] => Ok (first, md)
  | m :: ms =>
    let! a := of_option KeyError (node_attrs g m) in
    let! v := of_option KeyError (dget (ns +:+ ":span") a) in
    let! ts := match v with VStr s => spanstring2tokens g renamed (chs s) | _ => Err AttributeError end in
    let! text := tokens2text g ts in
    let! t0 := of_option IndexError (head ts) in
    brat_markables g renamed ns ms (S k) (dappend t0 m first) (dset m (k, text) md)
  end.
(** brat.py:81-89: the loop over the tokens *)
Fixpoint brat_tokens (g : graph) (first : dict nid (list nid)) (md : dict nid (nat * string)) (tokens : list nid) (onset : Z) : res chars :=
  match tokens with
  | [] => Ok []
  | t :: tokens =>
    let! s := token_str g t in
    let! here := match dget t first with
                 | None => Ok []
                 | Some ms => rconcat (λ m, let! p := of_option KeyError (dget m md) in
                                Ok (entity_text p.1 onset (onset + Z.of_nat (String.length p.2)) (chs p.2))) ms
                 end in
    let! rest := brat_tokens g first md tokens (onset + Z.of_nat (String.length s) + 1) in
    Ok (here ++ rest)
  end.
(** sorted(chain, key=natural_sort_key, reverse=True): equal keys keep their order *)
Definition nat_sorted_down (l : list nid) : list nid := reverse (nat_sorted (reverse l)).
(** brat.py:95-97: neighbours in that order *)
Definition neighbours (l : list nid) : list (nid * nid) := zip l (tail l).
Fixpoint brat_relations (md : dict nid (nat * string)) (ps : list (nid * nid)) (k : nat) : res chars :=
  match ps with
  | [] => Ok []
  | p :: ps =>
    let! a := of_option KeyError (dget p.1 md) in
    let! b := of_option KeyError (dget p.2 md) in
    let! rest := brat_relations md ps (S k) in
    Ok (relation_text k a.1 b.1 ++ rest)
  end.
(** brat.py:41-101, brat_output for given chains *)
Definition brat_output (g : graph) (renamed : option (dict nid nid)) (layer : option string) (show : bool) (chains : list (list nid)) : res chars :=
  let! d := brat_markables g renamed (layer_namespace g layer) (concat (nat_sorted <$> chains)) 1 [] [] in
  let! ents := brat_tokens g d.1 d.2 (g_tokens g) 0 in
  if show then let! rels := brat_relations d.2 (concat ((λ c, neighbours (nat_sorted_down c)) <$> chains)) 1 in Ok (ents ++ rels)
  else Ok ents.
(** brat.py:129-147, write_brat: the contents of the .txt and .ann files *)
Inductive write_brat (fuel : nat) (g : graph) (renamed : option (dict nid nid)) (layer : option string) (show : bool) : res (string * chars) → Prop :=
| WB_text e : get_text fuel g None = Err e → write_brat fuel g renamed layer show (Err e)
| WB_chains txt e : get_text fuel g None = Ok txt → get_pointing_chains fuel g layer (Err e) → write_brat fuel g renamed layer show (Err e)
| WB_ok txt chains : get_text fuel g None = Ok txt → get_pointing_chains fuel g layer (Ok chains) →
    write_brat fuel g renamed layer show (let! ann := brat_output g renamed layer show chains in Ok (txt, ann)).
