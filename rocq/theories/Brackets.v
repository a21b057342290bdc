(** * Brackets: bracketed text output

    Model of readwrite/brackets.py.  The chains are those of
    get_pointing_chains (a relation in Query.v: the order of Python sets is
    open); files are not modelled. *)
From Verif Require Import PyBase DocGraph Relabel StrNum Query Text.

(** [d[k].append(v)] of a defaultdict(list) *)
Definition dappend {V} (k : nid) (v : V) (d : dict nid (list V)) : dict nid (list V) :=
  dset k (default [] (dget k d) ++ [v]) d.
(** brackets.py:44-48, markable2chain *)
Definition markable_chains (chains : list (list nid)) : res (dict nid nid) :=
  rfold (λ d chain, let! c := of_option IndexError (head chain) in
                    Ok (foldl (λ d m, dset m c d) d chain)) [] chains.
(** brackets.py:53-58: the tokens of a markable; None if it has no span
    attribute *)
Definition markable_tokens (g : graph) (renamed : option (dict nid nid)) (ns : string) (m : nid) : res (option (list nid)) :=
  let! a := of_option KeyError (node_attrs g m) in
  match dget (ns +:+ ":span") a with
  | None => Ok None
  | Some (VStr s) => let! ts := spanstring2tokens g renamed (chs s) in Ok (Some ts)
  | Some _ => Err AttributeError
  end.
(** brackets.py:50-59, the loop over the markables *)
Fixpoint bracket_dicts (g : graph) (renamed : option (dict nid nid)) (ns : string) (ms : list nid)
    (opening closing : dict nid (list nid)) : res (dict nid (list nid) * dict nid (list nid)) :=
  match ms with
  | [] => Ok (opening, closing)
  | m :: ms =>
    let! span := markable_tokens g renamed ns m in
    match span with
    | None => bracket_dicts g renamed ns ms opening closing
    | Some ts =>
      let! t0 := of_option IndexError (head ts) in
      let! t1 := of_option IndexError (last ts) in
      bracket_dicts g renamed ns ms (dappend t0 m opening) (dappend t1 m closing)
    end
  end.
(** brackets.py:20-59, gen_bracket_mappings, [chains] being the pointing chains *)
Definition gen_bracket_mappings (g : graph) (renamed : option (dict nid nid)) (ns : string) (chains : list (list nid))
    : res (dict nid (list nid) * dict nid (list nid) * dict nid nid) :=
  let markables := nat_sorted (concat chains) in
  let! m2c := markable_chains chains in
  let! oc := bracket_dicts g renamed ns markables [] [] in
  Ok (oc.1, oc.2, m2c).
(** brackets.py:62-67, gen_closing_string; the stack has its top first *)
Fixpoint gen_closing_string (m2c : dict nid nid) (n : nat) (stack : list nid) : res (chars * list nid) :=
  match n with
  | O => Ok ([], stack)
  | S n =>
    match stack with
    | [] => Err IndexError
    | m :: stack =>
      let! c := of_option KeyError (dget m m2c) in
      let! r := gen_closing_string m2c n stack in
      Ok (chs "]_{" ++ chs (nid_str c) ++ chs "}" ++ r.1, r.2)
    end
  end.
(** brackets.py:96-118, the loop over the tokens *)
Fixpoint bracket_loop (g : graph) (opening closing : dict nid (list nid)) (m2c : dict nid nid)
    (tokens : list nid) (stack : list nid) (ret : chars) : res chars :=
  match tokens with
  | [] => Ok ret
  | t :: tokens =>
    let! s := token_str g t in
    let s := chs s in
    match dget t opening with
    | Some l =>
      let stack := reverse l ++ stack in
      let opening_str := replicate (length l) "["%char in
      match dget t closing with
      | Some c =>
        let! r := gen_closing_string m2c (length c) stack in
        bracket_loop g opening closing m2c tokens r.2 (ret ++ opening_str ++ s ++ r.1 ++ [" "%char])
      | None => bracket_loop g opening closing m2c tokens stack (ret ++ opening_str ++ s ++ [" "%char])
      end
    | None =>
      match dget t closing with
      | Some c =>
        let! r := gen_closing_string m2c (length c) stack in
        bracket_loop g opening closing m2c tokens r.2 (ret ++ s ++ r.1 ++ [" "%char])
      | None => bracket_loop g opening closing m2c tokens stack (ret ++ s ++ [" "%char])
      end
    end
  end.
(** brackets.py:37-40, the namespace of a layer *)
Definition layer_namespace (g : graph) (layer : option string) : string :=
  match layer with
  | None | Some "" => g_ns g
  | Some l => layer2namespace l
  end.
(** brackets.py:70-119, gen_bracketed_output for given chains *)
Definition bracketed_output (g : graph) (renamed : option (dict nid nid)) (layer : option string) (chains : list (list nid)) : res chars :=
  let! m := gen_bracket_mappings g renamed (layer_namespace g layer) chains in
  bracket_loop g m.1.1 m.1.2 m.2 (g_tokens g) [] [].
(** ... and for any order of the chains *)
Inductive gen_bracketed_output (fuel : nat) (g : graph) (renamed : option (dict nid nid)) (layer : option string) : res chars → Prop :=
| GBO_err e : get_pointing_chains fuel g layer (Err e) → gen_bracketed_output fuel g renamed layer (Err e)
| GBO_ok chains : get_pointing_chains fuel g layer (Ok chains) →
    gen_bracketed_output fuel g renamed layer (bracketed_output g renamed layer chains).
