(** * Query: the read-only API of discoursegraph.py and the offsets

    Model of discoursegraph.py:98-190 and 843-1365 and of util.py:22-91.
    Generators are modelled as fully consumed lists.  A recursion of the code
    that need not end takes a [fuel] argument; OutOfFuel stands for Python's
    "maximum recursion depth exceeded". *)
From Verif Require Import PyBase DocGraph Relabel StrNum.

(** ** Natural sorting *)
(** [re.split('([0-9]+)', s)], util.py:17, :91: the text before the first
    digit group, then (digit group, following text) pairs.  Written as a right
    fold; [nsplit_spec] (QueryFacts) characterises it. *)
Fixpoint nsplit (s : chars) : chars * list (chars * chars) :=
  match s with
  | [] => ([], [])
  | c :: s' =>
    let '(t, l) := nsplit s' in
    if is_digit c then
      match t, l with
      | [], (d, t') :: l' => ([], (c :: d, t') :: l')
      | _, _ => ([], ([c], t) :: l)
      end
    else (c :: t, l)
  end.
(** an element of a sort key: text or int *)
Inductive kpart := KInt (n : N) | KText (t : chars).
(** util.py:90-91 *)
Definition key_of (p : chars * list (chars * chars)) : list kpart :=
  KText p.1 :: (q ← p.2; [KInt (dec_val q.1); KText q.2]).
Definition nid_str (n : nid) : string := match n with NInt z => str_Z z | NStr s => s end.
(** util.py:70-91, natural_sort_key (ids are ASCII: [str(s)] raises
    UnicodeEncodeError for other unicode ids, not modelled) *)
Definition natural_sort_key (n : nid) : list kpart := key_of (nsplit (chs (nid_str n))).
(** Python 2 comparison of key elements: ints sort before strings *)
Definition kpart_cmp (a b : kpart) : comparison :=
  match a, b with
  | KInt n, KInt m => N.compare n m
  | KInt _, KText _ => Lt
  | KText _, KInt _ => Gt
  | KText s, KText t => lexcmp ascii_cmp s t
  end.
Definition nat_cmp (a b : nid) : comparison :=
  lexcmp kpart_cmp (natural_sort_key a) (natural_sort_key b).
(** [sorted(l, key=natural_sort_key)] *)
Definition nat_sorted (l : list nid) : list nid := isort nat_cmp l.

(** ** Keyword in context *)
(** Python list slicing [l[a:b]] and indexing [l[i]] *)
Definition norm_idx (len i : Z) : Z := if (i <? 0)%Z then Z.max 0 (i + len) else Z.min i len.
Definition slice {A} (l : list A) (a b : Z) : list A :=
  let len := Z.of_nat (length l) in
  let a' := Z.to_nat (norm_idx len a) in let b' := Z.to_nat (norm_idx len b) in
  take (b' - a') (drop a' l).
Definition index {A} (l : list A) (i : Z) : res A :=
  let len := Z.of_nat (length l) in
  let i' := (if i <? 0 then i + len else i)%Z in
  if (i' <? 0)%Z then Err IndexError else of_option IndexError (l !! Z.to_nat i').
(** discoursegraph.py:843-873, get_kwic *)
Definition get_kwic {A} (tokens : list A) (idx window : Z) : res (list A * A * list A) :=
  let text_length := Z.of_nat (length tokens) in
  let before := slice tokens (Z.max 0 (idx - window)) (Z.max 0 idx) in
  let after := slice tokens (Z.min text_length (idx + 1)) (Z.min text_length (idx + window + 1)) in
  let! kw := index tokens idx in Ok (before, kw, after).

(** ** Token mapper *)
(** util.py:31-40 *)
Definition token_mapper_from (tokens : list nid) (start : nat) : dict nid nat * dict nat nid :=
  foldl (λ d p, (dset p.2 p.1 d.1, dset p.1 p.2 d.2)) ([], []) (zip (seq start (length tokens)) tokens).
Definition token_mapper (tokens : list nid) : dict nid nat * dict nat nid := token_mapper_from tokens 0.
Definition idx_min (x : nat) (l : list nat) : nat := foldr Nat.min x l.
Definition idx_max (x : nat) (l : list nat) : nat := foldr Nat.max x l.
(** util.py:43-67, get_segment_token_offsets; min/max of an empty list raise ValueError *)
Definition get_segment_token_offsets (segment : list nid) (token_map : dict nid nat) : res (nat * nat) :=
  let! is := rmap (λ t, of_option KeyError (dget t token_map)) segment in
  match is with [] => Err ValueError | i :: is => Ok (idx_min i is, idx_max i is) end.

(** ** Offsets *)
Definition on_key (ns : string) : string := ns +:+ ":onset".
Definition off_key (ns : string) : string := ns +:+ ":offset".
Definition tok_key (g : graph) : string := g_ns g +:+ ":token".
(** token string of a token node, [len] and [join] need a str *)
Definition token_str (g : graph) (t : nid) : res string :=
  let! v := get_token g t in match v with VStr s => Ok s | _ => Err TypeError end.
(** discoursegraph.py:98-113, the loop of add_offsets over [self.get_tokens()] *)
Fixpoint add_offsets_loop (ns : string) (toks : list nid) (onset : Z) (g : graph) : outcome :=
  match toks with
  | [] => (g, None)
  | t :: toks' =>
    match token_str g t with
    | Err e => (g, Some e)
    | Ok s =>
      let offset := (onset + Z.of_nat (String.length s))%Z in
      let a := default [] (node_attrs g t) in
      let g' := set_node (dset t (dset (off_key ns) (VInt offset) (dset (on_key ns) (VInt onset) a))
                            (g_node g)) g in
      add_offsets_loop ns toks' (offset + 1) g'
    end
  end.
Definition add_offsets (g : graph) (ns : string) : outcome :=
  add_offsets_loop ns (g_tokens g) 0 g.
(** discoursegraph.py:144-148: read the stored offsets.  Stored values that are
    no ints do not occur (TypeError here). *)
Definition as_int (v : pyval) : res Z := match v with VInt z => Ok z | _ => Err TypeError end.
Definition stored_offsets (g : graph) (t : nid) (ns : string) : res (Z * Z) :=
  match node_attrs g t with
  | None => Err KeyError
  | Some a =>
    let! on := of_option KeyError (dget (on_key ns) a) in
    let! off := of_option KeyError (dget (off_key ns) a) in
    let! on := as_int on in let! off := as_int off in Ok (on, off)
  end.
(** discoursegraph.py:140-157, get_offsets(token): on KeyError (also one raised
    by istoken for an unknown node) offsets are added and the method is called
    again. *)
Fixpoint get_offsets (fuel : nat) (g : graph) (t : nid) (ns : string) : graph * res (Z * Z) :=
  match fuel with
  | O => (g, Err OutOfFuel)
  | S fuel =>
    match (let! b := istoken g t in
           if b then stored_offsets g t ns else Err AssertionError) with
    | Err KeyError =>
      match add_offsets g ns with
      | (g', Some e) => (g', Err e)
      | (g', None) => get_offsets fuel g' t ns
      end
    | r => (g, r)
    end
  end.
(** discoursegraph.py:159-181 with :150-152: [list(get_offsets())].  The
    generator body runs outside of the try block. *)
Definition get_all_offsets (g : graph) (ns : string) : res (list (nid * Z * Z)) :=
  rmap (λ t, let! _ := get_token g t in
             let! p := stored_offsets g t ns in Ok (t, p.1, p.2)) (g_tokens g).

(** ** Spans *)
(** [span.extend] over a list of recursive results, first exception wins *)
Fixpoint rconcat {A B} (f : A → res (list B)) (l : list A) : res (list B) :=
  match l with
  | [] => Ok []
  | x :: l' => let! y := f x in let! ys := rconcat f l' in Ok (y ++ ys)
  end.
(** discoursegraph.py:962-989, get_span *)
Fixpoint get_span (fuel : nat) (g : graph) (n : nid) : res (list nid) :=
  match fuel with
  | O => Err OutOfFuel
  | S fuel =>
    let! tok := istoken g n in
    let! below := rconcat (λ e : nid * nid * nid * attrs,
        if decide (e.1.1.2 = n) then Ok [] (* ignore self-loops *)
        else let! ty := of_option KeyError (dget "edge_type" e.2) in
             if decide (ty = VStr points_to) then Ok []
             else get_span fuel g e.1.1.2) (out_edges g n) in
    Ok (nat_sorted ((if tok then [n] else []) ++ below))
  end.
(** ' '.join *)
Fixpoint join_sp (l : list string) : string :=
  match l with
  | [] => ""
  | [s] => s
  | s :: l' => s +:+ " " +:+ join_sp l'
  end.
(** discoursegraph.py:1007-1013, tokens2text *)
Definition tokens2text (g : graph) (l : list nid) : res string :=
  let! ss := rmap (token_str g) l in Ok (join_sp ss).
(** discoursegraph.py:992-1004, get_text ([if node_id:], so None, 0 and '' all
    mean the whole document) *)
Definition get_text (fuel : nat) (g : graph) (n : option nid) : res string :=
  match n with
  | Some n' => if nid_truthy n' then let! span := get_span fuel g n' in tokens2text g span
               else tokens2text g (g_tokens g)
  | None => tokens2text g (g_tokens g)
  end.
(** [[docgraph.get_offsets(tok) for tok in span]] *)
Fixpoint offsets_of (g : graph) (ns : string) (l : list nid) : graph * res (list (Z * Z)) :=
  match l with
  | [] => (g, Ok [])
  | t :: l' =>
    match get_offsets 3 g t ns with
    | (g', Err e) => (g', Err e)
    | (g', Ok p) => match offsets_of g' ns l' with
                    | (g'', Ok ps) => (g'', Ok (p :: ps))
                    | (g'', Err e) => (g'', Err e)
                    end
    end
  end.
(** discoursegraph.py:941-959, get_span_offsets; unpacking [zip( *[])] raises
    ValueError.  The recursion depth of get_offsets is bounded by 3 here: any
    token that is resolved at all is resolved at the second call
    (QueryFacts). *)
Definition get_span_offsets (fuel : nat) (g : graph) (n : nid) : graph * res (Z * Z) :=
  match get_span fuel g n with
  | Err e => (g, Err e)
  | Ok span =>
    match offsets_of g (g_ns g) span with
    | (g', Err e) => (g', Err e)
    | (g', Ok []) => (g', Err ValueError)
    | (g', Ok (p :: ps)) =>
      (g', Ok (foldr (λ q m, Z.min q.1 m) p.1 ps, foldr (λ q m, Z.max q.2 m) p.2 ps))
    end
  end.
(** [xrange(a, b)] *)
Definition xrange (a b : Z) : list Z := (λ i : nat, (a + Z.of_nat i)%Z) <$> seq 0 (Z.to_nat (b - a)).
(** discoursegraph.py:1033-1045, is_continuous *)
Definition is_continuous (fuel : nat) (g : graph) (n : nid) : graph * res bool :=
  match get_span_offsets fuel g n with
  | (g1, Err e) => (g1, Err e)
  | (g1, Ok (first_onset, last_offset)) =>
    match get_span fuel g1 n with
    | Err e => (g1, Err e)
    | Ok span =>
      match offsets_of g1 (g_ns g1) span with
      | (g2, Err e) => (g2, Err e)
      | (g2, Ok ps) =>
        let char_positions := p ← ps; xrange p.1 (p.2 + 1) in
        (g2, Ok (forallb (λ item, bool_decide (item ∈ char_positions))
                   (xrange first_onset (last_offset + 1))))
      end
    end
  end.

(** ** Selection *)
(** layer argument: None, one layer, a collection of layers *)
Inductive lsel := LAll | LOne (l : string) | LMany (ls : list string).
(** [l in attribs['layers']]; a non-set value is outside the model (TypeError) *)
Definition in_layers (a : attrs) (l : string) : res bool :=
  match dget "layers" a with
  | None => Err KeyError
  | Some (VSet s) => Ok (bool_decide (l ∈ s))
  | Some _ => Err TypeError
  end.
Definition layer_cond (a : attrs) (s : lsel) : res bool :=
  match s with
  | LAll => Ok true
  | LOne l => in_layers a l
  | LMany ls => (fix any ls := match ls with
                 | [] => Ok false
                 | l :: ls => let! b := in_layers a l in if b then Ok true else any ls
                 end) ls
  end.
Fixpoint rfilter {A} (f : A → res bool) (l : list A) : res (list A) :=
  match l with
  | [] => Ok []
  | x :: l' => let! b := f x in let! r := rfilter f l' in Ok (if b then x :: r else r)
  end.
(** discoursegraph.py:1048-1077, select_neighbors_by_layer (neighbors_iter
    raises NetworkXError for an unknown node) *)
Definition select_neighbors_by_layer (g : graph) (n : nid) (s : lsel) : res (list nid) :=
  match dget n (g_succ g) with
  | None => Err NetworkXError
  | Some nbrs => rfilter (λ m, match node_attrs g m with
                               | None => Err KeyError
                               | Some a => match s with LAll => Err TypeError (* iterates over None *)
                                           | _ => layer_cond a s end end) (dkeys nbrs)
  end.
(** discoursegraph.py:1110-1143, select_nodes_by_layer *)
Definition select_nodes_by_layer (g : graph) (s : lsel) : res (list nid) :=
  let! l := rfilter (λ p : nid * attrs, layer_cond p.2 s) (g_node g) in Ok l.*1.
(** value argument: None, one string, a collection *)
Inductive vsel := VAny | VEq (s : string) | VIn (vs : list pyval).
(** discoursegraph.py:1169-1184 (nodes) and 1084-1101 (the edges of a neighbor) *)
Definition attr_cond (a : attrs) (attribute : option string) (s : vsel) : bool :=
  let v := default VNone (match attribute with Some k => dget k a | None => None end) in
  match attribute with Some k => dmem k a | None => true end &&
  match s with
  | VAny => true
  | VEq x => bool_decide (v = VStr x)
  | VIn vs => bool_decide (v ∈ vs)
  end.
(** discoursegraph.py:1146-1184, select_nodes_by_attribute *)
Definition select_nodes_by_attribute (g : graph) (attribute : option string) (s : vsel) : list nid :=
  (filter (λ p : nid * attrs, attr_cond p.2 attribute s = true) (g_node g)).*1.
(** discoursegraph.py:1080-1107, select_neighbors_by_edge_attribute *)
Definition edges_cond (es : list attrs) (attribute : option string) (s : vsel) : bool :=
  match attribute with Some k => existsb (dmem k) es | None => true end &&
  match s with
  | VAny => true
  | VEq x => existsb (λ a, bool_decide (default VNone (match attribute with Some k => dget k a | None => None end) = VStr x)) es
  | VIn vs => existsb (λ a, bool_decide (default VNone (match attribute with Some k => dget k a | None => None end) ∈ vs)) es
  end.
Definition select_neighbors_by_edge_attribute (g : graph) (n : nid) (attribute : option string)
    (s : vsel) : res (list nid) :=
  match dget n (g_succ g) with
  | None => Err NetworkXError
  | Some nbrs => Ok (filter (λ p : nid * dict nid attrs, edges_cond p.2.*2 attribute s = true) nbrs).*1
  end.
(** discoursegraph.py:183-190, get_phrases (cat_val a string) *)
Definition get_phrases (g : graph) (ns : string) (layer cat_key cat_val : string) : res (list nid) :=
  let ns' := if String.eqb ns "" then g_ns g else ns in
  let! l := select_nodes_by_layer g (LOne (ns' +:+ ":" +:+ layer)) in
  rfilter (λ n, match node_attrs g n with
                | None => Err KeyError
                | Some a => let! v := of_option KeyError (dget (g_ns g +:+ ":" +:+ cat_key) a) in
                            Ok (bool_decide (v = VStr cat_val)) end) l.

(** discoursegraph.py:1187-1198: conditions, given as eval strings in the code;
    the strings spliced into them must be plain literals (no quote, backslash
    or newline), anything else is outside the model (NotImplementedError). *)
Inductive cond := CHasKey (k : string) | CValEq (k v : string) | CInLayers (l : string).
Definition plain_lit (s : string) : bool :=
  forallb (λ c, negb (bool_decide (c ∈ ["'"%char; "\"%char; "010"%char; "013"%char]))) (chs s).
Definition eval_cond (a : attrs) (c : cond) : res bool :=
  match c with
  | CHasKey k => if plain_lit k then Ok (dmem k a) else Err NotImplementedError
  | CValEq k v =>
    if plain_lit k && plain_lit v
    then let! x := of_option KeyError (dget k a) in Ok (bool_decide (x = VStr v))
    else Err NotImplementedError
  | CInLayers l => if plain_lit l then in_layers a l else Err NotImplementedError
  end.
Fixpoint eval_all (a : attrs) (cs : list cond) : res bool :=
  match cs with
  | [] => Ok true
  | c :: cs' => let! b := eval_cond a c in if b then eval_all a cs' else Ok false
  end.
Notation edge := (nid * nid * nid * attrs)%type.
Definition select_edges (g : graph) (cs : list cond) : res (list edge) :=
  rfilter (λ e : edge, eval_all e.2 cs) (edges g).
(** discoursegraph.py:1255-1295, select_edges_by *)
Definition select_edges_by (g : graph) (layer edge_type : option string) : res (list edge) :=
  match layer, edge_type with
  | Some l, Some t => select_edges g [CValEq "edge_type" t; CInLayers l]
  | Some l, None => select_edges g [CInLayers l]
  | None, Some t => select_edges g [CValEq "edge_type" t]
  | None, None => Ok (edges g)
  end.
(** discoursegraph.py:1201-1252, select_edges_by_attribute; the values of a
    collection are formatted with [str.format], strings here *)
Inductive evsel := EAny | EEq (s : string) | EIn (vs : list string).
Definition select_edges_by_attribute (g : graph) (attribute : option string) (s : evsel) : res (list edge) :=
  match attribute with
  | None | Some "" => Ok (edges g)
  | Some k =>
    match s with
    | EAny => select_edges g [CHasKey k]
    | EEq v => select_edges g [CHasKey k; CValEq k v]
    | EIn vs => rconcat (λ v, select_edges g [CHasKey k; CValEq k v]) vs
    end
  end.

(** ** Layers *)
(** discoursegraph.py:906-938 and 876-887: as lists, read as sets *)
Definition layers_of (a : attrs) : res (list string) :=
  match dget "layers" a with
  | None => Err KeyError | Some (VSet l) => Ok l | Some _ => Err TypeError end.
Definition get_node_annotation_layers (g : graph) : res (list string) :=
  rconcat (λ p : nid * attrs, layers_of p.2) (g_node g).
Definition get_edge_annotation_layers (g : graph) : res (list string) :=
  rconcat (λ e : edge, layers_of e.2) (edges g).
Definition get_annotation_layers (g : graph) : res (list string) :=
  let! a := get_node_annotation_layers g in
  let! b := get_edge_annotation_layers g in Ok (a ++ b).
(** discoursegraph.py:1368-1373, [layer.split(':')[0]] *)
Fixpoint before_colon (l : chars) : chars :=
  match l with [] => [] | c :: l' => if decide (c = ":"%char) then [] else c :: before_colon l' end.
Definition layer2namespace (layer : string) : string := str (before_colon (chs layer)).
(** discoursegraph.py:890-903 *)
Definition get_top_level_layers (g : graph) : res (list string) :=
  let! l := get_annotation_layers g in Ok (layer2namespace <$> l).

(** ** Pointing chains *)
(** discoursegraph.py:1298-1325, __walk_chain *)
Fixpoint walk_chain (fuel : nat) (rel : dict nid (list nid)) (src : nid) : res (list (list nid)) :=
  match fuel with
  | O => Err OutOfFuel
  | S fuel =>
    rconcat (λ target,
      if dmem target rel then
        let! tails := walk_chain fuel rel target in Ok ((λ tail, src :: tail) <$> tails)
      else Ok [[src; target]]) (default [] (dget src rel))
  end.
(** discoursegraph.py:1349-1365: keep the chain lists whose start is in no
    chain of another list; [src_id_chains[0][0]] *)
Definition chain_start (cl : list (list nid)) : res nid :=
  match cl with (s :: _) :: _ => Ok s | _ => Err IndexError end.
Fixpoint unique_chains (before : list (list (list nid))) (all : list (list (list nid)))
    : res (list (list nid)) :=
  match all with
  | [] => Ok []
  | cl :: rest =>
    let! s := chain_start cl in
    let others := before ++ rest in
    let! r := unique_chains (before ++ [cl]) rest in
    Ok (if existsb (λ l, existsb (λ c, bool_decide (s ∈ c)) l) others then r else cl ++ r)
  end.
Definition chains_of (fuel : nat) (rel : dict nid (list nid)) : res (list (list nid)) :=
  let! all := rmap (walk_chain fuel rel) (dkeys rel) in unique_chains [] all.
(** discoursegraph.py:1340-1346: rel_dict, a defaultdict of sets: the order of
    keys and of set elements is arbitrary *)
Definition rel_dict_of (es : list edge) (rel : dict nid (list nid)) : Prop :=
  NoDup (dkeys rel) ∧
  (∀ s ts, (s, ts) ∈ rel → NoDup ts ∧ ts ≠ []) ∧
  (∀ s t, t ∈ default [] (dget s rel) ↔ ∃ k a, (s, t, k, a) ∈ es).
(** discoursegraph.py:1328-1365, get_pointing_chains *)
Inductive get_pointing_chains (fuel : nat) (g : graph) (layer : option string)
    : res (list (list nid)) → Prop :=
| GPC_err e : select_edges_by g layer (Some points_to) = Err e →
    get_pointing_chains fuel g layer (Err e)
| GPC_ok es rel : select_edges_by g layer (Some points_to) = Ok es → rel_dict_of es rel →
    get_pointing_chains fuel g layer (chains_of fuel rel).
