(** * Exb: Exmaralda *.exb files

    Model of readwrite/exmaralda.py (tokenid2index and gen_token_range: Text.v).
    Simplifications: an exb document is the list of its <tli> elements and the list of its
    <tier> elements, in document order; all attributes that are read are there; times are
    exact numbers of some unit (no float rounding); text is made of bytes that XML allows.
    metadata stay at the root of the base class (:296-299), which nothing reads.  A
    constructor that raises gives the caller no graph, so only the fact that it raises
    matters. *)
From Verif Require Import PyBase DocGraph Relabel StrNum Query Text Rst Conano Ptb Tiger.

(** <event start end>text</event> *)
Record event := Ev { ev_start : string; ev_end : string; ev_text : option string }.
(** <tier id category type display-name> *)
Record tier := Tier { ti_id : string; ti_category : string; ti_type : string; ti_display : string; ti_events : list event }.
(** <tli id time>, and the tiers *)
Record exb := Exb { ex_timeline : list (string * Z); ex_tiers : list tier }.

Definition set_ns (ns : string) (g : graph) : graph :=
  mkGraph (g_name g) ns (g_root g) (g_node g) (g_succ g) (g_pred g) (g_tokens g) (g_sentences g) (g_meta g).

(** ** Reading *)
(** exmaralda.py:408-424, get_token_ids *)
Definition get_token_ids (d : exb) : list string := fst <$> isort (λ a b : string * Z, Z.compare a.2 b.2) (ex_timeline d).
(** exmaralda.py:316-320, __add_tokenization *)
Definition exb_point (t : string) (g : graph) : outcome :=
  match add_node g (NStr t) (VSet [g_ns g]) None [] with
  | (g, Some e) => (g, Some e)
  | (g, None) => (set_tokens (g_tokens g ++ [NStr t]) g, None)
  end.
(** exmaralda.py:337-354, __add_tokens *)
Definition exb_word (e : event) (g : graph) : outcome :=
  match gen_token_range (chs (ev_start e)) (chs (ev_end e)) with
  | Err x => (g, Some x)
  | Ok l =>
    if decide (length l = 1) then node_update g (NStr (ev_start e)) [(g_ns g +:+ ":token", match ev_text e with Some s => VStr s | None => VNone end)]
    else (g, Some AssertionError)
  end.
(** exmaralda.py:356-364 and :430-435, is_token_annotation_tier, indexdelta *)
Fixpoint is_token_annotation_tier (l : list event) : res bool :=
  match l with
  | [] => Ok true
  | e :: l =>
    let! stop := tokenid2index (chs (ev_end e)) in
    let! start := tokenid2index (chs (ev_start e)) in
    if decide ((stop - start)%Z = 1%Z) then is_token_annotation_tier l else Ok false
  end.
(** exmaralda.py:366-374, __add_token_annotation_tier *)
Definition exb_mark (category : string) (e : event) (g : graph) : outcome :=
  node_update g (NStr (ev_start e)) [(g_ns g +:+ ":" +:+ category, VStr (default "" (ev_text e)))].
(** exmaralda.py:393-405, an event of a span tier *)
Definition exb_span (tier_id : string) (p : nat * event) (g : graph) : outcome :=
  let ns := g_ns g in
  let n := NStr (tier_id +:+ "_" +:+ str_Z (Z.of_nat p.1)) in
  match gen_token_range (chs (ev_start p.2)) (chs (ev_end p.2)) with
  | Err x => (g, Some x)
  | Ok l =>
    let annotation := VStr (default "" (ev_text p.2)) in
    match add_node g n (VSet [ns; ns +:+ ":span"]) (Some [(ns +:+ ":annotation", annotation); ("label", annotation)]) [] with
    | (g, Some e) => (g, Some e)
    | (g, None) =>
      match add_edge g (NStr tier_id) n VNone None None [("edge_type", VStr dominates)] with
      | (g, Some e) => (g, Some e)
      | (g, None) => loop (λ t g, add_edge g n (NStr (str t)) VNone None None [("edge_type", VStr spans)]) l g
      end
    end
  end.
(** exmaralda.py:376-405, __add_span_tier *)
Definition exb_span_tier (t : tier) (g : graph) : outcome :=
  let ns := g_ns g in
  match add_node g (NStr (ti_id t)) (VSet [ns; ns +:+ ":tier"])
          (Some [(ns +:+ ":category", VStr (ti_category t)); (ns +:+ ":type", VStr (ti_type t)); (ns +:+ ":display-name", VStr (ti_display t))]) [] with
  | (g, Some e) => (g, Some e)
  | (g, None) =>
    match add_edge g (g_root g) (NStr (ti_id t)) VNone None None [("edge_type", VStr dominates)] with
    | (g, Some e) => (g, Some e)
    | (g, None) => loop (exb_span (ti_id t)) (imap pair (ti_events t)) g
    end
  end.
(** exmaralda.py:322-335, __add_tier *)
Definition exb_tier (token_tier : string) (t : tier) (g : graph) : outcome :=
  if decide (ti_category t = token_tier) then loop exb_word (ti_events t) g
  else match is_token_annotation_tier (ti_events t) with
       | Err e => (g, Some e)
       | Ok true => loop (exb_mark (ti_category t)) (ti_events t) g
       | Ok false => exb_span_tier t g
       end.
(** exmaralda.py:276-314, __init__ *)
Definition read_exb (filename : string) (name : option string) (ns token_tier : string) (ignored : option (list string)) (d : exb) : outcome :=
  let name := match name with Some n => if decide (n = "") then filename else n | None => filename end in
  let g := set_root (NStr (ns +:+ ":root_node")) (set_ns ns (set_name name (init_graph "" "discoursegraph" None))) in
  match loop exb_point (get_token_ids d) g with
  | (g, Some e) => (g, Some e)
  | (g, None) =>
    loop (exb_tier token_tier)
      (match ignored with
       | Some (c :: cs) => filter (λ t, ti_category t ∉ c :: cs) (ex_tiers d)
       | _ => ex_tiers d
       end) g
  end.

(** ** Writing *)
(** the last component of [s.split(':')] *)
Definition last_part (s : string) : string := str (default [] (last (split_char ":"%char (chs s)))).
(** exmaralda.py:452-479, is_informative *)
Definition is_informative (layer : string) : bool :=
  bool_decide (layer ∉ ["tiger"; "tiger:token"; "tiger:sentence:root"; "tiger:sentence:vroot"; "tiger:edge"; "tiger:secedge"; "exmaralda"; "exmaralda:tier"; "discoursegraph"]).
(** E('event', {start, end}, value): the value must be a string *)
Definition time_id (i : nat) : string := "T" +:+ str_Z (Z.of_nat i).
Definition make_event (i j : nat) (v : pyval) : res event :=
  match v with VStr s => Ok (Ev (time_id i) (time_id j) (Some s)) | _ => Err TypeError end.
Definition make_tier (count : nat) (category display : string) (l : list event) : tier :=
  Tier ("TIE" +:+ str_Z (Z.of_nat count)) category "t" ("[" +:+ display +:+ "]") l.
(** exmaralda.py:41-42, toknode2id *)
Definition token_index (g : graph) : dict nid nat := foldl (λ m p, dset p.2 p.1 m) [] (imap pair (g_tokens g)).
(** exmaralda.py:255-270, __span2event *)
Definition span2event (g : graph) (l : list nid) : res (nat * nat) :=
  match head l, last l with
  | Some a, Some b =>
    let! i := of_option KeyError (dget a (token_index g)) in
    let! j := of_option KeyError (dget b (token_index g)) in
    Ok (i, S j)
  | _, _ => Err IndexError
  end.
(** exmaralda.py:223-226: an attribute of a token gets its own tier *)
Definition exported_attr (k : string) : bool :=
  negb (bool_decide (k ∈ ["layers"; "label"])) && negb (bool_decide (last_part k ∈ ["token"; "id"; "word"; "morph"; "lemma"])).
(** exmaralda.py:220-228, token_attribs: for each attribute the tokens that have it, with its values, in the order of
    insertion.  (The keys of a Python dictionary are distinct; remove_dups says so.) *)
Definition token_attribs (g : graph) : res (dict string (dict nid pyval)) :=
  let! rows := rconcat (λ t, let! a := of_option KeyError (node_attrs g t) in
                             Ok (filter (λ k, exported_attr k = true) (remove_dups (dkeys a)) ≫= λ k, match dget k a with Some v => [(k, t, v)] | None => [] end)) (g_tokens g) in
  Ok (foldl (λ m (r : string * nid * pyval), dset r.1.1 (dset r.1.2 r.2 (default [] (dget r.1.1 m))) m) [] rows).
(** exmaralda.py:213-218, 231-236, the tier of the words *)
Definition word_tier (g : graph) : res tier :=
  let! es := rmap (λ p : nat * nid, let! v := get_token g p.2 in make_event p.1 (S p.1) v) (imap pair (g_tokens g)) in
  Ok (make_tier 0 "tok" "tok" es).
(** exmaralda.py:238-252, the tier of an attribute *)
Definition attr_tier (order : ∀ A, list A → list A) (g : graph) (count : nat) (p : string * dict nid pyval) : res tier :=
  let! es := rmap (λ q : nid * pyval, let! i := of_option KeyError (dget q.1 (token_index g)) in make_event i (S i) q.2) (order _ p.2) in
  Ok (make_tier count (last_part p.1) p.1 es).
(** exmaralda.py:127-158, __add_annotation_tier *)
Definition layer_tier (fuel : nat) (g : graph) (count : nat) (layer : string) : res tier :=
  let! ns := select_nodes_by_layer g (LOne layer) in
  let! es := rconcat (λ n, let! l := get_span fuel g n in
                           match l with
                           | [] => Ok []
                           | _ => let! p := span2event g l in
                                  let! a := of_option KeyError (node_attrs g n) in
                                  let! e := make_event p.1 p.2 (default (VStr "") (dget "label" a)) in Ok [e]
                           end) ns in
  Ok (make_tier count (last_part layer) layer es).
(** exmaralda.py:160-198, __add_coreference_chain_tiers: chains of less than three nodes use up a number, but have no tier *)
Definition chain_tier (fuel : nat) (g : graph) (count i : nat) (c : list nid) : res (list tier) :=
  if decide (length c < 3) then Ok [] else
  let! es := rconcat (λ p : nat * nid, let! l := get_span fuel g p.2 in
                           match l with
                           | [] => Ok []
                           | _ => let! q := span2event g l in
                                  let! e := make_event q.1 q.2 (VStr ("chain_" +:+ str_Z (Z.of_nat i) +:+ ": " +:+ str_Z (Z.of_nat (length c - p.1)) +:+ "/" +:+ str_Z (Z.of_nat (length c)))) in Ok [e]
                           end) (imap pair c) in
  Ok [make_tier count "chain" ("coref-chain-" +:+ str_Z (Z.of_nat i)) es].
(** exmaralda.py:98-125, __add_document_structure.  [chains] is what get_pointing_chains gives; [order] is the order in
    which Python goes through the items of a dictionary or set.  [redundant]: remove_redundant_layers is False *)
Definition write_exb (fuel : nat) (order : ∀ A, list A → list A) (chains : res (list (list nid))) (redundant : bool) (g : graph) : res exb :=
  let n := length (g_tokens g) in
  let! attribs := token_attribs g in
  let! words := word_tier g in
  let! t1 := rmap (λ p, attr_tier order g (S p.1) p.2) (imap pair (order _ attribs)) in
  let! layers := get_annotation_layers g in
  let layers := filter (λ l, redundant = true ∨ is_informative l = true) (order _ (remove_dups layers)) in
  let! t2 := rmap (λ p, layer_tier fuel g (S (length attribs) + p.1) p.2) (imap pair layers) in
  let! cs := chains in
  let! t3 := rconcat (λ p, chain_tier fuel g (S (length attribs) + length layers + p.1) p.1 p.2) (imap pair cs) in
  Ok (Exb ((λ i, (time_id i, Z.of_nat i)) <$> seq 0 (S n)) (words :: t1 ++ t2 ++ t3)).
(** what an XML parser gives for it: no text instead of an empty one *)
Definition parsed (d : exb) : exb :=
  Exb (ex_timeline d) ((λ t, Tier (ti_id t) (ti_category t) (ti_type t) (ti_display t)
    ((λ e, Ev (ev_start e) (ev_end e) (match ev_text e with Some "" => None | x => x end)) <$> ti_events t)) <$> ex_tiers d).
