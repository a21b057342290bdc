(** * Urml: underspecified rhetorical structure (URML) as a document graph

    Model of readwrite/rst/urml.py.  Simplifications: a <document> element is its id, the
    list of its <segment> elements and the list of its relation elements, each in
    document order; all attributes that are read (id, type) are there; text is made of
    bytes.  The list [edus] of the metadata is an object beside the graph (as in
    Tiger.v).  A constructor that raises gives the caller no graph, so only the fact
    that it raises matters. *)
From Verif Require Import PyBase DocGraph Relabel StrNum Query Text Rst Nltk Parsers Anaphora Conano Decour Ptb Convert Tiger.

(** <segment id>: the texts of its children, and its own text *)
Record useg := USeg { us_id : string; us_children : list (option string); us_text : option string }.
(** <parRelation id type>, <hypRelation id type>, or another relation: tags and ids of its
    children *)
Record urel := URel { ur_tag : string; ur_id : string; ur_type : string; ur_parts : list (string * string) }.
Record urmldoc := { ud_id : string; ud_segs : list useg; ud_rels : list urel }.

(** urml.py:388-401, extract_segment_types; the dictionary is filled in document order *)
Definition segment_types_of (ns : string) (d : urmldoc) : dict string string :=
  let m := foldl (λ m p, dset (ns +:+ ":" +:+ p.2) p.1 m) []
             (filter (λ p : string * string, p.1 = "nucleus" ∨ p.1 = "satellite") (r ← ud_rels d; ur_parts r)) in
  foldl (λ m s, let i := ns +:+ ":" +:+ us_id s in if dmem i m then m else dset i "isolated" m) m (ud_segs d).
(** util.py:253-262, sanitize_string *)
Definition sanitize (t : option string) : chars := match t with Some s => strip (chs s) | None => [] end.
(** urml.py:264-281 and :349-363: the text of a segment, and the values of its tokens *)
Definition useg_text (s : useg) : chars :=
  match us_children s with
  | [] => sanitize (us_text s)
  | l => strip (chs (join_sp (omap id l)))
  end.
Definition useg_tokens (tokenize : bool) (s : useg) : list pyval :=
  match us_children s with
  | [] => if tokenize then (λ w, VStr (str w)) <$> split_blanks (useg_text s) else []
  | l => (λ t, match t with Some w => VStr w | None => VNone end) <$> l
  end.
(** rst/common.py:34-48, get_segment_label *)
Definition urml_label (ns : string) (tokenized : bool) (segment_type id : string) (text : chars) : string :=
  let prefix := if decide (segment_type = "") then "_" else str (take 1 (chs segment_type)) in
  if tokenized then "[" +:+ prefix +:+ "]:" +:+ ns +:+ ":segment:" +:+ id
  else "[" +:+ prefix +:+ "]:" +:+ id +:+ ": " +:+ str (take 20 text) +:+ "...".
(** urml.py:339-346, __add_token *)
Definition urml_token (seg : string) (p : nat * pyval) (g : graph) : outcome :=
  let ns := g_ns g in
  let t := NStr (seg +:+ "_" +:+ str_Z (Z.of_nat p.1)) in
  match add_node g t (VSet [ns; ns +:+ ":token"]) (Some [(ns +:+ ":token", p.2); ("label", p.2)]) [] with
  | (g, Some e) => (g, Some e)
  | (g, None) => add_edge (set_tokens (g_tokens g ++ [t]) g) (NStr seg) t (VSet [ns; ns +:+ ":token"]) None None [("edge_type", VStr spans)]
  end.
(** urml.py:248-289, __add_segment.  The state: the graph and self.edus *)
Definition urml_segment (types : dict string string) (tokenize : bool) (s : useg) (st : graph * list nid) : (graph * list nid) * option exc :=
  let '(g, edus) := st in
  let ns := g_ns g in
  let i := ns +:+ ":" +:+ us_id s in
  let edus := edus ++ [NStr i] in
  match loop (urml_token i) (imap pair (useg_tokens tokenize s)) g with
  | (g, Some e) => ((g, edus), Some e)
  | (g, None) =>
    match dget i types with
    | None => ((g, edus), Some KeyError)
    | Some ty =>
      let r := add_node g (NStr i) (VSet [ns; ns +:+ ":segment"])
                 (Some [(ns +:+ ":text", VStr (str (useg_text s))); ("label", VStr (urml_label ns tokenize ty (us_id s) (useg_text s)))]) [] in
      ((r.1, edus), r.2)
    end
  end.
(** urml.py:291-337, __add_relation *)
Definition urml_relation (r : urel) (g : graph) : outcome :=
  let ns := g_ns g in
  let n := NStr (ns +:+ ":" +:+ ur_id r) in
  let named := [(ns +:+ ":rel_name", VStr (ur_type r)); (ns +:+ ":rel_type", VStr (ur_tag r))] in
  let rel_attrs := named ++ [("label", VStr (ns +:+ ":" +:+ ur_type r))] in
  match add_node g n (VSet [ns; ns +:+ ":relation"]) (Some named) [] with
  | (g, Some e) => (g, Some e)
  | (g, None) =>
    if decide (ur_tag r = "parRelation") then
      loop (λ (p : string * string) g, add_edge g n (NStr (ns +:+ ":" +:+ p.2)) (VSet [ns]) None (Some rel_attrs) [("edge_type", VStr spans)]) (ur_parts r) g
    else if decide (ur_tag r = "hypRelation") then
      let elems := foldl (λ m p, dset p.1 p.2 m) [] (ur_parts r) in
      if decide (length (ur_parts r) = 2) then
        match dget "nucleus" elems, dget "satellite" elems with
        | Some nuc, Some sat =>
          match add_edge g n (NStr (ns +:+ ":" +:+ nuc)) (VSet [ns]) None (Some rel_attrs) [("edge_type", VStr dominates)] with
          | (g, Some e) => (g, Some e)
          | (g, None) => add_edge g (NStr (ns +:+ ":" +:+ nuc)) (NStr (ns +:+ ":" +:+ sat)) (VSet [ns]) None (Some rel_attrs) [("edge_type", VStr dominates)]
          end
        | _, _ => (g, Some AssertionError)
        end
      else (g, Some AssertionError)
    else (g, Some NotImplementedError)
  end.

(** ** networkx 1.11, dag_longest_path *)
(** max of (distance, node) pairs *)
Definition larger (x y : nat * nid) : nat * nid := match pair_cmp x y with Lt => y | _ => x end.
Definition largest (x : nat * nid) (l : list (nat * nid)) : nat * nid := foldl larger x l.
(** [dist[n]]: the length of a longest path to [n] and its last but one node; [fuel] is
    the number of levels, which runs out only on a cycle *)
Fixpoint dist (fuel : nat) (g : graph) (n : nid) : res (nat * nid) :=
  match fuel with
  | 0 => Err NetworkXUnfeasible
  | S k =>
    let! ps := rmap (λ u, let! p := dist k g u in Ok (S p.1, u)) (predecessors g n) in
    Ok (match ps with [] => (0, n) | p :: ps => largest p ps end)
  end.
(** the loop over [path]: its last element, i.e. the first node of the reversed list *)
Fixpoint path_start (fuel : nat) (g : graph) (n : nid) : res nid :=
  match fuel with
  | 0 => Err OutOfFuel
  | S k => let! p := dist (S (length (nodes g))) g n in if decide (p.1 = 0) then Ok n else path_start k g p.2
  end.
(** [dag_longest_path(g)[0]]: a path of length 0 is returned as [] *)
Definition longest_path_start (g : graph) : res nid :=
  let! ds := rmap (dist (S (length (nodes g))) g) (nodes g) in
  match ds with
  | [] => Err ValueError
  | d :: ds => let p := largest d ds in if decide (p.1 = 0) then Err IndexError else path_start (S (length (nodes g))) g p.2
  end.
(** urml.py:233-246, __urml2graph: the root.  The metadata of the root move with the root
    (DocGraph.v).  If the new root is the old one, it is removed, and the reader fails
    with a KeyError when it looks for the metadata (:209); the model fails at once. *)
Definition urml_new_root (g : graph) : outcome :=
  match longest_path_start g with
  | Err e => (g, Some e)
  | Ok n =>
    let old := g_root g in
    if decide (old = n) then (g, Some KeyError) else
    if dmem n (g_node g) then if dmem old (g_node g) then remove_node (set_root n g) old else (g, Some KeyError) else (g, Some KeyError)
  end.
(** urml.py:160-246, __init__ and __urml2graph *)
Definition read_urml (name : option string) (ns : string) (tokenize precedence : bool) (d : urmldoc) : graph * list nid * option exc :=
  let name := match name with Some n => if decide (n = "") then ud_id d else n | None => ud_id d end in
  let g := set_name name (init_graph "" ns None) in
  match loop (urml_segment (segment_types_of ns d) tokenize) (ud_segs d) (g, []) with
  | ((g, edus), Some e) => (g, edus, Some e)
  | ((g, edus), None) =>
    match loop urml_relation (filter (λ r, ur_tag r = "parRelation" ∨ ur_tag r = "hypRelation") (ud_rels d)) g with
    | (g, Some e) => (g, edus, Some e)
    | (g, None) =>
      match urml_new_root g with
      | (g, Some e) => (g, edus, Some e)
      | (g, None) =>
        match (if tokenize then if precedence then add_precedence_relations g else (g, None) else (g, None)) with
        | (g, Some e) => (g, edus, Some e)
        | (g, None) =>
          if dmem (g_root g) (g_node g)
          then (if dmem (ns +:+ ":edus") (g_meta g) then g else set_meta (dset (ns +:+ ":edus") (VObj 0) (g_meta g)) g, edus, None)
          else (g, edus, Some KeyError)
        end
      end
    end
  end.
