(** * Rs3Graph: rhetorical structure as a document graph

    Model of readwrite/rst/rs3/rs3graph.py.  Simplifications: the XML file is the list
    of its elements (Rst.v); every element has an id; text is made of bytes.  The list
    [edus] of the metadata is an object beside the graph (as in Tiger.v).  A constructor
    that raises gives the caller no graph, so only the fact that it raises matters. *)
From Verif Require Import PyBase DocGraph Relabel StrNum Query Text Rst Nltk Parsers Anaphora Conano Decour Ptb Convert Tiger.

Definition x_id (x : xelem) : string := match x with Seg i _ _ _ => i | Grp i _ _ _ => i end.
Definition x_parent (x : xelem) : option string := match x with Seg _ p _ _ => p | Grp _ _ p _ => p end.
Definition x_relname (x : xelem) : option string := match x with Seg _ _ r _ => r | Grp _ _ _ r => r end.

(** rst/common.py:34-48, get_segment_label with [tokenized = False]: rs3graph.py:96 and
    :106-107 set self.tokenized after all segments have been added.  The type of a
    segment is never empty. *)
Definition segment_label (segment_type id : string) (text : chars) : string :=
  "[" +:+ str (take 1 (chs segment_type)) +:+ "]:" +:+ id +:+ ": " +:+ str (take 20 text) +:+ "...".

Section Reader.
  Context (rels : dict string string).
  (** rs3graph.py:266-315, __get_segment_types *)
  Definition segment_types (x : xelem) : string * option string :=
    match x_parent x with
    | None => if is_seg x then ("isolated", None) else ("span", None)
    | Some _ =>
      let relname := default "" (x_relname x) in
      let reltype := default "" (dget relname rels) in
      if decide (reltype = "rst") then ("satellite", Some "nucleus")
      else if decide (reltype = "multinuc") then ("nucleus", None)
      else ("span", Some "span")
    end.
  (** rs3graph.py:232-263, __add_parent_relation; [parent] is the attribute *)
  Definition add_parent_relation (g : graph) (x : xelem) (parent : string) : outcome :=
    let ns := g_ns g in
    match x_relname x with
    | None => (g, Some KeyError)
    | Some relname =>
      let '(segment_type, parent_segment_type) := segment_types x in
      let reltype := default "" (dget relname rels) in
      let parent_id := NStr (ns +:+ ":" +:+ parent) in
      let parent_attrs := (ns +:+ ":rel_name", VStr relname) ::
        match parent_segment_type with Some t => [(ns +:+ ":segment_type", VStr t)] | None => [] end in
      match (if dmem parent_id (g_succ g)
             then if decide (segment_type = "span") then (g, None) else node_update g parent_id parent_attrs
             else add_node g parent_id (VSet [ns]) (Some parent_attrs) []) with
      | (g, Some e) => (g, Some e)
      | (g, None) =>
        add_edge g parent_id (NStr (ns +:+ ":" +:+ x_id x)) (VSet [ns]) None
          (Some [(ns +:+ ":rel_name", VStr relname); (ns +:+ ":rel_type", VStr reltype); ("label", VStr (ns +:+ ":" +:+ relname))])
          [("edge_type", VStr (if decide (segment_type = "span") then spans else dominates))]
      end
    end.
  (** rs3graph.py:144-171, __add_segment.  The state: the graph and self.segments, which
      equals self.edus *)
  Definition rs3_segment (x : xelem) (s : graph * list nid) : (graph * list nid) * option exc :=
    match x with
    | Grp _ _ _ _ => (s, None)
    | Seg id parent _ text =>
      let '(g, segs) := s in
      let ns := g_ns g in
      let n := NStr (ns +:+ ":" +:+ id) in
      let segs := segs ++ [n] in
      let segment_type := (segment_types x).1 in
      let text := strip (chs text) in
      match add_node g n (VSet [ns; ns +:+ ":segment"])
              (Some [("label", VStr (segment_label segment_type id text)); (ns +:+ ":text", VStr (str text)); (ns +:+ ":segment_type", VStr segment_type)]) [] with
      | (g, Some e) => ((g, segs), Some e)
      | (g, None) =>
        match parent with
        | None => ((g, segs), None)
        | Some p => let r := add_parent_relation g x p in ((r.1, segs), r.2)
        end
      end
    end.
  (** rs3graph.py:212-227: a group without a parent becomes the root.  The metadata of
      the root move with the root (DocGraph.v).  If the group is the root already, it is
      removed, and the reader fails with a KeyError when it looks for the metadata
      (:115 or :225); the model fails at once. *)
  Definition rs3_new_root (g : graph) (n : nid) : outcome :=
    let ns := g_ns g in
    let old := g_root g in
    match node_update (set_root n g) n [("layers", VSet [ns; ns +:+ ":root"]); (ns +:+ ":segment_type", VStr "span")] with
    | (g, Some e) => (g, Some e)
    | (g, None) => if decide (old = n) then (g, Some KeyError) else if dmem old (g_node g) then remove_node g old else (g, Some KeyError)
    end.
  (** rs3graph.py:173-230, __add_group *)
  Definition rs3_group (x : xelem) (g : graph) : outcome :=
    match x with
    | Seg _ _ _ _ => (g, None)
    | Grp id gtype parent _ =>
      let ns := g_ns g in
      let n := NStr (ns +:+ ":" +:+ id) in
      match gtype with
      | None => (g, Some KeyError)
      | Some gtype =>
        let segment_type := (segment_types x).1 in
        let group_attrs := [(ns +:+ ":group_type", VStr gtype); ("label", VStr (ns +:+ ":group:" +:+ gtype +:+ ":" +:+ id))] in
        let typed := group_attrs ++ [(ns +:+ ":segment_type", VStr segment_type)] in
        let has_type := match node_attrs g n with Some a => dmem (ns +:+ ":segment_type") a | None => false end in
        match (if negb (dmem n (g_succ g)) then add_node g n (VSet [ns; ns +:+ ":group"]) (Some typed) []
               else node_update g n (dset "layers" (VSet [ns; ns +:+ ":group"])
                      (if decide (segment_type = "span") then if has_type then group_attrs else typed else typed))) with
        | (g, Some e) => (g, Some e)
        | (g, None) =>
          match parent with
          | None => rs3_new_root g n
          | Some p => add_parent_relation g x p
          end
        end
      end
    end.
End Reader.

(** rs3graph.py:318-334, __tokenize_segments: one token.  The layers of the edge do not
    depend on the namespace. *)
Definition rs3_token (seg : nid) (p : nat * chars) (g : graph) : outcome :=
  let ns := g_ns g in
  let t := NStr (ns +:+ ":" +:+ nid_str seg +:+ "_" +:+ str_Z (Z.of_nat p.1)) in
  match add_node g t (VSet [ns; ns +:+ ":token"]) (Some [(ns +:+ ":token", VStr (str p.2)); ("label", VStr (str p.2))]) [] with
  | (g, Some e) => (g, Some e)
  | (g, None) => add_edge (set_tokens (g_tokens g ++ [t]) g) seg t (VSet ["rst"; "rst:token"]) None None [("edge_type", VStr spans)]
  end.
Definition rs3_tokens (seg : nid) (g : graph) : outcome :=
  match (let! a := of_option KeyError (node_attrs g seg) in
         let! v := of_option KeyError (dget (g_ns g +:+ ":text") a) in
         match v with VStr s => Ok s | _ => Err AttributeError end) with
  | Err e => (g, Some e)
  | Ok text => loop (rs3_token seg) (imap pair (split_blanks (chs text))) g
  end.
(** rs3graph.py:61-142, __init__.  [base] is the name of the file *)
Definition read_rs3_graph (base : string) (name : option string) (ns : string) (tokenize precedence : bool) (d : rs3doc) : graph * list nid * option exc :=
  let rels := extract_relationtypes d in
  let name := match name with Some n => if decide (n = "") then base else n | None => base end in
  let g := set_name name (init_graph "" ns None) in
  match loop (rs3_segment rels) (filter (λ x, is_seg x = true) (d_body d)) (g, []) with
  | ((g, segs), Some e) => (g, segs, Some e)
  | ((g, segs), None) =>
    match loop (rs3_group rels) (filter (λ x, is_seg x = false) (d_body d)) g with
    | (g, Some e) => (g, segs, Some e)
    | (g, None) =>
      match (if tokenize then
               match loop rs3_tokens segs g with
               | (g, Some e) => (g, Some e)
               | (g, None) => if precedence then add_precedence_relations g else (g, None)
               end
             else (g, None)) with
      | (g, Some e) => (g, segs, Some e)
      | (g, None) =>
        if dmem (g_root g) (g_node g)
        then (if dmem (ns +:+ ":edus") (g_meta g) then g else set_meta (dset (ns +:+ ":edus") (VObj 0) (g_meta g)) g, segs, None)
        else (g, segs, Some KeyError)
      end
    end
  end.

(** ** Relations *)
(** rs3graph.py:348-366, get_edus; [objs] are the list objects *)
Definition get_edus (g : graph) (objs : nat → option (list nid)) (ns : string) : res (list nid) :=
  if dmem (g_root g) (g_node g) then
    let! v := of_option KeyError (dget (ns +:+ ":edus") (g_meta g)) in
    match v with VObj i => of_option KeyError (objs i) | _ => Err TypeError end
  else Err KeyError.
(** rs3graph.py:369-396, get_rst_relation_root_nodes *)
Definition relation_roots (g : graph) (ns : string) : list (nid * pyval) :=
  omap (λ p : nid * attrs,
    match dget (ns +:+ ":rel_name") p.2 with
    | Some v => if decide (v = VStr "span") then None else Some (p.1, v)
    | None => None
    end) (g_node g).
Definition get_rst_relation_root_nodes (fuel : nat) (g : graph) (ns : string) : res (list (nid * pyval * list nid)) :=
  rmap (λ p : nid * pyval, let! s := get_span fuel g p.1 in Ok (p.1, p.2, s)) (relation_roots g ns).
(** an entry of the result of get_rst_relations.  A list that would be absent is empty. *)
Record rst_rel := RstRel {
  rr_tokens : list nid;
  rr_nucleus : option (nid * list nid);
  rr_satellites : list (nid * pyval * list nid);
  rr_multinuc : list (nid * pyval * list nid);
}.
(** rs3graph.py:440-464: one edge to a neighbor *)
Definition rst_edge (fuel : nat) (g : graph) (m : nid) (r : rst_rel) (a : attrs) : res rst_rel :=
  let! ty := of_option KeyError (dget "edge_type" a) in
  if decide (ty = VStr spans) then
    let! s := get_span fuel g m in Ok (RstRel (rr_tokens r) (Some (m, s)) (rr_satellites r) (rr_multinuc r))
  else
    let! rt := of_option KeyError (dget "rst:rel_type" a) in
    if decide (rt = VStr "rst") then
      let! name := of_option KeyError (dget "rst:rel_name" a) in
      let! s := get_span fuel g m in Ok (RstRel (rr_tokens r) (rr_nucleus r) (rr_satellites r ++ [(m, name, s)]) (rr_multinuc r))
    else if decide (rt = VStr "multinuc") then
      let! name := of_option KeyError (dget "rst:rel_name" a) in
      let! s := get_span fuel g m in Ok (RstRel (rr_tokens r) (rr_nucleus r) (rr_satellites r) (rr_multinuc r ++ [(m, name, s)]))
    else Err NotImplementedError.
(** rs3graph.py:430-464: one node; [None]: the node gets no entry *)
Definition rst_node (fuel : nat) (g : graph) (n : nid) : res (option rst_rel) :=
  let! ms := select_neighbors_by_layer g n (LMany ["rst:segment"; "rst:group"]) in
  let! ts := rfilter (istoken g) (successors g n) in
  let! r := rfold (λ r (p : nid * attrs), rst_edge fuel g p.1 r p.2)
    (RstRel (nat_sorted ts) None [] [])
    (m ← ms; (λ p : nid * attrs, (m, p.2)) <$> default [] (dget m (default [] (dget n (g_succ g))))) in
  Ok (match r with RstRel [] None [] [] => None | _ => Some r end).
(** rs3graph.py:399-465, get_rst_relations: the nodes with their entries; the order of a
    Python dict is arbitrary *)
Definition get_rst_relations (fuel : nat) (g : graph) : res (list (nid * rst_rel)) :=
  let! _ := get_rst_relation_root_nodes fuel g "rst" in
  let! l := rmap (λ p : nid * pyval, let! r := rst_node fuel g p.1 in Ok (p.1, r)) (relation_roots g "rst") in
  Ok (omap (λ p : nid * option rst_rel, match p.2 with Some r => Some (p.1, r) | None => None end) l).
(** (relation string, span type, relation type, onset, offset) *)
Notation rst_span := (string * string * pyval * nat * nat)%type.
(** '-'.join *)
Fixpoint join_dash (l : list string) : string :=
  match l with [] => "" | [s] => s | s :: l => s +:+ "-" +:+ join_dash l end.
(** rs3graph.py:504-521 *)
Definition multinuc_spans (tm : dict nid nat) (dom : nid) (l : list (nid * pyval * list nid)) : res (list rst_span * option (nat * nat)) :=
  let! os := rmap (λ m : nid * pyval * list nid, get_segment_token_offsets m.2 tm) l in
  let id := nid_str dom +:+ "-" +:+ join_dash ((λ m : nid * pyval * list nid, nid_str m.1.1) <$> l) in
  Ok (imap (λ i (p : nid * pyval * list nid * (nat * nat)), (id, "N" +:+ str_Z (Z.of_nat (S i)), p.1.1.2, p.2.1, p.2.2)) (zip l os),
      match os with [] => None | o :: os => Some (foldr (λ p m, Nat.min p.1 m) o.1 os, foldr (λ p m, Nat.max p.2 m) o.2 os) end).
(** rs3graph.py:523-549 *)
Definition satellite_spans (tm : dict nid nat) (dom : nid) (r : rst_rel) (whole : option (nat * nat)) : res (list rst_span) :=
  match rr_satellites r with
  | [] => Ok []
  | sats =>
    let! nuc := match rr_nucleus r, whole, rr_tokens r with
                | Some (m, toks), _, _ => let! o := get_segment_token_offsets toks tm in Ok (m, o)
                | None, Some o, _ => Ok (dom, o)
                | None, None, _ :: _ => let! o := get_segment_token_offsets (rr_tokens r) tm in Ok (dom, o)
                | None, None, [] => Err ValueError
                end in
    rconcat (λ s : nid * pyval * list nid,
      let! o := get_segment_token_offsets s.2 tm in
      let id := nid_str nuc.1 +:+ "-" +:+ nid_str s.1.1 in
      Ok [(id, "N", s.1.2, nuc.2.1, nuc.2.2); (id, "S", s.1.2, o.1, o.2)]) sats
  end.
(** rs3graph.py:468-550, get_rst_spans; [TokenMapper(rst_graph).id2index] *)
Definition get_rst_spans (fuel : nat) (g : graph) : res (list rst_span) :=
  let tm := (token_mapper (g_tokens g)).1 in
  let! rels := get_rst_relations fuel g in
  rconcat (λ p : nid * rst_rel,
    let! m := multinuc_spans tm p.1 (rr_multinuc p.2) in
    let! s := satellite_spans tm p.1 p.2 m.2 in
    Ok (m.1 ++ s)) rels.
