(** * Paula: export to PAULA XML

    Model of readwrite/paulaxml/paula.py without human_readable comments.  Simplifications:
    an XML file is its id and its content (the DTD follows from the kind of content); text
    is made of bytes that XML allows; [order] is the order in which Python goes through the
    items of a dictionary or set. *)
From Verif Require Import PyBase DocGraph Relabel StrNum Query Text.

Inductive pbody :=
(** <body>text</body> *)
| PText (text : string)
(** <markList type xml:base> of <mark id? xlink:href> *)
| PMarks (type base : string) (marks : list (option string * string))
(** <multiFeatList xml:base> of <multiFeat xlink:href> with <feat name value> *)
| PFeats (base : string) (l : list (string * list (string * string)))
(** <structList type> of <struct id> with <rel id type? xlink:href> *)
| PStructs (type : string) (l : list (string * list (string * option string * string)))
(** <relList> of <rel id xlink:href target> *)
| PRels (l : list (string * string * string)).

(** '#{0}'.format(n) *)
Definition ref (n : nid) : string := "#" +:+ nid_str n.
Definition rel_id (u v : nid) : string := "rel_" +:+ nid_str u +:+ "_" +:+ nid_str v.
(** paula.py:36-39 *)
Definition ignored_edge_attribs : list string := ["layers"; "label"; "tiger:idref"].
Definition ignored_node_attribs : list string := ["layers"; "label"; "metadata"; "tokens"; "tiger:id"; "tiger:art_id"; "tiger:orig_id"].
Definition ignored_token_attribs : list string := ignored_node_attribs ++ ["tiger:token"; "tiger:word"].
(** <feat name value> of the attributes that are not ignored: the value must be a string *)
Definition make_feats (order : ∀ A, list A → list A) (keep : string → bool) (a : attrs) : res (list (string * string)) :=
  rconcat (λ k, if keep k then match dget k a with Some (VStr s) => Ok [(k, s)] | _ => Err TypeError end else Ok []) (order _ (remove_dups (dkeys a))).
Definition kept (ignored : list string) (k : string) : bool := bool_decide (k ∉ ignored).
(** defaultdict(lambda: defaultdict(str)): for each source the targets, with the attributes of the last edge *)
Definition group_edge (m : dict nid (dict nid attrs)) (e : edge) : dict nid (dict nid attrs) :=
  dset e.1.1.1 (dset e.1.1.2 e.2 (default [] (dget e.1.1.1 m))) m.
Definition grouped (order : ∀ A, list A → list A) (es : list edge) : list (nid * dict nid attrs) :=
  (λ p : nid * dict nid attrs, (p.1, order _ p.2)) <$> order _ (foldl group_edge [] es).

(** paula.py:143-163, the primary text *)
Definition text_file (g : graph) : res pbody := let! s := get_text 0 g None in Ok (PText s).
(** paula.py:583-601, get_onsets *)
Fixpoint get_onsets (onset : nat) (l : list (nid * pyval)) : res (list (nid * nat * nat)) :=
  match l with
  | [] => Ok []
  | (t, VStr s) :: l => let! r := get_onsets (onset + (length (chs s) + 1)) l in Ok ((t, onset, length (chs s)) :: r)
  | _ => Err TypeError
  end.
(** paula.py:165-202, the tokens; the id of a mark must be a string *)
Definition range_ref (onset len : nat) : string :=
  "#xpointer(string-range(//body,''," +:+ str_Z (Z.of_nat onset) +:+ "," +:+ str_Z (Z.of_nat len) +:+ "))".
Definition token_file (base : string) (g : graph) : res pbody :=
  let! ts := rmap (λ n, let! v := get_token g n in Ok (n, v)) (g_tokens g) in
  let! os := get_onsets 1 ts in
  let! ms := rmap (λ o : nid * nat * nat, match o.1.1 with NStr s => Ok (Some s, range_ref o.1.2 o.2) | NInt _ => Err TypeError end) os in
  Ok (PMarks "tok" (base +:+ ".xml") ms).
(** paula.py:204-256, spans *)
Definition span_file (order : ∀ A, list A → list A) (salt : bool) (tok layer : string) (g : graph) : res pbody :=
  let! es := select_edges_by g (Some layer) (Some spans) in
  Ok (PMarks layer (tok +:+ ".xml")
    ((λ p : nid * dict nid attrs,
        let targets := nat_sorted (dkeys p.2) in
        (None, if salt then join_sp (ref <$> targets)
               else "#xpointer(id(" +:+ nid_str (default (NInt 0) (head targets)) +:+ ")/range-to(id(" +:+ nid_str (default (NInt 0) (last targets)) +:+ ")))"))
     <$> grouped order es)).
(** paula.py:258-294, the annotation of tokens *)
Definition token_anno_file (order : ∀ A, list A → list A) (tok layer : string) (g : graph) : res pbody :=
  let! l := rmap (λ t, let! a := of_option KeyError (node_attrs g t) in
                       let! fs := make_feats order (λ k, kept ignored_token_attribs k && is_prefix (chs layer) (chs k)) a in
                       Ok (ref t, fs)) (g_tokens g) in
  Ok (PFeats (tok +:+ ".xml") l).
(** paula.py:296-367, hierarchical structures *)
Definition hierarchy_file (order : ∀ A, list A → list A) (tok layer : string) (g : graph) : res pbody :=
  let! ds := select_edges_by g (Some layer) (Some dominates) in
  let! ss := select_edges_by g (Some layer) (Some spans) in
  let ds := filter (λ e : edge, e.1.1.1 ≠ NStr (layer +:+ ":root_node")) ds in
  let! ss := rfilter (λ e : edge, istoken g e.1.1.2) ss in
  let! l := rmap (λ p : nid * dict nid attrs,
      let! rs := rmap (λ q : nid * attrs,
          let! t := istoken g q.1 in
          match dget "edge_type" q.2 with
          | Some (VStr ty) => Ok (rel_id p.1 q.1, Some ty, if t : bool then tok +:+ ".xml#" +:+ nid_str q.1 else ref q.1)
          | _ => Err TypeError
          end) p.2 in
      Ok (nid_str p.1, rs)) (grouped order (ds ++ ss)) in
  Ok (PStructs layer l).
(** paula.py:369-401, the annotation of nodes *)
Definition struct_anno_file (order : ∀ A, list A → list A) (base layer : string) (g : graph) : res pbody :=
  let! ns := select_nodes_by_layer g (LOne layer) in
  let! ns := rfilter (λ n, let! t := istoken g n in Ok (negb t)) ns in
  let! l := rmap (λ n, let! a := of_option KeyError (node_attrs g n) in
                       let! fs := make_feats order (kept ignored_node_attribs) a in Ok (ref n, fs)) ns in
  Ok (PFeats (base +:+ ".xml") l).
(** paula.py:403-448 and 492-538, the annotation of edges *)
Definition edge_anno (order : ∀ A, list A → list A) (base : string) (es : list edge) : res pbody :=
  let! l := rconcat (λ p : nid * dict nid attrs,
      rmap (λ q : nid * attrs, let! fs := make_feats order (kept ignored_edge_attribs) q.2 in Ok ("#" +:+ rel_id p.1 q.1, fs)) p.2) (grouped order es) in
  Ok (PFeats (base +:+ ".xml") l).
Definition rel_anno_file (order : ∀ A, list A → list A) (base layer : string) (g : graph) : res pbody :=
  let! ds := select_edges_by g (Some layer) (Some dominates) in
  edge_anno order base (filter (λ e : edge, e.1.1.1 ≠ NStr (layer +:+ ":root_node")) ds).
Definition pointing_anno_file (order : ∀ A, list A → list A) (base layer : string) (g : graph) : res pbody :=
  let! es := select_edges_by g (Some layer) (Some points_to) in edge_anno order base es.
(** paula.py:540-553, __gen_node_href; [base]: the hierarchy file of the layer *)
Definition node_href (tok base : string) (g : graph) (n : nid) : res string :=
  let! t := istoken g n in Ok ((if t : bool then tok else base) +:+ ".xml#" +:+ nid_str n).
(** paula.py:450-490, pointing relations *)
Definition pointing_file (order : ∀ A, list A → list A) (tok base layer : string) (g : graph) : res pbody :=
  let! es := select_edges_by g (Some layer) (Some points_to) in
  let! l := rconcat (λ p : nid * dict nid attrs,
      rmap (λ q : nid * attrs, let! s := node_href tok base g p.1 in let! t := node_href tok base g q.1 in Ok (rel_id p.1 q.1, s, t)) p.2) (grouped order es) in
  Ok (PRels l).

(** [name.rsplit('.')[0]] *)
Definition short_name (s : string) : string := str (default [] (head (split_char "."%char (chs s)))).
(** names of files; [n]: corpus.document *)
Definition layer_name (n layer suffix : string) : string := layer +:+ "." +:+ n +:+ "_" +:+ layer +:+ suffix.
(** paula.py:106-116: the files of a layer *)
Definition layer_files (order : ∀ A, list A → list A) (salt : bool) (n layer : string) (g : graph) : res (list (string * pbody)) :=
  let tok := n +:+ ".tok" in
  let base := layer_name n layer "" in
  let! f1 := token_anno_file order tok layer g in
  let! f2 := span_file order salt tok layer g in
  let! f3 := hierarchy_file order tok layer g in
  let! f4 := struct_anno_file order base layer g in
  let! f5 := rel_anno_file order base layer g in
  let! f6 := pointing_file order tok base layer g in
  let! f7 := pointing_anno_file order (layer_name n layer "_pointing") layer g in
  Ok [(layer +:+ "." +:+ n +:+ ".tok_multiFeat", f1); (layer_name n layer "_seg", f2); (base, f3); (layer_name n layer "_struct", f4);
      (layer_name n layer "_rel", f5); (layer_name n layer "_pointing", f6); (layer_name n layer "_pointing_multiFeat", f7)].
(** paula.py:555-581, the list of all files *)
Definition annoset_file (order : ∀ A, list A → list A) (files : dict string pbody) : pbody :=
  PStructs "annoSet" [("anno_all_annotations", imap (λ i f, ("rel_" +:+ str_Z (Z.of_nat i), None, f +:+ ".xml")) (order _ (dkeys files)))].
(** paula.py:101-117 on the relabelled graph [g]; [layers]: the top level layers of the document *)
Definition paula_files (order : ∀ A, list A → list A) (salt : bool) (n : string) (layers : list string) (g : graph) : res (dict string pbody) :=
  let! f1 := text_file g in
  let! f2 := token_file (n +:+ ".text") g in
  let! fs := rconcat (λ l, layer_files order salt n l g) layers in
  let files := foldl (λ m p, dset p.1 p.2 m) [] ((n +:+ ".text", f1) :: (n +:+ ".tok", f2) :: fs) in
  Ok (dset (n +:+ ".anno") (annoset_file order files) files).
(** paula.py:125-141, __make_xpointer_compatible *)
Definition xpointer_map (g : graph) : dict nid nid := (λ n, (n, ensure_xpointer_compatibility n)) <$> nodes g.
(** paula.py:78-117, PaulaDocument(docgraph, corpus_name, False, saltnpepper_compatible).files *)
Inductive paula (order : ∀ A, list A → list A) (salt : bool) (corpus : string) (g : graph) : res (dict string pbody) → Prop :=
| P_relabel g' e : relabel_inplace g (xpointer_map g) (g', Some e) → paula order salt corpus g (Err e)
| P_token g' e : relabel_inplace g (xpointer_map g) (g', None) → rmap (λ t, of_option KeyError (dget t (xpointer_map g))) (g_tokens g) = Err e → paula order salt corpus g (Err e)
| P_files g' ts : relabel_inplace g (xpointer_map g) (g', None) → rmap (λ t, of_option KeyError (dget t (xpointer_map g))) (g_tokens g) = Ok ts →
    paula order salt corpus g
      (let! layers := get_top_level_layers g in
       paula_files order salt (corpus +:+ "." +:+ short_name (g_name g)) (order _ (remove_dups layers)) (set_tokens ts g')).
