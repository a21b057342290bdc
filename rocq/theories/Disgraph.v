(** * Disgraph: the document graph of a .dis file

    Model of readwrite/rst/dis/disgraph.py.  Text is made of bytes, so that every id is a
    [str]; file access is the identity and the text of the file is the argument.  The
    relation of a node is kept as an opaque object [VObj 0] when it is a tree.  A
    constructor that raises gives the caller no graph, so only the fact that it raises
    matters.  Strings in the tree are not empty. *)
From Verif Require Import PyBase DocGraph Relabel StrNum Query Text Rst Nltk Dis Conano Exb Tiger.

(** ** Control *)
Notation dgprog := (graph → outcome).
Definition dg_then (p q : dgprog) : dgprog := λ g, match p g with (g, Some e) => (g, Some e) | (g, None) => q g end.
Definition dg_need {A} (r : res A) (k : A → dgprog) : dgprog := λ g, match r with Ok a => k a g | Err e => (g, Some e) end.
Definition dg_fail (e : exc) : dgprog := λ g, (g, Some e).
Definition dg_each {A} (f : A → dgprog) (l : list A) : dgprog := loop f l.
Notation "p >;> q" := (dg_then p q) (at level 100, right associativity).

(** dis/common.py:100-116, get_node_id *)
Definition get_node_id (ns : string) (t : ntree) : res string :=
  match t with
  | NLeaf _ => Err AttributeError
  | NTree _ ts =>
    let! leaf := is_leaf_node ts in
    match (match ts with u :: _ => leaves u | [] => [] end) with
    | [] => Err IndexError
    | a :: l =>
      if leaf : bool then Ok (ns +:+ ":" +:+ a)
      else match l with
           | [] => Err IndexError
           | b :: _ => Ok (ns +:+ ":span:" +:+ a +:+ "-" +:+ b)
           end
    end
  end.
(** dis/common.py:118-133, get_relation_type, as a value: tree[1][0] *)
Definition relation_value (ts : list ntree) : res pyval :=
  match ts with
  | _ :: NTree _ (NLeaf rel :: _) :: _ => Ok (VStr rel)
  | _ :: NTree _ (NTree _ _ :: _) :: _ => Ok (VObj 0)
  | _ :: NLeaf (String c _) :: _ => Ok (VStr (String c ""))
  | _ => Err IndexError
  end.
(** [s[:20]] *)
Definition first_20 (s : string) : string := str (take 20 (chs s)).

Section Read.
  Context (ns : string) (tokenize : bool).
  Definition dg_edge (u v : string) (ad : option attrs) (attr : attrs) : dgprog := λ g, add_edge g (NStr u) (NStr v) VNone None ad attr.
  (** disgraph.py:100-106, one token *)
  Definition add_token (i : string) (p : nat * chars) : dgprog :=
    let t := i +:+ "_" +:+ str_Z (Z.of_nat p.1) in
    (λ g, (set_tokens (g_tokens g ++ [NStr t]) g, None)) >;>
    (λ g, add_node g (NStr t) VNone (Some [(ns +:+ ":token", VStr (str p.2)); ("label", VStr (str p.2))]) []) >;>
    dg_edge i t None [].
  (** disgraph.py:92-106 *)
  Definition parse_leaf (i : string) (ts : list ntree) : dgprog :=
    dg_need (match last ts with Some u => get_edu_text u | None => Err IndexError end) (λ s,
      (λ g, add_node g (NStr i) VNone (Some [(ns +:+ ":text", VStr s); ("label", VStr (i +:+ ": " +:+ first_20 s))]) []) >;>
      if tokenize then dg_each (add_token i) (imap pair (split_blanks (chs s))) else λ g, (g, None)).
  (** disgraph.py:111-157: the edges of a span; [l] is its tree type, [rel] its relation *)
  Definition span_edges (l i : string) (rel : pyval) (children : list ntree) : dgprog :=
    dg_need (rmap get_tree_type children) (λ types,
      let sats := filter (λ p : string * ntree, p.1 = "Satellite") (zip types children) in
      let nucs := filter (λ p : string * ntree, p.1 = "Nucleus") (zip types children) in
      if decide ("Root" ∈ types) then dg_fail AssertionError else
      match sats with
      | [] => dg_each (λ u, dg_need (get_node_id ns u) (λ c, dg_edge i c (Some [(ns +:+ ":rel_type", rel)]) [])) children
      | [(_, s)] =>
        match children with
        | [u] =>
          if decide (l = "Nucleus") then dg_need (get_node_id ns u) (λ c, dg_edge i c (Some [(ns +:+ ":rel_type", rel)]) [("edge_type", VStr dominates)])
          else dg_fail NotImplementedError
        | _ =>
          match nucs with
          | [(_, n)] =>
            dg_need (get_node_id ns n) (λ cn, dg_need (get_node_id ns s) (λ cs,
              dg_edge i cn (Some [(ns +:+ ":rel_type", VStr "span")]) [("edge_type", VStr spans)] >;>
              dg_edge cn cs (Some [(ns +:+ ":rel_type", rel)]) [("edge_type", VStr dominates)]))
          | _ => dg_fail ValueError
          end
        end
      | _ => dg_fail ValueError
      end).
  (** disgraph.py:66-82: the root of the document becomes the root of the graph *)
  Definition parse_root (i : string) : dgprog := λ g,
    let old := g_root g in
    ((λ g, add_node g (NStr i) VNone None []) >;> (λ g, remove_node g old)) (set_root (NStr i) g).
  (** disgraph.py:62-160, parse_dis_tree *)
  Fixpoint parse_dis_tree (t : ntree) {struct t} : dgprog :=
    match t with
    | NLeaf _ => dg_fail AttributeError
    | NTree l ts =>
      if decide (l ∈ tree_types) then
        dg_need (get_node_id ns (NTree l ts)) (λ i,
          if decide (l = "Root") then
            parse_root i >;>
            match ts with
            | _ :: us => dg_each (λ u, dg_need (get_node_id ns u) (λ c, dg_edge i c None [("edge_type", VStr dominates)]) >;> parse_dis_tree u) us
            | [] => λ g, (g, None)
            end
          else
            dg_need (is_leaf_node ts) (λ leaf, dg_need (relation_value ts) (λ rel,
              if leaf : bool then parse_leaf i ts
              else
                (λ g, add_node g (NStr i) VNone (Some [(ns +:+ ":rel_type", rel); (ns +:+ ":node_type", VStr "span")]) []) >;>
                match ts with
                | _ :: _ :: _ :: us => span_edges l i rel us >;> dg_each parse_dis_tree us
                | _ => span_edges l i rel []
                end)))
      else dg_fail AssertionError
    end.
End Read.
(** disgraph.py:47-57, the start of __init__ *)
Definition dg_start (name ns : string) : dgprog :=
  (λ g, add_node g (NInt 0) VNone None [("label", VStr (ns +:+ ":root_node"))]) >;>
  (λ g, if dmem (NStr "discoursegraph:root_node") (g_node g) then remove_node g (NStr "discoursegraph:root_node") else (g, None)).
(** disgraph.py:28-64, RSTLispDocumentGraph of a file with the text [s]; [name] is the name
    given, or that of the file *)
Definition read_disgraph (name ns : string) (tokenize precedence : bool) (s : chars) : res graph :=
  match dg_start name ns (set_root (NInt 0) (set_ns ns (set_name name (init_graph "" "discoursegraph" None)))) with
  | (_, Some e) => Err e
  | (g, None) =>
    let! t := dis_file s in
    match (parse_dis_tree ns tokenize t >;> (if precedence then add_precedence_relations else λ g, (g, None))) g with
    | (_, Some e) => Err e
    | (g, None) => Ok g
    end
  end.
