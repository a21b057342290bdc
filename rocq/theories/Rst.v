(** * Rst: rhetorical structure trees, the .rs3 writer and reader

    Model of readwrite/rst/rs3/rs3filewriter.py, rs3tree.py, rs3/common.py and
    of the tree helpers of readwrite/tree.py.  The XML layer (lxml writing and
    parsing a document) is taken to be the identity on the list of <rel>,
    <segment> and <group> elements with their attributes and text. *)
From Verif Require Import PyBase DocGraph Relabel StrNum Query Text.

(** nltk trees: leaves are strings *)
Inductive ntree := NLeaf (s : string) | NTree (label : string) (kids : list ntree).
(** DGParentedTree (tree.py:21-28): trees with a root id *)
Inductive dtree := DLeaf (s : string) | DTree (label : string) (rid : option string) (kids : list dtree).
Fixpoint erase (t : dtree) : ntree :=
  match t with DLeaf s => NLeaf s | DTree l _ ts => NTree l (map erase ts) end.

(** an element of an rs3 document.  lxml attributes: [None] if absent. *)
Inductive xelem :=
| Seg (id : string) (parent relname : option string) (text : string)
| Grp (id : string) (type parent relname : option string).
Record rs3doc := { d_rels : list (string * string); d_body : list xelem }.

(** ** Tree positions (nltk.Tree) *)
(** Tree.treepositions(), preorder, leaves included *)
Fixpoint treepositions (t : ntree) : list (list nat) :=
  match t with
  | NLeaf _ => [[]]
  | NTree _ ts => [] :: (fix go i ts := match ts with
      | [] => []
      | t :: ts => map (cons i) (treepositions t) ++ go (S i) ts end) 0 ts
  end.
(** tree[pos] *)
Fixpoint subtree_at (t : ntree) (pos : list nat) : option ntree :=
  match pos with
  | [] => Some t
  | i :: pos => match t with
                | NLeaf _ => None
                | NTree _ ts => match ts !! i with Some u => subtree_at u pos | None => None end
                end
  end.

(** ** The writer *)
Definition is_leaf (t : ntree) : bool := match t with NLeaf _ => true | _ => false end.
Inductive ntype := LeafNode | EmptyTree | NucNode | RelNode.
(** rs3filewriter.py:29-43, get_node_type *)
Definition get_node_type (t : ntree) : res ntype :=
  match t with
  | NLeaf _ => Ok LeafNode
  | NTree l ts =>
    if decide (l = "") then match ts with [] => Ok EmptyTree | _ => Err AssertionError end
    else if decide (l = "N" ∨ l = "S") then Ok NucNode else Ok RelNode
  end.
(** rs3tree.py:544-578, extract_relations (the dict is threaded) *)
Definition nlabel (t : ntree) : res string := match t with NLeaf _ => Err AttributeError | NTree l _ => Ok l end.
Fixpoint extract_relations (t : ntree) (rels : dict string string) : res (dict string string) :=
  match t with
  | NLeaf _ => Ok rels
  | NTree l ts =>
    let go := (fix go ts rels := match ts with
      | [] => Ok rels
      | t :: ts => let! rels := extract_relations t rels in go ts rels end) in
    if decide (l = "") then match ts with [] => Ok rels | _ => Err AssertionError end
    else if decide (l = "N" ∨ l = "S") then go ts rels
    else
      let! labels := rmap nlabel ts in
      if forallb (λ x, bool_decide (x = "N" ∨ x = "S")) labels then
        go ts (dset l (if decide ("S" ∈ labels) then "rst" else "multinuc") rels)
      else Err AssertionError
  end.
Section writer.
  Context (T : ntree) (rels : dict string string).
  (** rs3filewriter.py:87-88, 103-105: ids are the numbers of the positions *)
  Definition node_id (pos : list nat) : res string :=
    match list_find (λ p, p = pos) (treepositions T) with
    | Some (i, _) => Ok (str_Z (Z.of_nat (S i)))
    | None => Err KeyError
    end.
  (** rs3filewriter.py:107-112 *)
  Definition parent_pos (pos : list nat) : option (list nat) :=
    match pos with [] => None | _ => Some (removelast pos) end.
  Definition at_pos (pos : list nat) : res ntree := of_option IndexError (subtree_at T pos).
  (** rs3filewriter.py:114-126 *)
  Definition children_pos (pos : list nat) : res (list (list nat)) :=
    let! t := at_pos pos in
    match t with
    | NLeaf s => Ok ((λ i, pos ++ [i]) <$> seq 0 (String.length s)) (* iterating over a string *)
    | NTree _ ts => Ok ((λ i, pos ++ [i]) <$> seq 0 (length ts))
    end.
  (** rs3filewriter.py:128-149 *)
  Definition siblings_pos (pos : list nat) : res (list (list nat)) :=
    match parent_pos pos with
    | None => Ok []
    | Some pp => let! cs := children_pos pp in Ok (filter (λ c, c ≠ pos) cs)
    end.
  Definition cousins_pos (pos : list nat) : res (list (list nat)) :=
    match parent_pos pos with
    | None => Ok []
    | Some mother => let! aunts := siblings_pos mother in rconcat children_pos aunts
    end.
  (** rs3filewriter.py:251-260 *)
  Definition child_label (t : ntree) : string := match t with NLeaf s => s | NTree l _ => l end.
  Definition get_group_type (ts : list ntree) : res string :=
    let labels := child_label <$> ts in
    if decide (length labels = 2 ∧ "S" ∈ labels) then Ok "span"
    else if decide (1 < length labels ∧ Forall (λ l, l = "N") labels) then Ok "multinuc"
    else Err ValueError.
  (** rs3filewriter.py:262-294, (relation name, parent id); falling off the end
      returns None, which the caller cannot unpack *)
  Definition get_relname_and_parent (pos : list nat) : res (option string * option string) :=
    match parent_pos pos with
    | None => Ok (None, None)
    | Some pp =>
      let! parent := at_pos pp in let! parent_label := nlabel parent in
      match parent_pos pp with
      | None => Ok (None, None)
      | Some gp =>
        let! gid := node_id gp in
        let! gparent := at_pos gp in let! glabel := nlabel gparent in
        let reltype := default "span" (dget glabel rels) in
        if decide (reltype = "rst") then
          if decide (parent_label = "N") then Ok (Some "span", Some gid)
          else if decide (parent_label = "S") then
            let! cs := cousins_pos pos in
            match cs with
            | [c] => let! cid := node_id c in Ok (Some glabel, Some cid)
            | _ => Err AssertionError
            end
          else Err TypeError
        else if decide (reltype = "multinuc") then Ok (Some glabel, Some gid)
        else Err TypeError
      end
    end.
  (** rs3filewriter.py:223-249, one position; attributes are only written if
      there is a parent *)
  Definition gen_elem (pos : list nat) : res (list xelem) :=
    let! t := at_pos pos in
    let! id := node_id pos in
    let! ty := get_node_type t in
    match ty, t with
    | LeafNode, NLeaf s =>
      let! rp := get_relname_and_parent pos in
      Ok [match rp.2 with Some p => Seg id (Some p) rp.1 s | None => Seg id None None s end]
    | RelNode, NTree _ ts =>
      let! rp := get_relname_and_parent pos in
      let! gt := get_group_type ts in
      Ok [match rp.2 with Some p => Grp id (Some gt) (Some p) rp.1 | None => Grp id (Some gt) None None end]
    | _, _ => Ok []
    end.
  (** sorted(self.treepositions) is the order of treepositions itself *)
  Definition gen_body : res (list xelem) := rconcat gen_elem (treepositions T).
End writer.
Definition is_seg (x : xelem) : bool := match x with Seg _ _ _ _ => true | _ => false end.
(** rs3filewriter.py:50-76, the initial value of the class attribute
    default_relations *)
Definition default_relations : dict string string :=
  [("Antithesis", "rst"); ("Background", "rst"); ("Cause", "rst"); ("Circumstance", "rst"); ("Concession", "rst");
   ("Condition", "rst"); ("Conjunction", "multinuc"); ("Contrast", "multinuc"); ("Disjunction", "multinuc");
   ("Elaboration", "rst"); ("Enablement", "rst"); ("Evaluation", "rst"); ("Evidence", "rst"); ("Interpretation", "rst");
   ("Joint", "multinuc"); ("Justify", "rst"); ("Motivation", "rst"); ("Otherwise", "rst"); ("Preparation", "rst");
   ("Purpose", "rst"); ("Restatement", "rst"); ("Result", "rst"); ("Sequence", "multinuc"); ("Solutionhood", "rst");
   ("Summary", "rst")].
Definition dict_update {V} (d e : dict string V) : dict string V := foldl (λ d p, dset p.1 p.2 d) d e.
(** rs3filewriter.py:78-99, 175-221: RS3FileWriter(tree).etree.  The class
    attribute default_relations is updated in place: [defaults] is its value
    before, the first component of the result its value after the call. *)
Definition write_rs3 (defaults : dict string string) (T : ntree) : dict string string * res rs3doc :=
  match extract_relations T [] with
  | Err e => (defaults, Err e)
  | Ok rels =>
    let defaults' := dict_update defaults rels in
    (defaults',
     let! els := gen_body T defaults' in
     Ok {| d_rels := isort (λ x y : string * string, String.compare x.1 y.1) defaults';
           d_body := filter (λ x, is_seg x = true) els ++ filter (λ x, is_seg x = false) els |})
  end.

(** ** The reader *)
(** [u' '.join(s.strip().split())]: blanks are the ASCII white space
    characters *)
Definition is_space (c : ascii) : bool :=
  bool_decide (c ∈ [" "%char; "009"%char; "010"%char; "011"%char; "012"%char; "013"%char]).
Fixpoint split_blanks (s : chars) : list chars :=
  match s with
  | [] => []
  | c :: s' =>
    if is_space c then split_blanks s'
    else match s' with
         | [] => [[c]]
         | d :: _ => if is_space d then [c] :: split_blanks s'
                     else match split_blanks s' with w :: ws => (c :: w) :: ws | [] => [[c]] end
         end
  end.
Fixpoint join_words (l : list chars) : chars :=
  match l with
  | [] => []
  | [w] => w
  | w :: l' => w ++ " "%char :: join_words l'
  end.
(** rs3tree.py:485-487; the text of an empty element is None *)
Definition normalize_edu_string (s : string) : res string :=
  if decide (s = "") then Err AttributeError else Ok (str (join_words (split_blanks (chs s)))).
(** what get_rs3_data stores about an element; missing entries of the inner
    defaultdict are "" *)
Record info := { i_parent : option string; i_relname : option string; i_nuc : string; i_reltype : string;
                 i_seg : bool; i_text : string; i_gtype : option string }.
Definition no_info : info := {| i_parent := None; i_relname := None; i_nuc := ""; i_reltype := "";
                                i_seg := false; i_text := ""; i_gtype := None |}.
Record rs3data := { r_children : dict (option string) (list string); r_elems : dict string info; r_edus : list string }.
(** rs3/common.py:15-34 *)
Definition extract_relationtypes (d : rs3doc) : dict string string := foldl (λ m p, dset p.1 p.2 m) [] (d_rels d).
(** rs3tree.py:434-475, one element *)
Definition add_elem (reltypes : dict string string) (r : rs3data) (x : xelem) : res rs3data :=
  let '(id, parent, relname) := match x with Seg id p rel _ => (id, p, rel) | Grp id _ p rel => (id, p, rel) end in
  let old := default no_info (dget id (r_elems r)) in
  let! nr := match relname with
             | None => Ok ("root", i_reltype old)
             | Some rel =>
               let rt := default "span" (dget rel reltypes) in
               if decide (rt = "rst") then Ok ("satellite", rt)
               else if decide (rt = "multinuc" ∨ rt = "span") then Ok ("nucleus", rt)
               else Err NotImplementedError
             end in
  let! new := match x with
              | Seg _ _ _ text =>
                let! s := normalize_edu_string text in
                Ok {| i_parent := parent; i_relname := relname; i_nuc := nr.1; i_reltype := nr.2;
                      i_seg := true; i_text := s; i_gtype := i_gtype old |}
              | Grp _ ty _ _ =>
                Ok {| i_parent := parent; i_relname := relname; i_nuc := nr.1; i_reltype := nr.2;
                      i_seg := false; i_text := i_text old; i_gtype := ty |}
              end in
  Ok {| r_children := dset parent (default [] (dget parent (r_children r)) ++ [id]) (r_children r);
        r_elems := dset id new (r_elems r);
        r_edus := if is_seg x then r_edus r ++ [id] else r_edus r |}.
Definition get_rs3_data (d : rs3doc) : res rs3data :=
  rfold (add_elem (extract_relationtypes d)) {| r_children := []; r_elems := []; r_edus := [] |} (d_body d).

Section reader.
  Context (r : rs3data).
  Definition kids_of (id : option string) : list string := default [] (dget id (r_children r)).
  Definition inf (id : string) : info := default no_info (dget id (r_elems r)).
  Definition edu_strings : list string := (λ e, i_text (inf e)) <$> r_edus r.
  (** rs3tree.py:95-104, node_height *)
  Fixpoint node_height (fuel : nat) (id : string) : res nat :=
    match fuel with
    | O => Err OutOfFuel
    | S fuel => match i_parent (inf id) with
                | None => Ok 1
                | Some p => let! h := node_height fuel p in Ok (S h)
                end
    end.
  (** tree.py:27-44, get_position; min of an empty sequence is a ValueError *)
  Fixpoint get_position (fuel : nat) (id : string) : res nat :=
    match fuel with
    | O => Err OutOfFuel
    | S fuel =>
      match list_find (λ e, e = id) (r_edus r) with
      | Some (i, _) => Ok i
      | None => let! ps := rmap (get_position fuel) (kids_of (Some id)) in
                match ps with [] => Err ValueError | p :: ps => Ok (foldl Nat.min p ps) end
      end
    end.
  (** rs3tree.py:106-107 together with 299-308: a segment without children
      whose relation is 'span' takes over the relation of its parent when it is
      converted; all its uses come after that *)
  Definition get_relname (id : string) : option string :=
    let i := inf id in
    if decide (i_seg i = true ∧ kids_of (Some id) = [] ∧ (i_reltype i = "span" ∨ i_reltype i = "") ∧
               i_nuc i ≠ "root" ∧ i_relname i = Some "span")
    then match i_parent i with
         | Some p => match dget p (r_elems r) with Some pi => i_relname pi | None => i_relname i end
         | None => i_relname i
         end
    else i_relname i.
  (** tree.py:56-98, t(root, children, root_id=...) for lists of trees; a
      relation name None is rejected *)
  Definition mk (label : option string) (kids : list dtree) (rid : option string) : res dtree :=
    match label with Some l => Ok (DTree l rid kids) | None => Err NotImplementedError end.
  Definition rid_of (t : dtree) : option string := match t with DTree _ i _ => i | DLeaf _ => None end.
  (** rs3tree.py:498-541 *)
  Definition wrap (nuc other : string) (t : dtree) (rid : option string) : dtree :=
    match t with
    | DTree l i ts => if decide (l = nuc) then t else if decide (l = other) then DTree nuc i ts else DTree nuc rid [t]
    | DLeaf _ => DTree nuc rid [t]
    end.
  Definition n_wrap := wrap "N" "S".
  Definition s_wrap := wrap "S" "N".
  (** rs3tree.py:389-402; trees made by the reader always have a root id *)
  Definition tree_key (f : string → res nat) (t : dtree) : res (nat * dtree) :=
    match rid_of t with Some i => let! k := f i in Ok (k, t) | None => Err NotImplementedError end.
  Definition sort_subtrees (fuel : nat) (ts : list dtree) : res (list dtree) :=
    let! hs := rmap (tree_key (node_height fuel)) ts in
    let by_height := (isort (λ x y : nat * dtree, Nat.compare y.1 x.1) hs).*2 in
    let! ps := rmap (tree_key (get_position fuel)) by_height in
    Ok (isort (λ x y : nat * dtree, Nat.compare x.1 y.1) ps).*2.
  Definition root_relname (t : dtree) : option string :=
    match rid_of t with Some i => get_relname i | None => None end.
  (** rs3tree.py:404-407 *)
  Definition sorted_nucsat_tree (fuel : nat) (nuc sat : dtree) : res dtree :=
    let! ts := sort_subtrees fuel [nuc; sat] in
    mk (root_relname sat) ts (rid_of nuc).
  (** rs3tree.py:409-420 *)
  Definition elem_wrap (t : dtree) (id : string) : dtree :=
    if decide (i_nuc (inf id) = "nucleus") then n_wrap t (Some id) else s_wrap t (Some id).
  (** rs3tree.py:385-387; nltk leaves() *)
  Fixpoint first_leaf (t : dtree) : option string :=
    match t with
    | DLeaf s => Some s
    | DTree _ _ ts => (fix go ts := match ts with
        | [] => None
        | t :: ts => match first_leaf t with Some s => Some s | None => go ts end end) ts
    end.
  Definition linear_position (t : dtree) : res nat :=
    match first_leaf t with
    | None => Err IndexError
    | Some s => match list_find (λ x, x = s) edu_strings with Some (i, _) => Ok i | None => Err ValueError end
    end.
  (** nltk Tree.height() *)
  Fixpoint dheight (t : dtree) : nat :=
    match t with
    | DLeaf _ => 1
    | DTree _ _ ts => S ((fix go ts := match ts with [] => 0 | t :: ts => dheight t `max` go ts end) ts)
    end.
  (** rs3tree.py:363-383, convert_schema; the last one becomes the relation
      itself, the others are put under an N *)
  Fixpoint convert_schema (nuc : dtree) (nuc_pos : nat) (sats : list (dtree * nat)) : res dtree :=
    match sats with
    | [] => Ok nuc
    | (sat, pos) :: rest =>
      let ts := if decide (pos < nuc_pos) then [sat; nuc] else [nuc; sat] in
      match rest with
      | [] => mk (root_relname sat) ts (rid_of nuc)
      | _ => let! inner := mk (root_relname sat) ts None in
             convert_schema (DTree "N" (rid_of nuc) [inner]) nuc_pos rest
      end
    end.
  Definition max_height (l : list (dtree * nat)) : nat := foldr (λ p m, dheight p.1 `max` m) 0 l.
  (** rs3tree.py:324-361 *)
  Definition order_schema (nuc : dtree) (sats : list dtree) : res dtree :=
    let! nuc_pos := linear_position nuc in
    let! l := rmap (λ s, let! p := linear_position s in Ok (s, p)) sats in
    let l := isort (λ x y : dtree * nat, Nat.compare x.2 y.2) l in
    if existsb (λ x : dtree * nat, bool_decide (x.2 = nuc_pos)) l then Err AssertionError
    else
      let prec := reverse (filter (λ x : dtree * nat, x.2 < nuc_pos) l) in
      let succ := filter (λ x : dtree * nat, ¬ x.2 < nuc_pos) l in
      if decide (max_height succ ≤ max_height prec) then convert_schema nuc nuc_pos (prec ++ succ)
      else convert_schema nuc nuc_pos (succ ++ prec).

  (** rs3tree.py:281-322, segment2tree; [dt] converts another element *)
  Definition segment2tree (fuel : nat) (dt : string → res dtree) (id : string) : res dtree :=
    let i := inf id in
    let tree := DTree (if decide (i_reltype i = "rst") then "S" else "N") (Some id) [DLeaf (i_text i)] in
    match kids_of (Some id) with
    | [] => Ok tree
    | [sat] => let! s := dt sat in sorted_nucsat_tree fuel tree s
    | sats =>
      if forallb (λ c, bool_decide (i_nuc (inf c) = "satellite")) sats then
        let! ss := rmap dt sats in order_schema tree ss
      else Err AssertionError
    end.
  (** rs3tree.py:164-279, group2tree *)
  Definition group2tree (fuel : nat) (dt : string → res dtree) (id : string) : res dtree :=
    let i := inf id in
    let kids := kids_of (Some id) in
    if decide (i_reltype i = "rst" ∨ i_reltype i = "multinuc") then
      let! sub := match kids with
                  | [c] => dt c
                  | _ => let! ts := rmap (λ c, let! t := dt c in Ok (elem_wrap t c)) kids in
                         let! ts := sort_subtrees fuel ts in
                         match kids with
                         | [] => Err IndexError
                         | c :: _ => mk (get_relname c) ts (Some id)
                         end
                  end in
      Ok (if decide (i_reltype i = "rst") then s_wrap sub (Some id) else n_wrap sub (Some id))
    else if decide (i_reltype i = "" ∨ i_reltype i = "span") then
      if decide (i_gtype i = Some "multinuc") then
        let mult := filter (λ c, i_reltype (inf c) = "multinuc") kids in
        match mult with
        | [] => Err IndexError
        | m :: _ =>
          let! ts := rmap dt mult in
          let! ts := sort_subtrees fuel ts in
          let! sub := mk (get_relname m) ts (Some id) in
          match filter (λ c, c ∉ mult) kids with
          | [] => Ok sub
          | others =>
            if forallb (λ c, bool_decide (i_nuc (inf c) = "satellite")) others then
              let! ss := rmap dt others in order_schema (DTree "N" (Some id) [sub]) ss
            else Err AssertionError
          end
        end
      else
        match kids with
        | [] => Err ValueError
        | [c] => dt c
        | [c; d] =>
          let nucs := [i_nuc (inf c); i_nuc (inf d)] in
          if decide (nucs = ["satellite"; "nucleus"] ∨ nucs = ["nucleus"; "satellite"]) then
            let '(sat, nuc) := if decide (i_nuc (inf c) = "satellite") then (c, d) else (d, c) in
            let! s := dt sat in let! n := dt nuc in
            sorted_nucsat_tree fuel (n_wrap n (Some id)) s
          else
            let! t1 := dt c in let! t2 := dt d in sorted_nucsat_tree fuel t1 t2
        | _ =>
          let nucs := filter (λ c, i_nuc (inf c) = "nucleus") kids in
          let sats := filter (λ c, i_nuc (inf c) = "satellite") kids in
          match nucs with
          | [n] => let! nt := dt n in let! ss := rmap dt sats in order_schema (DTree "N" (Some id) [nt]) ss
          | _ => Err AssertionError
          end
        end
    else Err AssertionError.
  (** rs3tree.py:111-134, dt *)
  Fixpoint dt (fuel : nat) (id : string) : res dtree :=
    match fuel with
    | O => Err OutOfFuel
    | S fuel => if i_seg (inf id) then segment2tree fuel (dt fuel) id else group2tree fuel (dt fuel) id
    end.
  (** the larger of two (height, root id) pairs *)
  Definition max_pair (x y : nat * string) : nat * string :=
    match Nat.compare x.1 y.1 with
    | Lt => y | Gt => x | Eq => match String.compare x.2 y.2 with Lt => y | _ => x end
    end.
  (** rs3tree.py:136-162, root2tree *)
  Definition root2tree (fuel : nat) : res dtree :=
    match kids_of None with
    | [] => Ok (DTree "" None [])
    | [id] => dt fuel id
    | roots =>
      let! ts := rmap (λ id, let! t := dt fuel id in Ok (n_wrap t (Some id))) roots in
      let! ts := sort_subtrees fuel ts in
      let! hs := rmap (λ t, let! i := of_option NotImplementedError (rid_of t) in Ok (dheight t, i)) ts in
      match hs with
      | [] => Err ValueError
      | h :: hs => Ok (DTree "virtual-root" (Some (foldl max_pair h hs).2) ts)
      end
    end.
End reader.
(** rs3tree.py:46-58, RSTTree(file).tree *)
Definition read_rs3 (fuel : nat) (d : rs3doc) : res dtree :=
  let! r := get_rs3_data d in root2tree r fuel.
