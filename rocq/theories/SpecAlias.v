(** * SpecAlias: what sharing of objects may and may not do

    Specification for C58 and C59. *)
From Verif Require Import PyBase DocGraph Alias.

(** ** Programs on immutable values *)
(** The statements of a program, run on graphs that are plain values: a call
    on graph [i] replaces that graph by the result of the call. *)
Definition vexec (gs : list graph) (c : cmd) : list graph * option exc :=
  match c with
  | CNew name ns root => (gs ++ [init_graph name ns root], None)
  | CCall i o =>
    match gs !! i with
    | None => (gs, Some NameError)
    | Some g => let '(g', e) := step g o in (<[i := g']> gs, e)
    end
  end.
Fixpoint vexec_all (gs : list graph) (cs : list cmd) : list graph * list (option exc) :=
  match cs with
  | [] => (gs, [])
  | c :: cs' => let '(gs, e) := vexec gs c in let '(gs, es) := vexec_all gs cs' in (gs, e :: es)
  end.
(** the graphs of a store, as they print *)
Definition shown (st : store) : list graph := graph_of (st_heap st) <$> st_graphs st.

(** The dict displays of a call. *)
Definition nspec_dict (s : nspec) : list attrs := match s with NBare _ => [] | NTup _ d => [d] end.
Definition call_dicts (o : op) : list attrs :=
  match o with
  | OAddNode _ _ ad a | OAddEdge _ _ _ _ ad a => match ad with Some d => [d; a] | None => [a] end
  | OAddNodesFrom ns a => (ns ≫= nspec_dict) ++ [a]
  | OAddEdgesFrom es ad a => (e_d <$> es) ++ match ad with Some d => [d; a] | None => [a] end
  | _ => []
  end.
(** Python dictionaries have distinct keys. *)
Definition python_call (o : op) : Prop := Forall (λ a, NoDup (dkeys a)) (call_dicts o).
(** The one case in which the code itself shares a set between nodes:
    add_nodes_from with a keyword [layers] and a node given as a bare id. *)
Definition shares_layers (o : op) : Prop :=
  match o with
  | OAddNodesFrom ns a => "layers" ∈ dkeys a ∧ ∃ n, NBare n ∈ ns
  | _ => False
  end.
Definition literal (c : cmd) : Prop :=
  match c with CNew _ _ _ => True | CCall _ o => python_call o ∧ ¬ shares_layers o end.

(** the statements that create graphs or call graph [i] *)
Definition concerns (i : nat) (c : cmd) : bool :=
  match c with CNew _ _ _ => true | CCall j _ => bool_decide (j = i) end.

(** ** Calls with arbitrary objects *)
(** the dictionary objects held by the nodes and edges of a graph *)
Definition dl {K V} (L : V → list nat) (d : dict K V) : list nat := d ≫= λ p, L p.2.
Definition one (l : nat) : list nat := [l].
Definition succ_locs (s : dict nid (dict nid (dict nid nat))) : list nat := dl (dl (dl one)) s.
Definition locs (g : hgraph) : list nat := dl one (h_node g) ++ succ_locs (h_succ g).

(** The dictionaries [G] are distinct objects with distinct keys and valid
    references, and a set held as [layers] by one of them is held by no
    other entry of any of them. *)
Record HInv (h : heap) (G : list nat) : Prop := {
  i_nodup : NoDup G;
  i_valid : ∀ l, l ∈ G → l < length (hp_dicts h);
  i_keys : ∀ l, l ∈ G → NoDup (dkeys (dict_at h l));
  i_refs : ∀ l k s, l ∈ G → dget k (dict_at h l) = Some (HSet s) → s < length (hp_sets h);
  i_sole : ∀ l l' k s, l ∈ G → l' ∈ G → dget "layers" (dict_at h l) = Some (HSet s) →
    dget k (dict_at h l') = Some (HSet s) → l' = l ∧ k = "layers";
}.
(** no dictionary of [G] refers to the set [s] *)
Definition sfree (h : heap) (G : list nat) (s : nat) : Prop :=
  ∀ l k, l ∈ G → dget k (dict_at h l) ≠ Some (HSet s).

(** the dictionary objects passed to a call *)
Definition olist (o : option nat) : list nat := match o with Some a => [a] | None => [] end.
Definition slocs (s : hnspec) : list nat := match s with HBare _ => [] | HTup _ d => [d] end.
Definition elocs (e : hespec) : list nat := [he_d e].
Definition call_objects (o : hop) : list nat :=
  match o with
  | HAddNode _ _ ad a | HAddEdge _ _ _ _ ad a => a :: olist ad
  | HAddNodesFrom ns a => a :: (ns ≫= slocs)
  | HAddEdgesFrom es ad a => a :: olist ad ++ (es ≫= elocs)
  | _ => []
  end.
(** what is asked of the sets passed to a call: the [layers] argument refers
    to a set that none of the dictionaries [G] refers to, and add_nodes_from
    is not called with a keyword [layers] and a bare id *)
Definition call_sets (h : heap) (G : list nat) (o : hop) : Prop :=
  match o with
  | HAddNode _ lay _ _ | HAddEdge _ _ lay _ _ _ =>
      ∀ s, lay = HSet s → s < length (hp_sets h) ∧ sfree h G s
  | HAddNodesFrom ns a => dget "layers" (dict_at h a) = None ∨ ∀ n, HBare n ∉ ns
  | _ => True
  end.
(** the call, with the values that its arguments have now *)
Definition nspec_of (h : heap) (s : hnspec) : nspec :=
  match s with HBare n => NBare n | HTup n d => NTup n (see_at h d) end.
Definition espec_of (h : heap) (e : hespec) : espec := ESpec (he_u e) (he_v e) (he_key e) (see_at h (he_d e)).
Definition call_value (h : heap) (o : hop) : op :=
  match o with
  | HAddNode n l ad a => OAddNode n (val h l) (see_at h <$> ad) (see_at h a)
  | HAddNodesFrom ns a => OAddNodesFrom (nspec_of h <$> ns) (see_at h a)
  | HAddEdge u v l k ad a => OAddEdge u v (val h l) k (see_at h <$> ad) (see_at h a)
  | HAddEdgesFrom es ad a => OAddEdgesFrom (espec_of h <$> es) (see_at h <$> ad) (see_at h a)
  | HAddLayerNode n l => OAddLayerNode n l
  | HAddLayerEdge u v l => OAddLayerEdge u v l
  | HRemoveNode n => ORemoveNode n
  | HSetTokens l => OSetTokens l
  | HSetSentences l => OSetSentences l
  | HAddPrecedence => OAddPrecedence
  end.
(** all the dictionary objects of the graphs of a store *)
Definition held (st : store) : list nat := st_graphs st ≫= locs.
(** [call i o] on a store *)
Definition hexec (st : store) (i : nat) (o : hop) : store * option exc :=
  match st_graphs st !! i with
  | None => (st, Some NameError)
  | Some g => let '(h, g, e) := h_step (st_heap st) g o in (mkStore h (<[i := g]> (st_graphs st)), e)
  end.
