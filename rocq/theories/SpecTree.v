(** * SpecTree: vocabulary of the tree properties (C29, C46, C47) *)
From Verif Require Import PyBase DocGraph Relabel SpecGraph StrNum Query SpecQuery.

(** u dominates v directly *)
Definition dom (g : graph) (u v : nid) : Prop :=
  ∃ k a, edge_attrs g u v k = Some a ∧ dget "edge_type" a = Some (VStr "dominates").
(** [toks !! i] is the first of the tokens that n dominates (n itself included) *)
Definition first_token_of (g : graph) (toks : list nid) (n : nid) (i : nat) : Prop :=
  (∃ t, toks !! i = Some t ∧ rtc (dom g) n t) ∧
  ∀ j t, toks !! j = Some t → rtc (dom g) n t → i ≤ j.
(** the tokens below a sentence root, if the root lists them, or else all *)
Definition tokens_for (g : graph) (sent_tokens : dict nid (list nid)) (root : nid) : list nid :=
  if decide (root = g_root g) then g_tokens g else default (g_tokens g) (dget root sent_tokens).
(** every node has at most one incoming dominance edge *)
Definition one_parent (g : graph) : Prop := ∀ u k a u' k' a' v,
  edge_attrs g u v k = Some a → dget "edge_type" a = Some (VStr "dominates") →
  edge_attrs g u' v k' = Some a' → dget "edge_type" a' = Some (VStr "dominates") → u = u' ∧ k = k'.

(** [es] are the edges of a breadth first traversal from [source]: each node
    that can be reached is entered once, over an edge from a node entered
    before; the nodes are left in the order in which they were entered *)
Record bfs_tree {A} (child : A → A → Prop) (source : A) (es : list (A * A)) : Prop := {
  bt_once : NoDup (source :: es.*2);
  bt_edge : ∀ p c, (p, c) ∈ es → child p c;
  bt_parent : ∀ i p c, es !! i = Some (p, c) → p = source ∨ ∃ j p', j < i ∧ es !! j = Some (p', p);
  bt_all : ∀ n, n ∈ source :: es.*2 ↔ rtc child source n;
  bt_order : ∀ i j p q c d k l, i ≤ j → es !! i = Some (p, c) → es !! j = Some (q, d) →
    (source :: es.*2) !! k = Some p → (source :: es.*2) !! l = Some q → k ≤ l;
}.
(** siblings come in the order of their first tokens *)
Definition left_to_right (g : graph) (toks : list nid) (es : list (nid * nid)) : Prop :=
  ∀ i j p c d x y, i < j → es !! i = Some (p, c) → es !! j = Some (p, d) →
    first_token_of g toks c x → first_token_of g toks d y → x ≤ y.

(** ** Ordered trees *)
Inductive rose (A : Type) := Rose (a : A) (ts : list (rose A)).
Arguments Rose {A} a ts.
Definition rroot {A} (t : rose A) : A := match t with Rose a _ => a end.
(** the nodes in preorder *)
Fixpoint preorder {A} (t : rose A) : list A :=
  match t with Rose a ts => a :: (fix go ts := match ts with [] => [] | t :: ts => preorder t ++ go ts end) ts end.
Fixpoint rmap_tree {A B} (f : A → B) (t : rose A) : rose B :=
  match t with Rose a ts => Rose (f a) (map (rmap_tree f) ts) end.
(** t is the tree of the edges es below n: the children of a node are the
    targets of its edges, in that order *)
Inductive tree_of {A} `{EqDecision A} (es : list (A * A)) : A → rose A → Prop :=
| TreeOf n ts : trees_of es ((filter (λ e, e.1 = n) es).*2) ts → tree_of es n (Rose n ts)
with trees_of {A} `{EqDecision A} (es : list (A * A)) : list A → list (rose A) → Prop :=
| TreesNil : trees_of es [] []
| TreesCons n ns t ts : tree_of es n t → trees_of es ns ts → trees_of es (n :: ns) (t :: ts).

(** ** Reading bracketed text *)
(** s-expressions: words and bracketed groups *)
Inductive sexp := W (w : chars) | L (l : list sexp).
(** the text of a word that has been read so far is added unless it is empty *)
Definition flush (w : chars) (items : list sexp) : list sexp :=
  match w with [] => items | _ => W (reverse w) :: items end.
(** one pass over the text; [stack] holds the open groups, innermost first,
    each with its items in reverse order *)
Fixpoint read_sexp (s : chars) (w : chars) (stack : list (list sexp)) : option (list sexp) :=
  match s with
  | [] => match stack with [items] => Some (reverse (flush w items)) | _ => None end
  | c :: s' =>
    match stack with
    | [] => None
    | items :: st =>
      if decide (c = "("%char) then read_sexp s' [] ([] :: flush w items :: st)
      else if decide (c = ")"%char) then
        match st with
        | outer :: st' => read_sexp s' [] ((L (reverse (flush w items)) :: outer) :: st')
        | [] => None
        end
      else if decide (c = " "%char) then read_sexp s' [] (flush w items :: st)
      else read_sexp s' (c :: w) (items :: st)
    end
  end.
Definition parse_sexp (s : chars) : option (list sexp) := read_sexp s [] [[]].

(** the FREQT format: a tree is ( label child child ... ), a label is any text
    without brackets *)
Fixpoint read_freqt (s : chars) (stack : list (chars * list (rose chars))) (top : list (rose chars))
    : option (list (rose chars)) :=
  match s with
  | [] => match stack with [] => Some (reverse top) | _ => None end
  | c :: s' =>
    if decide (c = "("%char) then read_freqt s' (([], []) :: stack) top
    else if decide (c = ")"%char) then
      match stack with
      | [] => None
      | (lab, ts) :: st =>
        let t := Rose (reverse lab) (reverse ts) in
        match st with
        | [] => read_freqt s' [] (t :: top)
        | (lab', ts') :: st' => read_freqt s' ((lab', t :: ts') :: st') top
        end
      end
    else match stack with
         | (lab, []) :: st => read_freqt s' ((c :: lab, []) :: st) top
         | _ => None
         end
  end.
Definition parse_freqt (s : chars) : option (list (rose chars)) := read_freqt s [] [].

(** ** What the exports show of a node *)
Definition str_attr (k : string) (dflt : pyval) (a : attrs) : option chars :=
  match default dflt (dget k a) with VStr s => Some (chs s) | _ => None end.
Definition not_empty (ws : list chars) : list chars := filter (λ w, w ≠ []) ws.
(** the words of a node in brackets: part of speech and token of a token node,
    the label of another node; empty ones are left out *)
Definition node_words (g : graph) (n : nid) : option (list chars) :=
  match dget n (g_node g) with
  | None => None
  | Some a =>
    if decide ((g_ns g +:+ ":token") ∈ dkeys a) then
      match str_attr (g_ns g +:+ ":pos") (VStr "") a, str_attr (g_ns g +:+ ":token") VNone a with
      | Some p, Some t => Some (not_empty [p; t])
      | _, _ => None
      end
    else match str_attr "label" (VStr "") a with Some l => Some (not_empty [l]) | None => None end
  end.
Definition plain_word (w : chars) : Prop := "("%char ∉ w ∧ ")"%char ∉ w ∧ " "%char ∉ w.
(** a tree as an s-expression: (word ... word child ... child) *)
Fixpoint sexp_of (f : nid → list chars) (t : rose nid) : sexp :=
  match t with Rose n ts => L (map W (f n) ++ map (sexp_of f) ts) end.

(** brackets are spelled out *)
Definition escaped (s : chars) : chars :=
  concat (map (λ c, if decide (c = "("%char) then chs "-LRB-" else
                    if decide (c = ")"%char) then chs "-RRB-" else [c]) s).
Definition id_val (n : nid) : pyval := match n with NInt z => VInt z | NStr s => VStr s end.
(** the FREQT tree of a node with the given subtrees; a node without label
    shows its id, which has to be a string *)
Definition freqt_node (g : graph) (include_pos : bool) (n : nid) (ts : list (rose chars)) : option (rose chars) :=
  match dget n (g_node g) with
  | None => None
  | Some a =>
    if decide ((g_ns g +:+ ":token") ∈ dkeys a) then
      match str_attr (g_ns g +:+ ":token") VNone a with
      | None => None
      | Some t =>
        if include_pos then
          match str_attr (g_ns g +:+ ":pos") (VStr "") a with
          | Some p => Some (Rose (escaped p) (Rose (escaped t) [] :: ts))
          | None => None
          end
        else Some (Rose (escaped t) ts)
      end
    else match str_attr "label" (id_val n) a with Some l => Some (Rose (escaped l) ts) | None => None end
  end.
Inductive freqt_tree (g : graph) (include_pos : bool) : rose nid → rose chars → Prop :=
| FreqtTree n ts us u : freqt_trees g include_pos ts us → freqt_node g include_pos n us = Some u →
    freqt_tree g include_pos (Rose n ts) u
with freqt_trees (g : graph) (include_pos : bool) : list (rose nid) → list (rose chars) → Prop :=
| FreqtNil : freqt_trees g include_pos [] []
| FreqtCons t ts u us : freqt_tree g include_pos t u → freqt_trees g include_pos ts us →
    freqt_trees g include_pos (t :: ts) (u :: us).
(** text without line breaks, line by line *)
Fixpoint lines (s : chars) : list chars :=
  match s with
  | [] => [[]]
  | c :: s' => if decide (c = "010"%char) then [] :: lines s' else
               match lines s' with l :: ls => (c :: l) :: ls | [] => [[c]] end
  end.

(** ** Text order *)
(** the tokens below n have no gap: a token between two of them that lies
    below the root lies below n *)
Definition no_gaps (g : graph) (toks : list nid) (root n : nid) : Prop := ∀ i j k x y z,
  i < j < k → toks !! i = Some x → toks !! j = Some y → toks !! k = Some z →
  rtc (dom g) n x → rtc (dom g) n z → rtc (dom g) root y → rtc (dom g) n y.
(** l mentions the tokens in text order *)
Definition text_order (toks l : list nid) : Prop := ∀ i j x y p q,
  i < j → l !! i = Some x → l !! j = Some y → toks !! p = Some x → toks !! q = Some y → p < q.
