(** * SpecPtb: vocabulary of C39, Penn Treebank parses *)
From Verif Require Import PyBase DocGraph Relabel StrNum SpecGraph SpecImport SpecQuery Rst.

Definition tree_label (t : ntree) : string := match t with NLeaf s => s | NTree l _ => l end.
(** brackets in words are written as -LRB- etc. *)
Definition word_of (s : string) : string :=
  if decide (s = "-LRB-") then "(" else if decide (s = "-RRB-") then ")" else if decide (s = "-LSB-") then "[" else
  if decide (s = "-RSB-") then "]" else if decide (s = "-LCB-") then "{" else if decide (s = "-RCB-") then "}" else s.
(** parse trees: a part of speech with one word, or a category with constituents *)
Inductive ptb_tree : ntree → Prop :=
| PT_word tag w : w ≠ "-NONE-" → ptb_tree (NTree tag [NLeaf w])
| PT_phrase l ks : Forall ptb_tree ks → ptb_tree (NTree l ks).
(** a sentence is a category with constituents *)
Definition ptb_sentence_tree (t : ntree) : Prop := ∃ l ks, t = NTree l ks ∧ Forall ptb_tree ks.
(** the text of a sentence, without traces (constituents labelled -NONE-); with
    [keep], constituents of the sentence itself are kept even if they are traces *)
Fixpoint terminals (t : ntree) : list string :=
  match t with
  | NLeaf w => [word_of w]
  | NTree l ks => if decide (l = "-NONE-") then [] else concat (map terminals ks)
  end.
Definition terminals_below (t : ntree) : list string := match t with NLeaf w => [word_of w] | NTree _ ks => concat (map terminals ks) end.
Definition sentence_words (keep : bool) (t : ntree) : list string :=
  match t with NLeaf _ => [] | NTree _ ks => concat (map (if keep then terminals_below else terminals) ks) end.

(** ** Nodes *)
Inductive pkind := PkToken (w tag : string) | PkPhrase (label : string) (cat : option string).
(** the nodes around, the id of the node *)
Notation place := (list nid * nid * pkind)%type.
Section Kids.
  Context (f : Z → ntree → list place * Z) (keep : bool).
  (** traces get a number but no node *)
  Fixpoint kid_places (k : Z) (ts : list ntree) : list place * Z :=
    match ts with
    | [] => ([], k)
    | t :: ts =>
      if decide (tree_label t = "-NONE-" ∧ keep = false) then kid_places (k + 1) ts
      else let '(p, k) := f k t in let '(q, k) := kid_places k ts in (p ++ q, k)
    end.
End Kids.
(** the nodes of a constituent numbered from [k], in text order, and the next number;
    the word below a part of speech gets a number but no node *)
Fixpoint ptb_places (path : list nid) (k : Z) (t : ntree) : list place * Z :=
  match t with
  | NLeaf _ => ([], k)
  | NTree tag [NLeaf w] => ([(path, NInt k, PkToken (word_of w) tag)], (k + 2)%Z)
  | NTree l ks =>
    let '(p, k') := kid_places (ptb_places (NInt k :: path)) false (k + 1) ks in
    ((path, NInt k, PkPhrase l (if (1 <? length ks)%nat then Some (word_of l) else None)) :: p, k')
  end.
Definition sentence_places (keep : bool) (root : nid) (k : Z) (t : ntree) : list place * Z :=
  match t with
  | NLeaf _ => ([], k)
  | NTree l ks =>
    let '(p, k') := kid_places (ptb_places [NInt k; root]) keep (k + 1) ks in
    (([root], NInt k, PkPhrase l None) :: p, k')
  end.
(** the ids of the sentences and all nodes of a document *)
Fixpoint doc_places (keep : bool) (root : nid) (k : Z) (ts : list ntree) : list nid * list place :=
  match ts with
  | [] => ([], [])
  | t :: ts => let '(p, k') := sentence_places keep root k t in let '(s, q) := doc_places keep root k' ts in (NInt k :: s, p ++ q)
  end.
Definition place_node (ns : string) (x : place) : node_info :=
  match x.2 with
  | PkToken w tag => (x.1.2, [ns], [("label", VStr w); (ns +:+ ":token", VStr w); (ns +:+ ":pos", VStr tag)])
  | PkPhrase l None => (x.1.2, [ns], [("label", VStr l)])
  | PkPhrase l (Some c) => (x.1.2, [ns; ns +:+ ":syntax"], [("label", VStr l); (ns +:+ ":cat", VStr c)])
  end.
Definition place_edge (ns : string) (root : nid) (x : place) : edge_info :=
  (default root (head x.1.1), x.1.2, [ns], [("edge_type", VStr "dominates")]).
Definition is_word_place (k : pkind) : bool := match k with PkToken _ _ => true | PkPhrase _ _ => false end.
(** [g] is the document of these sentences *)
Record ptb_document (name ns : string) (keep : bool) (ts : list ntree) (g : graph) : Prop := {
  pd_name : g_name g = name;
  pd_ns : g_ns g = ns;
  pd_root : g_root g = NInt 0;
  pd_sentences : g_sentences g = (doc_places keep (NInt 0) 1 ts).1;
  pd_tokens : g_tokens g = (λ x, x.1.2) <$> filter (λ x, is_word_place x.2 = true) (doc_places keep (NInt 0) 1 ts).2;
  pd_nodes : has_nodes g ((NInt 0, [ns], [("label", VStr (ns +:+ ":root_node"))]) :: (place_node ns <$> (doc_places keep (NInt 0) 1 ts).2));
  pd_edges : has_edges g (place_edge ns (NInt 0) <$> (doc_places keep (NInt 0) 1 ts).2);
}.
(** the tokens below a node *)
Definition tokens_under (n : nid) (l : list place) : list nid :=
  (λ x, x.1.2) <$> filter (λ x, is_word_place x.2 = true ∧ (n = x.1.2 ∨ n ∈ x.1.1)) l.
(** no constituent of the sentence itself is a trace *)
Definition no_top_trace (t : ntree) : Prop := match t with NLeaf _ => True | NTree _ ks => Forall (λ k, tree_label k ≠ "-NONE-") ks end.
