(** * UrmlCorpus: iteration over the documents of a URML corpus

    Model of readwrite/rst/urml.py:22-128.  The file is the list of its <document> elements
    (not nested).  Every opening of the file (lxml's iterparse) has its own copies of the
    elements; [(x, k)] is the k-th document of opening x.  Iterators are generators that
    share the opening that was current when they were made.  In debug mode elements are
    given; they are emptied (elem.clear()) when their iterator goes on. *)
From Verif Require Import PyBase DocGraph Relabel StrNum Query Urml.

(** a generator: not started or between two documents, waiting at the yield of a document, or finished *)
Inductive gen_at := Ready | Waiting (k : nat) | Finished.
Record ucorpus := UCorpus {
  uc_file : list urmldoc; uc_debug : bool; uc_tokenize : bool; uc_precedence : bool;
  uc_pos : list nat;             (** of every opening: how many documents were read *)
  uc_gens : list (nat * gen_at); (** of every iterator: its opening and where it is *)
  uc_count : option nat;         (** self._num_of_documents *)
  uc_empty : list (nat * nat);   (** emptied elements *)
}.
Inductive call := CIter | CStep (i : nat) | CNext | CLen | CReset.
Inductive answer := ANone | AIter (i : nat) | ALen (n : nat) | AStop | AElem (x k : nat) | AGraph (g : graph) (edus : list nid) | AErr (e : exc).

(** urml.py:35-74: __init__ *)
Definition open_urml (file : list urmldoc) (debug tokenize precedence : bool) : ucorpus :=
  UCorpus file debug tokenize precedence [0] [] None [].
(** self.__context is the last opening *)
Definition context (c : ucorpus) : nat := length (uc_pos c) - 1.
(** urml.py:76-85: _reset_corpus_iterator *)
Definition reset_urml (c : ucorpus) : ucorpus :=
  UCorpus (uc_file c) (uc_debug c) (uc_tokenize c) (uc_precedence c) (uc_pos c ++ [0]) (uc_gens c) (uc_count c) (uc_empty c).
(** urml.py:119-123: the body of the loop up to the yield, for document [k] of opening [x] *)
Definition yield_document (c : ucorpus) (x k : nat) (d : urmldoc) : answer :=
  if uc_debug c then AElem x k
  else match read_urml None "urml" (uc_tokenize c) (uc_precedence c) d with
       | (g, edus, None) => AGraph g edus
       | (_, _, Some e) => AErr e
       end.
(** one step of the loop of document_iter over opening [x] (urml.py:119-128): the corpus,
    where the generator is afterwards, and what it gives *)
Definition advance (c : ucorpus) (x : nat) : ucorpus * gen_at * answer :=
  match uc_pos c !! x with
  | None => (c, Finished, AStop)
  | Some k =>
    match uc_file c !! k with
    | None => (c, Finished, AStop)
    | Some d =>
      let c' := UCorpus (uc_file c) (uc_debug c) (uc_tokenize c) (uc_precedence c) (<[x := S k]> (uc_pos c)) (uc_gens c) (uc_count c) (uc_empty c) in
      let a := yield_document c x k d in
      (c', match a with AErr _ => Finished | _ => Waiting k end, a)
    end
  end.
(** urml.py:124-127: elem.clear() when a waiting generator goes on *)
Definition clear_element (c : ucorpus) (x k : nat) : ucorpus :=
  UCorpus (uc_file c) (uc_debug c) (uc_tokenize c) (uc_precedence c) (uc_pos c) (uc_gens c) (uc_count c) (uc_empty c ++ [(x, k)]).
Definition set_gens (gs : list (nat * gen_at)) (c : ucorpus) : ucorpus :=
  UCorpus (uc_file c) (uc_debug c) (uc_tokenize c) (uc_precedence c) (uc_pos c) gs (uc_count c) (uc_empty c).
(** the calls: iter(corpus) (urml.py:106-107), next(iterator), corpus.next() (:109-113: a new
    generator, which is dropped at its first yield), len(corpus) (:87-104), and
    _reset_corpus_iterator() *)
Definition do_call (c : ucorpus) (k : call) : ucorpus * answer :=
  match k with
  | CIter => (set_gens (uc_gens c ++ [(context c, Ready)]) c, AIter (length (uc_gens c)))
  | CStep i =>
    match uc_gens c !! i with
    | None => (c, ANone)
    | Some (_, Finished) => (c, AStop)
    | Some (x, s) =>
      let c := match s with Waiting k => clear_element c x k | _ => c end in
      let '(c, s, a) := advance c x in (set_gens (<[i := (x, s)]> (uc_gens c)) c, a)
    end
  | CNext => let '(c, _, a) := advance c (context c) in (c, a)
  | CLen =>
    match uc_count c with
    | Some n => (c, ALen n)
    | None => let n := length (uc_file c) in
      (UCorpus (uc_file c) (uc_debug c) (uc_tokenize c) (uc_precedence c) (uc_pos c) (uc_gens c) (Some n) (uc_empty c), ALen n)
    end
  | CReset => (reset_urml c, ANone)
  end.
(** a history of calls: the corpus and the calls with their answers *)
Definition history (c : ucorpus) (ks : list call) : ucorpus * list (call * answer) :=
  foldl (λ st k, let r := do_call st.1 k in (r.1, st.2 ++ [(k, r.2)])) (c, []) ks.
