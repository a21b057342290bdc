(** * SpecUrmlCorpus: vocabulary of the URML corpus property *)
From Verif Require Import PyBase DocGraph Relabel StrNum Query Urml UrmlCorpus.

Definition event : Type := call * answer.
(** how often the file was opened again *)
Definition resets (es : list event) : nat := sum_list ((λ e : event, match e.1 with CReset => 1 | _ => 0 end) <$> es).
(** the openings of the iterators, in the order in which they were made *)
Inductive made : list event → list nat → Prop :=
| M_nil : made [] []
| M_iter es a l : made es l → made (es ++ [(CIter, a)]) (l ++ [resets es])
| M_other es k a l : k ≠ CIter → made es l → made (es ++ [(k, a)]) l.
(** after [es], call [k] asks opening [x] for a document *)
Definition asks (es : list event) (k : call) (x : nat) : Prop :=
  (k = CNext ∧ x = resets es) ∨ ∃ i l, k = CStep i ∧ made es l ∧ l !! i = Some x.
Definition is_document (a : answer) : Prop := match a with AElem _ _ | AGraph _ _ | AErr _ => True | _ => False end.
(** the documents that opening [x] gave *)
Inductive given (x : nat) : list event → list answer → Prop :=
| G_nil : given x [] []
| G_doc es k a l : given x es l → asks es k x → is_document a → given x (es ++ [(k, a)]) (l ++ [a])
| G_other es k a l : given x es l → ¬ (asks es k x ∧ is_document a) → given x (es ++ [(k, a)]) l.
(** document number [k] of opening [x]: an element, a graph, or the exception of the reader *)
Definition document_is (debug tokenize precedence : bool) (x k : nat) (d : urmldoc) (a : answer) : Prop :=
  if debug then a = AElem x k
  else match a with
       | AGraph g edus => read_urml None "urml" tokenize precedence d = (g, edus, None)
       | AErr e => (read_urml None "urml" tokenize precedence d).2 = Some e
       | _ => False
       end.
(** iterator [i] has ended: it stopped, or reading a document failed *)
Definition ended (i : nat) (es : list event) : Prop := ∃ a, (CStep i, a) ∈ es ∧ (a = AStop ∨ ∃ e, a = AErr e).
(** the element was given by an iterator that was asked again *)
Definition passed (x k : nat) (es : list event) : Prop :=
  ∃ i e1 e2 a, es = e1 ++ (CStep i, AElem x k) :: e2 ∧ (CStep i, a) ∈ e2.
