(** * PropUrmlCorpus: iteration over a URML corpus (C106) *)
From Verif Require Import PyBase DocGraph Relabel StrNum Query Urml UrmlCorpus SpecUrmlCorpus UrmlCorpusFacts WitUrml.

(** ** C106 Iteration over a corpus *)
(** every call for a document answers with the next document of its opening of the file,
    no matter who got the ones before; then it stops *)
Theorem C106_next : ∀ file debug tokenize precedence ks k x, let r := history (open_urml file debug tokenize precedence) ks in
  asks r.2 k x → (∀ i, k = CStep i → ¬ ended i r.2) →
  ∃ l, given x r.2 l ∧ let a := (do_call r.1 k).2 in
    match file !! length l with Some d => document_is debug tokenize precedence x (length l) d a | None => a = AStop end.
Proof.
  intros file debug tokenize precedence ks k x r Hq He. pose proof (history_inv file debug tokenize precedence ks) as I. fold r in I. cbn in I.
  destruct (given_some file debug tokenize precedence r.1 r.2 k x I Hq) as (l & Hg & _). exists l. split; [done|]. by apply (next_answer file debug tokenize precedence r.1 r.2 x k l I).
Qed.
Print Assumptions C106_next.
(** an opening gives each document once, in the order of the file *)
Theorem C106_order : ∀ file debug tokenize precedence ks k x, let r := history (open_urml file debug tokenize precedence) ks in
  asks r.2 k x → ∃ l, given x r.2 l ∧ length l ≤ length file ∧
    ∀ j a, l !! j = Some a → ∃ d, file !! j = Some d ∧ document_is debug tokenize precedence x j d a.
Proof.
  intros file debug tokenize precedence ks k x r Hq. pose proof (history_inv file debug tokenize precedence ks) as I. fold r in I. cbn in I.
  by apply (given_some file debug tokenize precedence r.1 r.2 k x I Hq).
Qed.
Print Assumptions C106_order.
(** an iterator whose document could not be read has ended *)
Theorem C106_ended : ∀ file debug tokenize precedence ks i, let r := history (open_urml file debug tokenize precedence) ks in
  ended i r.2 → (do_call r.1 (CStep i)).2 = AStop.
Proof. intros file debug tokenize precedence ks i r. apply (ended_answer file debug tokenize precedence), history_inv. Qed.
Print Assumptions C106_ended.
(** the length, at any time *)
Theorem C106_length : ∀ file debug tokenize precedence ks, (do_call (history (open_urml file debug tokenize precedence) ks).1 CLen).2 = ALen (length file).
Proof.
  intros file debug tokenize precedence ks. pose proof (history_inv file debug tokenize precedence ks) as I. cbn in I. cbn [do_call].
  destruct (in_const _ _ _ _ _ _ I) as (-> & _). by destruct (in_count _ _ _ _ _ _ I) as [-> | ->].
Qed.
Print Assumptions C106_length.
(** an element is emptied exactly when the iterator that gave it was asked again *)
Theorem C106_elements : ∀ file tokenize precedence ks x k, let r := history (open_urml file true tokenize precedence) ks in
  (x, k) ∈ uc_empty r.1 ↔ passed x k r.2.
Proof. intros file tokenize precedence ks x k r. by apply (in_empty _ _ _ _ _ _ (history_inv file true tokenize precedence ks)). Qed.
Print Assumptions C106_elements.
(** two iterators share the documents; a new opening starts again *)
Example C106_hyp : snd <$> (history (open_urml [u_doc; u_one; u_doc] true true false) [CIter; CNext; CIter; CStep 0; CStep 1; CLen; CStep 0; CReset; CStep 1; CNext]).2 =
  [AIter 0; AElem 0 0; AIter 1; AElem 0 1; AElem 0 2; ALen 3; AStop; ANone; AStop; AElem 1 0].
Proof. reflexivity. Qed.
Example C106_hyp_graphs : ∃ g es g' es', snd <$> (history (open_urml [u_doc; u_one; u_doc] false false false) [CIter; CStep 0; CStep 0; CStep 0; CNext; CNext]).2 =
  [AIter 0; AGraph g es; AErr IndexError; AStop; AGraph g' es'; AStop].
Proof. do 4 eexists. vm_compute. reflexivity. Qed.
(** REFUTED: the list of the elements of a corpus has all of them *)
Theorem C106_list_refuted : let r := history (open_urml [u_doc; u_doc] true true false) [CIter; CStep 0; CStep 0; CStep 0] in
  snd <$> r.2 = [AIter 0; AElem 0 0; AElem 0 1; AStop] ∧ uc_empty r.1 = [(0, 0); (0, 1)].
Proof. split; reflexivity. Qed.
Print Assumptions C106_list_refuted.
(** REFUTED: a loop that ends has seen all documents *)
Theorem C106_loop_refuted : ∃ g es, snd <$> (history (open_urml [u_one; u_doc] false false false) [CIter; CStep 0; CStep 0; CNext]).2 = [AIter 0; AErr IndexError; AStop; AGraph g es].
Proof. do 2 eexists. vm_compute. reflexivity. Qed.
Print Assumptions C106_loop_refuted.
