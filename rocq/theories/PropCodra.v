(** * PropCodra: files of the CODRA parser (C105) *)
From Verif Require Import PyBase DocGraph Relabel StrNum Query Text SpecText Rst SpecRst Nltk Dis SpecDis WitDis DisThms Codra SpecCodra CodraFacts.

(** ** C105 Clean-up of the units *)
(** the tree is the .dis tree with cleaned units; errors are those of the .dis reader *)
Theorem C105_tree : ∀ s, (∀ u, read_codra s = Ok u ↔ ∃ t, read_dis s = Ok t ∧ cleaned_tree t u) ∧ (∀ e, read_codra s = Err e ↔ read_dis s = Err e).
Proof.
  intros s. unfold read_codra. destruct (read_dis s) as [t|e]; cbn [rbind]; (split; [intros u|intros e']).
  - split; [intros [= E]; exists t; split; [done|by apply tree_iff]|]. intros (t' & [= <-] & H%tree_iff). by f_equal.
  - done.
  - split; [done|]. by intros (t' & ? & _).
  - split; intros [= ->]; done.
Qed.
Print Assumptions C105_tree.
(** every text has exactly one cleaned form *)
Theorem C105_one : ∀ s, ∃ s', ∀ x, cleaned s x ↔ x = s'.
Proof. intros s. exists (cleanup_edu s). intros x. rewrite <-cleanup_iff. split; congruence. Qed.
Print Assumptions C105_one.
(** any text comes back from its CODRA form *)
Theorem C105_back : ∀ s x, cleaned (codra_text s) x ↔ x = s.
Proof. intros s x. rewrite <-cleanup_iff, cleanup_back. split; congruence. Qed.
Print Assumptions C105_back.
(** a tree written with escaped texts reads back *)
Theorem C105_round_trip : ∀ r, multi_ok r → Forall (λ p, dis_name p.1) (relations r) → Forall dis_text (edus (escape_texts r)) → (∀ s, r ≠ Edu s) →
  ∃ s, write_dis (rst_tree (escape_texts r)) = Ok s ∧ read_codra s = Ok (rst_tree r).
Proof. intros r H1 H2 H3 H4. by apply codra_round. Qed.
Print Assumptions C105_round_trip.
Definition q (s : string) : string := str (quote_char :: chs s ++ [quote_char]).
Definition wit_codra : rst := Mono "Attribution" true (Multi "Joint" [Edu "It rains"; Edu ("say " +:+ q "we stay" +:+ " twice")]) (Edu (q "home")).
Example C105_hyp : multi_ok wit_codra ∧ Forall (λ p, dis_name p.1) (relations wit_codra) ∧ (∀ s, wit_codra ≠ Edu s) ∧
  chs <$> edus (escape_texts wit_codra) =
    [chs "It rains"; chs "say " ++ escaped_quote ++ chs "we stay" ++ escaped_quote ++ chs " twice"; escaped_quote ++ chs "home" ++ escaped_quote] ∧
  Forall dis_text (edus (escape_texts wit_codra)) ∧
  (match write_dis (rst_tree (escape_texts wit_codra)) with Ok s => read_codra s | Err e => Err e end) = Ok (rst_tree wit_codra).
Proof.
  split; [simpl; auto with lia|]. split; [apply List.Forall_cons; [cbn [fst]; dis_name_tac|]; apply List.Forall_cons; [cbn [fst]; dis_name_tac|constructor]|].
  split; [by intros|]. split; [reflexivity|]. split; [|by vm_compute].
  let x := eval vm_compute in (edus (escape_texts wit_codra)) in change (Forall dis_text x).
  apply List.Forall_cons; [dis_text_by ["It"; "rains"]|].
  apply List.Forall_cons; [dis_text_by ["say"; str (escaped_quote ++ chs "we"); str (chs "stay" ++ escaped_quote); "twice"]|].
  apply List.Forall_cons; [dis_text_by [str (escaped_quote ++ chs "home" ++ escaped_quote)]|constructor].
Qed.
(** one mark is left out on each side, a quote with two backslashes stays *)
Example C105_edu : cleanup_edu "_!_!a _! b_!_!" = "_!a _! b_!" ∧
  cleanup_edu (str (["\"%char; "\"%char; "\"%char; "\"%char; quote_char; "\"%char; "\"%char; quote_char] ++ chs "_!" ++ [nl])) =
    str (["\"%char; quote_char; "\"%char; "\"%char; quote_char; nl]).
Proof. split; by vm_compute. Qed.
(** REFUTED: texts without escaped quotes and marks are kept: the mark of an unmarked text goes, too *)
Theorem C105_mark_refuted : ¬ ∀ s, ¬ occurs escaped_quote (chs s) → cleaned s s.
Proof.
  intros H. specialize (H "_!"). apply cleanup_iff in H; [by vm_compute in H|]. intros Ho. apply (NltkFacts.occurs_elem _ _ quote_char) in Ho; [|by do 3 right; left].
  repeat (apply elem_of_cons in Ho as [Ho|Ho]; [discriminate Ho|]). by apply elem_of_nil in Ho.
Qed.
Print Assumptions C105_mark_refuted.
