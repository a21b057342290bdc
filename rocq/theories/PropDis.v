(** * PropDis: properties C35-C36 (.dis files)

    Statements only.  Vocabulary: SpecRst.v (trees [rst], their units [edus])
    and SpecDis.v.  [convert t] is the tree written for [t], [write_dis t] the
    text, [read_dis s] the tree read from a text. *)
From Verif Require Import PyBase DocGraph Relabel StrNum Query Text SpecText Rst SpecRst Nltk Dis SpecDis DisThms WitDis.

Definition single (r : rst) : Prop := match r with Edu _ => True | _ => False end.

(** ** C35 units are numbered in text order and nodes carry their span *)
Theorem C35_spans : ∀ r, multi_ok r → Forall (λ p, p.1 ≠ "N" ∧ p.1 ≠ "S") (relations r) → Forall normal_text (edus r) → ¬ single r →
  ∃ ts, convert (rst_tree r) = Ok (NTree "Root" (NTree "span" [number 1; number (length (edus r))] :: ts)) ∧
        dis_nodes (edus r) 1 (length (edus r)) ts.
Proof. intros r H1 H2 H3 H4. apply convert_spans; [done..|]. by destruct r. Qed.
Print Assumptions C35_spans.
Theorem C35_written : ∀ r, multi_ok r → Forall (λ p, p.1 ≠ "N" ∧ p.1 ≠ "S") (relations r) → Forall normal_text (edus r) → ¬ single r →
  ∃ ts, convert (rst_tree r) = Ok (NTree "Root" (NTree "span" [number 1; number (length (edus r))] :: ts)) ∧
        written r 1 (length (edus r)) ts.
Proof. intros r H1 H2 H3 H4. apply convert_written; [done..|]. by destruct r. Qed.
Print Assumptions C35_written.
Definition wit_dis : rst :=
  Mono "Cause" false (Multi "Joint" [Edu "It rains (a lot) here"; Mono "Elaboration" true (Edu "we stay") (Edu "at home")]) (Edu "A storm came").
Example C35_hyp : multi_ok wit_dis ∧ Forall (λ p, p.1 ≠ "N" ∧ p.1 ≠ "S") (relations wit_dis) ∧ Forall normal_text (edus wit_dis) ∧ ¬ single wit_dis ∧
  edus wit_dis = ["A storm came"; "It rains (a lot) here"; "we stay"; "at home"].
Proof.
  split; [simpl; auto with lia|]. split; [by repeat constructor|]. split; [|by split; [intros []|]].
  apply List.Forall_cons; [by apply (normal_words ["A"; "storm"; "came"])|].
  apply List.Forall_cons; [by apply (normal_words ["It"; "rains"; "(a"; "lot)"; "here"])|].
  apply List.Forall_cons; [by apply (normal_words ["we"; "stay"])|].
  apply List.Forall_cons; [by apply (normal_words ["at"; "home"])|constructor].
Qed.

(** ** C36 a written text reads back as the tree *)
Theorem C36_round_trip : ∀ r, multi_ok r → Forall (λ p, dis_name p.1) (relations r) → Forall dis_text (edus r) → ¬ single r →
  ∃ s, write_dis (rst_tree r) = Ok s ∧ read_dis s = Ok (rst_tree r).
Proof. intros r H1 H2 H3 H4. apply dis_round_trip; [done..|]. by destruct r. Qed.
Print Assumptions C36_round_trip.
Example C36_hyp : Forall (λ p, dis_name p.1) (relations wit_dis) ∧ Forall dis_text (edus wit_dis) ∧
  match write_dis (rst_tree wit_dis) with Ok s => read_dis s | Err e => Err e end = Ok (rst_tree wit_dis).
Proof.
  split; [|split; [|by vm_compute]].
  - repeat (apply List.Forall_cons; [cbn [fst]; dis_name_tac|]). constructor.
  - apply List.Forall_cons; [dis_text_by ["A"; "storm"; "came"]|].
    apply List.Forall_cons; [dis_text_by ["It"; "rains"; "(a"; "lot)"; "here"]|].
    apply List.Forall_cons; [dis_text_by ["we"; "stay"]|].
    apply List.Forall_cons; [dis_text_by ["at"; "home"]|constructor].
Qed.

(** the text of a single unit is written but cannot be read *)
Theorem C36_single_unit_refuted : ¬ ∀ r s, multi_ok r → Forall (λ p, dis_name p.1) (relations r) → Forall dis_text (edus r) →
  write_dis (rst_tree r) = Ok s → read_dis s = Ok (rst_tree r).
Proof.
  intros H. destruct (write_dis (rst_tree (Edu "Hello"))) as [s|] eqn:E; [|by vm_compute in E].
  assert (HR := H (Edu "Hello") s). rewrite E in HR. vm_compute in E. injection E as <-. 
  assert (HR' : read_dis (chs "(Root (span 1 1) (text _!Hello_!))") = Ok (rst_tree (Edu "Hello"))).
  { apply HR; [done|constructor| |done]. apply List.Forall_cons; [dis_text_by ["Hello"]|constructor]. }
  by vm_compute in HR'.
Qed.
Print Assumptions C36_single_unit_refuted.

(** units with an escape sequence, a mark or the comment that is deleted, and
    relations whose name has a blank are not read back *)
Definition two (rel a b : string) : rst := Mono rel true (Edu a) (Edu b).
Definition back (r : rst) : res ntree := match write_dis (rst_tree r) with Ok s => read_dis s | Err e => Err e end.
Theorem C36_escape_refuted : back (two "Cause" "see -LRB- below" "b") = Ok (rst_tree (two "Cause" "see ( below" "b")).
Proof. by vm_compute. Qed.
Print Assumptions C36_escape_refuted.
Theorem C36_mark_refuted : back (two "Cause" "a _! b" "c") = Err AssertionError.
Proof. by vm_compute. Qed.
Print Assumptions C36_mark_refuted.
Theorem C36_comment_refuted : back (two "Cause" "f(x)//TT_ERR" "b") = Ok (rst_tree (two "Cause" "f(x)" "b")).
Proof. by vm_compute. Qed.
Print Assumptions C36_comment_refuted.
Theorem C36_blank_refuted : back (two "same unit" "a" "b") = Ok (rst_tree (two "same" "a" "b")).
Proof. by vm_compute. Qed.
Print Assumptions C36_blank_refuted.
