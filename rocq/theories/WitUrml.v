(** * WitUrml: concrete URML documents *)
From stdpp Require Import relations.
From Verif Require Import PyBase DocGraph Relabel StrNum Query Text Rst Nltk Parsers Tiger Urml.
From Verif Require Import SpecGraph SpecImport SpecQuery SpanFacts WitQuery SpecUrml.

Definition hyp i t nuc sat : urel := URel "hypRelation" i t [("nucleus", nuc); ("satellite", sat)].
Definition par i t (l : list string) : urel := URel "parRelation" i t (pair "nucleus" <$> l).
Definition u_segs : list useg :=
  [USeg "1" [Some "Die"; Some "Antwort"] None; USeg "2" [] (Some " ist nein . "); USeg "3" [] (Some "Punkt .")].
(** 5, a list of 4 and 3; 4, an elaboration of 1 by 2 *)
Definition u_doc : urmldoc := {| ud_id := "maz1"; ud_segs := u_segs; ud_rels := [URel "relation" "9" "unknown" []; hyp "4" "elaboration" "1" "2"; par "5" "list" ["4"; "3"]] |}.
(** two relations that are not connected *)
Definition u_two : urmldoc := {| ud_id := "maz2"; ud_segs := u_segs; ud_rels := [hyp "4" "elaboration" "1" "2"; par "5" "list" ["3"]] |}.
(** one unit in two relations *)
Definition u_twice : urmldoc := {| ud_id := "maz3"; ud_segs := u_segs; ud_rels := [hyp "4" "elaboration" "1" "2"; hyp "5" "cause" "3" "2"; par "6" "list" ["4"; "5"]] |}.
(** a word without text *)
Definition u_none : urmldoc := {| ud_id := "maz4"; ud_segs := [USeg "1" [Some "Die"; None] None]; ud_rels := [] |}.
(** one segment *)
Definition u_one : urmldoc := {| ud_id := "maz5"; ud_segs := [USeg "1" [] (Some "Nein .")]; ud_rels := [] |}.

(** ** Checks *)
Definition step_b (rank : nid → nat) (E : list edge_info) : bool := forallb (λ e : edge_info, (rank e.1.1.2 <? rank e.1.1.1)%nat) E.
Lemma check_steps rank E : step_b rank E = true → acyclic (step E).
Proof.
  intros H. apply (rank_acyclic _ rank). intros u v (l & b & He). unfold step_b in H. rewrite forallb_forall in H. apply elem_of_list_In, H in He. by apply Nat.ltb_lt in He.
Qed.
Definition formed_b (r : urel) : bool :=
  negb (bool_decide (ur_tag r = "hypRelation")) ||
  match ur_parts r with [(t1, _); (t2, _)] => bool_decide (t1 = "nucleus" ∧ t2 = "satellite") || bool_decide (t1 = "satellite" ∧ t2 = "nucleus") | _ => false end.
Lemma check_formed d : forallb formed_b (relations d) = true → Forall well_formed (relations d).
Proof.
  intros H. apply Forall_forall. intros r Hr. rewrite forallb_forall in H. apply elem_of_list_In, H in Hr. unfold formed_b in Hr. intros Ht. apply orb_true_iff in Hr as [Hr|Hr]; [rewrite bool_decide_true in Hr; done|].
  unfold hypotactic. destruct (ur_parts r) as [|[t1 a] [|[t2 b] [|? ?]]]; try done. apply orb_true_iff in Hr as [Hr|Hr]; apply bool_decide_eq_true in Hr as [-> ->]; [exists a, b; by left|exists b, a; by right].
Qed.
Definition units_b (ns : string) (tokenize : bool) (d : urmldoc) : bool :=
  forallb (λ e : string * string, bool_decide (named ns e.1 ∉ (all_tokens ns tokenize d).*1) && bool_decide (named ns e.2 ∉ (all_tokens ns tokenize d).*1)) (relations d ≫= linked_by).
Lemma check_units ns tokenize d : units_b ns tokenize d = true → units_only ns tokenize d.
Proof.
  intros H a b (r & Hr & Hab). unfold units_b in H. rewrite forallb_forall in H. assert (Hin : (a, b) ∈ relations d ≫= linked_by) by (apply elem_of_list_bind; by exists r).
  apply elem_of_list_In, H in Hin. cbn [fst snd] in Hin. rewrite andb_true_iff, !bool_decide_eq_true in Hin. done.
Qed.
Definition u_rank (n : nid) : nat :=
  if bool_decide (n ∈ [NStr "urml:5"]) then 5 else if bool_decide (n ∈ [NStr "urml:4"]) then 4 else
  if bool_decide (n ∈ [NStr "urml:1"; NStr "urml:3"]) then 3 else if bool_decide (n ∈ [NStr "urml:2"]) then 2 else 0.
