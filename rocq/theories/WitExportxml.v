(** * WitExportxml: concrete ExportXML documents (C87-C92) *)
From stdpp Require Import relations.
From Verif Require Import PyBase DocGraph Relabel StrNum Query Conano Exportxml SpecGraph SpecImport SpecQuery SpanFacts WitQuery Witness SpecExportxml ExportxmlDoc ExportxmlSpan.

Definition ex (tag : string) (a : dict string string) (kids : list xml) : xml := XElem tag a None kids None.
Definition exi (tag i : string) (a : dict string string) (kids : list xml) : xml := ex tag ((xml_id, i) :: a) kids.
Definition ex_w (i form : string) (kids : list xml) : xml := exi "word" i [("form", form)] kids.
Definition ex_doc : xml :=
  exi "text" "text_1" [] [exi "topic" "topic_0" [("description", "news")] [exi "edu-range" "range_1" [] [
    exi "edu" "edu_1_0" [] [ex "discRel" [("relation", "Cause"); ("arg2", "edu_1_1")] [];
      exi "sentence" "s1" [] [exi "node" "s1_500" [("cat", "S")] [exi "ne" "ne_1" [("type", "PER")] [ex_w "s1_1" "Anna" []]; ex_w "s1_2" "weil" [ex "connective" [("konn", "weil"); ("rel", "Cause")] []]]]];
    exi "edu" "edu_1_1" [] [
      exi "sentence" "s2" [] [exi "node" "s2_500" [("cat", "S")] [ex_w "s2_1" "Sie" [ex "relation" [("type", "anaphoric"); ("target", "s1_1")] []]; ex_w "s2_2" "lacht" [ex "secEdge" [("parent", "s1_500"); ("cat", "refint")] []]; ex_w "s2_3" "dort" [ex "splitRelation" [("type", "split"); ("target", "s1_1 s2_1")] []]]]]]]].
Definition ex_state (precedence : bool) (o : xopts) (x : xml) : xstate :=
  match Exportxml.read_text None "exportxml" precedence o x with Ok st => st | Err _ => XState (init_graph "" "" None) [] [] end.
Lemma ex_reads precedence o x : match Exportxml.read_text None "exportxml" precedence o x with Ok _ => True | Err _ => False end → Exportxml.read_text None "exportxml" precedence o x = Ok (ex_state precedence o x).
Proof. unfold ex_state. by destruct (Exportxml.read_text _ _ _ _ _). Qed.
Lemma check_readable precedence o x : match Exportxml.read_text None "exportxml" precedence o x with Ok _ => True | Err _ => False end → readable "exportxml" o precedence x.
Proof. intros H%ex_reads. by apply doc_only in H. Qed.

(** ** Checks *)
Lemma fb {A} (f : A → bool) l x : forallb f l = true → x ∈ l → f x = true.
Proof. rewrite forallb_forall. intros H Hx. by apply H, elem_of_list_In. Qed.
Definition own_b (p : place) : bool := bool_decide (x_tag p.2 ∈ ["edu"; "edu-range"; "ne"; "node"; "sentence"; "topic"; "word"]).
Definition phrase_b (p : place) : bool := bool_decide (x_tag p.2 = "node") || bool_decide (x_tag p.2 = "sentence").
Definition unit_b (p : place) : bool := bool_decide (x_tag p.2 = "node") || bool_decide (x_tag p.2 = "word").
Lemma unit_b_ok p : unit_b p = true ↔ x_tag p.2 = "node" ∨ x_tag p.2 = "word".
Proof. unfold unit_b. by rewrite orb_true_iff, !bool_decide_eq_true. Qed.
Definition tidy_b (ns : string) (x : xml) : bool :=
  bool_decide (NoDup (root_of ns x :: (node_at <$> filter (λ p : place, x_tag p.2 ∈ ["edu"; "edu-range"; "ne"; "node"; "sentence"; "topic"; "word"]) (inside ([], x))))) &&
  forallb (λ p, negb (unit_b p) || existsb (λ q, phrase_b q && bool_decide (to_node (above p) = node_at q)) (inside ([], x))) (inside ([], x)) &&
  forallb (λ p, negb (bool_decide (x_tag p.2 = "splitRelation")) || forallb (λ q, negb (own_b q) || negb (bool_decide (antecedent_span p.2 = node_at q))) (inside ([], x))) (inside ([], x)).
Lemma check_tidy ns x : tidy_b ns x = true → tidy ns x.
Proof.
  unfold tidy_b. rewrite !andb_true_iff, bool_decide_eq_true. intros [[H1 H2] H3]. split; [exact H1| |].
  - intros p Hp Ht. pose proof (fb _ _ p H2 Hp) as K. cbn beta in K. apply unit_b_ok in Ht. rewrite Ht in K. cbn [negb orb] in K. apply existsb_exists in K as (q & Hq & K). apply elem_of_list_In in Hq. apply andb_true_iff in K as [K1 K2]. apply bool_decide_eq_true in K2.
    exists q. split; [done|]. split; [|done]. unfold phrase_b in K1. apply orb_true_iff in K1 as [K1|K1]; apply bool_decide_eq_true in K1; [by left|by right].
  - intros p q Hp Hq Ht Oq. pose proof (fb _ _ p H3 Hp) as K. cbn beta in K. rewrite (bool_decide_eq_true_2 _ Ht) in K. cbn [negb orb] in K. pose proof (fb _ _ q K Hq) as K2. cbn beta in K2. unfold own_b in K2. rewrite (bool_decide_eq_true_2 _ Oq) in K2. cbn [negb orb] in K2.
    apply negb_true_iff, bool_decide_eq_false in K2. exact K2.
Qed.
Definition over_b (rank : nid → nat) (ns : string) (o : xopts) (x : xml) : bool :=
  forallb (λ e : edge_info, bool_decide (e.1.1.1 = e.1.1.2) || bool_decide (dget "edge_type" e.2 = Some (VStr "points_to")) || (rank e.1.1.2 <? rank e.1.1.1)%nat) (links ns o (root_of ns x) (read_of x)).
Lemma check_over rank ns o x : over_b rank ns o x = true → acyclic (proper_over ns o x).
Proof.
  intros H. apply (rank_acyclic _ rank). intros u v (Hne & e & He & <- & <- & Ht). pose proof (fb _ _ e H He) as K. cbn beta in K. rewrite (bool_decide_eq_false_2 _ Hne), (bool_decide_eq_false_2 _ Ht) in K. cbn [orb] in K. by apply Nat.ltb_lt in K.
Qed.
Definition dominated_b (rank : nid → nat) (x : xml) : bool := forallb (λ q, negb (unit_b q) || (rank (node_at q) <? rank (to_node (above q)))%nat) (inside ([], x)).
Lemma check_dominated rank x : dominated_b rank x = true → acyclic (dominated x).
Proof.
  intros H. apply (rank_acyclic _ rank). intros u v (q & Hq & Ht & -> & ->). pose proof (fb _ _ q H Hq) as K. cbn beta in K. apply unit_b_ok in Ht. rewrite Ht in K. cbn [negb orb] in K. by apply Nat.ltb_lt in K.
Qed.
Definition no_token_b (x : xml) : bool := forallb (λ p : place, bool_decide (att "token" p.2 = None)) (inside ([], x)).
Lemma check_no_token x : no_token_b x = true → no_token_atts x.
Proof. intros H p Hp. pose proof (fb _ _ p H Hp) as K. cbn beta in K. by apply bool_decide_eq_true in K. Qed.
Definition flat_b (x : xml) : bool := forallb (λ p : place, negb (bool_decide (x_tag p.2 = "word")) || forallb (λ y, negb (bool_decide (x_tag y = "word"))) (x_kids p.2)) (inside ([], x)).
Lemma check_flat x : flat_b x = true → flat_words x.
Proof.
  intros H p y Hp Ht Hy. pose proof (fb _ _ p H Hp) as K. cbn beta in K. rewrite (bool_decide_eq_true_2 _ Ht) in K. cbn [negb orb] in K. pose proof (fb _ _ y K Hy) as K2. cbn beta in K2. by apply negb_true_iff, bool_decide_eq_false in K2.
Qed.
(** elements of the document, by id *)
Definition at_id (x : xml) (i : string) : place :=
  default ([], x) (head (filter (λ p : place, own_id p.2 = Some i) (inside ([], x)))).
Lemma at_id_in x i : match head (filter (λ p : place, own_id p.2 = Some i) (inside ([], x))) with Some _ => True | None => False end → at_id x i ∈ inside ([], x).
Proof.
  unfold at_id. destruct (head _) as [p|] eqn:E; [|done]. intros _. cbn. apply head_Some_elem_of in E. by apply elem_of_list_filter in E as [_ ?].
Qed.
(** a sentence is closed: by ids, which are distinct *)
Definition closed_b (x : xml) (p : place) : bool :=
  forallb (λ q, negb (unit_b q) || Bool.eqb (bool_decide (node_at q ∈ node_at <$> filter (λ r : place, x_tag r.2 = "node" ∨ x_tag r.2 = "word") (inside p)))
    (bool_decide (to_node (above q) = node_at p) || existsb (λ r : place, bool_decide (x_tag r.2 = "node") && bool_decide (to_node (above q) = node_at r)) (inside p))) (inside ([], x)).
Definition ex_rank (n : nid) : nat :=
  if decide (n ∈ [NStr "text_1"; NStr "range_1"]) then 5 else if decide (n ∈ [NStr "s1"; NStr "s2"; NStr "edu_1_0"; NStr "edu_1_1"; NStr "topic_0"]) then 4
  else if decide (n ∈ [NStr "s1_500"; NStr "s2_500"; NStr "ne_1"; NStr "s1_1__s2_1"]) then 3 else 0.
Lemma ex_readable precedence : readable "exportxml" all_options precedence ex_doc.
Proof. apply check_readable. destruct precedence; vm_compute; exact I. Qed.
Lemma ex_tidy : tidy "exportxml" ex_doc.
Proof. apply check_tidy. vm_compute. reflexivity. Qed.
Lemma ex_over : acyclic (proper_over "exportxml" all_options ex_doc).
Proof. apply (check_over ex_rank). vm_compute. reflexivity. Qed.
Lemma ex_dominated : acyclic (dominated ex_doc).
Proof. apply (check_dominated ex_rank). vm_compute. reflexivity. Qed.
Lemma ex_no_token : no_token_atts ex_doc.
Proof. apply check_no_token. vm_compute. reflexivity. Qed.
Lemma ex_flat : flat_words ex_doc.
Proof. apply check_flat. vm_compute. reflexivity. Qed.
Lemma unit_own p : x_tag p.2 = "node" ∨ x_tag p.2 = "word" → own_node p.
Proof. unfold own_node. intros [-> | ->]; vdec. Qed.
Lemma check_closed ns x p : tidy ns x → p ∈ inside ([], x) → closed_b x p = true → closed_sentence x p.
Proof.
  intros HY Hp H q Hq Tq. pose proof (fb _ _ q H Hq) as K. cbn beta in K. rewrite (proj2 (unit_b_ok q) Tq) in K. cbn [negb orb] in K. apply eqb_prop in K.
  assert (A : q ∈ inside p ↔ node_at q ∈ node_at <$> filter (λ r : place, x_tag r.2 = "node" ∨ x_tag r.2 = "word") (inside p)).
  { split; [intros Hin; apply elem_of_list_fmap_1; by apply elem_of_list_filter|]. intros Hin. apply elem_of_list_fmap in Hin as (r & E & [Tr Hr]%elem_of_list_filter).
    assert (Hrx : r ∈ inside ([], x)) by (destruct p; eapply inside_trans; [exact Hp|exact Hr]). assert (q = r) as ->; [|done]. apply (own_same ns x HY); [done|done|by apply unit_own|by apply unit_own|done]. }
  rewrite A. rewrite <-(bool_decide_eq_true (node_at q ∈ _)), K, orb_true_iff, bool_decide_eq_true, existsb_exists. split; (intros [E|(r & Hr & E)]; [by left|right; exists r]).
  - apply elem_of_list_In in Hr. apply andb_true_iff in E as [E1 E2]. apply bool_decide_eq_true in E1. apply bool_decide_eq_true in E2. done.
  - split; [by apply elem_of_list_In|]. destruct E as [E1 E2]. by rewrite (bool_decide_eq_true_2 _ E1), (bool_decide_eq_true_2 _ E2).
Qed.
Lemma ex_closed : closed_sentence ex_doc (at_id ex_doc "s2").
Proof. apply (check_closed "exportxml"); [apply ex_tidy|apply at_id_in; vm_compute; exact I|vm_compute; reflexivity]. Qed.
