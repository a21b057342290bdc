(** * WitRs3: a concrete RS3 file *)
From stdpp Require Import relations.
From Verif Require Import PyBase DocGraph Relabel StrNum Query Text Rst Nltk Parsers Tiger Rs3Graph.
From Verif Require Import SpecGraph SpecImport SpecQuery SpanFacts SpecTiger WitQuery SpecRs3Graph Rs3Read Rs3Span Rs3Spans.

Definition rs_rels : list (string * string) := [("elaboration", "rst"); ("contrast", "multinuc")].
(** 7 - span - 5 - span - 1 <- elaboration - 2; 5 <- elaboration - 6, a contrast of 3 and 4 *)
Definition rs_doc : rs3doc := {| d_rels := rs_rels; d_body :=
  [Seg "1" (Some "5") (Some "span") " It rained . "; Seg "2" (Some "1") (Some "elaboration") "Very much .";
   Seg "3" (Some "6") (Some "contrast") "We stayed"; Seg "4" (Some "6") (Some "contrast") "they left";
   Grp "5" (Some "span") (Some "7") (Some "span"); Grp "6" (Some "multinuc") (Some "5") (Some "elaboration");
   Grp "7" (Some "span") None None] |}.
(** a satellite before its nucleus *)
Definition rs_back : rs3doc := {| d_rels := rs_rels; d_body :=
  [Seg "2" (Some "1") (Some "elaboration") "Very much ."; Seg "1" (Some "5") (Some "span") "It rained ."; Grp "5" (Some "span") None None] |}.
(** two roots *)
Definition rs_two : rs3doc := {| d_rels := rs_rels; d_body :=
  [Seg "1" (Some "2") (Some "span") "It rained ."; Grp "2" (Some "span") None None; Grp "3" (Some "span") None None] |}.
(** a segment without words *)
Definition rs_blank : rs3doc := {| d_rels := rs_rels; d_body :=
  [Seg "1" (Some "5") (Some "span") "It rained ."; Seg "2" (Some "1") (Some "elaboration") " "; Grp "5" (Some "span") None None] |}.

(** ** Checks *)
Definition rs_ok_b (d : rs3doc) : bool :=
  bool_decide (NoDup (el_id <$> d_body d)) && bool_decide (Forall (λ x, el_parent x ≠ Some (el_id x)) (d_body d)) &&
  bool_decide (Forall (λ x, el_id x ≠ "root_node" ∧ el_parent x ≠ Some "root_node") (d_body d)) &&
  forallb (λ x, match el_parent x, el_relname x with Some _, None => false | _, _ => true end) (d_body d) &&
  forallb (λ x, match x with Grp _ None _ _ => false | _ => true end) (d_body d) && (length (filter top (d_body d)) <=? 1)%nat.
Lemma forallb_Forall {A} (f : A → bool) (P : A → Prop) l : (∀ x, f x = true → P x) → forallb f l = true → Forall P l.
Proof. intros H HF. apply Forall_forall. intros x Hx. apply H. rewrite forallb_forall in HF. by apply HF, elem_of_list_In. Qed.
Lemma check_rs d : rs_ok_b d = true → rs3_ok d.
Proof.
  unfold rs_ok_b. rewrite !andb_true_iff, !bool_decide_eq_true. intros [[[[[H1 H2] H3] H4] H5] H6]. split; try done.
  - eapply forallb_Forall; [|exact H4]. intros x Hx [p Hp]. cbn in Hx. rewrite Hp in Hx. destruct (el_relname x); [by eexists|done].
  - eapply forallb_Forall; [|exact H5]. by intros [|? [?|] ? ?].
  - by apply Nat.leb_le.
Qed.
Definition rs_plain_b (d : rs3doc) : bool :=
  forallb (λ x, bool_decide (":"%char ∉ chs (el_id x)) && match el_parent x with Some p => bool_decide (":"%char ∉ chs p) | None => true end) (d_body d).
Lemma check_rs_plain d : rs_plain_b d = true → plain_ids d.
Proof.
  intros H. eapply forallb_Forall; [|exact H]. intros x. rewrite andb_true_iff, bool_decide_eq_true. intros [H1 H2]. split; [done|]. intros p Hp. rewrite Hp in H2. by apply bool_decide_eq_true in H2.
Qed.
Definition none {A} (l : list A) : bool := match l with [] => true | _ => false end.
Definition rs_tree_b (rank : string → nat) (d : rs3doc) : bool :=
  forallb (λ x, match el_parent x with Some p => bool_decide (p ∈ el_id <$> d_body d) && (rank (el_id x) <? rank p)%nat | None => true end) (d_body d) &&
  forallb (λ x, negb (none (words x)) || negb (none (kids_in (d_body d) (el_id x)))) (d_body d) &&
  forallb (λ x, (length (attached d Plain x) <=? 1)%nat) (d_body d) &&
  forallb (λ x, none (attached d Satellite x) || negb (none (attached d Plain x)) || negb (none (attached d Nucleus x)) || negb (none (words x))) (d_body d) &&
  forallb (λ x, negb (bool_decide (relation_of x = "span")) || bool_decide (link_of d x = Plain)) (d_body d).
Lemma none_spec {A} (l : list A) : none l = true ↔ l = [].
Proof. by destruct l. Qed.
Lemma check_rs_tree rank d : rs_tree_b rank d = true → rst_tree_ok d.
Proof.
  unfold rs_tree_b. rewrite !andb_true_iff. intros [[[[H1 H2] H3] H4] H5]. rewrite forallb_forall in H1, H2, H3, H4, H5.
  assert (HA : ∀ y x, attached_to d y x → rank (el_id y) < rank (el_id x)).
  { intros y x (Hx & Hy & Hp). specialize (H1 y (proj1 (elem_of_list_In _ _) Hy)). cbn in H1. rewrite Hp in H1. apply andb_true_iff in H1 as [_ H1]. by apply Nat.ltb_lt in H1. }
  split.
  - intros x p Hx Hp. specialize (H1 x (proj1 (elem_of_list_In _ _) Hx)). cbn in H1. rewrite Hp in H1. apply andb_true_iff in H1 as [H1 _]. by apply bool_decide_eq_true in H1.
  - intros x Hx. assert (Hlt : ∀ a b, tc (attached_to d) a b → rank (el_id a) < rank (el_id b)).
    { induction 1 as [a b Hab|a b c Hab Hbc IH]; [by apply HA|]. apply HA in Hab. lia. }
    specialize (Hlt _ _ Hx). lia.
  - intros x. remember (rank (el_id x)) as n eqn:En. revert x En. induction (lt_wf n) as [n _ IH]. intros x -> Hx. specialize (H2 x (proj1 (elem_of_list_In _ _) Hx)). apply orb_true_iff in H2 as [H2|H2].
    + exists x. split; [apply rtc_refl|]. intros E. by rewrite E in H2.
    + destruct (kids_in (d_body d) (el_id x)) as [|y l] eqn:Ek; [done|]. assert (Hy : y ∈ kids_in (d_body d) (el_id x)) by (rewrite Ek; left). apply elem_of_list_filter in Hy as [Hp Hy].
      assert (Ha : attached_to d y x) by done. destruct (IH (rank (el_id y)) (HA _ _ Ha) y eq_refl Hy) as (s & Hs & Hw). exists s. split; [|done]. eapply rtc_r; [exact Hs|exact Ha].
  - intros x Hx. specialize (H3 x (proj1 (elem_of_list_In _ _) Hx)). by apply Nat.leb_le in H3.
  - intros x Hx Hs. specialize (H4 x (proj1 (elem_of_list_In _ _) Hx)). rewrite !orb_true_iff, !negb_true_iff in H4. destruct H4 as [[[H4|H4]|H4]|H4].
    + by apply none_spec in H4.
    + left. intros E. by rewrite E in H4.
    + right. left. intros E. by rewrite E in H4.
    + right. right. intros E. by rewrite E in H4.
  - intros x Hx E. specialize (H5 x (proj1 (elem_of_list_In _ _) Hx)). rewrite orb_true_iff, negb_true_iff, bool_decide_eq_false, bool_decide_eq_true in H5. by destruct H5.
Qed.
Definition rs_rank (i : string) : nat :=
  if decide (i = "7") then 4 else if decide (i = "5") then 3 else if decide (i = "6") then 2 else if decide (i = "1") then 2 else 1.
