(** * WitMmax: a concrete MMAX2 project and executable checks of the hypotheses *)
From stdpp Require Import relations.
From Verif Require Import PyBase DocGraph Relabel StrNum Query Text Conano Mmax SpecGraph Witness SpecImport SpecQuery SpanFacts WitQuery SpecTiger WitTiger SpecMmax.

Definition has_spanb (x : xml) : bool := hasb x "span" && match convert_spanstring (chs (att "span" x)) with Ok _ => true | Err _ => false end.
Lemma has_spanb_ok x : has_spanb x = true → has_span x.
Proof. unfold has_spanb. intros H. sp H. split; [by apply hasb_ok|]. destruct (convert_spanstring _) as [l|]; [by exists l|done]. Qed.
Definition completeb (base f : string) (precedence : bool) (order : list string) (p : mmax) : bool :=
  forallb (λ w, hasb w "id" && match x_text w with Some _ => true | None => false end) (mx_words p) &&
  (negb precedence || (1 <? length (mx_words p))%nat) &&
  forallb (λ l, match level_file base p l with Some _ => true | None => false end) order &&
  forallb (λ m : string * xml, hasb m.2 "id" && has_spanb m.2) (markables base order p) &&
  match level_file f p "sentence" with Some _ => true | None => false end &&
  negb (bool_decide (length (sentences f p) = 0)) &&
  forallb (λ x, hasb x "id" && has_spanb x && negb (bool_decide (length (sentence_words p x) = 0))) (sentences f p).
Lemma check_project base f precedence order p : completeb base f precedence order p = true → project_complete base f precedence order p.
Proof.
  unfold completeb. intros H. sp H. split.
  - apply Forall_forall. intros w Hw. pose proof (fb _ _ H w Hw) as K. cbn beta in K. sp K. split; [by apply hasb_ok|]. destruct (x_text w); [by eexists|done].
  - intros ->. apply Nat.ltb_lt. exact H5.
  - split; apply Forall_forall.
    + intros l Hl. pose proof (fb _ _ H4 l Hl) as K. cbn beta in K. destruct (level_file base p l); [by eexists|done].
    + intros m Hm. pose proof (fb _ _ H3 m Hm) as K. cbn beta in K. sp K. split; [by apply hasb_ok|by apply has_spanb_ok].
  - split.
    + destruct (level_file f p "sentence"); [by eexists|done].
    + intros E. rewrite E in H1. done.
    + apply Forall_forall. intros x Hx. pose proof (fb _ _ H0 x Hx) as K. cbn beta in K. sp K. split; [by apply hasb_ok|]. split; [by apply has_spanb_ok|].
      intros E. rewrite E in H6. done.
Qed.
Definition plainb (base : string) (order : list string) (p : mmax) : bool :=
  forallb (λ m : string * xml, bool_decide (NoDup (dkeys (x_attrib m.2))) && bool_decide (":"%char ∉ chs (att "anaphor_antecedent" m.2))) (markables base order p).
Lemma check_plain base order p : plainb base order p = true → project_plain base order p.
Proof.
  intros H. apply Forall_forall. intros m Hm. pose proof (fb _ _ H m Hm) as K. cbn beta in K. sp K. apply bool_decide_eq_true in K, H0. done.
Qed.
Definition no_tokenb (base : string) (order : list string) (p : mmax) : bool := forallb (λ m : string * xml, negb (hasb m.2 "token")) (markables base order p).
Lemma check_no_token base order p : no_tokenb base order p = true → no_token_atts base order p.
Proof.
  intros H. apply Forall_forall. intros m Hm. pose proof (fb _ _ H m Hm) as K. cbn beta in K. unfold hasb in K. intros [v Hv]. by rewrite Hv in K.
Qed.
Definition apartb (base ns : string) (order : list string) (p : mmax) : bool :=
  forallb (λ w, negb (bool_decide (w ∈ doc_root ns :: markable_ids base order p))) (word_ids p ++ (m ← markables base order p; span_words m.2)).
Lemma check_apart base ns order p : apartb base ns order p = true → ids_apart base ns order p.
Proof.
  intros H w Hw. assert (Hin : w ∈ word_ids p ++ (m ← markables base order p; span_words m.2)).
  { apply elem_of_app. destruct Hw as [Hw|(m & Hm & Hw)]; [by left|]. right. apply elem_of_list_bind. by exists m. }
  pose proof (fb _ _ H w Hin) as K. cbn beta in K. by apply negb_true_iff, bool_decide_eq_false in K.
Qed.
Definition refersb (rank : nid → nat) (base : string) (order : list string) (p : mmax) : bool :=
  forallb (λ m : string * xml, forallb (λ a, (rank a <? rank (node_of "id" m.2))%nat) (antecedents m.2)) (markables base order p).
Lemma check_refers rank base order p level : refersb rank base order p = true → ∀ n, ¬ tc (refers base order p level) n n.
Proof.
  intros H. apply (rank_acyclic _ rank). intros u v (m & Hm & _ & -> & Hv). pose proof (fb _ _ (fb _ _ H m Hm) v Hv) as K. cbn beta in K. by apply Nat.ltb_lt in K.
Qed.

(** a text of six words, two levels and two sentences (not in text order) *)
Definition mx_w (i w : string) : xml := XElem "word" [("id", i)] (Some (chs w)) [] None.
Definition mx_m (i span : string) (ante : string) : xml :=
  XElem "markable" [("id", i); ("span", span); ("anaphor_antecedent", ante)] None [] None.
Definition mx_s (i span : string) : xml := XElem "markable" [("id", i); ("span", span)] None [] None.
Definition mx_texts : list xml := [mx_w "word_1" "Der"; mx_w "word_2" "Hund"; mx_w "word_3" "bellt"; mx_w "word_4" "."; mx_w "word_5" "Er"; mx_w "word_6" "knurrt"].
Definition mx_project (primmark secmark sents : list xml) : mmax :=
  MMAX mx_texts [("primmark", "_primmark_level.xml"); ("sentence", "_sentence_level.xml"); ("secmark", "_secmark_level.xml")]
    (λ f, dget f [("dog_primmark_level.xml", primmark); ("dog_secmark_level.xml", secmark); ("dog_sentence_level.xml", sents)]).
Definition mx_sents : list xml := [mx_s "markable_22" "word_5..word_6"; mx_s "markable_21" "word_1..word_4"].
Definition mx_dog : mmax := mx_project
  [mx_m "markable_1" "word_1..word_2" "empty"; mx_m "markable_2" "word_5,word_9" "markable_1;markable_3"] [mx_s "markable_7" "word_1..word_3"] mx_sents.
Definition mx_levels_read : list string := ["secmark"; "primmark"].

(** a PP over an NP, and an NP under a sentence *)
Definition check_categorisedb (g : graph) : bool :=
  forallb (λ p : nid * attrs, match dget "layers" p.2 with
    | Some (VSet ls) => negb (bool_decide ("tiger:syntax" ∈ ls)) || match dget "tiger:cat" p.2 with Some _ => true | None => false end
    | _ => true end) (g_node g).
Lemma check_categorised g : check_categorisedb g = true → categorised g.
Proof.
  intros H n a Ha (ls & Hls & Hin). apply dget_Some_elem in Ha. pose proof (fb _ _ H (n, a) Ha) as K. cbn beta in K. cbn [snd] in K. rewrite Hls in K.
  rewrite bool_decide_eq_true_2 in K by done. cbn [negb orb] in K. destruct (dget "tiger:cat" a); [by eexists|done].
Qed.
Definition ph_ops : list op :=
  let s cat := [("tiger:cat", VStr cat)] in
  let ls := VSet ["tiger"; "tiger:syntax"] in
  [ OAddNode (NStr "s") ls None (s "S"); OAddNode (NStr "np1") ls None (s "NP"); OAddNode (NStr "pp") ls None (s "PP"); OAddNode (NStr "np2") ls None (s "NP");
    OAddEdge (NStr "s") (NStr "np1") (VSet ["tiger"]) None None [("edge_type", VStr dominates)];
    OAddEdge (NStr "s") (NStr "pp") (VSet ["tiger"]) None None [("edge_type", VStr dominates)];
    OAddEdge (NStr "pp") (NStr "np2") (VSet ["tiger"]) None None [("edge_type", VStr dominates)] ].
Definition ph_graph : graph := run (init_graph "doc" "tiger" None) ph_ops.
Lemma ph_reach : reachable no_bare_layers ph_graph.
Proof. apply reachable_run; [constructor|]. unfold ph_ops. repeat (apply List.Forall_cons; [done|]). apply List.Forall_nil. Qed.
