(** * PropUrml: properties C76-C78 (URML documents; see SpecUrml.v and WitUrml.v) *)
From stdpp Require Import relations.
From Verif Require Import PyBase DocGraph Relabel StrNum Query Text Rst Nltk Parsers Tiger Rs3Graph Urml.
From Verif Require Import SpecGraph DocGraphFacts SpecImport SpecQuery SpanFacts OffsetFacts SpecRs3Graph SpecUrml UrmlDoc UrmlRead UrmlSpan WitUrml.

Example C76_hyp : ∀ tokenize precedence, readable "urml" tokenize precedence u_doc ∧ units_only "urml" tokenize u_doc ∧ complete u_doc.
Proof.
  intros tokenize precedence. split; [split; [|split; [|split; [|split]]]|split].
  - destruct tokenize; apply (bool_decide_unpack _); vm_compute; exact I.
  - apply check_formed. vm_compute. reflexivity.
  - apply (check_steps u_rank). destruct tokenize; vm_compute; reflexivity.
  - by destruct tokenize.
  - intros -> _. apply (bool_decide_unpack _). vm_compute. exact I.
  - apply check_units. destruct tokenize; vm_compute; reflexivity.
  - unfold complete. cbn. repeat apply List.Forall_cons; try apply List.Forall_nil; by eexists.
Qed.

(** ** C76: nodes and edges *)
Theorem C76_graph : ∀ name ns tokenize precedence d, readable ns tokenize precedence d →
  ∃ g edus, read_urml name ns tokenize precedence d = (g, edus, None) ∧ Consistent g ∧ g_ns g = ns ∧
    node_set g (urml_nodes ns tokenize d) ∧
    has_edges g (structure_edges ns tokenize d ++ (if tokenize then if precedence then order_edges ns (g_root g) (all_tokens ns tokenize d).*1 else [] else [])).
Proof.
  intros name ns tokenize precedence d (H1 & H2 & H3 & H4 & H5). destruct (document_ok ns tokenize d name precedence H1 H2 H3 H4 H5) as (g & r & E & G & HN & HE & Hr & _ & _ & Hns & _).
  eexists g, _. split; [exact E|]. split; [apply G|]. split; [exact Hns|]. split; [exact HN|]. rewrite Hr. exact HE.
Qed.
Print Assumptions C76_graph.
Theorem C76_accepted : ∀ name ns tokenize precedence d, distinct_ids ns tokenize d →
  (read_urml name ns tokenize precedence d).2 = None ↔ readable ns tokenize precedence d.
Proof.
  intros name ns tokenize precedence d H. rewrite (accepted_iff ns tokenize d name precedence H). unfold readable. tauto.
Qed.
Print Assumptions C76_accepted.
(** one segment, read without tokens: an error *)
Theorem C76_single_refuted : (read_urml None "urml" false false u_one).2 = Some IndexError ∧ (read_urml None "urml" true false u_one).2 = None.
Proof. split; vm_compute; reflexivity. Qed.
Print Assumptions C76_single_refuted.

(** ** C77: the root *)
Theorem C77_root : ∀ name ns tokenize precedence d, readable ns tokenize precedence d →
  ∃ g edus, read_urml name ns tokenize precedence d = (g, edus, None) ∧ g_root g ∈ nodes g ∧ named ns "root_node" ∉ nodes g ∧
    starts_longest (structure_edges ns tokenize d) (g_root g) ∧ (∀ u, ¬ step (structure_edges ns tokenize d) u (g_root g)).
Proof.
  intros name ns tokenize precedence d (H1 & H2 & H3 & H4 & H5). destruct (document_ok ns tokenize d name precedence H1 H2 H3 H4 H5) as (g & r & E & G & HN & HE & Hr & HS & HT & _).
  eexists g, _. split; [exact E|]. rewrite Hr. assert (Hin : r ∈ nodes g).
  { rewrite (proj1 HN). apply nodes_iff. right. destruct HS as ([|v l] & HP & Hl & _); [done|]. destruct HP as [HP _]. by apply step_ends in HP as [? _]. }
  split; [exact Hin|]. split; [|by split]. rewrite (proj1 HN). apply (proj2 H1).
Qed.
Print Assumptions C77_root.
(** if there is one top, that is the root, and all that is linked is below it *)
Theorem C77_top : ∀ name ns tokenize precedence d t, readable ns tokenize precedence d →
  (∀ x y, step (structure_edges ns tokenize d) x y → (∀ u, ¬ step (structure_edges ns tokenize d) u x) → x = t) →
  ∃ g edus, read_urml name ns tokenize precedence d = (g, edus, None) ∧ g_root g = t ∧
    ∀ x y, step (structure_edges ns tokenize d) x y → rtc (step (structure_edges ns tokenize d)) t y.
Proof.
  intros name ns tokenize precedence d t HR HT. destruct (C77_root name ns tokenize precedence d HR) as (g & edus & E & _ & _ & HS & HN). exists g, edus. split; [exact E|]. split.
  - destruct HS as ([|v l] & HP & Hl & _); [done|]. destruct HP as [HP _]. by eapply HT.
  - intros x y Hxy. destruct HR as (H1 & H2 & H3 & _). destruct (top_above ns tokenize d x (proj1 H1) H2 H3) as (r & Hr & Hn).
    assert (r = t) as ->; [|by eapply rtc_r]. inversion Hr as [|? z ? Hz _]; subst; [by eapply HT|by eapply HT].
Qed.
Print Assumptions C77_top.
Example C77_top_hyp : ∀ x y, step (structure_edges "urml" true u_doc) x y → (∀ u, ¬ step (structure_edges "urml" true u_doc) u x) → x = NStr "urml:5".
Proof.
  assert (HF : Forall (λ e : edge_info, e.1.1.1 = NStr "urml:5" ∨ e.1.1.1 ∈ (λ e : edge_info, e.1.1.2) <$> structure_edges "urml" true u_doc) (structure_edges "urml" true u_doc)) by (apply (bool_decide_unpack _); vm_compute; exact I).
  rewrite Forall_forall in HF. intros x y (l & a & He) Hx. destruct (HF _ He) as [H|H]; [exact H|]. cbn [fst] in H. apply elem_of_list_fmap in H as ([[[u v] l'] a'] & E & Hu). cbn [fst snd] in E. subst v. destruct (Hx u). by exists l', a'.
Qed.
(** of two trees, only one is below the root *)
Theorem C77_forest_refuted : ∃ g edus, read_urml None "urml" true false u_two = (g, edus, None) ∧ g_root g = NStr "urml:4" ∧ NStr "urml:5" ∈ nodes g ∧ predecessors g (NStr "urml:5") = [].
Proof.
  set (r := read_urml None "urml" true false u_two). exists r.1.1, r.1.2. split; [vm_compute; reflexivity|]. split; [vm_compute; reflexivity|]. split; [|vm_compute; reflexivity]. apply (bool_decide_unpack _). vm_compute. exact I.
Qed.
Print Assumptions C77_forest_refuted.

(** ** C78: text and spans *)
Theorem C78_text : ∀ name ns tokenize precedence d, readable ns tokenize precedence d → complete d →
  ∃ g, read_urml name ns tokenize precedence d = (g, (λ s, named ns (us_id s)) <$> ud_segs d, None) ∧
    g_tokens g = (all_tokens ns tokenize d).*1 ∧ text_tokens g (ud_segs d ≫= words_in tokenize) ∧
    (∀ fuel, get_text fuel g None = Ok (str (joined (ud_segs d ≫= words_in tokenize)))) ∧
    (∀ objs, objs 0 = Some ((λ s, named ns (us_id s)) <$> ud_segs d) → get_edus g objs ns = Ok ((λ s, named ns (us_id s)) <$> ud_segs d)).
Proof.
  intros name ns tokenize precedence d (H1 & H2 & H3 & H4 & H5) HC. destruct (document_ok ns tokenize d name precedence H1 H2 H3 H4 H5) as (g & r & E & G & HN & HE & Hr & HS & HT & Hns & _ & Ht & Hm).
  exists g. split; [exact E|]. split; [exact Ht|]. pose proof (text_ok ns tokenize d g HN Hns _ Ht HC eq_refl) as HX. split; [exact HX|]. split; [intros fuel; cbn [get_text]; by apply tokens2text_is|].
  intros objs Ho. unfold get_edus. rewrite Hm. assert (Hroot : dmem (g_root g) (g_node g) = true).
  { rewrite dmem_spec, Hr. change (r ∈ nodes g). rewrite (proj1 HN). apply nodes_iff. right. destruct HS as ([|v l] & HP & Hl & _); [done|]. destruct HP as [HP _]. by apply step_ends in HP as [? _]. }
  rewrite Hroot. cbn [dget]. rewrite decide_True by done. cbn [of_option rbind]. by rewrite Ho.
Qed.
Print Assumptions C78_text.
(** a unit covers the words of all segments it is linked to, directly or not, also those of the satellites of a nucleus *)
Theorem C78_span : ∀ name ns tokenize d, readable ns tokenize false d → units_only ns tokenize d →
  ∃ g edus, read_urml name ns tokenize false d = (g, edus, None) ∧
    ∀ a, named ns a ∈ nodes g → named ns a ∉ g_tokens g →
      ∃ l, (∀ fuel, length (nodes g) < fuel → get_span fuel g (named ns a) = Ok l) ∧ sorted nat_cmp l ∧
        (∀ t, t ∈ l ↔ ∃ s, s ∈ ud_segs d ∧ rtc (linked_to d) a (us_id s) ∧ t ∈ (tokens_of ns tokenize s).*1) ∧
        (NoDup (snd <$> (relations d ≫= linked_by)) → NoDup l).
Proof.
  intros name ns tokenize d (H1 & H2 & H3 & H4 & H5) HU. destruct (document_ok ns tokenize d name false H1 H2 H3 H4 H5) as (g & r & E & G & HN & HE & Hr & HS & HT & Hns & _ & Ht & Hm).
  eexists g, _. split; [exact E|]. intros a Ha Hw. assert (HE' : has_edges g (structure_edges ns tokenize d)) by (unfold linked_edges in HE; destruct tokenize; by rewrite app_nil_r in HE).
  rewrite Ht in Hw. apply unit_span; done.
Qed.
Print Assumptions C78_span.
Example C78_span_shown : ∃ g edus, read_urml None "urml" true false u_doc = (g, edus, None) ∧
  get_span 50 g (NStr "urml:1") = Ok [NStr "urml:1_0"; NStr "urml:1_1"; NStr "urml:2_0"; NStr "urml:2_1"; NStr "urml:2_2"] ∧ get_text 50 g (Some (NStr "urml:5")) = Ok "Die Antwort ist nein . Punkt .".
Proof. set (r := read_urml None "urml" true false u_doc). exists r.1.1, r.1.2. split; [|split]; vm_compute; reflexivity. Qed.
(** a unit with two parents: its words are counted twice *)
Theorem C78_twice_refuted : ∃ g edus, read_urml None "urml" true false u_twice = (g, edus, None) ∧
  get_text 50 g (Some (NStr "urml:6")) = Ok "Die Antwort ist ist nein nein . . Punkt .".
Proof. set (r := read_urml None "urml" true false u_twice). exists r.1.1, r.1.2. split; vm_compute; reflexivity. Qed.
Print Assumptions C78_twice_refuted.
(** with precedence relations, a unit covers all that follows *)
Theorem C78_precedence_refuted : ∃ g edus, read_urml None "urml" true true u_doc = (g, edus, None) ∧
  ∃ l, get_span 50 g (NStr "urml:2") = Ok l ∧ NStr "urml:3_0" ∈ l.
Proof.
  set (r := read_urml None "urml" true true u_doc). exists r.1.1, r.1.2. split; [vm_compute; reflexivity|].
  exists (match get_span 50 r.1.1 (NStr "urml:2") with Ok l => l | Err _ => [] end). split; [vm_compute; reflexivity|]. apply (bool_decide_unpack _). vm_compute. exact I.
Qed.
Print Assumptions C78_precedence_refuted.
(** a word without text: no text at all *)
Theorem C78_none_refuted : ∃ g edus, read_urml None "urml" true false u_none = (g, edus, None) ∧ get_text 50 g None = Err TypeError.
Proof. set (r := read_urml None "urml" true false u_none). exists r.1.1, r.1.2. split; vm_compute; reflexivity. Qed.
Print Assumptions C78_none_refuted.
