(** * PropExb: properties C79-C82 (Exmaralda; see SpecExb.v, SpecExbWrite.v and WitExb.v) *)
From Verif Require Import PyBase DocGraph Relabel StrNum Query Text Rst Exb.
From Verif Require Import SpecGraph DocGraphFacts SpecImport SpecQuery ViewFacts SpanFacts OffsetFacts SpecUrml SpecExb SpecExbWrite ExbRead ExbDoc ExbSpan ExbWrite ExbBack ExbTrip WitExb Witness.

(** the tiers that are read *)
Local Notation tiers ign d := (tiers_read ign d).

(** ** C79: nodes and edges *)
Theorem C79_graph : ∀ filename name ns tt ignored d, exb_distinct ns tt (tiers ignored d) d → exb_formed tt (tiers ignored d) d →
  ∃ g, read_exb filename name ns tt ignored d = (g, None) ∧ Consistent g ∧ g_ns g = ns ∧ g_root g = NStr (ns +:+ ":root_node") ∧
    g_name g = (match name with Some n => if decide (n = "") then filename else n | None => filename end) ∧
    node_set g (exb_nodes ns tt (tiers ignored d) d) ∧ has_edges g (exb_edges ns tt (tiers ignored d)).
Proof.
  intros filename name ns tt ignored d HD HF. destruct (document_ok filename name ns tt ignored d HD HF) as (g & E & R). exists g. split; [exact E|]. pose proof (result_nodes _ _ _ _ _ _ _ HD R) as HN. destruct R as [A0 A1 A2 A3 A4].
  split; [apply (v_inv _ _ _ A0)|]. split; [exact A2|]. split; [exact A3|]. split; [exact A1|]. split; [exact HN|exact (v_edges _ _ _ A0)].
Qed.
Print Assumptions C79_graph.
Example C79_graph_hyp : exb_distinct "exmaralda" "tok" (tiers (Some ["x"]) x_doc) x_doc ∧ exb_formed "tok" (tiers (Some ["x"]) x_doc) x_doc ∧
  length (exb_nodes "exmaralda" "tok" (tiers (Some ["x"]) x_doc) x_doc) = 9 ∧ length (exb_edges "exmaralda" "tok" (tiers (Some ["x"]) x_doc)) = 6.
Proof.
  split; [split; vdec|]. split; [|split; vm_compute; reflexivity]. apply Forall_forall. intros t Ht. apply Forall_forall. intros e He.
  assert (HB : Forall (λ t, Forall (λ e, is_Some (extent e) ∧ (single e ∨ ¬ is_word_tier "tok" t) ∧ (is_span_tier "tok" t ∨ NStr (ev_start e) ∈ timeline x_doc)) (ti_events t)) (tiers (Some ["x"]) x_doc)) by vdec.
  rewrite Forall_forall in HB. specialize (HB t Ht). rewrite Forall_forall in HB. destruct (HB e He) as (H1 & H2 & H3). split; [exact H1|]. split; tauto.
Qed.
(** the timeline is in the order of times *)
Theorem C79_order : ∀ filename name ns tt ignored d, exb_distinct ns tt (tiers ignored d) d → exb_formed tt (tiers ignored d) d →
  ∃ g tl, read_exb filename name ns tt ignored d = (g, None) ∧ by_time d tl ∧ g_tokens g = (λ p : string * Z, NStr p.1) <$> tl.
Proof.
  intros filename name ns tt ignored d HD HF. destruct (document_ok filename name ns tt ignored d HD HF) as (g & E & R). eexists g, _. split; [exact E|]. split; [apply by_time_ok|]. exact (xs_tokens _ _ _ _ _ _ _ R).
Qed.
Print Assumptions C79_order.
Theorem C79_accepted : ∀ filename name ns tt ignored d, exb_distinct ns tt (tiers ignored d) d → exb_inside tt (tiers ignored d) d → exb_apart ns tt (tiers ignored d) →
  (read_exb filename name ns tt ignored d).2 = None ↔ exb_formed tt (tiers ignored d) d.
Proof. exact accepted_iff. Qed.
Print Assumptions C79_accepted.
Example C79_accepted_hyp : (∀ d, d ∈ [x_doc; x_long; x_where] → exb_distinct "exmaralda" "tok" (tiers (Some ["x"]) d) d ∧ exb_inside "tok" (tiers (Some ["x"]) d) d ∧ exb_apart "exmaralda" "tok" (tiers (Some ["x"]) d)) ∧
  (read_exb "f" None "exmaralda" "tok" (Some ["x"]) x_long).2 = Some AssertionError ∧ (read_exb "f" None "exmaralda" "tok" (Some ["x"]) x_where).2 = Some KeyError.
Proof.
  split; [|split; vm_compute; reflexivity].
  assert (H : ∀ d, Forall (λ t, Forall (λ e, (¬ is_span_tier "tok" t ∨ Forall (λ n, n ∈ timeline d) (points e)) ∧ NStr (ev_start e) ∉ first_root :: NStr ("exmaralda" +:+ ":root_node") :: ((λ x : node_info, x.1.1) <$> span_nodes "exmaralda" "tok" (tiers (Some ["x"]) d))) (ti_events t)) (tiers (Some ["x"]) d) →
    exb_inside "tok" (tiers (Some ["x"]) d) d ∧ exb_apart "exmaralda" "tok" (tiers (Some ["x"]) d)).
  { intros d HB. rewrite Forall_forall in HB. split.
    - intros t e n Ht HS He Hn. specialize (HB t Ht). rewrite Forall_forall in HB. destruct (HB e He) as [[H1|H1] _]; [done|]. rewrite Forall_forall in H1. by apply H1.
    - intros t e Ht He. specialize (HB t Ht). rewrite Forall_forall in HB. by destruct (HB e He) as [_ ?]. }
  intros d Hd. repeat (apply elem_of_cons in Hd as [->|Hd]; [split; [split; vdec|apply H; vdec]|]). by apply elem_of_nil in Hd.
Qed.
(** an event that reaches beyond the timeline makes nodes that are no tokens *)
Theorem C79_beyond_refuted : ∃ g, read_exb "f" None "exmaralda" "tok" None x_doc = (g, None) ∧ NStr "T8" ∈ nodes g ∧ NStr "T8" ∉ g_tokens g.
Proof. set (r := read_exb "f" None "exmaralda" "tok" None x_doc). exists r.1. split; [vm_compute; reflexivity|]. split; vdec. Qed.
Print Assumptions C79_beyond_refuted.

(** ** C80: words and spans *)
Theorem C80_text : ∀ filename name ns tt ignored d, exb_distinct ns tt (tiers ignored d) d → exb_formed tt (tiers ignored d) d →
  ∃ g, read_exb filename name ns tt ignored d = (g, None) ∧
    (∀ ss, text_tokens g ss ↔ Forall2 (λ n s, word_at ns tt (tiers ignored d) n = Some (VStr s)) (timeline d) ss) ∧
    (∀ ss, Forall2 (λ n s, word_at ns tt (tiers ignored d) n = Some (VStr s)) (timeline d) ss → ∀ fuel, get_text fuel g None = Ok (str (joined ss))) ∧
    ∀ n, n ∈ timeline d → word_at ns tt (tiers ignored d) n = None → get_token g n = Err KeyError.
Proof.
  intros filename name ns tt ignored d HD HF. destruct (document_ok filename name ns tt ignored d HD HF) as (g & E & R). exists g. split; [exact E|]. pose proof (result_nodes _ _ _ _ _ _ _ HD R) as HN. destruct R as [A0 A1 A2 A3 A4].
  assert (HT : ∀ ss, text_tokens g ss ↔ Forall2 (λ n s, word_at ns tt (tiers ignored d) n = Some (VStr s)) (timeline d) ss) by exact (text_iff ns tt (tiers ignored d) d g HN (v_edges _ _ _ A0) A2 HD A4).
  split; [exact HT|]. split.
  - intros ss Hss fuel. apply HT in Hss. cbn [get_text]. by apply tokens2text_is.
  - intros n Hn Hw. destruct (point_attr ns tt (tiers ignored d) d g HN n (ns +:+ ":token") Hn ltac:(apply AnaphoraFacts.key_layers)) as (a & Ha & HK). unfold get_token. rewrite Ha, A2, HK. unfold word_at in Hw. by rewrite Hw.
Qed.
Print Assumptions C80_text.
Example C80_text_hyp : exb_distinct "exmaralda" "tok" (tiers None x_full) x_full ∧ exb_formed "tok" (tiers None x_full) x_full ∧
  Forall2 (λ n s, word_at "exmaralda" "tok" (tiers None x_full) n = Some (VStr s)) (timeline x_full) ["Der"; "Hund"].
Proof.
  split; [split; vdec|]. split; [|repeat apply List.Forall2_cons; try apply List.Forall2_nil; vm_compute; reflexivity]. apply Forall_forall. intros t Ht. apply Forall_forall. intros e He.
  assert (HB : Forall (λ t, Forall (λ e, is_Some (extent e) ∧ (single e ∨ ¬ is_word_tier "tok" t) ∧ (is_span_tier "tok" t ∨ NStr (ev_start e) ∈ timeline x_full)) (ti_events t)) (tiers None x_full)) by vdec.
  rewrite Forall_forall in HB. specialize (HB t Ht). rewrite Forall_forall in HB. destruct (HB e He) as (H1 & H2 & H3). split; [exact H1|]. split; tauto.
Qed.
(** the span of an event, of a tier and of the root *)
Theorem C80_span : ∀ filename name ns tt ignored d, exb_distinct ns tt (tiers ignored d) d → exb_formed tt (tiers ignored d) d → exb_inside tt (tiers ignored d) d →
  ∃ g, read_exb filename name ns tt ignored d = (g, None) ∧
    (∀ t i e a b fuel, t ∈ tiers ignored d → is_span_tier tt t → ti_events t !! i = Some e → extent e = Some (a, b) → (0 ≤ a)%Z → 2 ≤ fuel →
       get_span fuel g (span_name t i) = Ok (filter (has_word ns tt (tiers ignored d) d) (points e))) ∧
    (∀ t fuel, t ∈ tiers ignored d → is_span_tier tt t → 3 ≤ fuel →
       ∃ l, get_span fuel g (NStr (ti_id t)) = Ok l ∧ sorted nat_cmp l ∧ l ≡ₚ ti_events t ≫= λ e, filter (has_word ns tt (tiers ignored d) d) (points e)) ∧
    (∀ fuel, span_tiers tt (tiers ignored d) ≠ [] → 4 ≤ fuel →
       ∃ l, get_span fuel g (g_root g) = Ok l ∧ sorted nat_cmp l ∧ l ≡ₚ span_tiers tt (tiers ignored d) ≫= λ t, ti_events t ≫= λ e, filter (has_word ns tt (tiers ignored d) d) (points e)).
Proof.
  intros filename name ns tt ignored d HD HF HI. destruct (document_ok filename name ns tt ignored d HD HF) as (g & E & R). exists g. split; [exact E|]. pose proof (result_nodes _ _ _ _ _ _ _ HD R) as HN. destruct R as [A0 A1 A2 A3 A4].
  pose proof (v_inv _ _ _ A0) as G. pose proof (v_edges _ _ _ A0) as HE. split; [|split].
  - intros t i e a b fuel Ht HS Hi He Ha Hf. replace fuel with (S (S (fuel - 2))) by lia. by eapply span_exact.
  - intros t fuel Ht HS Hf. replace fuel with (S (S (S (fuel - 3)))) by lia. by apply tier_span.
  - intros fuel Hne Hf. rewrite A3. replace fuel with (S (S (S (S (fuel - 4))))) by lia. by apply root_span.
Qed.
Print Assumptions C80_span.
Example C80_span_shown : ∃ g, read_exb "f" None "exmaralda" "tok" (Some ["x"]) x_doc = (g, None) ∧
  get_span 5 g (NStr "TIE2_0") = Ok [NStr "T0"; NStr "T1"] ∧ get_text 5 g (Some (NStr "TIE2")) = Ok "Der Hund bellt" ∧ get_text 5 g None = Err KeyError.
Proof. set (r := read_exb "f" None "exmaralda" "tok" (Some ["x"]) x_doc). exists r.1. split; [|split; [|split]]; vm_compute; reflexivity. Qed.

(** ** C81: export *)
(** [order]: the order of Python dictionaries and sets; [chains]: the pointing chains *)
Theorem C81_document : ∀ fuel order redundant g chains d, any_order order → Consistent g → Layered g → NoDup (g_tokens g) →
  write_exb fuel order (Ok chains) redundant g = Ok d → exported_as fuel g redundant chains d.
Proof. intros fuel order redundant g chains d HO C L HD. by apply write_ok. Qed.
Print Assumptions C81_document.
Example C81_hyp : any_order x_same ∧ Consistent x_graph ∧ Layered x_graph ∧ NoDup (g_tokens x_graph) ∧ write_exb 5 x_same (Ok x_chains) false x_graph = Ok x_out ∧ length (ex_tiers x_out) = 6.
Proof. split; [apply x_order|]. split; [apply x_inv|]. split; [apply x_inv|]. split; [vdec|]. split; [apply x_written|vm_compute; reflexivity]. Qed.
Theorem C81_accepted : ∀ fuel order redundant g chains, any_order order → Consistent g → Layered g → NoDup (g_tokens g) →
  (∃ d, write_exb fuel order (Ok chains) redundant g = Ok d) ↔ exportable fuel g redundant chains.
Proof. intros fuel order redundant g chains HO C L HD. by apply write_iff. Qed.
Print Assumptions C81_accepted.
(** the category of a tier: the part of the name after the last colon *)
Theorem C81_category : ∀ k, ":"%char ∉ chs (last_part k) ∧ (last_part k = k ∨ ∃ p, k = p +:+ ":" +:+ last_part k).
Proof. exact last_part_ok. Qed.
Print Assumptions C81_category.
(** a number as an attribute of a token: no export *)
Theorem C81_number_refuted : write_exb 5 x_same (Ok []) false x_number = Err TypeError.
Proof. vm_compute. reflexivity. Qed.
Print Assumptions C81_number_refuted.

(** ** C82: export and import *)
Theorem C82_words : ∀ fuel g redundant chains d filename name ns ss, exported_as fuel g redundant chains d → no_other_words g redundant → text_tokens g ss →
  ∃ g', read_exb filename name ns "tok" None (parsed d) = (g', None) ∧ g_tokens g' = from_to 0 (S (length ss)) ∧
    (∀ i s, ss !! i = Some s → get_token g' (NStr (tick i)) = Ok (if decide (s = "") then VNone else VStr s)) ∧
    get_token g' (NStr (tick (length ss))) = Err KeyError ∧ ∀ f, ∃ e, get_text f g' None = Err e.
Proof.
  intros fuel g redundant chains d filename name ns ss HX HW Hss. destruct (trip_read fuel g redundant chains d HX HW filename name ns) as (g' & E & R). exists g'. split; [exact E|]. pose proof (Forall2_length _ _ _ Hss) as HL.
  split; [rewrite <-HL; by eapply trip_tokens|]. split; [intros i s Hi; by eapply trip_words|]. split; [rewrite <-HL; by eapply trip_last|]. intros f. by eapply trip_text.
Qed.
Print Assumptions C82_words.
Example C82_hyp : exported_as 5 x_graph false x_chains x_out ∧ no_other_words x_graph false ∧ text_tokens x_graph ["Der"; "Hund"; "bellt"].
Proof. split; [apply x_exported|]. split; [apply x_words|]. apply WitQuery.check_text. vm_compute. reflexivity. Qed.
(** attributes of tokens *)
Theorem C82_attributes : ∀ fuel g redundant chains d filename name ns k i s, exported_as fuel g redundant chains d → no_other_words g redundant →
  exported_attribute g k → alone g redundant k → ¬ exported_layer g redundant k → i < length (g_tokens g) →
  ∃ g', read_exb filename name ns "tok" None (parsed d) = (g', None) ∧
    (attr_of g' (NStr (tick i)) (ns +:+ ":" +:+ last_part k) = Some (VStr s) ↔ token_value g k i (VStr s)).
Proof.
  intros fuel g redundant chains d filename name ns k i s HX HW H1 H2 H3 H4. destruct (trip_read fuel g redundant chains d HX HW filename name ns) as (g' & E & R). exists g'. split; [exact E|]. by eapply trip_attribute.
Qed.
Print Assumptions C82_attributes.
Example C82_attributes_hyp : exported_attribute x_graph "x:pos" ∧ alone x_graph false "x:pos" ∧ ¬ exported_layer x_graph false "x:pos" ∧ last_part "x:pos" = "pos" ∧ token_value x_graph "x:pos" 2 (VStr "V").
Proof.
  assert (HV : token_value x_graph "x:pos" 2 (VStr "V")) by (eexists (NStr "t3"), _; split; [vm_compute; reflexivity|]; split; vm_compute; reflexivity).
  split; [split; [split; vdec|exists 2, (VStr "V"); exact HV]|]. split; [apply (check_alone _ _ _ _ _ x_exported); vdec|]. split; [|split; [vm_compute; reflexivity|exact HV]].
  apply x_no_layer.
Qed.
(** a layer with a node of several tokens: each of its nodes comes back as a node with the same label, over all points
    from its first to its last token *)
Theorem C82_spans : ∀ fuel g redundant chains d filename name ns l m0 i0 j0 s0, exported_as fuel g redundant chains d → no_other_words g redundant → NoDup (g_tokens g) →
  exported_layer g redundant l → ohas_layer (node_attrs g m0) l → token_extent fuel g m0 i0 j0 → i0 ≠ j0 → label_is g m0 s0 →
  ∃ g', read_exb filename name ns "tok" None (parsed d) = (g', None) ∧
    ∀ m i j s f, ohas_layer (node_attrs g m) l → token_extent fuel g m i j → label_is g m s → 2 ≤ f →
      ∃ m' a, node_attrs g' m' = Some a ∧ has_layer a (ns +:+ ":span") ∧ dget "label" a = Some (VStr s) ∧ get_span f g' m' = Ok (from_to i (S j)).
Proof.
  intros fuel g redundant chains d filename name ns l m0 i0 j0 s0 HX HW HD H1 H2 H3 H4 H5. destruct (trip_read fuel g redundant chains d HX HW filename name ns) as (g' & E & R). exists g'. split; [exact E|]. intros m i j s f A1 A2 A3 A4. eapply trip_span with (l := l) (m0 := m0) (i0 := i0) (j0 := j0) (i := i) (j := j); try eassumption. exists s0. exact H5.
Qed.
Print Assumptions C82_spans.
Example C82_spans_hyp : exported_layer x_graph false "x:np" ∧ ohas_layer (node_attrs x_graph (NStr "r")) "x:np" ∧ token_extent 5 x_graph (NStr "r") 0 2 ∧ label_is x_graph (NStr "r") "gap" ∧
  get_span 5 x_graph (NStr "r") = Ok [NStr "t1"; NStr "t3"].
Proof.
  assert (HL : ohas_layer (node_attrs x_graph (NStr "r")) "x:np"). { eexists. split; [vm_compute; reflexivity|]. eexists. split; [vm_compute; reflexivity|]. vdec. }
  split; [split; [left; by exists (NStr "r")|right; vdec]|]. split; [exact HL|]. split; [eexists [NStr "t1"; NStr "t3"], _, _; repeat split; vm_compute; reflexivity|]. split; [eexists; split; vm_compute; reflexivity|vm_compute; reflexivity].
Qed.
(** a layer of single tokens: its labels come back as attributes of the points *)
Theorem C82_marks : ∀ fuel g redundant chains d filename name ns l i, exported_as fuel g redundant chains d → no_other_words g redundant → NoDup (g_tokens g) →
  exported_layer g redundant l → alone g redundant l → ¬ exported_attribute g l → i < length (g_tokens g) →
  (∀ m i j, ohas_layer (node_attrs g m) l → token_extent fuel g m i j → i = j) →
  ∃ g', read_exb filename name ns "tok" None (parsed d) = (g', None) ∧
    (∀ v, attr_of g' (NStr (tick i)) (ns +:+ ":" +:+ last_part l) = Some v → ∃ m s, ohas_layer (node_attrs g m) l ∧ token_extent fuel g m i i ∧ label_is g m s ∧ v = VStr s) ∧
    (∀ m s, ohas_layer (node_attrs g m) l → token_extent fuel g m i i → label_is g m s → is_Some (attr_of g' (NStr (tick i)) (ns +:+ ":" +:+ last_part l))).
Proof.
  intros fuel g redundant chains d filename name ns l i HX HW HD H1 H2 H3 H4 H5. destruct (trip_read fuel g redundant chains d HX HW filename name ns) as (g' & E & R). exists g'. split; [exact E|]. eapply trip_marks; eassumption.
Qed.
Print Assumptions C82_marks.
Example C82_marks_shown : ∃ g', read_exb "f" None "exmaralda" "tok" None (parsed x_out) = (g', None) ∧ attr_of g' (NStr "T2") "exmaralda:mark" = Some (VStr "M") ∧ attr_of g' (NStr "T1") "exmaralda:mark" = None.
Proof. set (r := read_exb "f" None "exmaralda" "tok" None (parsed x_out)). exists r.1. split; [|split]; vm_compute; reflexivity. Qed.
(** a layer ..:token without labels: the words are lost *)
Theorem C82_token_layer_refuted : write_exb 5 x_same (Ok []) false x_twice = Ok x_twice_out ∧
  ∃ g', read_exb "f" None "exmaralda" "tok" None (parsed x_twice_out) = (g', None) ∧ get_token g' (NStr "T0") = Ok (VStr "").
Proof. split; [vm_compute; reflexivity|]. set (r := read_exb "f" None "exmaralda" "tok" None (parsed x_twice_out)). exists r.1. split; vm_compute; reflexivity. Qed.
Print Assumptions C82_token_layer_refuted.
