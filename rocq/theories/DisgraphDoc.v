(** * DisgraphDoc: whole .dis files *)
From Verif Require Import PyBase DocGraph Relabel StrNum Query Text SpecText Rst Nltk Dis Conano Exb Tiger Disgraph.
From Verif Require Import SpecGraph DocGraphFacts History Effects RelabelFacts GraphThms SpecImport ImportFacts TextFacts NltkFacts AnaphoraFacts ViewFacts SpecQuery SpanFacts Rs3Doc.
From Verif Require UrmlFacts UrmlDoc SpecExportxml ExportxmlFacts ExportxmlElem.
From Verif Require Import SpecDisgraph DisgraphFacts.

Section Doc.
  Context (ns name : string) (tokenize : bool).
  Definition start_graph (root : nid) : graph := mkGraph name ns root [(root, [("layers", VSet [ns])])] [(root, [])] [(root, [])] [] [] [].
  Lemma begin_ok : ∃ g, dg_start name ns (set_root (NInt 0) (set_ns ns (set_name name (init_graph "" "discoursegraph" None)))) = (g, None) ∧
    ∀ i, parse_root i g = (start_graph (NStr i), None).
  Proof.
    pose (g := (dg_start name ns (set_root (NInt 0) (set_ns ns (set_name name (init_graph "" "discoursegraph" None))))).1). exists g.
    let v := eval vm_compute in g in (assert (E : g = v) by (vm_compute; reflexivity)). split; [vm_compute; reflexivity|]. intros i. rewrite E. vm_compute. reflexivity.
  Qed.
  Lemma start_seen i : i ≠ "" → seen ns name (NStr i) (start_graph (NStr i)) [] [] [].
  Proof.
    intros Hi. split; [|done|done|done|done|done]. set (root := NStr i).
    assert (HI : GInv (start_graph root)).
    { assert (EG : start_graph root = init_graph name ns (Some root)) by (unfold root; by destruct i). rewrite EG. apply GInv_init. }
    split; [exact HI| |].
    - intros n. unfold ExportxmlFacts.mview, ExportxmlFacts.mentioned. cbn [SpecExportxml.edge_ends mbind list_bind ids fmap list_fmap app]. unfold node_attrs. cbn.
      destruct (decide (n = root)) as [->|Hn].
      + rewrite decide_True by left. eexists. split; [reflexivity|]. split.
        * intros y. unfold has_layer. cbn. split; [intros (l & [= <-] & ?); done|]. intros. by eexists.
        * intros k Hk. cbn. by rewrite decide_False.
      + rewrite decide_False; [done|]. intros [?|?]%elem_of_cons; [done|by eapply elem_of_nil].
    - exists []. split; [reflexivity|exact (List.Forall2_nil _)].
  Qed.
  (** the whole file *)
  Notation Root d := (ns +:+ ":span:" +:+ dd_from d +:+ "-" +:+ dd_to d).
  Lemma root_full d : Root d ≠ "".
  Proof. by destruct ns. Qed.
  Definition parse_rest (d : disdoc) (ts : list ntree) : dgprog :=
    dg_each (λ u, dg_need (get_node_id ns u) (λ c, dg_edge (Root d) c None [("edge_type", VStr dominates)]) >;> parse_dis_tree ns tokenize u) ts.
  Lemma does_rest d ts : Forall2 unit_form (dd_parts d) ts →
    does ns name (root_name ns d) (parse_rest d ts) (Forall combination_ok (read_of d)) (doc_facts ns tokenize d) (doc_links ns tokenize d) (doc_tokens ns tokenize d).
  Proof.
    intros HF. eapply does_iff.
    - eapply (does_each ns name (root_name ns d)) with (P := λ u, True ∧ Forall combination_ok (read_inside u)) (bs := dd_parts d) (F := λ u, [] ++ facts ns tokenize (read_inside u))
        (E := λ u, [(root_name ns d, name_of ns u, [ns], [("edge_type", VStr "dominates")])] ++ links ns tokenize (read_inside u)) (T := λ u, [] ++ all_tokens ns tokenize (read_inside u)).
      eapply Forall2_impl; [exact HF|]. intros u t Hu. apply does_then; [|by apply does_parse]. eapply does_need; [by apply form_id|]. rewrite name_nm. apply does_edge. intros k Hk. apply ExportxmlElem.ga_none.
    - unfold read_of. rewrite Forall_bind. rewrite !Forall_forall. naive_solver.
    - intros _. unfold doc_facts, doc_links, doc_tokens, facts, links, all_tokens, read_of. rewrite !bind_bind. done.
  Qed.
  Lemma parse_doc d t g : doc_form d t → (∀ i, parse_root i g = (start_graph (NStr i), None)) → ∃ ts, Forall2 unit_form (dd_parts d) ts ∧
    parse_dis_tree ns tokenize t g = parse_rest d ts (start_graph (NStr (Root d))).
  Proof.
    intros (ts & HF & ->) Hg. apply one_by_one_iff in HF. exists ts. split; [done|]. cbn [parse_dis_tree]. rewrite decide_True by left. unfold dg_need at 1. cbn [get_node_id is_leaf_node nlabel rbind leaves app]. repeat (rewrite decide_False by done). rewrite ?decide_True by done.
    cbn [rbind]. unfold dg_then at 1. rewrite decide_True by done. rewrite Hg. reflexivity.
  Qed.
  Lemma tokens_known d : ∀ n, n ∈ doc_tokens ns tokenize d → n ∈ known_nodes ns tokenize d.
  Proof.
    intros n Hn. apply elem_of_list_bind in Hn as (u & Hn & Hu). right. apply elem_of_app. left. apply elem_of_list_fmap.
    destruct u as [s r i x|]; [|by apply elem_of_nil in Hn]. unfold unit_tokens in Hn. destruct tokenize eqn:ET; [|by apply elem_of_nil in Hn]. apply elem_of_lookup_imap in Hn as (k & w & -> & Hw).
    exists (token_name ns i k, [], [(ns +:+ ":token", VStr w); ("label", VStr w)]). split; [done|]. apply elem_of_list_bind. exists (Unit s r i x). split; [|done]. unfold about_nodes. right.
    apply elem_of_lookup_imap. by exists k, w.
  Qed.
  Lemma prec_step d g : seen ns name (root_name ns d) g (doc_facts ns tokenize d) (doc_links ns tokenize d) (doc_tokens ns tokenize d) → 1 < length (doc_tokens ns tokenize d) →
    ∃ g', add_precedence_relations g = (g', None) ∧ viewed g' (mview ns (root_name ns d) (doc_facts ns tokenize d) (doc_links ns tokenize d)) (doc_links ns tokenize d ++ order_links ns (root_name ns d) (doc_tokens ns tokenize d)) ∧ same_doc g g'.
  Proof.
    intros [HV H1 H2 H3 H4 H5] Hlen. pose proof (tokens_known d) as HK. unfold add_precedence_relations. rewrite H4, H3. destruct (doc_tokens ns tokenize d) as [|t0 [|t1 ts]] eqn:EL; [cbn in Hlen; lia|cbn in Hlen; lia|].
    destruct (prec_loop ns ((root_name ns d, t0) :: zip (t0 :: t1 :: ts) (t1 :: ts)) g _ _ HV H1) as (g' & E1 & V1 & D1).
    { apply Forall_forall. intros [u v] He. cbn [fst snd]. rewrite !(ExportxmlFacts.mview_some ns). change (ExportxmlFacts.mentioned (root_name ns d) (doc_facts ns tokenize d) (doc_links ns tokenize d)) with (known_nodes ns tokenize d).
      apply elem_of_cons in He as [[= -> ->]|He]; [split; [left|apply HK; left]|]. split; apply HK; [by eapply elem_of_zip_l|right; by eapply elem_of_zip_r]. }
    exists g'. cbn [tail]. split; [exact E1|]. split; [exact V1|exact D1].
  Qed.
  Lemma facts_layers us n : SpecExportxml.layers_about (facts ns tokenize us) n = [].
  Proof.
    unfold SpecExportxml.layers_about. assert (HF : Forall (λ f : node_info, f.1.2 = []) (facts ns tokenize us)).
    { apply Forall_bind, Forall_forall. intros u _. unfold about_nodes. destruct u as [s r i x|s r a b k]; [|apply List.Forall_cons; [done|exact (List.Forall_nil _)]]. apply List.Forall_cons; [done|]. destruct tokenize; [|exact (List.Forall_nil _)].
      apply Forall_forall. intros f Hf. apply elem_of_lookup_imap in Hf as (k & w & -> & _). done. }
    induction HF as [|f F Hf HF IH]; [done|]. rewrite filter_cons. case_decide; [|exact IH]. cbn [mbind list_bind]. rewrite Hf. exact IH.
  Qed.
  Lemma doc_outcome s t d (precedence : bool) : dis_file s = Ok t → doc_form d t →
    (readable ns tokenize precedence d ∧ ∃ g, read_disgraph name ns tokenize precedence s = Ok g ∧ says_exactly ns tokenize precedence d g ∧
       g_ns g = ns ∧ g_name g = name ∧ g_root g = root_name ns d ∧ g_tokens g = doc_tokens ns tokenize d ∧ g_sentences g = [] ∧ GInv g) ∨
    (¬ readable ns tokenize precedence d ∧ ∃ e, read_disgraph name ns tokenize precedence s = Err e).
  Proof.
    intros Ht Hd. unfold read_disgraph. destruct begin_ok as (g0 & -> & Hg0). rewrite Ht. cbn [rbind]. unfold dg_then. destruct (parse_doc d t g0 Hd Hg0) as (ts & HF & ->).
    destruct (does_rest d ts HF (start_graph (NStr (Root d))) [] [] [] (start_seen _ (root_full d))) as [(HP & g1 & -> & H1)|(HP & g1 & e & ->)].
    2: { right. split; [by intros [? _]|by exists e]. }
    cbn [app] in H1. assert (HM : ∀ g E, viewed g (mview ns (root_name ns d) (doc_facts ns tokenize d) (doc_links ns tokenize d)) E →
      (∀ n, n ∈ nodes g ↔ n ∈ known_nodes ns tokenize d) ∧ (∀ n a, node_attrs g n = Some a → attrs_are a [ns] (attrs_about (doc_facts ns tokenize d) n))).
    { intros g E V. split; [intros n; rewrite (view_in _ _ _ _ V), (ExportxmlFacts.mview_some ns); done|]. intros n a Ha. pose proof (v_nodes _ _ _ V n) as HN. unfold ExportxmlFacts.mview in HN.
      destruct (decide _) as [H|H]; [|congruence]. destruct HN as (b & Hb & HN). rewrite Ha in Hb. injection Hb as <-. unfold doc_facts in HN. rewrite facts_layers in HN. exact HN. }
    destruct precedence.
    - destruct (decide (1 < length (doc_tokens ns tokenize d))) as [Hlen|Hlen].
      + destruct (prec_step d g1 H1 Hlen) as (g2 & E2 & V2 & (P1 & P2 & P3 & P4 & P5 & P6)). destruct H1 as [HV A1 A2 A3 A4 A5]. left. split; [split; [done|done]|]. exists g2. rewrite E2. split; [done|].
        destruct (HM _ _ V2) as [M1 M2]. split; [split; [exact M1|exact M2|apply V2]|]. repeat (split; [congruence|]). apply V2.
      + right. split; [intros [_ H]; by apply Hlen, H|]. destruct H1 as [HV A1 A2 A3 A4 A5]. unfold add_precedence_relations. rewrite A4. destruct (doc_tokens ns tokenize d) as [|t0 [|t1 l]]; [by eexists|by eexists|]. exfalso. apply Hlen. cbn. lia.
    - destruct H1 as [HV A1 A2 A3 A4 A5]. left. split; [split; [done|done]|]. exists g1. split; [done|]. destruct (HM _ _ HV) as [M1 M2]. split; [split; [exact M1|exact M2|rewrite app_nil_r; apply HV]|]. repeat (split; [congruence|]). apply HV.
  Qed.
End Doc.
