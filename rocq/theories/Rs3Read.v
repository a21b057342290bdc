(** * Rs3Read: reading the elements of an RS3 file one by one *)
From Verif Require Import PyBase DocGraph Relabel StrNum Query Text Rst Nltk Parsers Anaphora Conano Decour Ptb Convert Tiger Rs3Graph.
From Verif Require Import SpecGraph DocGraphFacts History Effects RelabelFacts GraphThms SpecImport ImportFacts PtbFacts TextFacts AnaphoraFacts TigerFacts BuiltFrom ViewFacts SpecQuery SpecRs3Graph Rs3Facts Rs3Desc.

Section Read.
  Context (ns : string) (d : rs3doc).
  Local Notation rels := (extract_relationtypes d).
  Local Notation pview := (pview ns d).
  Local Notation view_desc := (view_desc ns d).
  (** the graph after reading the elements [P] *)
  Record St (P : list xelem) (g : graph) : Prop := {
    st_view : viewed g (pview P) (x ← P; link_edge ns d x);
    st_ns : g_ns g = ns;
    st_root : g_root g = root_of ns P;
    st_tokens : g_tokens g = [];
    st_meta : g_meta g = [];
  }.
  (** the next element can be read *)
  Record next_ok (P : list xelem) (x : xelem) : Prop := {
    no_id : el_id x ∉ el_id <$> P;
    no_self : el_parent x ≠ Some (el_id x);
    no_name : el_id x ≠ "root_node";
    no_parent : el_parent x ≠ Some "root_node";
    no_rel : is_Some (el_parent x) → is_Some (el_relname x);
    no_type : match x with Grp _ None _ _ => False | _ => True end;
    no_top : top x → filter top P = [];
    no_roots : ∀ y, y ∈ P → el_id y ≠ "root_node" ∧ el_parent y ≠ Some "root_node";
  }.
  Definition own_view (P : list xelem) (x : xelem) : nview := vset (node_of_el ns x) (dinfo ns (element_desc ns d (P ++ [x]) x)) (pview P).
  Definition linked (P : list xelem) (x : xelem) (V : nview) : nview := λ n,
    match el_parent x with
    | Some p => if decide (n = node_named ns p) then Some (dinfo ns (parent_desc ns d (view_desc P p) x)) else V n
    | None => V n
    end.
  Lemma pview_root P : pview P (node_named ns "root_node") = if decide (Exists top P) then None else Some ([ns], []).
  Proof. unfold pview, Rs3Desc.pview. by rewrite decide_True. Qed.
  Lemma grown P x n : next_ok P x → (n ≠ node_named ns "root_node" ∨ ¬ top x) → same_at (linked P x (own_view P x) n) (pview (P ++ [x]) n).
  Proof.
    intros HN Hr. destruct (decide (n = node_named ns "root_node")) as [->|Hn].
    - destruct Hr as [Hr|Hr]; [done|]. rewrite pview_root. unfold linked.
      assert (E : own_view P x (node_named ns "root_node") = if decide (Exists top P) then None else Some ([ns], [])).
      { unfold own_view, vset. rewrite decide_False; [apply pview_root|]. intros E%named_inj. by apply (no_name _ _ HN). }
      rewrite (decide_ext (Exists top (P ++ [x])) (Exists top P)) by (rewrite Exists_app, Exists_cons, Exists_nil; naive_solver). rewrite <-E.
      destruct (el_parent x) as [p|] eqn:Ep; [|apply same_at_refl]. rewrite decide_False; [apply same_at_refl|]. intros <-%named_inj. by apply (no_parent _ _ HN).
    - unfold linked, own_view, vset, node_of_el. destruct (name_of ns n) as [i|] eqn:Ei.
      + apply name_of_is in Ei as ->. assert (Hi : i ≠ "root_node") by naive_solver. rewrite !pview_named by done.
        assert (HI : ∀ A (u v : A) j, (if decide (node_named ns i = node_named ns j) then u else v) = if decide (i = j) then u else v).
        { intros. apply decide_ext. split; [apply named_inj|by intros ->]. }
        destruct (desc_own ns d P x (no_id _ _ HN) (no_self _ _ HN)) as (D1 & _).
        destruct (el_parent x) as [p|] eqn:Ep; rewrite ?HI.
        * destruct (decide (i = p)) as [->|Hp].
          -- rewrite desc_parent by (try done; intros ->; by apply (no_self _ _ HN)). apply same_at_refl.
          -- destruct (decide (i = el_id x)) as [->|Hx]; [rewrite D1; apply same_at_refl|]. rewrite desc_other by congruence. apply same_at_refl.
        * destruct (decide (i = el_id x)) as [->|Hx]; [rewrite D1; apply same_at_refl|]. rewrite desc_other by congruence. apply same_at_refl.
      + assert (HI : ∀ j, n ≠ node_named ns j) by (intros j ->; by rewrite name_of_named in Ei).
        assert (HP : ∀ Q, pview Q n = None) by (intros Q; unfold pview, Rs3Desc.pview; by rewrite decide_False, Ei).
        rewrite (decide_False (P := n = node_named ns (el_id x))) by apply HI. rewrite !HP. destruct (el_parent x); [|done]. by rewrite decide_False by apply HI.
  Qed.
  (** the relation to the parent *)
  Lemma link_step P x g g0 : next_ok P x → viewed g (own_view P x) (x ← P; link_edge ns d x) → St P g0 → same_doc g0 g → ¬ top x →
    ∃ g', match el_parent x with None => (g, None) | Some p => add_parent_relation rels g x p end = (g', None) ∧ St (P ++ [x]) g'.
  Proof.
    intros HN HV [_ A1 A2 A3 A4] (B0 & B1 & B2 & B3 & B4 & B5) Ht.
    assert (HX : is_Some (own_view P x (node_of_el ns x))) by (unfold own_view, vset; rewrite decide_True by done; by eexists).
    assert (HR : root_of ns (P ++ [x]) = root_of ns P) by (unfold root_of; by rewrite filter_app, filter_cons_False, filter_nil, app_nil_r).
    assert (HL : ∀ g', viewed g' (linked P x (own_view P x)) ((x ← P; link_edge ns d x) ++ link_edge ns d x) → same_doc g g' → St (P ++ [x]) g').
    { intros g' HV' (C0 & C1 & C2 & C3 & C4 & C5). split; [|congruence..]. rewrite bind_app. cbn [mbind list_bind]. rewrite app_nil_r.
      eapply view_same; [exact HV'|]. intros n. apply grown; [done|by right]. }
    destruct (el_parent x) as [p|] eqn:Ep.
    - destruct (parent_step ns d g _ _ x p (view_desc P p) HV ltac:(congruence) Ep) as (g' & E1 & V1 & D1).
      + apply (no_rel _ _ HN). by eexists.
      + unfold own_view, vset. rewrite decide_False; [apply pview_named; intros ->; by apply (no_parent _ _ HN)|]. intros ->%named_inj. by apply (no_self _ _ HN).
      + exact HX.
      + exists g'. split; [done|]. apply HL; [|done]. eapply view_same; [exact V1|]. intros n. unfold linked. rewrite Ep. apply same_at_refl.
    - exists g. split; [done|]. apply HL; [|apply same_doc_refl]. unfold link_edge at 2, linked. rewrite Ep, app_nil_r. exact HV.
  Qed.
  (** the node of the element itself *)
  Lemma segment_own P x g : next_ok P x → St P g → segment x →
    ∃ g', add_node g (node_of_el ns x) (VSet [ns; ns +:+ ":segment"])
            (Some [("label", VStr (label_of ns d x)); (ns +:+ ":text", VStr (text_of x)); (ns +:+ ":segment_type", VStr (own_type d x))]) [] = (g', None) ∧
      viewed g' (own_view P x) (x ← P; link_edge ns d x) ∧ same_doc g g'.
  Proof.
    intros HN HS Hx. destruct (desc_own ns d P x (no_id _ _ HN) (no_self _ _ HN)) as (D1 & D2 & D3 & D4).
    rewrite decide_False in D3 by naive_solver. pose proof (st_view _ _ HS) as HV. pose proof (pview_named ns d P (el_id x) (no_name _ _ HN)) as Hp.
    assert (HD : element_desc ns d (P ++ [x]) x = NodeDesc [ns; ns +:+ ":segment"] (Some (label_of ns d x)) (Some (text_of x)) None (Some (own_type d x)) (match view_desc P (el_id x) with Some D => nd_rel D | None => None end)).
    { rewrite <-D2. unfold element_desc, layer_of. cbn [nd_rel]. rewrite D3, !(decide_True (P := segment x)) by done. by destruct x. }
    assert (HK : ∀ k : string, dget k (given_attrs (Some [("label", VStr (label_of ns d x)); (ns +:+ ":text", VStr (text_of x)); (ns +:+ ":segment_type", VStr (own_type d x))]) []) =
      if decide (k = "label") then Some (VStr (label_of ns d x)) else if decide (k = ns +:+ ":text") then Some (VStr (text_of x)) else if decide (k = ns +:+ ":segment_type") then Some (VStr (own_type d x)) else None).
    { intros k. unfold given_attrs. rewrite dget_dupdate. done. }
    unfold own_view. rewrite HD. destruct (view_desc P (el_id x)) as [D|].
    - destruct (D4 D eq_refl) as (L1 & L2 & L3 & L4).
      destruct (view_again g _ _ (node_of_el ns x) (VSet [ns; ns +:+ ":segment"]) (Some [("label", VStr (label_of ns d x)); (ns +:+ ":text", VStr (text_of x)); (ns +:+ ":segment_type", VStr (own_type d x))]) [] [ns; ns +:+ ":segment"] (dinfo ns D) HV) as (g' & E1 & V1 & S1); [by left|exact Hp|].
      exists g'. split; [done|]. split; [|done]. eapply view_same; [exact V1|]. intros n. unfold vset. destruct (decide (n = _)); [|apply same_at_refl]. unfold dinfo. cbn [same_at fst snd]. split; cbn [fst snd nd_layers].
      + intros z. rewrite L1, elem_of_app, !elem_of_cons. naive_solver.
      + intros k Hk. rewrite dget_dupdate, HK, !dget_desc. cbn [nd_label nd_text nd_group nd_type nd_rel]. rewrite L2, L3, L4. keys ns. repeat case_decide; subst; try congruence; done.
    - destruct (view_new g _ _ (node_of_el ns x) (VSet [ns; ns +:+ ":segment"]) (Some [("label", VStr (label_of ns d x)); (ns +:+ ":text", VStr (text_of x)); (ns +:+ ":segment_type", VStr (own_type d x))]) [] [ns; ns +:+ ":segment"] HV) as (g' & E1 & V1 & S1); [by left|exact Hp|].
      exists g'. split; [done|]. split; [|done]. eapply view_same; [exact V1|]. intros n. unfold vset. destruct (decide (n = _)); [|apply same_at_refl]. unfold dinfo. cbn [same_at fst snd]. split; cbn [fst snd nd_layers]; [done|].
      intros k Hk. rewrite HK, dget_desc. cbn [nd_label nd_text nd_group nd_type nd_rel]. keys ns. repeat case_decide; subst; try congruence; done.
  Qed.
  Lemma segment_step P x g L : next_ok P x → St P g → segment x → ∃ g', rs3_segment rels x (g, L) = ((g', L ++ [node_of_el ns x]), None) ∧ St (P ++ [x]) g'.
  Proof.
    intros HN HS Hx. destruct x as [i p r t|]; [|done]. destruct (segment_own P _ g HN HS Hx) as (g1 & E1 & V1 & D1).
    destruct (link_step P _ g1 g HN V1 HS D1) as (g2 & E2 & S2); [by intros []|]. exists g2. split; [|done].
    cbn [rs3_segment]. rewrite types_eq, (st_ns _ _ HS). cbn [fst].
    match goal with |- context [add_node g ?n ?l ?a ?b] => replace (add_node g n l a b) with (g1, @None exc) end.
    2:{ rewrite <-E1. unfold label_of, text_of, segment_label. rewrite chs_str. done. }
    cbn [el_parent] in E2. destruct p as [p|]; [rewrite E2; done|by injection E2 as ->].
  Qed.
  (** groups *)
  Definition group_desc (P : list xelem) (x : xelem) : node_desc :=
    NodeDesc [ns; ns +:+ ":group"] (Some (label_of ns d x)) None (match x with Grp _ ty _ _ => ty | _ => None end)
      (Some (if decide (own_type d x = "span") then match view_desc P (el_id x) with Some D => default "span" (nd_type D) | None => "span" end else own_type d x))
      (match view_desc P (el_id x) with Some D => nd_rel D | None => None end).
  Lemma group_own P i ty p r g : let x := Grp i (Some ty) p r in next_ok P x → St P g →
    let group_attrs := [(ns +:+ ":group_type", VStr ty); ("label", VStr (ns +:+ ":group:" +:+ ty +:+ ":" +:+ i))] in
    let typed := group_attrs ++ [(ns +:+ ":segment_type", VStr (own_type d x))] in
    let has_type := match node_attrs g (node_of_el ns x) with Some a => dmem (ns +:+ ":segment_type") a | None => false end in
    ∃ g', (if negb (dmem (node_of_el ns x) (g_succ g)) then add_node g (node_of_el ns x) (VSet [ns; ns +:+ ":group"]) (Some typed) []
               else node_update g (node_of_el ns x) (dset "layers" (VSet [ns; ns +:+ ":group"])
                      (if decide (own_type d x = "span") then if has_type then group_attrs else typed else typed))) = (g', None) ∧
      viewed g' (vset (node_of_el ns x) (dinfo ns (group_desc P x)) (pview P)) (x ← P; link_edge ns d x) ∧ same_doc g g'.
  Proof.
    intros x HN HS group_attrs typed has_type. destruct (desc_own ns d P x (no_id _ _ HN) (no_self _ _ HN)) as (_ & _ & _ & D4).
    pose proof (st_view _ _ HS) as HV. pose proof (pview_named ns d P (el_id x) (no_name _ _ HN)) as Hp. fold (node_of_el ns x) in Hp.
    assert (HK : ∀ k : string, dget k typed = if decide (k = ns +:+ ":group_type") then Some (VStr ty) else if decide (k = "label") then Some (VStr (label_of ns d x)) else if decide (k = ns +:+ ":segment_type") then Some (VStr (own_type d x)) else None).
    { intros k. done. }
    assert (HK' : ∀ k : string, dget k group_attrs = if decide (k = ns +:+ ":group_type") then Some (VStr ty) else if decide (k = "label") then Some (VStr (label_of ns d x)) else None).
    { intros k. done. }
    unfold group_desc. pose proof (v_nodes _ _ _ HV (node_of_el ns x)) as Hg. rewrite Hp in Hg. destruct (view_desc P (el_id x)) as [D|].
    - destruct (D4 D eq_refl) as (L1 & L2 & L3 & L4).
      assert (Hm : dmem (node_of_el ns x) (g_succ g) = true) by (apply succ_mem_nodes; [apply HV|]; apply (view_in _ _ _ _ HV); rewrite Hp; by eexists). rewrite Hm. cbn [negb].
      destruct Hg as (a & Ha & HL & HA). assert (Ht : has_type = bool_decide (is_Some (nd_type D))).
      { unfold has_type. rewrite Ha. unfold dmem. rewrite HA by (apply key_layers). unfold dinfo. cbn [fst snd]. rewrite dget_desc. keys ns. repeat case_decide; try congruence. by destruct (nd_type D). }
      destruct (view_update g _ _ (node_of_el ns x) (dset "layers" (VSet [ns; ns +:+ ":group"]) (if decide (own_type d x = "span") then if has_type then group_attrs else typed else typed)) (dinfo ns D) HV) as (g' & E1 & V1 & S1);
        [exact Hp|rewrite dget_dset, decide_True by done; by eexists|].
      exists g'. split; [done|]. split; [|done]. eapply view_same; [exact V1|]. intros n. unfold vset. destruct (decide (n = _)); [|apply same_at_refl]. unfold dinfo. cbn [same_at fst snd]. split; cbn [fst snd nd_layers].
      + rewrite dget_dset, decide_True by done. done.
      + intros k Hk. rewrite dget_dupdate, dget_dset, (decide_False (P := k = "layers")), !dget_desc by done. cbn [nd_label nd_text nd_group nd_type nd_rel]. rewrite L2, L3, L4, Ht. keys ns.
        destruct (decide (own_type d x = "span")) as [Ho|Ho]; [destruct (nd_type D); cbn [bool_decide]|];
        rewrite ?bool_decide_eq_true_2, ?bool_decide_eq_false_2 by (first [by eexists|by intros [? ?]]); rewrite ?HK, ?HK'; repeat case_decide; subst; try congruence; try done; by rewrite Ho.
    - assert (Hm : dmem (node_of_el ns x) (g_succ g) = false).
      { destruct (dmem _ (g_succ g)) eqn:Em; [|done]. apply succ_mem_nodes in Em; [|apply HV]. apply (view_in _ _ _ _ HV) in Em. rewrite Hp in Em. by destruct Em. }
      rewrite Hm. cbn [negb]. destruct (view_new g _ _ (node_of_el ns x) (VSet [ns; ns +:+ ":group"]) (Some typed) [] [ns; ns +:+ ":group"] HV) as (g' & E1 & V1 & S1); [by left|exact Hp|].
      exists g'. split; [done|]. split; [|done]. eapply view_same; [exact V1|]. intros n. unfold vset. destruct (decide (n = _)); [|apply same_at_refl]. unfold dinfo. cbn [same_at fst snd]. split; cbn [fst snd nd_layers]; [done|].
      intros k Hk. unfold given_attrs. rewrite dget_dupdate. cbn [default]. unfold id. rewrite HK, dget_desc. cbn [nd_label nd_text nd_group nd_type nd_rel]. keys ns.
      destruct (decide (own_type d x = "span")) as [Ho|Ho]; repeat case_decide; subst; try congruence; try done; by rewrite Ho.
  Qed.
  Lemma not_top_desc P x : next_ok P x → ¬ segment x → ¬ top x → group_desc P x = element_desc ns d (P ++ [x]) x.
  Proof.
    intros HN Hx Ht. destruct (desc_own ns d P x (no_id _ _ HN) (no_self _ _ HN)) as (D1 & D2 & D3 & D4). unfold group_desc, element_desc, layer_of in *. cbn [nd_rel] in D2. rewrite D2, D3.
    rewrite !(decide_False (P := segment x)), (decide_False (P := top x)) by done. f_equal. f_equal. apply decide_ext.
    split; [|naive_solver]. intros Ho. split; [done|]. split; [|done]. destruct (el_parent x) eqn:Ep; [by eexists|]. exfalso. by apply Ht.
  Qed.
  Lemma root_step P x g g0 : next_ok P x → St P g0 → same_doc g0 g → top x →
    viewed g (vset (node_of_el ns x) (dinfo ns (group_desc P x)) (pview P)) (x ← P; link_edge ns d x) →
    ∃ g', rs3_new_root g (node_of_el ns x) = (g', None) ∧ St (P ++ [x]) g'.
  Proof.
    intros HN [_ A1 A2 A3 A4] (B0 & B1 & B2 & B3 & B4 & B5) Ht HV. pose proof (no_roots _ _ HN) as HP. pose proof Ht as [Hx Hpar].
    assert (HR : g_root g = node_named ns "root_node") by (rewrite B2, A2; unfold root_of; by rewrite (no_top _ _ HN Ht)).
    assert (Hne : node_named ns "root_node" ≠ node_of_el ns x) by (intros E%named_inj; by apply (no_name _ _ HN)).
    unfold rs3_new_root. rewrite B1, A1, HR.
    destruct (view_update (set_root (node_of_el ns x) g) _ _ (node_of_el ns x) [("layers", VSet [ns; ns +:+ ":root"]); (ns +:+ ":segment_type", VStr "span")] (dinfo ns (group_desc P x))
      (view_ext g (set_root (node_of_el ns x) g) _ _ eq_refl eq_refl eq_refl HV)) as (g1 & E1 & V1 & D1).
    { unfold vset. by rewrite decide_True. }
    { cbn. by eexists. }
    rewrite E1. rewrite decide_False by done.
    assert (Hroot : is_Some (pview P (node_named ns "root_node"))).
    { rewrite pview_root, decide_False; [by eexists|]. intros HE. apply Exists_exists in HE as (y & Hy & Hy'). pose proof (no_top _ _ HN Ht) as Hf.
      assert (Hin : y ∈ filter top P) by (by apply elem_of_list_filter). rewrite Hf in Hin. by apply elem_of_nil in Hin. }
    assert (HI : is_Some (vset (node_of_el ns x) (match dget "layers" [("layers", VSet [ns; ns +:+ ":root"]); (ns +:+ ":segment_type", VStr "span")] with Some (VSet l) => l | _ => (dinfo ns (group_desc P x)).1 end,
      dupdate (dinfo ns (group_desc P x)).2 [("layers", VSet [ns; ns +:+ ":root"]); (ns +:+ ":segment_type", VStr "span")]) (vset (node_of_el ns x) (dinfo ns (group_desc P x)) (pview P)) (node_named ns "root_node"))).
    { unfold vset. rewrite !decide_False by done. done. }
    assert (Hm : dmem (node_named ns "root_node") (g_node g1) = true).
    { pose proof (proj2 (view_in _ _ _ (node_named ns "root_node") V1) HI) as Hin. apply node_mem in Hin as [a Ha]. unfold node_attrs in Ha. unfold dmem. by rewrite Ha. }
    rewrite Hm. destruct (view_remove g1 _ _ (node_named ns "root_node") V1 HI) as (g2 & E2 & V2 & D2).
    { apply Forall_forall. intros e (y & He & Hy)%elem_of_list_bind. unfold link_edge in He. destruct (HP y Hy) as [P1 P2].
      destruct (el_parent y) as [p|]; [|by apply elem_of_nil in He]. apply elem_of_list_singleton in He as ->. cbn [fst snd]. unfold node_of_el. split; intros E%named_inj; congruence. }
    exists g2. split; [done|]. destruct D1 as (_ & C1 & C2 & C3 & C4 & C5), D2 as (_ & F1 & F2 & F3 & F4 & F5). cbn in C1, C2, C3, C4, C5. split; [|congruence| |congruence..].
    - rewrite bind_app. cbn [mbind list_bind]. unfold link_edge at 2. rewrite Hpar, app_nil_r. eapply view_same; [exact V2|]. intros n. unfold vdel.
      destruct (decide (n = node_named ns "root_node")) as [->|Hn].
      + rewrite pview_root, decide_True; [done|]. apply Exists_app. right. by constructor.
      + eapply same_at_trans; [|apply (grown P x n HN); by left]. unfold linked, own_view, vset. rewrite Hpar. destruct (decide (n = node_of_el ns x)); [|apply same_at_refl].
        destruct (desc_own ns d P x (no_id _ _ HN) (no_self _ _ HN)) as (_ & Q2 & Q3 & _). rewrite decide_False in Q3 by (rewrite Hpar; intros (_ & [? ?] & _); done).
        unfold dinfo, group_desc, element_desc in *. cbn [same_at fst snd nd_layers nd_rel] in *. split; cbn [fst snd].
        * unfold layer_of. rewrite (decide_False (P := segment x)), (decide_True (P := top x)) by done. done.
        * intros k Hk. rewrite dget_dupdate, !dget_desc. cbn [nd_label nd_text nd_group nd_type nd_rel]. rewrite Q2, Q3. rewrite (decide_False (P := segment x)) by done.
          unfold own_type. rewrite Hpar, (decide_False (P := segment x)) by done. cbn [dget]. keys ns. repeat case_decide; subst; try congruence; done.
    - rewrite F2, C2. unfold root_of. rewrite filter_app, filter_cons_True, filter_nil, last_snoc by done. done.
  Qed.
  Lemma group_step P x g : next_ok P x → St P g → ¬ segment x → ∃ g', rs3_group rels x g = (g', None) ∧ St (P ++ [x]) g'.
  Proof.
    intros HN HS Hx. destruct x as [|i ty p r]; [by destruct Hx|]. destruct ty as [ty|]; [|by destruct (no_type _ _ HN)].
    destruct (group_own P i ty p r g HN HS) as (g1 & E1 & V1 & D1). set (x := Grp i (Some ty) p r) in *.
    unfold rs3_group. fold x. cbn beta iota. unfold x at 1. cbn iota. fold x.
    rewrite types_eq, (st_ns _ _ HS). cbn [fst]. change (NStr (ns +:+ ":" +:+ i)) with (node_of_el ns x). rewrite E1. destruct p as [p|].
    - assert (Ht : ¬ top x) by (by intros []). rewrite (not_top_desc P x HN Hx Ht) in V1.
      destruct (link_step P x g1 g HN V1 HS D1 Ht) as (g2 & E2 & S2). exists g2. done.
    - assert (Ht : top x) by done. by apply (root_step P x g1 g).
  Qed.

  (** ** All elements *)
  Lemma segments_loop L : ∀ P g S, (∀ P' x R, L = P' ++ x :: R → next_ok (P ++ P') x ∧ segment x) → St P g →
    ∃ g', loop (rs3_segment rels) L (g, S) = ((g', S ++ (node_of_el ns <$> L)), None) ∧ St (P ++ L) g'.
  Proof.
    induction L as [|x L IH]; intros P g S HL HS.
    - exists g. cbn. rewrite !app_nil_r. done.
    - destruct (HL [] x L eq_refl) as [HN Hx]. rewrite app_nil_r in HN. destruct (segment_step P x g S HN HS Hx) as (g1 & E1 & S1).
      destruct (IH (P ++ [x]) g1 (S ++ [node_of_el ns x])) as (g2 & E2 & S2); [|done|].
      + intros P' y R ->. rewrite <-app_assoc. apply (HL (x :: P') y R eq_refl).
      + exists g2. cbn [loop]. rewrite E1, E2, <-app_assoc. split; [done|]. by rewrite <-app_assoc in S2.
  Qed.
  Lemma groups_loop L : ∀ P g, (∀ P' x R, L = P' ++ x :: R → next_ok (P ++ P') x ∧ ¬ segment x) → St P g →
    ∃ g', loop (rs3_group rels) L g = (g', None) ∧ St (P ++ L) g'.
  Proof.
    induction L as [|x L IH]; intros P g HL HS.
    - exists g. cbn. rewrite !app_nil_r. done.
    - destruct (HL [] x L eq_refl) as [HN Hx]. rewrite app_nil_r in HN. destruct (group_step P x g HN HS Hx) as (g1 & E1 & S1).
      destruct (IH (P ++ [x]) g1) as (g2 & E2 & S2); [|done|].
      + intros P' y R ->. rewrite <-app_assoc. apply (HL (x :: P') y R eq_refl).
      + exists g2. cbn [loop]. rewrite E1, E2. split; [done|]. by rewrite <-app_assoc in S2.
  Qed.
  Lemma elements_perm : elements_of d ≡ₚ d_body d.
  Proof.
    unfold elements_of, segments, groups. generalize (d_body d) as l. induction l as [|x l IH]; [done|]. destruct (decide (segment x)) as [H|H].
    - rewrite filter_cons_True, filter_cons_False by naive_solver. cbn. by rewrite IH.
    - rewrite filter_cons_False, filter_cons_True by naive_solver. rewrite <-Permutation_middle. by rewrite IH.
  Qed.
  Lemma all_ok : rs3_ok d → ∀ P x R, elements_of d = P ++ x :: R → next_ok P x.
  Proof.
    intros [H1 H2 H3 H4 H5 H6] P x R HE. pose proof elements_perm as HP. rewrite <-HP in H1, H2, H3, H4, H5, H6. rewrite HE in *. clear HE HP.
    assert (Hx : ∀ Q : xelem → Prop, Forall Q (P ++ x :: R) → Q x) by (intros Q HQ; apply Forall_app in HQ as [_ HQ]; by apply Forall_cons in HQ as [? _]).
    split.
    - rewrite fmap_app, fmap_cons in H1. apply NoDup_app in H1 as (_ & H1 & _). intros Hin. by apply (H1 (el_id x) Hin), elem_of_cons; left.
    - by apply (Hx _ H2).
    - by apply (Hx _ H3).
    - by apply (Hx _ H3).
    - by apply (Hx _ H4).
    - by apply (Hx _ H5).
    - intros Ht. rewrite filter_app, filter_cons_True, app_length in H6 by done. cbn in H6. destruct (filter top P); [done|]. cbn in H6. lia.
    - intros y Hy. rewrite Forall_forall in H3. apply H3, elem_of_app. by left.
  Qed.
  Lemma init_st name : St [] (set_name name (init_graph "" ns None)).
  Proof.
    split; try done. pose proof (built_init "" ns) as HB. eapply view_ext; [| | |eapply built_view; [exact HB| |]]; try done.
    - intros n. unfold pview, Rs3Desc.pview. change (ids [(NStr (ns +:+ ":root_node"), [ns], [])]) with [node_named ns "root_node"]. rewrite elem_of_list_singleton. destruct (decide _) as [->|Hn].
      + split; [by eexists|done].
      + split; [done|]. destruct (name_of ns n); cbn; by intros [? ?].
    - intros n x. unfold pview, Rs3Desc.pview. destruct (decide _) as [->|Hn].
      + rewrite decide_False by (intros HE; by apply Exists_nil in HE). intros [= <-]. eexists. split; [left|]. split; [done|]. apply same_content_refl.
      + destruct (name_of ns n); done.
  Qed.
  Lemma read_elements name : rs3_ok d →
    ∃ g g1, loop (rs3_segment rels) (segments d) (set_name name (init_graph "" ns None), []) = ((g1, node_of_el ns <$> segments d), None) ∧
      loop (rs3_group rels) (groups d) g1 = (g, None) ∧ St (elements_of d) g.
  Proof.
    intros HO. pose proof (all_ok HO) as HA. unfold elements_of in HA.
    destruct (segments_loop (segments d) [] _ [] (λ P' x R E, conj (HA P' x (R ++ groups d) ltac:(rewrite E, <-app_assoc; done)) ltac:(
      assert (Hx : x ∈ segments d) by (rewrite E; apply elem_of_app; right; left); by apply elem_of_list_filter in Hx as [? _])) (init_st name)) as (g1 & E1 & S1).
    destruct (groups_loop (groups d) (segments d) g1 (λ P' x R E, conj (HA (segments d ++ P') x R ltac:(rewrite E, <-app_assoc; done)) ltac:(
      assert (Hx : x ∈ groups d) by (rewrite E; apply elem_of_app; right; left); by apply elem_of_list_filter in Hx as [? _])) S1) as (g2 & E2 & S2).
    exists g2, g1. done.
  Qed.
End Read.
