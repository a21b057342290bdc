(** * ExportxmlDoc: whole ExportXML documents *)
From Verif Require Import PyBase DocGraph Relabel StrNum Query Text Rst Nltk Parsers Anaphora Conano Decour Ptb Convert Tiger Urml Exportxml.
From Verif Require Import SpecGraph DocGraphFacts History Effects RelabelFacts GraphThms SpecImport ImportFacts PtbFacts TextFacts OffsetFacts GeoffFacts DecourFacts AnaphoraFacts ConllReadText TigerFacts BuiltFrom ViewFacts SpecAnaphora SpecQuery SpanFacts SpecRs3Graph Rs3Facts Rs3Desc Rs3Read Rs3Doc.
From Verif Require UrmlFacts TigerTree UrmlDoc ConanoFacts.
From Verif Require Import SpecExportxml ExportxmlFacts ExportxmlStep ExportxmlElem.

Section Doc.
  Context (ns : string) (o : xopts) (root : nid).
  Notation Seen st l d := (seen ns root st (facts ns o l) (links ns o root l) d).
  Lemma facts_app l l' : facts ns o (l ++ l') = facts ns o l ++ facts ns o l'.
  Proof. apply bind_app. Qed.
  Lemma links_app l l' : links ns o root (l ++ l') = links ns o root l ++ links ns o root l'.
  Proof. apply bind_app. Qed.
  Lemma one_place p : facts ns o [p] = about_nodes ns o p ∧ links ns o root [p] = about_edges ns o root p.
  Proof. unfold facts, links. cbn. by rewrite !app_nil_r. Qed.
  Lemma loop_ok l : ∀ l1 st d, Seen st l1 d → (∀ la p lb, l = la ++ p :: lb → element_ok o (known_nodes ns o root (l1 ++ la)) p) →
    ∃ st', loop (one_step ns o) l st = (st', None) ∧ Seen st' (l1 ++ l) (foldl (λ d p, side_after p d) d l).
  Proof.
    induction l as [|p l IH]; intros l1 st d HS HO; [exists st; rewrite app_nil_r; done|].
    destruct (step_ok ns o root st _ _ d p HS) as (st1 & E1 & H1). { specialize (HO [] p l eq_refl). rewrite app_nil_r in HO. exact HO. }
    destruct (one_place p) as [EF EL]. rewrite <-EF, <-EL, <-facts_app, <-links_app in H1.
    destruct (IH (l1 ++ [p]) st1 _ H1) as (st2 & E2 & H2). { intros la q lb ->. rewrite <-app_assoc. by apply (HO (p :: la) q lb). }
    exists st2. cbn [loop foldl]. rewrite E1. split; [exact E2|]. by rewrite <-app_assoc in H2.
  Qed.
  Lemma loop_only l : ∀ l1 st st' d, Seen st l1 d → loop (one_step ns o) l st = (st', None) →
    ∀ la p lb, l = la ++ p :: lb → element_ok o (known_nodes ns o root (l1 ++ la)) p.
  Proof.
    induction l as [|q l IH]; intros l1 st st' d HS HL la p lb El; [by destruct la|]. cbn [loop] in HL. destruct (one_step ns o q st) as [st1 [e|]] eqn:E1; [done|].
    pose proof (step_only ns o root st _ _ d q st1 HS E1) as HQ. destruct (step_ok ns o root st _ _ d q HS HQ) as (st1' & E1' & H1). rewrite E1 in E1'. injection E1' as <-.
    destruct (one_place q) as [EF EL]. rewrite <-EF, <-EL, <-facts_app, <-links_app in H1. destruct la as [|q' la]; injection El as <- El.
    - rewrite app_nil_r. exact HQ.
    - replace (l1 ++ q :: la) with ((l1 ++ [q]) ++ la) by (by rewrite <-app_assoc). by apply (IH _ st1 st' _ H1 HL la p lb).
  Qed.
  (** ** Lists beside the graph *)
  Lemma side_toks l d : sd_toks (foldl (λ d p, side_after p d) d l) = sd_toks d ++ tokens_of l.
  Proof.
    revert d. induction l as [|p l IH]; intros d; [by rewrite app_nil_r|]. cbn [foldl]. rewrite IH. unfold tokens_of, tagged. rewrite filter_cons. unfold side_after. cbn [sd_toks].
    destruct (decide (x_tag p.2 = "word")); [by rewrite fmap_cons, <-app_assoc|done].
  Qed.
  Lemma side_sents l d : sd_sents (foldl (λ d p, side_after p d) d l) = sd_sents d ++ sentences_of l.
  Proof.
    revert d. induction l as [|p l IH]; intros d; [by rewrite app_nil_r|]. cbn [foldl]. rewrite IH. unfold sentences_of, tagged. rewrite filter_cons. unfold side_after. cbn [sd_sents].
    destruct (decide (x_tag p.2 = "sentence")); [by rewrite fmap_cons, <-app_assoc|done].
  Qed.
  Lemma side_name l d : sd_name (foldl (λ d p, side_after p d) d l) = sd_name d.
  Proof. revert d. induction l as [|p l IH]; intros d; [done|]. cbn [foldl]. by rewrite IH. Qed.
  Lemma last_given_app {A} n (l l' : list (nid * A)) : last_given n (l ++ l') = match last_given n l' with Some a => Some a | None => last_given n l end.
  Proof. unfold last_given. rewrite filter_app, last_app. by destruct (last _). Qed.
  Lemma last_given_one {A} n m (a : A) : last_given n [(m, a)] = if decide (m = n) then Some a else None.
  Proof. unfold last_given. rewrite filter_cons. cbn [fst]. by case_decide. Qed.
  Lemma token_lists_app l l' : token_lists (l ++ l') = token_lists l ++ token_lists l'.
  Proof. apply bind_app. Qed.
  Lemma connectives_app l l' : connectives (l ++ l') = connectives l ++ connectives l'.
  Proof. apply bind_app. Qed.
  Lemma side_lists l n : ∀ d, dget n (sd_lists (foldl (λ d p, side_after p d) d l)) = match last_given n (token_lists l) with Some v => Some v | None => dget n (sd_lists d) end.
  Proof.
    induction l as [|p l IH]; intros d; [done|]. cbn [foldl]. rewrite IH. change (p :: l) with ([p] ++ l). rewrite token_lists_app, last_given_app.
    destruct (last_given n (token_lists l)); [done|]. unfold token_lists. cbn [mbind list_bind]. rewrite app_nil_r. unfold side_after. cbn [sd_lists].
    destruct (decide (x_tag p.2 ∈ ["edu"; "topic"])); [|destruct (decide (x_tag p.2 = "sentence"))]; rewrite ?last_given_one, ?dget_dset; [| |by unfold last_given];
      (destruct (decide (n = node_at p)) as [->|Hn]; [by rewrite !decide_True|by rewrite !decide_False by congruence]).
  Qed.
  Lemma side_dicts l n : ∀ d, dget n (sd_dicts (foldl (λ d p, side_after p d) d l)) = match last_given n (connectives l) with Some v => Some v | None => dget n (sd_dicts d) end.
  Proof.
    induction l as [|p l IH]; intros d; [done|]. cbn [foldl]. rewrite IH. change (p :: l) with ([p] ++ l). rewrite connectives_app, last_given_app.
    destruct (last_given n (connectives l)); [done|]. unfold connectives. cbn [mbind list_bind]. rewrite app_nil_r. unfold side_after. cbn [sd_dicts].
    destruct (decide (x_tag p.2 = "connective")); rewrite ?last_given_one, ?dget_dset; [|by unfold last_given];
      (destruct (decide (n = node_at p)) as [->|Hn]; [by rewrite !decide_True|by rewrite !decide_False by congruence]).
  Qed.
  (** ** The start *)
  Lemma start_ok name i : root = (if decide (i = "") then NStr (ns +:+ ":root_node") else NStr i) →
    Seen (XState (set_name name (init_graph "" ns (Some (NStr i)))) [] []) [] (Side name [] [] [] []).
  Proof.
    intros HR. assert (EG : init_graph "" ns (Some (NStr i)) = (add_node (mkGraph "" ns root [] [] [] [] [] []) root (VSet [ns]) None []).1).
    { unfold init_graph. rewrite HR. destruct i as [|c i]; [by rewrite decide_True|by rewrite decide_False]. }
    rewrite EG. split; [|done|done|done].
    pose proof (GInv_init "" ns (Some (NStr i))) as HI. rewrite EG in HI. cbn [xs_graph]. set (g := (add_node _ _ _ _ _).1) in *.
    eapply view_ext with (g := g); [done..|]. split; [done| |].
    - intros n. unfold mview, mentioned. cbn [facts links mbind list_bind edge_ends ids fmap list_fmap app]. unfold node_attrs, g. cbn.
      destruct (decide (n = root)) as [->|Hn].
      + rewrite decide_True by left. eexists. split; [reflexivity|]. split.
        * intros y. unfold has_layer. cbn. split; [intros (l & [= <-] & ?); done|]. intros. by eexists.
        * intros k Hk. cbn. by rewrite decide_False.
      + rewrite decide_False; [done|]. intros [?|?]%elem_of_cons; [done|by eapply elem_of_nil].
    - exists []. split; [reflexivity|exact (List.Forall2_nil _)].
  Qed.
  Lemma tokens_known l : ∀ n, n ∈ tokens_of l → n ∈ known_nodes ns o root l.
  Proof.
    intros n Hn. apply elem_of_list_fmap in Hn as (p & -> & Hp). apply elem_of_list_filter in Hp as [Ht Hp]. right. apply elem_of_app. left. apply (elem_of_list_fmap_1 (λ f : node_info, f.1.1)) with (x := (node_at p, [ns +:+ ":token"], (ns +:+ ":token", VStr (get "form" p.2)) :: ("label", VStr (get "form" p.2)) :: features ns p.2)).
    unfold facts. apply elem_of_list_bind. exists p. split; [|done]. unfold about_nodes. cbv zeta. rewrite Ht. repeat (rewrite decide_False by done). rewrite decide_True by done. left.
  Qed.
End Doc.
Lemma x_name_ok name (i : string) : (match name with Some (String c s) => String c s | _ => i end) = match name with Some s => if decide (s = "") then i else s | None => i end.
Proof. destruct name as [[|c s]|]; [by rewrite decide_True|by rewrite decide_False|done]. Qed.
Section Whole.
  Context (name : option string) (ns : string) (precedence : bool) (o : xopts) (x : xml).
  Notation root := (root_of ns x).
  Notation L := (read_of x).
  Definition doc_name (i : string) : string := match name with Some s => if decide (s = "") then i else s | None => i end.
  Lemma root_id i : own_id x = Some i → root = (if decide (i = "") then NStr (ns +:+ ":root_node") else NStr i).
  Proof. unfold root_of. by intros ->. Qed.
  Lemma precedence_step st d : seen ns root st (facts ns o L) (links ns o root L) d → sd_toks d = tokens_of L → 1 < length (tokens_of L) →
    ∃ st', on_graph add_precedence_relations st = (st', None) ∧ viewed (xs_graph st') (mview ns root (facts ns o L) (links ns o root L)) (links ns o root L ++ order_links ns root (tokens_of L)) ∧ same_doc (xs_graph st) (xs_graph st') ∧
      xs_tokens st' = xs_tokens st ∧ xs_connective st' = xs_connective st.
  Proof.
    intros [HV H1 H2 H3] HT Hlen. destruct st as [g T C]. cbn [xs_graph xs_tokens xs_connective] in *. rewrite H3 in HT. cbn [sd_toks] in HT.
    pose proof (tokens_known ns o root L) as HK. unfold on_graph. cbn [xs_graph xs_tokens xs_connective]. unfold add_precedence_relations. rewrite HT, H2. destruct (tokens_of L) as [|t0 [|t1 ts]] eqn:EL; [cbn in Hlen; lia|cbn in Hlen; lia|].
    destruct (prec_loop ns ((root, t0) :: zip (t0 :: t1 :: ts) (t1 :: ts)) g _ _ HV H1) as (g' & E1 & V1 & D1).
    { apply Forall_forall. intros [u v] He. cbn [fst snd]. rewrite !(mview_some ns). change (mentioned root (facts ns o L) (links ns o root L)) with (known_nodes ns o root L).
      apply elem_of_cons in He as [[= -> ->]|He]; [split; [left|apply HK; left]|]. split; apply HK; [by eapply elem_of_zip_l|right; by eapply elem_of_zip_r]. }
    exists (XState g' T C). cbn [tail xs_graph xs_tokens xs_connective] in *. rewrite E1. cbn [fst snd]. split; [done|]. split; [exact V1|]. done.
  Qed.
  Lemma doc_ok : readable ns o precedence x → ∃ st i, own_id x = Some i ∧ Exportxml.read_text name ns precedence o x = Ok st ∧ says_exactly ns o precedence root L (xs_graph st) ∧
    g_ns (xs_graph st) = ns ∧ g_root (xs_graph st) = root ∧ g_name (xs_graph st) = doc_name i ∧ g_tokens (xs_graph st) = tokens_of L ∧ g_sentences (xs_graph st) = sentences_of L ∧
    (∀ n, dget n (xs_tokens st) = last_given n (token_lists L)) ∧ (∀ n, dget n (xs_connective st) = last_given n (connectives L)) ∧ GInv (xs_graph st).
  Proof.
    intros ([i Hi] & HR & HP). pose proof (start_ok ns o root (doc_name i) i (root_id i Hi)) as H0.
    destruct (loop_ok ns o root L [] _ _ H0 HR) as (st & E1 & H1). rewrite (app_nil_l L) in H1. set (d := foldl _ _ L) in *.
    assert (A1 : sd_toks d = tokens_of L) by apply side_toks. assert (A2 : sd_sents d = sentences_of L) by apply side_sents. assert (A3 : sd_name d = doc_name i) by apply side_name.
    assert (A4 : ∀ n, dget n (sd_lists d) = last_given n (token_lists L)). { intros n. unfold d. rewrite side_lists. by destruct (last_given _ _). }
    assert (A5 : ∀ n, dget n (sd_dicts d) = last_given n (connectives L)). { intros n. unfold d. rewrite side_dicts. by destruct (last_given _ _). }
    clearbody d.
    assert (G : ∃ st', Exportxml.read_text name ns precedence o x = Ok st' ∧ viewed (xs_graph st') (mview ns root (facts ns o L) (links ns o root L)) (links ns o root L ++ if precedence then order_links ns root (tokens_of L) else []) ∧ same_doc (xs_graph st) (xs_graph st') ∧
      xs_tokens st' = xs_tokens st ∧ xs_connective st' = xs_connective st).
    { assert (Hi' : x_get (x_attrib x) xml_id = Ok i) by (exact (get_agrees x xml_id) || (pose proof (get_agrees x xml_id) as HA; change (att xml_id x) with (own_id x) in HA; rewrite Hi in HA; exact HA)).
      unfold Exportxml.read_text. rewrite Hi'. cbn [rbind]. rewrite walk_steps, x_name_ok. fold (doc_name i). rewrite E1. destruct precedence.
      - destruct (precedence_step st d H1 A1 (HP eq_refl)) as (st' & E2 & V2 & D2 & T2 & C2). exists st'. rewrite E2. done.
      - exists st. split; [done|]. split; [rewrite app_nil_r; apply H1|]. split; [apply same_doc_refl|done]. }
    destruct G as (st' & E2 & V2 & D2 & T2 & C2). destruct H1 as [_ B1 B2 B3]. rewrite B3 in A1, A2, A3, A4, A5. cbn [sd_toks sd_sents sd_name sd_lists sd_dicts] in *.
    destruct D2 as (P1 & P2 & P3 & P4 & P5 & P6). exists st', i. split; [done|]. split; [done|]. split.
    { split.
      - intros n. rewrite (view_in _ _ _ _ V2), (mview_some ns). done.
      - intros n a Ha. pose proof (v_nodes _ _ _ V2 n) as HN. unfold mview in HN. destruct (decide _) as [H|H]; [|congruence]. destruct HN as (b & Hb & HN). rewrite Ha in Hb. injection Hb as <-. exact HN.
      - apply V2. }
    rewrite P1, P2, P3, P4, P5, T2, C2. repeat (split; [done|]). apply V2.
  Qed.
  Lemma doc_only st : Exportxml.read_text name ns precedence o x = Ok st → readable ns o precedence x.
  Proof.
    unfold Exportxml.read_text. intros H. pose proof (get_agrees x xml_id) as HA. change (att xml_id x) with (own_id x) in HA. destruct (own_id x) as [i|] eqn:Hi; [|destruct HA as [e HA]; rewrite HA in H; done].
    cbn [agrees] in HA. rewrite HA in H. cbn [rbind] in H. rewrite walk_steps, x_name_ok in H. fold (doc_name i) in H. pose proof (start_ok ns o root (doc_name i) i (root_id i Hi)) as H0.
    destruct (loop (one_step ns o) L _) as [st1 [e|]] eqn:E1; [done|].
    assert (HR : ∀ l1 p l2, L = l1 ++ p :: l2 → element_ok o (known_nodes ns o root l1) p).
    { intros l1 p l2 HL. exact (loop_only ns o root L [] _ st1 _ H0 E1 l1 p l2 HL). }
    split; [rewrite Hi; by exists i|]. split; [exact HR|]. intros ->.
    destruct (loop_ok ns o root L [] _ _ H0 HR) as (st1' & E1' & [_ _ _ H3]). rewrite E1 in E1'. injection E1' as <-.
    apply (f_equal sd_toks) in H3. rewrite side_toks in H3. cbn [sd_toks app] in H3.
    unfold on_graph in H. destruct (tokens_of L) as [|t0 [|t1 ts]]; [| |cbn; lia]; unfold add_precedence_relations in H; rewrite <-H3 in H; cbn in H; done.
  Qed.
End Whole.
