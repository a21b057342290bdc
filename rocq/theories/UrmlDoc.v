(** * UrmlDoc: segments and relations of a URML document *)
From Verif Require Import PyBase DocGraph Relabel StrNum Query Text Rst Nltk Parsers Anaphora Conano Decour Ptb Convert Tiger Urml.
From Verif Require Import SpecGraph DocGraphFacts History Effects RelabelFacts GraphThms SpecImport ImportFacts PtbFacts TextFacts OffsetFacts GeoffFacts DecourFacts AnaphoraFacts ConllReadText TigerFacts BuiltFrom ViewFacts SpecAnaphora SpecQuery SpanFacts SpecUrml UrmlFacts.

Definition ends (E : list edge_info) : list nid := e ← E; [e.1.1.1; e.1.1.2].
Lemma ends_snoc E u v l b : ends (E ++ [(u, v, l, b)]) = ends E ++ [u; v].
Proof. unfold ends. by rewrite bind_app. Qed.
Section Doc.
  Context (name ns : string) (tokenize : bool) (d : urmldoc).
  Local Notation root := (named ns "root_node").
  Record Us (R : list node_info) (E : list edge_info) (T : list nid) (g : graph) : Prop := {
    us_view : viewed g (uview ns R (root :: ends E)) E;
    us_name : g_name g = name;
    us_ns : g_ns g = ns;
    us_root : g_root g = root;
    us_tokens : g_tokens g = T;
    us_meta : g_meta g = [];
  }.
  Lemma us_start : Us [] [] [] (set_name name (init_graph "" ns None)).
  Proof.
    split; try done. eapply view_ext; [| | |eapply built_view; [apply (built_init "" ns)|..]]; try done.
    - intros n. rewrite uview_some. cbn. rewrite elem_of_nil. naive_solver.
    - intros n x. unfold uview. cbn [infos fmap list_fmap dget]. destruct (decide _) as [H|]; [|done]. intros [= <-]. apply elem_of_list_singleton in H as ->. eexists. split; [left|]. split; [done|apply same_content_refl].
  Qed.
  Lemma us_node R E T g n l a ad : Us R E T g → n ∉ ids R → ns ∈ l → (∀ k, k ≠ "layers" → dget k (given_attrs ad []) = dget k a) →
    ∃ g', add_node g n (VSet l) ad [] = (g', None) ∧ Us (R ++ [(n, l, a)]) E T g'.
  Proof.
    intros [A0 A1 A2 A3 A4 A5] Hn Hl Ha. destruct (uview_node g ns R _ E n l a ad A0 Hn Hl Ha) as (g' & E1 & V1 & (B1 & B2 & B3 & B4 & B5 & B6)).
    exists g'. split; [done|]. split; congruence.
  Qed.
  Lemma us_edge R E T g u v l ad attr b : Us R E T g → l ≠ [] → (∀ k, k ≠ "layers" → dget k (given_attrs ad attr) = dget k b) →
    ∃ g', add_edge g u v (VSet l) None ad attr = (g', None) ∧ Us R (E ++ [(u, v, l, b)]) T g'.
  Proof.
    intros [A0 A1 A2 A3 A4 A5] Hl Hb. destruct (uview_edge g ns R _ E u v l ad attr b A0 A2 Hl Hb) as (g' & E1 & V1 & (B1 & B2 & B3 & B4 & B5 & B6)).
    exists g'. split; [done|]. split; try congruence. rewrite ends_snoc. exact V1.
  Qed.
  Lemma plain_dict (l : attrs) : ∀ k, k ≠ "layers" → dget k (given_attrs (Some l) []) = dget k l.
  Proof. intros k _. unfold given_attrs. rewrite dget_dupdate. done. Qed.
  Lemma plain_one k0 v : ∀ k, k ≠ "layers" → dget k (given_attrs None [(k0, v)]) = dget k [(k0, v)].
  Proof. intros k _. unfold given_attrs. rewrite dget_dupdate. cbn. by destruct (decide _). Qed.
  (** ** Segments *)
  Definition tok (s : useg) (p : nat * pyval) : nid * pyval := (token_name ns s p.1, p.2).
  Definition tok_edge (s : useg) (t : nid * pyval) : edge_info := (named ns (us_id s), t.1, [ns; ns +:+ ":token"], [("edge_type", VStr "spans")]).
  Lemma tokens_of_eq s : tokens_of ns tokenize s = tok s <$> imap pair (useg_tokens tokenize s).
  Proof. unfold tokens_of. rewrite tokens_same, fmap_imap. done. Qed.
  Lemma token_step R E T g s p : Us R E T g → token_name ns s p.1 ∉ ids R →
    ∃ g', urml_token (ns +:+ ":" +:+ us_id s) p g = (g', None) ∧ Us (R ++ [token_info ns (tok s p)]) (E ++ [tok_edge s (tok s p)]) (T ++ [(tok s p).1]) g'.
  Proof.
    intros HU Hn. unfold urml_token. rewrite (us_ns _ _ _ _ HU).
    assert (HT : NStr ((ns +:+ ":" +:+ us_id s) +:+ "_" +:+ str_Z (Z.of_nat p.1)) = token_name ns s p.1). { unfold token_name. f_equal. apply chs_inj. rewrite !chs_app. by rewrite <-!app_assoc. }
    rewrite HT. cbv zeta. destruct (us_node R E T g (token_name ns s p.1) [ns; ns +:+ ":token"] [(ns +:+ ":token", p.2); ("label", p.2)] (Some [(ns +:+ ":token", p.2); ("label", p.2)]) HU Hn) as (g1 & E1 & U1); [left|apply plain_dict|].
    rewrite E1. assert (U1' : Us (R ++ [token_info ns (tok s p)]) E (T ++ [token_name ns s p.1]) (set_tokens (g_tokens g1 ++ [token_name ns s p.1]) g1)).
    { destruct U1 as [A0 A1 A2 A3 A4 A5]. split; try done; [|cbn; by rewrite A4]. eapply view_ext; [| | |exact A0]; done. }
    destruct (us_edge _ _ _ _ (named ns (us_id s)) (token_name ns s p.1) [ns; ns +:+ ":token"] None [("edge_type", VStr spans)] [("edge_type", VStr "spans")] U1') as (g2 & E2 & U2); [done|apply plain_one|].
    exists g2. split; [exact E2|exact U2].
  Qed.
  Lemma tokens_loop s L : ∀ R E T g, Us R E T g → NoDup (ids (R ++ (token_info ns ∘ tok s <$> L))) →
    ∃ g', loop (urml_token (ns +:+ ":" +:+ us_id s)) L g = (g', None) ∧
      Us (R ++ (token_info ns ∘ tok s <$> L)) (E ++ (tok_edge s ∘ tok s <$> L)) (T ++ (fst ∘ tok s <$> L)) g'.
  Proof.
    induction L as [|p L IH]; intros R E T g HU HD.
    - exists g. rewrite !fmap_nil, !app_nil_r. split; [done|]. exact HU.
    - rewrite fmap_cons in HD. assert (HD' : NoDup (ids ((R ++ [token_info ns (tok s p)]) ++ (token_info ns ∘ tok s <$> L)))) by (rewrite <-app_assoc; exact HD).
      assert (Hn : token_name ns s p.1 ∉ ids R). { unfold ids in HD. rewrite fmap_app in HD. apply NoDup_app in HD as (_ & HD & _). intros Hin. apply (HD _ Hin). rewrite fmap_cons. left. }
      cbn [loop]. destruct (token_step R E T g s p HU Hn) as (g1 & E1 & U1). rewrite E1. destruct (IH _ _ _ g1 U1 HD') as (g2 & E2 & U2). exists g2. split; [exact E2|].
      rewrite <-!app_assoc in U2. exact U2.
  Qed.
  Definition seg_infos (s : useg) : list node_info := (token_info ns <$> tokens_of ns tokenize s) ++ [segment_info ns tokenize d s].
  Lemma segment_step R E T g edus s : s ∈ ud_segs d → Us R E T g → NoDup (ids (R ++ seg_infos s)) →
    ∃ g', urml_segment (segment_types_of ns d) tokenize s (g, edus) = ((g', edus ++ [named ns (us_id s)]), None) ∧
      Us (R ++ seg_infos s) (E ++ segment_edges ns tokenize s) (T ++ (tokens_of ns tokenize s).*1) g'.
  Proof.
    intros Hs HU HD. unfold urml_segment. rewrite (us_ns _ _ _ _ HU). cbv zeta. unfold seg_infos in *. rewrite tokens_of_eq in HD. rewrite app_assoc in HD. rewrite <-list_fmap_compose in HD.
    pose proof HD as HD1. unfold ids in HD1. rewrite fmap_app in HD1. apply NoDup_app in HD1 as (HD1 & HD2 & _).
    destruct (tokens_loop s (imap pair (useg_tokens tokenize s)) R E T g HU HD1) as (g1 & E1 & U1). rewrite E1.
    rewrite type_same by done. rewrite label_same, text_same. rewrite (us_ns _ _ _ _ HU) || idtac.
    destruct (us_node _ _ _ g1 (named ns (us_id s)) [ns; ns +:+ ":segment"] (segment_info ns tokenize d s).2 (Some [(ns +:+ ":text", VStr (text_in s)); ("label", VStr (label_in ns tokenize d s))]) U1) as (g2 & E2 & U2).
    { intros Hin. apply (HD2 _ Hin). left. }
    { left. }
    { apply plain_dict. }
    unfold named in E2 at 1. rewrite E2. exists g2. split; [done|]. unfold segment_edges. rewrite tokens_of_eq. rewrite <-!list_fmap_compose. rewrite app_assoc. exact U2.
  Qed.
  Lemma segments_loop L : (∀ s, s ∈ L → s ∈ ud_segs d) → ∀ R E T g edus, Us R E T g → NoDup (ids (R ++ (L ≫= seg_infos))) →
    ∃ g', loop (urml_segment (segment_types_of ns d) tokenize) L (g, edus) = ((g', edus ++ ((λ s, named ns (us_id s)) <$> L)), None) ∧
      Us (R ++ (L ≫= seg_infos)) (E ++ (L ≫= segment_edges ns tokenize)) (T ++ (L ≫= tokens_of ns tokenize).*1) g'.
  Proof.
    induction L as [|s L IH]; intros HL R E T g edus HU HD.
    - exists g. cbn. rewrite !app_nil_r. split; [done|]. exact HU.
    - cbn [mbind list_bind] in HD |- *. rewrite app_assoc in HD. pose proof HD as HD1. unfold ids in HD1. rewrite fmap_app in HD1. apply NoDup_app in HD1 as (HD1 & _).
      destruct (segment_step R E T g edus s (HL s ltac:(left)) HU HD1) as (g1 & E1 & U1). cbn [loop]. rewrite E1.
      destruct (IH (λ x Hx, HL x (elem_of_list_further _ _ _ Hx)) _ _ _ g1 (edus ++ [named ns (us_id s)]) U1 HD) as (g2 & E2 & U2).
      exists g2. split; [rewrite E2; by rewrite <-app_assoc|]. rewrite fmap_app. rewrite <-!app_assoc in U2. exact U2.
  Qed.
  (** ** Relations *)
  Lemma named_nin R n x l : NoDup (ids (R ++ x :: l)) → x.1.1 = n → n ∉ ids R.
  Proof. intros HD <- Hin. unfold ids in HD. rewrite fmap_app in HD. apply NoDup_app in HD as (_ & HD & _). apply (HD _ Hin). rewrite fmap_cons. left. Qed.
  Lemma rel_attrs_get r k : k ≠ "layers" → ∀ t, dget k (given_attrs (Some ([(ns +:+ ":rel_name", VStr (ur_type r)); (ns +:+ ":rel_type", VStr (ur_tag r))] ++ [("label", VStr (ns +:+ ":" +:+ ur_type r))])) [("edge_type", VStr t)]) =
    dget k [(ns +:+ ":rel_name", VStr (ur_type r)); (ns +:+ ":rel_type", VStr (ur_tag r)); ("label", VStr (ns +:+ ":" +:+ ur_type r)); ("edge_type", VStr t)].
  Proof.
    intros _ t. unfold given_attrs. rewrite dget_dupdate. cbn [default app]. unfold id. cbn [dget].
    destruct (decide (k = "edge_type")) as [->|Hk]; [|repeat destruct (decide _); done].
    assert (HK : ∀ s, "edge_type" ≠ ns +:+ ":" +:+ s). { intros s H. assert (Hc : ":"%char ∈ chs "edge_type") by (rewrite H, !chs_app; apply elem_of_app; right; left). revert Hc. apply (bool_decide_unpack _). vm_compute. exact I. }
    rewrite !decide_False; [done|..]; try done; apply HK.
  Qed.
  Lemma par_loop r (L : list (string * string)) : ur_tag r = "parRelation" → ∀ R E T g, Us R E T g →
    ∃ g', loop (λ (p : string * string) g, add_edge g (NStr (ns +:+ ":" +:+ ur_id r)) (NStr (ns +:+ ":" +:+ p.2)) (VSet [ns]) None
         (Some ([(ns +:+ ":rel_name", VStr (ur_type r)); (ns +:+ ":rel_type", VStr (ur_tag r))] ++ [("label", VStr (ns +:+ ":" +:+ ur_type r))])) [("edge_type", VStr spans)]) L g = (g', None) ∧
      Us R (E ++ ((λ p : string * string, (named ns (ur_id r), named ns p.2, [ns], relation_attrs ns r)) <$> L)) T g'.
  Proof.
    intros Ht. induction L as [|p L IH]; intros R E T g HU; [exists g; rewrite fmap_nil, app_nil_r; done|]. cbn [loop].
    destruct (us_edge R E T g (named ns (ur_id r)) (named ns p.2) [ns] (Some ([(ns +:+ ":rel_name", VStr (ur_type r)); (ns +:+ ":rel_type", VStr (ur_tag r))] ++ [("label", VStr (ns +:+ ":" +:+ ur_type r))])) [("edge_type", VStr spans)] (relation_attrs ns r) HU) as (g1 & E1 & U1); [done| |].
    { intros k Hk. rewrite rel_attrs_get by done. unfold relation_attrs. by rewrite decide_True. }
    unfold named in E1 at 1 2. rewrite E1. destruct (IH _ _ _ g1 U1) as (g2 & E2 & U2). exists g2. split; [exact E2|]. rewrite <-app_assoc in U2. exact U2.
  Qed.
  Definition elems_of (r : urel) : dict string string := foldl (λ m (p : string * string), dset p.1 p.2 m) [] (ur_parts r).
  Lemma elems_pair r : length (ur_parts r) = 2 → ∀ nuc sat, dget "nucleus" (elems_of r) = Some nuc → dget "satellite" (elems_of r) = Some sat → hypotactic r nuc sat.
  Proof.
    unfold elems_of, hypotactic. destruct (ur_parts r) as [|[t1 i1] [|[t2 i2] [|? ?]]]; try done. intros _ nuc sat. cbn [foldl fst snd]. rewrite !dget_dset. cbn [dget].
    destruct (decide ("nucleus" = t2)) as [<-|H1].
    - intros [= <-]. rewrite decide_False by done. destruct (decide ("satellite" = t1)) as [<-|]; [|done]. intros [= <-]. by right.
    - destruct (decide ("nucleus" = t1)) as [<-|]; [|done]. intros [= <-]. destruct (decide ("satellite" = t2)) as [<-|]; [intros [= <-]; by left|]. by rewrite decide_False.
  Qed.
  Lemma hypotactic_elems r nuc sat : hypotactic r nuc sat → length (ur_parts r) = 2 ∧ dget "nucleus" (elems_of r) = Some nuc ∧ dget "satellite" (elems_of r) = Some sat ∧ part "nucleus" r = nuc ∧ part "satellite" r = sat.
  Proof. unfold elems_of, part. intros [E|E]; rewrite E; repeat split; done. Qed.
  Lemma well_formed_dec r : well_formed r ∨ ¬ well_formed r.
  Proof.
    destruct (decide (ur_tag r = "hypRelation")) as [Ht|Ht]; [|left; by intros ?]. destruct (decide (length (ur_parts r) = 2)) as [Hl|Hl].
    - destruct (dget "nucleus" (elems_of r)) as [nuc|] eqn:E2; [destruct (dget "satellite" (elems_of r)) as [sat|] eqn:E3|].
      + left. intros _. exists nuc, sat. by apply elems_pair.
      + right. intros H. destruct (H Ht) as (n & s & (_ & _ & H3 & _)%hypotactic_elems). congruence.
      + right. intros H. destruct (H Ht) as (n & s & (_ & H2 & _)%hypotactic_elems). congruence.
    - right. intros H. destruct (H Ht) as (n & s & (H1 & _)%hypotactic_elems). congruence.
  Qed.
  Lemma relation_ok R E T g r : ur_tag r = "parRelation" ∨ ur_tag r = "hypRelation" → well_formed r → Us R E T g → named ns (ur_id r) ∉ ids R →
    ∃ g', urml_relation r g = (g', None) ∧ Us (R ++ [relation_info ns r]) (E ++ relation_edges ns r) T g'.
  Proof.
    intros Ht HW HU Hn. unfold urml_relation. rewrite (us_ns _ _ _ _ HU). cbv zeta.
    destruct (us_node R E T g (named ns (ur_id r)) [ns; ns +:+ ":relation"] (relation_info ns r).2 (Some (relation_info ns r).2) HU Hn) as (g1 & E1 & U1); [left|apply plain_dict|].
    unfold named in E1 at 1. unfold relation_info in E1. cbn [snd] in E1. rewrite E1. unfold relation_edges, linked_by. destruct (decide (ur_tag r = "parRelation")) as [Hp|Hp].
    - destruct (par_loop r (ur_parts r) Hp _ _ _ g1 U1) as (g2 & E2 & U2). exists g2. split; [exact E2|]. rewrite <-list_fmap_compose. exact U2.
    - destruct Ht as [Ht|Ht]; [done|]. destruct (HW Ht) as (nuc & sat & Hh). rewrite decide_True by done. destruct (hypotactic_elems r nuc sat Hh) as (H1 & H2 & H3 & H4 & H5).
      rewrite decide_True by done. change (foldl (λ m (p : string * string), dset p.1 p.2 m) [] (ur_parts r)) with (elems_of r). rewrite H2, H3, H4, H5.
      assert (HA : ∀ k, k ≠ "layers" → dget k (given_attrs (Some ([(ns +:+ ":rel_name", VStr (ur_type r)); (ns +:+ ":rel_type", VStr (ur_tag r))] ++ [("label", VStr (ns +:+ ":" +:+ ur_type r))])) [("edge_type", VStr dominates)]) = dget k (relation_attrs ns r)).
      { intros k Hk. rewrite rel_attrs_get by done. unfold relation_attrs. by rewrite decide_False. }
      destruct (us_edge _ _ _ g1 (named ns (ur_id r)) (named ns nuc) [ns] (Some ([(ns +:+ ":rel_name", VStr (ur_type r)); (ns +:+ ":rel_type", VStr (ur_tag r))] ++ [("label", VStr (ns +:+ ":" +:+ ur_type r))])) [("edge_type", VStr dominates)] (relation_attrs ns r) U1 ltac:(done) HA) as (g2 & E2 & U2).
      unfold named in E2 at 1 2. rewrite E2.
      destruct (us_edge _ _ _ g2 (named ns nuc) (named ns sat) [ns] (Some ([(ns +:+ ":rel_name", VStr (ur_type r)); (ns +:+ ":rel_type", VStr (ur_tag r))] ++ [("label", VStr (ns +:+ ":" +:+ ur_type r))])) [("edge_type", VStr dominates)] (relation_attrs ns r) U2 ltac:(done) HA) as (g3 & E3 & U3).
      unfold named in E3 at 1 2. rewrite E3. exists g3. split; [done|]. rewrite <-app_assoc in U3. exact U3.
  Qed.
  Lemma relation_bad R E T g r : ¬ well_formed r → Us R E T g → named ns (ur_id r) ∉ ids R → (urml_relation r g).2 = Some AssertionError.
  Proof.
    intros HW HU Hn. unfold urml_relation. rewrite (us_ns _ _ _ _ HU). cbv zeta.
    destruct (us_node R E T g (named ns (ur_id r)) [ns; ns +:+ ":relation"] (relation_info ns r).2 (Some (relation_info ns r).2) HU Hn) as (g1 & E1 & U1); [left|apply plain_dict|].
    unfold named in E1 at 1. unfold relation_info in E1. cbn [snd] in E1. rewrite E1. destruct (decide (ur_tag r = "parRelation")) as [Hp|Hp]; [exfalso; apply HW; intros Ht; congruence|].
    destruct (decide (ur_tag r = "hypRelation")) as [Hh|Hh]; [|exfalso; apply HW; intros Ht; congruence].
    destruct (decide (length (ur_parts r) = 2)) as [Hl|Hl]; [|done]. change (foldl (λ m (p : string * string), dset p.1 p.2 m) [] (ur_parts r)) with (elems_of r).
    destruct (dget "nucleus" (elems_of r)) as [nuc|] eqn:E2; [|done]. destruct (dget "satellite" (elems_of r)) as [sat|] eqn:E3; [|done].
    exfalso. apply HW. intros _. exists nuc, sat. by apply elems_pair.
  Qed.
  Lemma relations_loop L : (∀ r, r ∈ L → ur_tag r = "parRelation" ∨ ur_tag r = "hypRelation") → Forall well_formed L → ∀ R E T g, Us R E T g → NoDup (ids (R ++ (relation_info ns <$> L))) →
    ∃ g', loop urml_relation L g = (g', None) ∧ Us (R ++ (relation_info ns <$> L)) (E ++ (L ≫= relation_edges ns)) T g'.
  Proof.
    induction L as [|r L IH]; intros HL HW R E T g HU HD.
    - exists g. cbn. rewrite !app_nil_r. split; [done|]. exact HU.
    - apply Forall_cons in HW as [Hr HW]. rewrite fmap_cons in HD. destruct (relation_ok R E T g r (HL r ltac:(left)) Hr HU (named_nin _ _ _ _ HD eq_refl)) as (g1 & E1 & U1).
      cbn [loop]. rewrite E1. destruct (IH (λ x Hx, HL x (elem_of_list_further _ _ _ Hx)) HW _ _ _ g1 U1) as (g2 & E2 & U2); [by rewrite <-app_assoc|].
      exists g2. split; [exact E2|]. rewrite <-!app_assoc in U2. exact U2.
  Qed.
  Lemma relations_bad L : (∀ r, r ∈ L → ur_tag r = "parRelation" ∨ ur_tag r = "hypRelation") → ¬ Forall well_formed L → ∀ R E T g, Us R E T g → NoDup (ids (R ++ (relation_info ns <$> L))) →
    (loop urml_relation L g).2 = Some AssertionError.
  Proof.
    induction L as [|r L IH]; intros HL HW R E T g HU HD; [destruct HW; by apply List.Forall_nil|].
    rewrite fmap_cons in HD. pose proof (named_nin _ _ _ _ HD eq_refl) as Hn. cbn [loop].
    destruct (urml_relation r g) as [g1 [e|]] eqn:E1.
    - destruct (well_formed_dec r) as [Hr|Hr].
      + destruct (relation_ok R E T g r (HL r ltac:(left)) Hr HU Hn) as (g2 & E2 & _). congruence.
      + pose proof (relation_bad R E T g r Hr HU Hn) as H. by rewrite E1 in H.
    - destruct (well_formed_dec r) as [Hr|Hr]; [|pose proof (relation_bad R E T g r Hr HU Hn) as H; by rewrite E1 in H].
      destruct (relation_ok R E T g r (HL r ltac:(left)) Hr HU Hn) as (g2 & E2 & U2). rewrite E2 in E1. injection E1 as <-.
      eapply IH; [| |exact U2|by rewrite <-app_assoc].
      + intros x Hx. apply HL. by right.
      + intros H. apply HW. apply List.Forall_cons; done.
  Qed.
End Doc.
