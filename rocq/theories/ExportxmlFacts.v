(** * ExportxmlFacts: reading an ExportXML document step by step *)
From Verif Require Import PyBase DocGraph Relabel StrNum Query Text Rst Nltk Parsers Anaphora Conano Decour Ptb Convert Tiger Urml Exportxml.
From Verif Require Import SpecGraph DocGraphFacts History Effects RelabelFacts GraphThms SpecImport ImportFacts PtbFacts TextFacts OffsetFacts GeoffFacts DecourFacts AnaphoraFacts ConllReadText TigerFacts BuiltFrom ViewFacts SpecAnaphora SpecQuery SpanFacts SpecRs3Graph Rs3Facts Rs3Desc Rs3Read Rs3Doc.
From Verif Require UrmlFacts TigerTree.
From Verif Require Import SpecExportxml.

(** ** What is said, as a view *)
Lemma layers_about_snoc F m l a n : layers_about (F ++ [(m, l, a)]) n = layers_about F n ++ if decide (m = n) then l else [].
Proof.
  unfold layers_about. rewrite filter_app, bind_app. f_equal. rewrite filter_cons. cbn [fst]. case_decide; [|done]. cbn. apply app_nil_r.
Qed.
Lemma attrs_about_snoc F m l a n : attrs_about (F ++ [(m, l, a)]) n = (if decide (m = n) then a else []) ++ attrs_about F n.
Proof.
  unfold attrs_about. rewrite filter_app, reverse_app, bind_app. f_equal. rewrite filter_cons. cbn [fst]. case_decide; [|done]. cbn. apply app_nil_r.
Qed.
Lemma layers_about_none F n : n ∉ ids F → layers_about F n = [].
Proof.
  intros H. unfold layers_about. rewrite (TigerTree.filter_none _ F) by (apply Forall_forall; intros f Hf E; apply H; rewrite <-E; unfold ids; by apply (elem_of_list_fmap_1 (λ x : node_info, x.1.1))). done.
Qed.
Lemma attrs_about_none F n : n ∉ ids F → attrs_about F n = [].
Proof.
  intros H. unfold attrs_about. rewrite (TigerTree.filter_none _ F) by (apply Forall_forall; intros f Hf E; apply H; rewrite <-E; unfold ids; by apply (elem_of_list_fmap_1 (λ x : node_info, x.1.1))). done.
Qed.
Definition mentioned (root : nid) (F : list node_info) (E : list edge_info) : list nid := root :: ids F ++ edge_ends E.
Definition mview (ns : string) (root : nid) (F : list node_info) (E : list edge_info) : nview := λ n,
  if decide (n ∈ mentioned root F E) then Some (ns :: layers_about F n, attrs_about F n) else None.
Lemma mview_some ns root F E n : is_Some (mview ns root F E n) ↔ n ∈ mentioned root F E.
Proof. unfold mview. destruct (decide _); [split; [done|by eexists]|]. split; [intros [? ?]; done|done]. Qed.
Lemma mentioned_not root F E n : n ∉ mentioned root F E → n ∉ ids F.
Proof. intros H Hn. apply H. unfold mentioned. right. apply elem_of_app. by left. Qed.
Lemma mentioned_node root F E n l a m : m ∈ mentioned root (F ++ [(n, l, a)]) E ↔ m = n ∨ m ∈ mentioned root F E.
Proof.
  unfold mentioned. rewrite ids_app, !elem_of_cons, !elem_of_app. change (ids [(n, l, a)]) with [n]. rewrite elem_of_list_singleton. tauto.
Qed.
Lemma mentioned_edge root F E e m : m ∈ mentioned root F (E ++ [e]) ↔ m = e.1.1.1 ∨ m = e.1.1.2 ∨ m ∈ mentioned root F E.
Proof.
  unfold mentioned, edge_ends. rewrite bind_app, !elem_of_cons, !elem_of_app. cbn [mbind list_bind app]. rewrite !elem_of_cons. rewrite elem_of_nil. tauto.
Qed.
Section Steps.
  Context (ns : string) (root : nid).
  Notation V := (mview ns root).
  Lemma mview_node F E n l a b : n ∈ mentioned root F E → (∀ k, k ≠ "layers" → dget k b = dget k (a ++ attrs_about F n)) → ∀ l', (∀ z, z ∈ l' ↔ z = ns ∨ z ∈ layers_about F n ∨ z ∈ l) →
    ∀ m, same_at (vset n (l', b) (V F E) m) (V (F ++ [(n, l, a)]) E m).
  Proof.
    intros Hn Hb l' Hl m. unfold vset, mview. destruct (decide (m = n)) as [->|Hm].
    - rewrite decide_True by (apply mentioned_node; by left). split; cbn [fst snd].
      + intros z. rewrite Hl, elem_of_cons, layers_about_snoc, elem_of_app, decide_True by done. done.
      + intros k Hk. rewrite Hb by done. by rewrite attrs_about_snoc, decide_True.
    - destruct (decide (m ∈ mentioned root F E)) as [H|H].
      + rewrite decide_True by (apply mentioned_node; by right). rewrite layers_about_snoc, attrs_about_snoc, !decide_False by done. rewrite app_nil_r. apply same_content_refl.
      + rewrite decide_False; [done|]. rewrite mentioned_node. by intros [?|?].
  Qed.
  Lemma s_node g F E n l ad attr a : viewed g (V F E) E → (∀ k, k ≠ "layers" → dget k (given_attrs ad attr) = dget k a) →
    ∃ g', add_node g n (VSet (ns :: l)) ad attr = (g', None) ∧ viewed g' (V (F ++ [(n, l, a)]) E) E ∧ same_doc g g'.
  Proof.
    intros HV Ha. assert (HL : asked_layers (g_ns g) (VSet (ns :: l)) (ns :: l)) by (left; done).
    destruct (decide (n ∈ mentioned root F E)) as [Hn|Hn].
    - destruct (view_again g _ E n (VSet (ns :: l)) ad attr (ns :: l) (ns :: layers_about F n, attrs_about F n) HV HL) as (g' & E1 & V1 & D1); [unfold mview; by rewrite decide_True|].
      exists g'. split; [done|]. split; [|done]. eapply view_same; [exact V1|]. apply mview_node; [done| |].
      + intros k Hk. cbn [snd]. rewrite dget_dupdate, dget_app, Ha by done. done.
      + intros z. cbn [fst]. rewrite elem_of_app, !elem_of_cons. tauto.
    - destruct (view_new g _ E n (VSet (ns :: l)) ad attr (ns :: l) HV HL) as (g' & E1 & V1 & D1); [unfold mview; by rewrite decide_False|].
      exists g'. split; [done|]. split; [|done]. eapply view_same; [exact V1|]. intros m. unfold vset, mview. destruct (decide (m = n)) as [->|Hm].
      + rewrite decide_True by (apply mentioned_node; by left). pose proof (mentioned_not _ _ _ _ Hn) as HF.
        rewrite layers_about_snoc, attrs_about_snoc, !decide_True by done. rewrite (layers_about_none F n HF), (attrs_about_none F n HF), app_nil_r. split; cbn [fst snd]; [done|exact Ha].
      + destruct (decide (m ∈ mentioned root F E)) as [H|H].
        * rewrite decide_True by (apply mentioned_node; by right). rewrite layers_about_snoc, attrs_about_snoc, !decide_False by done. rewrite app_nil_r. apply same_content_refl.
        * rewrite decide_False; [done|]. rewrite mentioned_node. by intros [?|?].
  Qed.
  Lemma s_update g F E n d : viewed g (V F E) E → n ∈ mentioned root F E → dget "layers" d = None →
    ∃ g', node_update g n d = (g', None) ∧ viewed g' (V (F ++ [(n, [], d)]) E) E ∧ same_doc g g'.
  Proof.
    intros HV Hn Hd. destruct (view_update g _ E n d (ns :: layers_about F n, attrs_about F n) HV) as (g' & E1 & V1 & D1); [unfold mview; by rewrite decide_True|by rewrite Hd|].
    exists g'. split; [done|]. split; [|done]. rewrite Hd in V1. eapply view_same; [exact V1|]. apply mview_node; [done| |].
    - intros k Hk. cbn [snd]. by rewrite dget_dupdate, dget_app.
    - intros z. cbn [fst]. rewrite elem_of_cons, elem_of_nil. tauto.
  Qed.
  Lemma s_layer g F E n l : viewed g (V F E) E → n ∈ mentioned root F E →
    ∃ g', add_layer_node g n l = (g', None) ∧ viewed g' (V (F ++ [(n, [l], [])]) E) E ∧ same_doc g g'.
  Proof.
    intros HV Hn. pose proof (v_nodes _ _ _ HV n) as Hg. unfold mview in Hg. rewrite decide_True in Hg by done. destruct Hg as (a & Ha & HL & HK).
    assert (Hin : n ∈ nodes g) by (apply node_mem; by exists a). pose proof (proj1 (proj2 (v_inv _ _ _ HV)) n a Ha) as [L HL0].
    unfold add_layer_node. pose proof Ha as Ha'. unfold node_attrs in Ha'. rewrite Ha', HL0. exists (put_node g n (dset "layers" (VSet (set_add l L)) a)). split.
    { unfold put_node. by rewrite decide_True. }
    split; [|apply same_doc_put_node]. cbn [fst snd] in *. eapply view_same; [eapply (view_put g _ E n _ (ns :: layers_about F n ++ [l]) (attrs_about F n) HV)|].
    - exists (set_add l L). by rewrite dget_dset, decide_True.
    - split.
      + intros y. unfold has_layer. rewrite dget_dset, decide_True by done. assert (HS : y ∈ set_add l L ↔ y = l ∨ y ∈ L).
        { unfold set_add. destruct (decide (l ∈ L)) as [Hl|Hl]; [split; [by right|by intros [->|?]]|]. rewrite elem_of_app, elem_of_list_singleton. tauto. }
        assert (HLy : y ∈ L ↔ y ∈ ns :: layers_about F n). { rewrite <-HL. unfold has_layer. rewrite HL0. split; [intros; by exists L|intros (? & [= <-] & ?); done]. }
        rewrite elem_of_cons, elem_of_app, elem_of_list_singleton. rewrite elem_of_cons in HLy. split; [intros (? & [= <-] & H)|intros H; exists (set_add l L); split; [done|]]; rewrite HS in *; tauto.
      + intros k Hk. rewrite dget_dset, decide_False by done. by apply HK.
    - apply mview_node; [done|done|]. intros z. rewrite elem_of_cons, elem_of_app, elem_of_list_singleton. tauto.
  Qed.
  Lemma s_edge g F E u v layers l ad attr b : viewed g (V F E) E → g_ns g = ns → asked_layers (g_ns g) layers l → (∀ k, k ≠ "layers" → dget k (given_attrs ad attr) = dget k b) →
    ∃ g', add_edge g u v layers None ad attr = (g', None) ∧ viewed g' (V F (E ++ [(u, v, l, b)])) (E ++ [(u, v, l, b)]) ∧ same_doc g g'.
  Proof.
    intros HV Hns Hl Hb. set (R := (λ n, (n, ns :: layers_about F n, attrs_about F n) : node_info) <$> remove_dups (mentioned root F E)).
    assert (HR : ids R = remove_dups (mentioned root F E)). { unfold R, ids. rewrite <-list_fmap_compose. rewrite <-(list_fmap_id (remove_dups _)) at 2. by apply list_fmap_ext. }
    assert (HG : ∀ n, n ∈ mentioned root F E → dget n (UrmlFacts.infos R) = Some (ns :: layers_about F n, attrs_about F n)).
    { intros n Hn. apply elem_dget.
      - change (NoDup (dkeys (UrmlFacts.infos R))). rewrite UrmlFacts.infos_keys, HR. apply NoDup_remove_dups.
      - unfold UrmlFacts.infos. apply elem_of_list_fmap. exists (n, ns :: layers_about F n, attrs_about F n). split; [done|]. unfold R. apply elem_of_list_fmap. exists n. split; [done|]. by apply elem_of_remove_dups. }
    assert (HN : ∀ n, n ∉ mentioned root F E → dget n (UrmlFacts.infos R) = None). { intros n Hn. apply UrmlFacts.infos_none. by rewrite HR, elem_of_remove_dups. }
    assert (HV' : viewed g (UrmlFacts.uview ns R []) E).
    { eapply view_same; [exact HV|]. intros n. unfold mview, UrmlFacts.uview. destruct (decide (n ∈ mentioned root F E)) as [Hn|Hn]; [rewrite (HG n Hn); apply same_content_refl|]. by rewrite (HN n Hn), decide_False by apply not_elem_of_nil. }
    destruct (UrmlFacts.uview_edge_as g ns R [] E u v layers l ad attr b HV' Hns Hl Hb) as (g' & E1 & V1 & D1). exists g'. split; [done|]. split; [|done].
    eapply view_same; [exact V1|]. intros n. unfold mview, UrmlFacts.uview. destruct (decide (n ∈ mentioned root F E)) as [Hn|Hn].
    - rewrite (HG n Hn), decide_True; [apply same_content_refl|]. apply mentioned_edge. by right; right.
    - rewrite (HN n Hn). pose proof (mentioned_not _ _ _ _ Hn) as HF. destruct (decide (n ∈ [] ++ [u; v])) as [H|H].
      + rewrite decide_True; [rewrite (layers_about_none F n HF), (attrs_about_none F n HF); apply same_content_refl|]. apply mentioned_edge. cbn [app fst snd] in *. rewrite !elem_of_cons, elem_of_nil in H. tauto.
      + rewrite decide_False; [done|]. rewrite mentioned_edge. cbn [app fst snd] in *. rewrite !elem_of_cons, elem_of_nil in H. tauto.
  Qed.
  Lemma view_facts g F F' E : viewed g (V F E) E → (∀ n, n ∈ ids F ↔ n ∈ ids F') → (∀ n z, z ∈ layers_about F n ↔ z ∈ layers_about F' n) →
    (∀ n k, dget k (attrs_about F n) = dget k (attrs_about F' n)) → viewed g (V F' E) E.
  Proof.
    intros HV HI HL HK. eapply view_same; [exact HV|]. intros n. unfold mview.
    assert (HM : n ∈ mentioned root F E ↔ n ∈ mentioned root F' E) by (unfold mentioned; rewrite !elem_of_cons, !elem_of_app, HI; done).
    destruct (decide (n ∈ mentioned root F E)) as [H|H]; [rewrite decide_True by (by apply HM)|by rewrite decide_False by (by rewrite <-HM)]. split; cbn [fst snd].
    - intros z. by rewrite !elem_of_cons, HL.
    - intros k _. apply HK.
  Qed.
  (** two facts in one *)
  Lemma facts_join g F E n l a l' a' : viewed g (V ((F ++ [(n, l, a)]) ++ [(n, l', a')]) E) E → viewed g (V (F ++ [(n, l ++ l', a' ++ a)]) E) E.
  Proof.
    intros HV. eapply view_facts; [exact HV|..].
    - intros m. rewrite !ids_app, !elem_of_app. change (ids [(n, l, a)]) with [n]. change (ids [(n, l', a')]) with [n]. change (ids [(n, l ++ l', a' ++ a)]) with [n]. tauto.
    - intros m z. rewrite !layers_about_snoc. case_decide; rewrite !elem_of_app; [tauto|]. rewrite elem_of_nil. tauto.
    - intros m k. rewrite !attrs_about_snoc. case_decide; [by rewrite app_assoc|done].
  Qed.
End Steps.
