(** * ViewFacts: a graph described by a function from nodes to layers and attributes *)
From Verif Require Import PyBase DocGraph Relabel StrNum Query Text Rst Nltk Parsers Anaphora Conano Decour Ptb Convert Tiger.
From Verif Require Import SpecGraph DocGraphFacts History Effects RelabelFacts MergeFacts AllHist MergeAll GraphThms SpecImport ImportFacts PtbFacts TigerFacts BuiltFrom.

Notation nview := (nid → option (list string * attrs)).
Record viewed (g : graph) (V : nview) (E : list edge_info) : Prop := {
  v_inv : GInv g;
  v_nodes : ∀ n, match V n with None => node_attrs g n = None | Some x => ∃ a, node_attrs g n = Some a ∧ attrs_are a x.1 x.2 end;
  v_edges : has_edges g E;
}.
Definition vset (n : nid) (x : list string * attrs) (V : nview) : nview := λ m, if decide (m = n) then Some x else V m.
Definition vdel (n : nid) (V : nview) : nview := λ m, if decide (m = n) then None else V m.
Definition same_content (x y : list string * attrs) : Prop := (∀ z, z ∈ x.1 ↔ z ∈ y.1) ∧ ∀ k, k ≠ "layers" → dget k x.2 = dget k y.2.
Definition same_at (x y : option (list string * attrs)) : Prop :=
  match x, y with None, None => True | Some x, Some y => same_content x y | _, _ => False end.
Lemma same_content_refl x : same_content x x.
Proof. done. Qed.
Lemma same_at_refl x : same_at x x.
Proof. by destruct x. Qed.
Lemma same_at_trans x y z : same_at x y → same_at y z → same_at x z.
Proof.
  destruct x as [x|], y as [y|], z as [z|]; try done. intros [H1 H2] [H3 H4]. split; [intros w; by rewrite H1, H3|]. intros k Hk. by rewrite H2, H4.
Qed.
Lemma view_same g V V' E : viewed g V E → (∀ n, same_at (V n) (V' n)) → viewed g V' E.
Proof.
  intros [H HV HE] HS. split; [done| |done]. intros n. specialize (HV n). specialize (HS n). destruct (V n) as [x|], (V' n) as [y|]; try done.
  destruct HV as (a & Ha & HL & HK), HS as [S1 S2]. exists a. split; [done|]. split; [intros z; by rewrite HL|]. intros k Hk. by rewrite HK, S2.
Qed.
Lemma view_in g V E n : viewed g V E → n ∈ nodes g ↔ is_Some (V n).
Proof.
  intros [H HV _]. rewrite node_mem. specialize (HV n). destruct (V n) as [x|]; [|rewrite HV; split; intros [? ?]; done].
  destruct HV as (a & -> & _). split; intros _; by eexists.
Qed.
Definition vinfo (V : nview) (n : nid) : node_info := match V n with Some x => (n, x.1, x.2) | None => (n, [], []) end.
Lemma vinfo_id V n : (vinfo V n).1.1 = n.
Proof. unfold vinfo. by destruct (V n). Qed.
Lemma vinfo_ids V L : ids (vinfo V <$> L) = L.
Proof. unfold ids. rewrite <-list_fmap_compose. rewrite <-(list_fmap_id L) at 2. apply list_fmap_ext. intros i n _. apply vinfo_id. Qed.
Lemma view_built g V E : viewed g V E → built g (vinfo V <$> nodes g) E.
Proof.
  intros HV. pose proof HV as [H HN HE]. split; [done| |done]. split.
  - symmetry. apply vinfo_ids.
  - apply Forall_fmap, Forall_forall. intros n Hn. apply (view_in _ _ _ _ HV) in Hn as [x Hx]. specialize (HN n). rewrite Hx in HN.
    unfold compose, vinfo, node_is. rewrite Hx. exact HN.
Qed.
Lemma built_view g N E V : built g N E → (∀ n, n ∈ ids N ↔ is_Some (V n)) → (∀ n x, V n = Some x → ∃ y, y ∈ N ∧ y.1.1 = n ∧ same_content (y.1.2, y.2) x) → viewed g V E.
Proof.
  intros HB HI HV. pose proof (b_nodes _ _ _ HB) as [HN HF]. split; [apply HB| |apply HB]. intros n. destruct (V n) as [x|] eqn:E1.
  - destruct (HV n x E1) as (y & Hy & <- & S1 & S2). rewrite Forall_forall in HF. destruct (HF y Hy) as (a & Ha & HL & HK). exists a. split; [done|].
    split; [intros z; rewrite HL; apply S1|]. intros k Hk. by rewrite HK, <-S2.
  - apply node_nmem. rewrite HN. change ((λ x : node_info, x.1.1) <$> N) with (ids N). rewrite HI, E1. by intros [? ?].
Qed.
Lemma view_ext g g' V E : g_node g' = g_node g → g_succ g' = g_succ g → g_pred g' = g_pred g → viewed g V E → viewed g' V E.
Proof.
  intros E1 E2 E3 [H HV (es & HP & HE)]. split.
  - by eapply GInv_ext.
  - intros n. specialize (HV n). unfold node_attrs in *. by rewrite E1.
  - exists es. split; [|done]. rewrite <-HP. unfold edges. by rewrite E2.
Qed.
(** ** Changes *)
Lemma view_put g V E n a l b : viewed g V E → layered a → attrs_are a l b → viewed (put_node g n a) (vset n (l, b) V) E.
Proof.
  intros [H HV (es & HP & HE)] HL HA. assert (HI : GInv (put_node g n a)) by (by apply GInv_put_node). split; [done| |].
  - intros m. unfold vset. rewrite node_attrs_put_node. destruct (decide (m = n)); [by exists a|apply HV].
  - exists es. split; [|done]. rewrite <-HP. apply same_edges; [apply H|apply HI|]. intros. apply edge_attrs_put_node, H.
Qed.
(** add_node on a new and on an old node *)
Lemma view_new g V E n layers ad attr l : viewed g V E → asked_layers (g_ns g) layers l → V n = None →
  ∃ g', add_node g n layers ad attr = (g', None) ∧ viewed g' (vset n (l, given_attrs ad attr) V) E ∧ same_doc g g'.
Proof.
  intros HV Ha Hn. pose proof (v_inv _ _ _ HV) as H. pose proof (add_node_eff g n layers ad attr (proj1 H) (proj2 H)) as He.
  rewrite (check_asked _ _ _ Ha) in He. destruct He as (a & -> & Hm). exists (put_node g n a). split; [done|]. split; [|apply same_doc_put_node].
  pose proof (v_nodes _ _ _ HV n) as Hg. rewrite Hn in Hg. rewrite Hg in Hm. apply view_put; [done| |].
  - destruct Hm as [(L & HL & _) _]. by exists L.
  - split; [intros y; rewrite (attr_merge_has_layer _ _ _ _ y Hm); unfold ohas_layer; cbn; naive_solver|].
    intros k Hk. destruct Hm as [_ Hm]. rewrite Hm by done. cbn. by case_match.
Qed.
Lemma view_again g V E n layers ad attr l x : viewed g V E → asked_layers (g_ns g) layers l → V n = Some x →
  ∃ g', add_node g n layers ad attr = (g', None) ∧ viewed g' (vset n (x.1 ++ l, dupdate x.2 (given_attrs ad attr)) V) E ∧ same_doc g g'.
Proof.
  intros HV Ha Hn. pose proof (v_inv _ _ _ HV) as H. pose proof (add_node_eff g n layers ad attr (proj1 H) (proj2 H)) as He.
  rewrite (check_asked _ _ _ Ha) in He. destruct He as (a & -> & Hm). exists (put_node g n a). split; [done|]. split; [|apply same_doc_put_node].
  pose proof (v_nodes _ _ _ HV n) as Hg. rewrite Hn in Hg. destruct Hg as (b & Hb & HL & HK). rewrite Hb in Hm. apply view_put; [done| |].
  - destruct Hm as [(L & HL' & _) _]. by exists L.
  - split; [intros y; rewrite (attr_merge_has_layer _ _ _ _ y Hm), elem_of_app, <-HL; unfold ohas_layer; naive_solver|].
    intros k Hk. destruct Hm as [_ Hm]. rewrite Hm, dget_dupdate by done. cbn [oget]. by rewrite HK.
Qed.
(** self.node[n].update(d), where d may have layers *)
Lemma view_update g V E n d x : viewed g V E → V n = Some x → match dget "layers" d with None => True | Some v => ∃ l, v = VSet l end →
  ∃ g', node_update g n d = (g', None) ∧
    viewed g' (vset n (match dget "layers" d with Some (VSet l) => l | _ => x.1 end, dupdate x.2 d) V) E ∧ same_doc g g'.
Proof.
  intros HV Hn Hd. pose proof (v_nodes _ _ _ HV n) as Hg. rewrite Hn in Hg. destruct Hg as (a & Ha & HL & HK).
  assert (Hin : n ∈ nodes g) by (apply node_mem; by exists a).
  unfold node_update. pose proof Ha as Ha'. unfold node_attrs in Ha'. rewrite Ha'. exists (put_node g n (dupdate a d)). split.
  { unfold put_node. by rewrite decide_True. }
  split; [|apply same_doc_put_node]. pose proof (proj1 (proj2 (v_inv _ _ _ HV)) n a Ha) as [L0 HL0]. apply view_put; [done| |].
  - destruct (dget "layers" d) as [v|] eqn:Ed; [destruct Hd as [l ->]; exists l|exists L0]; rewrite dget_dupdate, Ed; done.
  - split.
    + intros y. cbn [fst]. unfold has_layer. rewrite dget_dupdate. destruct (dget "layers" d) as [v|]; [destruct Hd as [l ->]; naive_solver|].
      rewrite <-HL. done.
    + intros k Hk. rewrite !dget_dupdate. destruct (dget k d); [done|by apply HK].
Qed.
Lemma view_edge g V E u v layers ad attr l : viewed g V E → is_Some (V u) → is_Some (V v) → asked_layers (g_ns g) layers l →
  ∃ g', add_edge g u v layers None ad attr = (g', None) ∧ viewed g' V (E ++ [(u, v, l, given_attrs ad attr)]) ∧ same_doc g g'.
Proof.
  intros HV Hu Hv Ha. pose proof (view_built _ _ _ HV) as HB.
  destruct (built_edge_in g _ _ u v layers ad attr l HB) as (g' & E1 & B1 & D1); [by rewrite vinfo_ids, (view_in _ _ _ _ HV)..|done|].
  exists g'. split; [done|]. split; [|done]. eapply built_view; [exact B1| |].
  - intros n. rewrite vinfo_ids. apply (view_in _ _ _ _ HV).
  - intros n x Hx. exists (vinfo V n). split; [apply elem_of_list_fmap_1, (view_in _ _ _ _ HV); by eexists|]. split; [apply vinfo_id|].
    unfold vinfo. rewrite Hx. by destruct x.
Qed.
(** removing a node without edges *)
Lemma view_remove g V E n : viewed g V E → is_Some (V n) → Forall (λ e : edge_info, e.1.1.1 ≠ n ∧ e.1.1.2 ≠ n) E →
  ∃ g', remove_node g n = (g', None) ∧ viewed g' (vdel n V) E ∧ same_doc g g'.
Proof.
  intros HV Hn HE. pose proof (v_inv _ _ _ HV) as H. pose proof (remove_node_eff g n (proj1 H)) as He. rewrite decide_True in He by (by apply (view_in _ _ _ _ HV)).
  destruct He as (g' & E1 & C' & HA & HK & _ & D). exists g'. split; [done|]. pose proof (GInv_remove_node g n H) as H'. rewrite E1 in H'. cbn [fst] in H'.
  split; [|by destruct D as (?&?&?&?&?&?)]. split; [done| |].
  - intros m. unfold vdel. rewrite HA. destruct (decide (m = n)); [done|]. apply (v_nodes _ _ _ HV).
  - destruct (v_edges _ _ _ HV) as (es & HP & HF). exists es. split; [|done]. rewrite <-HP. apply same_edges; [apply H|done|].
    intros u v k. unfold edge_attrs. rewrite HK. destruct (decide (u = n ∨ v = n)) as [Hd|Hd]; [|done].
    destruct (dget k (keydict_of g u v)) as [a|] eqn:Ea; [|done]. exfalso.
    assert (Hin : (u, v, k, a) ∈ edges g) by (apply elem_edges; [apply H|exact Ea]). rewrite HP in Hin.
    apply elem_of_list_lookup in Hin as (i & Hi). destruct (Forall2_lookup_l _ _ _ _ _ HF Hi) as (e & He' & H1 & H2 & _). cbn [fst snd] in H1, H2.
    rewrite Forall_forall in HE. destruct (HE e) as [N1 N2]; [by eapply elem_of_list_lookup_2|]. naive_solver.
Qed.
Lemma view_edge_as g V E u v layers ad attr l b : viewed g V E → is_Some (V u) → is_Some (V v) → asked_layers (g_ns g) layers l →
  (∀ k, k ≠ "layers" → dget k (given_attrs ad attr) = dget k b) →
  ∃ g', add_edge g u v layers None ad attr = (g', None) ∧ viewed g' V (E ++ [(u, v, l, b)]) ∧ same_doc g g'.
Proof.
  intros HV Hu Hv Ha Hb. destruct (view_edge g V E u v layers ad attr l HV Hu Hv Ha) as (g' & E1 & [H1 H2 (es & HP & HF)] & D1). exists g'. split; [done|]. split; [|done].
  split; [done|done|]. exists es. split; [done|]. apply Forall2_app_inv_r in HF as (es1 & es2 & F1 & F2 & ->). apply Forall2_app; [done|].
  inversion F2 as [|e ? es' ? (A1 & A2 & A3 & A4) F3]; subst. constructor; [|done]. split; [done|]. split; [done|]. split; [done|]. cbn [snd fst] in *. intros k Hk. by rewrite A4, Hb.
Qed.
