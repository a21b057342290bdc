(** * PaulaLost: tokens whose id has no colon (C83) *)
From Verif Require Import PyBase DocGraph Relabel StrNum Query Text Paula.
From Verif Require Import SpecGraph DocGraphFacts History Effects RelabelFacts MergeFacts GraphThms AllHist SpecQuery SpanFacts SelectFacts OffsetFacts LabelFacts GeoffFacts SpecExbWrite ExbWrite SpecPaula PaulaFacts PaulaDoc PaulaAll.
From Verif Require LabelFacts.

Section Lost.
  Context (ns : string) (t : nid).
  Definition fine (g : graph) : Prop := GInv g ∧ g_ns g = ns.
  Definition lost (g : graph) : Prop := fine g ∧ ∀ a, node_attrs g t = Some a → dget (ns +:+ ":token") a = None.
  Lemma new_node : dget (ns +:+ ":token") [("layers", VSet [ns])] = None.
  Proof using Type. cbn [dget]. rewrite decide_False; [done|]. intros E. by apply (AnaphoraFacts.key_layers _ _ E). Qed.
  Lemma edges_step e g : (fine g → fine (add_edges_from1 g [] e).1) ∧ (lost g → lost (add_edges_from1 g [] e).1).
  Proof using Type.
    assert (HK : fine g → fine (add_edges_from1 g [] e).1 ∧ ∀ a, node_attrs (add_edges_from1 g [] e).1 t = Some a → node_attrs g t = Some a ∨ a = [("layers", VSet [ns])]).
    { intros [H0 N0]. pose proof (GInv_add_edges_from1 g [] e H0) as HG. pose proof (add_edges_from1_eff g [] e H0) as He.
      destruct (tup_layers _ _) as [| | | |l| |]; try (rewrite He; cbn [fst]; split; [done|]; by left).
      simpl in He. destruct He as (k & a & g1 & E & Hg1 & _). rewrite E in HG |- *. cbn [fst] in *.
      destruct (edges_from1_cases g e k g1 H0 Hg1) as (H1 & Hu & Hv & Hna & _ & _ & Hns & _). split; [split; [done|]|].
      - pose proof (put_edge_other g1 (e_u e) (e_v e) k a) as (?&Hpn&?). simpl in *. congruence.
      - intros b. rewrite node_attrs_put_edge, Hna. assert (Hns' : g_ns (with_node g (e_u e)) = g_ns g) by (pose proof (with_node_other g (e_u e)); naive_solver).
        rewrite !node_attrs_with_node, Hns', N0. destruct (node_attrs g t) as [c|]; [by left|]. destruct (decide (t = e_u e)); [intros [= <-]; by right|]. destruct (decide (t = e_v e)); [intros [= <-]; by right|done]. }
    split; [intros H; by apply HK|]. intros [H1 H2]. destruct (HK H1) as [F G]. split; [done|]. intros a Ha. apply G in Ha as [Ha| ->]; [by apply H2|apply new_node].
  Qed.
  Lemma edges_lost es g : lost g → lost (add_edges_from g es None []).1.
  Proof using Type. intros H. unfold add_edges_from. apply for_each_inv; [done|]. intros g0 e _ H0. exact (proj2 (edges_step e g0) H0). Qed.
  Lemma edges_fine es g : fine g → fine (add_edges_from g es None []).1.
  Proof using t. intros H. unfold add_edges_from. apply for_each_inv; [done|]. intros g0 e _ H0. exact (proj1 (edges_step e g0) H0). Qed.
  Lemma one_step old new g : fine g → (relabel1 g old new).2 = None → fine (relabel1 g old new).1 ∧ (old = t ∧ new = t ∨ lost g ∧ new ≠ t → lost (relabel1 g old new).1).
  Proof using Type.
    intros [H N]. unfold relabel1. destruct (node_attrs g old) as [a|] eqn:Ha; [|done]. destruct (proj1 (proj2 H) _ _ Ha) as [l Hl]. rewrite Hl.
    assert (Hc : asked_layers (g_ns g) (VSet l) (match l with [] => [g_ns g] | _ => l end)) by (destruct l; [by right|by left]).
    destruct (add_node_full g new (VSet l) (Some a) [] _ H Hc) as (g1 & a1 & He & Ha1 & _ & _ & Hother & _ & D1).
    assert (H1 : GInv g1) by (pose proof (GInv_add_node g new (VSet l) (Some a) [] H) as Hg; by rewrite He in Hg).
    rewrite He. pose proof (remove_node_eff g1 old (proj1 H1)) as Hr1. destruct (decide (old ∈ nodes g1)) as [Hin|Hin]; [|by rewrite Hr1].
    destruct Hr1 as (g2 & Hr2 & C2 & Hn2 & _ & _ & _ & Hns2 & _). rewrite Hr2. pose proof (GInv_remove_node g1 old H1) as H2. rewrite Hr2 in H2. cbn [fst] in H2. intros _.
    assert (F2 : fine g2) by (split; [done|]; unfold same_doc in D1; destruct_and!; congruence).
    split; [by apply edges_fine|]. intros Hor. apply edges_lost. split; [done|]. intros b. rewrite Hn2. destruct Hor as [[-> ->]|[[_ Hlost] Hne]].
    - by rewrite decide_True.
    - destruct (decide (t = old)); [done|]. rewrite Hother by done. apply Hlost.
  Qed.
  Lemma loop_lost m order : dget t m = Some t → (∀ x y, dget x m = Some y → x ≠ t → y ≠ t) → ∀ g, fine g → t ∈ order ∨ lost g → (relabel_loop g m order).2 = None → lost (relabel_loop g m order).1.
  Proof using Type.
    intros Ht Hm. unfold relabel_loop. induction order as [|x order IH]; intros g F HI; cbn [for_each].
    - intros _. destruct HI as [HI|HI]; [by apply elem_of_nil in HI|done].
    - destruct (dget x m) as [y|] eqn:Ex.
      + destruct (relabel1 g x y) as [g' [e|]] eqn:E; [done|]. pose proof (one_step x y g F) as HS. rewrite E in HS. cbn [fst snd] in HS. destruct (HS eq_refl) as [F' HL]. apply IH; [done|]. destruct (decide (x = t)) as [->|Hx].
        * right. apply HL. left. split; [done|]. congruence.
        * destruct HI as [HI|HI]; [apply elem_of_cons in HI as [->|HI]; [done|by left]|]. right. apply HL. right. split; [done|]. by eapply Hm.
      + apply IH; [done|]. destruct HI as [HI|HI]; [apply elem_of_cons in HI as [->|HI]; [congruence|by left]|by right].
  Qed.
End Lost.
Theorem colonless_fails order salt corpus g t r : reachable no_bare_layers g → t ∈ g_tokens g → xid t = t → (∀ m, m ∈ nodes g → m ≠ t → xid m ≠ t) →
  paula order salt corpus g r → ∃ e, r = Err e.
Proof.
  intros HR Ht Hx Hm HP. apply reach_GInv in HR as HG. destruct HP as [g' e H|g' e H HE|g' ts H HE]; [eauto..|].
  assert (HF : fine (g_ns g) g) by done. pose proof (c_nodup _ (proj1 HG)) as HD.
  assert (HN : NoDup (dkeys (xpointer_map g))) by (unfold dkeys, xpointer_map; rewrite <-list_fmap_compose; change (fst ∘ _) with (@id nid); by rewrite list_fmap_id).
  apply rmap_Ok in HE. apply elem_of_list_lookup in Ht as [i Hi]. destruct (Forall2_lookup_l _ _ _ _ _ HE Hi) as (t' & Hi' & Et). destruct (dget t (xpointer_map g)) as [t1|] eqn:Eg; [|done]. injection Et as ->.
  assert (HX : ∀ x y, dget x (xpointer_map g) = Some y → x ∈ nodes g ∧ y = xid x). { intros x y Hxy. apply dget_Some_elem in Hxy. apply elem_of_list_fmap in Hxy as (z & [= -> ->] & Hz). done. }
  apply HX in Eg as EX. destruct EX as [Hin ->]. rewrite Hx in *.
  assert (HL : lost (g_ns g) t g').
  { assert (HK : ∀ x y, dget x (xpointer_map g) = Some y → x ≠ t → y ≠ t) by (intros x y Hxy; apply HX in Hxy as [? ->]; by apply Hm).
    assert (Ho : ∀ order, t ∈ order → relabel_loop g (xpointer_map g) order = (g', None) → lost (g_ns g) t g').
    { intros o Hto E. pose proof (loop_lost (g_ns g) t (xpointer_map g) o Eg HK g HF (or_introl Hto)) as HL. rewrite E in HL. by apply HL. }
    assert (HT : t ∈ (xpointer_map g).*1) by (apply dget_Some_elem in Eg; apply elem_of_list_fmap; exists (t, t); done).
    inversion H as [o Hno Hp E|l Hov Hl E|]; subst.
    - eapply Ho; [|exact E]. by rewrite Hp.
    - eapply Ho; [|exact E]. apply elem_of_reverse. destruct Hl as (_ & Hl & _). apply Hl. by left. }
  destruct (get_top_level_layers g) as [ls|e]; cbn [rbind]; [|eauto]. unfold paula_files, text_file, get_text. cbn [g_tokens set_tokens].
  destruct (tokens2text (set_tokens ts g') ts) as [s|e] eqn:E2; cbn [rbind]; [|eauto]. exfalso. unfold tokens2text in E2. apply rbind_Ok in E2 as (ws & E2 & _). apply rmap_Ok in E2. destruct (Forall2_lookup_l _ _ _ _ _ E2 Hi') as (w & _ & Hw). apply token_str_is in Hw as (a & Ha & Hg). destruct HL as [[_ Hns] HL]. change (g_ns (set_tokens ts g')) with (g_ns g') in Hg. rewrite Hns in Hg. apply HL in Ha. congruence.
Qed.
(** an export always ends *)
Lemma paula_some order salt corpus g : Consistent g → Layered g → NInv g → apart_ids g → (∀ t, t ∈ g_tokens g → t ∈ nodes g) → ∃ r, paula order salt corpus g r.
Proof.
  intros C L HN HA HT.
  assert (HO : ¬ overlap (xpointer_map g)).
  { intros (x & H1 & H2). apply elem_of_list_fmap in H1 as (p & -> & H1). apply elem_of_list_fmap in H1 as (y & -> & Hy). apply elem_of_list_fmap in H2 as (q & E & H2). apply elem_of_list_fmap in H2 as (z & -> & Hz). cbn [fst snd] in E. destruct (colon_new z) as (Hc & _); [by apply HA|]. apply Hc. change (ensure_xpointer_compatibility z) with (xid z) in E. rewrite <-E. by apply HA. }
  pose proof (RI_disjoint g (xpointer_map g) _ HO (reflexivity _)) as HR. destruct (relabel_xid g _ HN HA HR) as (g' & E & _). rewrite E in HR.
  assert (HM : rmap (λ t, of_option KeyError (dget t (xpointer_map g))) (g_tokens g) = Ok (xid <$> g_tokens g)).
  { apply rmap_Ok. apply Forall2_fmap_r, Forall_Forall2_diag, Forall_forall. intros t Ht. cbn. rewrite (map_get g t); [done|by apply HT|apply C]. }
  eexists. eapply P_files; [exact HR|exact HM].
Qed.
Lemma xid_same t : (∀ s, t = NStr s → ":"%char ∉ chs s) → xid t = t.
Proof. intros H. destruct t as [z|s]; [done|]. by apply LabelFacts.xpointer_unchanged, H. Qed.
