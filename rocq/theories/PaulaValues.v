(** * PaulaValues: values that are no text (C84) *)
From Verif Require Import PyBase DocGraph Relabel StrNum Query Text Paula.
From Verif Require Import SpecGraph DocGraphFacts History Effects RelabelFacts MergeFacts GraphThms AllHist SpecQuery SpanFacts SelectFacts OffsetFacts LabelFacts GeoffFacts SpecExbWrite ExbWrite SpecPaula PaulaFacts PaulaDoc PaulaAll PaulaLost.

Lemma feats_inv order keep a fs : any_order order → make_feats order keep a = Ok fs → ∀ k v, dget k a = Some v → keep k = true → ∃ s, v = VStr s.
Proof.
  intros HO H k v Hk Hkeep. unfold make_feats in H. apply rconcat_Ok in H as (rs & H & _). assert (Hin : k ∈ order _ (remove_dups (dkeys a))).
  { rewrite (HO _ (remove_dups _)). apply elem_of_remove_dups. apply dget_Some_elem in Hk. apply elem_of_list_fmap. exists (k, v). done. }
  apply elem_of_list_lookup in Hin as [i Hi]. destruct (Forall2_lookup_l _ _ _ _ _ H Hi) as (y & _ & Hy). cbn in Hy. rewrite Hkeep, Hk in Hy. destruct v; try done. eauto.
Qed.
Lemma accepted_values order salt corpus g files l : any_order order → reachable (λ o, no_bare_layers o ∧ no_empty_tuple o) g → apart_ids g → paula order salt corpus g (Ok files) → top_layer g l →
  (∀ n a k v, node_attrs g n = Some a → has_layer a l → ¬ is_token g n → of_node k → dget k a = Some v → ∃ s, v = VStr s) ∧
  ∀ t a k v, t ∈ g_tokens g → node_attrs g t = Some a → of_token l k → dget k a = Some v → ∃ s, v = VStr s.
Proof.
  intros HO HR HA HP Hl. assert (HN : NInv g) by (by eapply reach_NInv). assert (C : Consistent g) by apply HN. assert (L : Layered g) by apply HN.
  remember (Ok files) as r eqn:Er. destruct HP as [g' e H|g' e H HE|g' ts H HE]; [done..|]. destruct (relabel_xid g _ HN HA H) as (g2 & [= <-] & N' & (D1 & D2 & _) & I').
  destruct (top_layers_ok g C L) as (ls & El & HL). rewrite El in Er. cbn [rbind] in Er. set (n := corpus +:+ _) in *. set (layers := order _ (remove_dups ls)) in *. set (g1 := set_tokens ts g') in *.
  assert (Hin : l ∈ layers) by (subst layers; rewrite (HO _ (remove_dups ls)), elem_of_remove_dups; by apply HL).
  unfold paula_files in Er. apply rbind_Ok in Er as (f1 & _ & Er). apply rbind_Ok in Er as (f2 & _ & Er). apply rbind_Ok in Er as (fs & E3 & _). apply rconcat_Ok in E3 as (rs & E3 & _). apply elem_of_list_lookup in Hin as [i Hi]. destruct (Forall2_lookup_l _ _ _ _ _ E3 Hi) as (y & _ & Hy). clear E3. unfold layer_files in Hy.
  apply rbind_Ok in Hy as (b1 & E1 & Hy). apply rbind_Ok in Hy as (b2 & _ & Hy). apply rbind_Ok in Hy as (b3 & _ & Hy). apply rbind_Ok in Hy as (b4 & E4 & _).
  assert (C' : Consistent g1) by (apply set_tokens_C, N'). assert (L' : Layered g1) by apply N'. assert (I1 : iso xid g g1) by (by apply set_tokens_iso). assert (N1 : g_ns g1 = g_ns g) by exact D2.
  split.
  - intros m a k v Ha Hla Ht Hk Hv. unfold struct_anno_file in E4. destruct (nodes_by_layer_ok g1 (LOne l) C' L') as (r & Er & _ & HS). rewrite Er in E4. cbn [rbind] in E4. apply rbind_Ok in E4 as (r' & E5 & E4). apply rfilter_Ok in E5 as [_ ->]. apply rbind_Ok in E4 as (x & E4 & _). apply rmap_Ok in E4.
    destruct (iso_node _ _ _ I1 _ _ Ha) as (a' & Ha' & EA). assert (Hm : m ∈ nodes g) by (apply node_mem; eauto).
    assert (Hin : xid m ∈ filter (λ n, (let! t := istoken g1 n in Ok (negb t)) = Ok true) r).
    { apply elem_of_list_filter. split; [|apply HS; exists a'; split; [done|by apply EA]]. destruct (xtoken g g1 I1 N1 m Hm) as (b & -> & Hb). cbn. destruct b; [|done]. exfalso. by apply Ht, Hb. }
    apply elem_of_list_lookup in Hin as [j Hj]. destruct (Forall2_lookup_l _ _ _ _ _ E4 Hj) as (z & _ & Hz). rewrite Ha' in Hz. cbn [of_option rbind] in Hz. apply rbind_Ok in Hz as (fs' & Hf & _). eapply (feats_inv _ _ _ _ HO Hf k v); [|by apply kept_iff]. destruct EA as [_ EA]. rewrite <-EA; [done|]. intros ->. apply Hk. left.
  - intros t a k v Ht Ha Hk Hv. unfold token_anno_file in E1. apply rbind_Ok in E1 as (x & E1 & _). apply rmap_Ok in E1. apply elem_of_list_lookup in Ht as [j Hj]. apply rmap_Ok in HE. destruct (Forall2_lookup_l _ _ _ _ _ HE Hj) as (t' & Hj' & Et). destruct (dget t (xpointer_map g)) as [t1|] eqn:Eg; [|done]. injection Et as ->. rewrite map_get in Eg; [|apply node_mem; eauto|apply C]. injection Eg as <-.
    destruct (Forall2_lookup_l _ _ _ _ _ E1 Hj') as (z & _ & Hz). destruct (iso_node _ _ _ I1 _ _ Ha) as (a' & Ha' & EA). rewrite Ha' in Hz. cbn [of_option rbind] in Hz. apply rbind_Ok in Hz as (fs' & Hf & _). eapply (feats_inv _ _ _ _ HO Hf k v).
    + destruct EA as [_ EA]. rewrite <-EA; [done|]. intros ->. destruct Hk as [Hk _]. apply Hk. left.
    + destruct Hk as (K1 & K2 & K3). apply andb_true_iff. split; [|by apply lit_prefix]. apply kept_iff. unfold ignored_token_attribs. apply not_elem_of_app. done.
Qed.
(** ** Parts of the main theorem *)
Lemma paula_all order salt corpus g n ss r : any_order order → exportable_as corpus g n ss → paula order salt corpus g r →
  ∃ files layers ms anno, r = Ok files ∧ NoDup layers ∧ (∀ l, l ∈ layers ↔ top_layer g l) ∧ dkeys files = names_of n layers ++ [n +:+ ".anno"] ∧ NoDup (dkeys files) ∧
      dget (n +:+ ".text") files = Some (PText (str (joined ss))) ∧
      dget (n +:+ ".tok") files = Some (PMarks "tok" (n +:+ ".text.xml") ms) ∧ marks_words g ss ms ∧
      (∀ l, l ∈ layers → layer_said salt g n l files) ∧
      dget (n +:+ ".anno") files = Some anno ∧ lists_files (names_of n layers) anno.
Proof. intros HO (H1 & H2 & H3 & H4 & H5 & H6 & H7) HP. by eapply paula_ok. Qed.
Lemma paula_said order salt corpus g n ss r l : any_order order → exportable_as corpus g n ss → paula order salt corpus g r → top_layer g l → ∃ files, r = Ok files ∧ layer_said salt g n l files.
Proof. intros HO HE HP Hl. destruct (paula_all _ _ _ _ _ _ _ HO HE HP) as (files & layers & ms & anno & E & _ & HL & _ & _ & _ & _ & _ & HS & _). exists files. split; [done|]. by apply HS, HL. Qed.
Lemma paula_ends order salt corpus g n ss : exportable_as corpus g n ss → ∃ r, paula order salt corpus g r.
Proof.
  intros (H1 & H2 & _ & _ & H5 & _). assert (HN : NInv g) by (by eapply reach_NInv). apply paula_some; [apply HN|apply HN|done|done|]. pose proof (tokens_in g ss H5) as HT. rewrite Forall_forall in HT. exact HT.
Qed.
