(** * MergingEmpty: merging into a new document (proofs) *)
From Verif Require Import PyBase DocGraph Relabel SpecGraph DocGraphFacts Effects AllHist MergeFacts MergeAll Witness Merging SpecMerging MergingFacts MergingThm.

Lemma init_facts name ns root : g_ns (init_graph name ns root) = ns ∧ g_tokens (init_graph name ns root) = [] ∧ nodes (init_graph name ns root) = [g_root (init_graph name ns root)].
Proof. unfold init_graph. generalize (match root with None => NStr (ns +:+ ":root_node") | Some (NStr "") => NStr (ns +:+ ":root_node") | Some (NInt 0%Z) => NStr (ns +:+ ":root_node") | Some r => r end). intros r. split; [reflexivity|]. split; reflexivity. Qed.
Section empty.
  Context (ts : list pyval) (name ns : string) (root : option nid) (og : graph) (ogs : list graph).
  Notation g := (init_graph name ns root).
  Context (HR : reachable (λ o, no_bare_layers o ∧ no_empty_tuple o) g).
  Context (H : layers_of_text_for ns ts og ogs) (Ho : rooted og) (Ht : true_text ns og) (Hr : Forall (λ d, g_root g ∉ nodes d) (og :: ogs)).
  Lemma e_aligned m : aligned g og m = m.
  Proof. unfold aligned. rewrite (proj1 (proj2 (init_facts name ns root))). by destruct (g_tokens og). Qed.
  Lemma e_merge r : merge_graphs g og r → ∃ g1, r = (g1, None) ∧ merge_result (aligned g og) g og g1.
  Proof using All.
    destruct (init_facts name ns root) as (E1 & E2 & E3). destruct Ho as (O1 & O2 & O3). pose proof (lt_built _ _ _ _ H) as T. apply Forall_cons in T as [Ro _]. pose proof (lt_once _ _ _ _ H) as T. apply Forall_cons in T as [No _]. pose proof Hr as T. apply Forall_cons in T as [Hr1 _]. intros Hm.
    assert (HF : ∀ t, t ∈ g_tokens g → t ∉ nodes og ∧ nid_truthy t = true) by (intros t Hx; rewrite E2 in Hx; by apply elem_of_nil in Hx).
    assert (N1 : NoDup (g_tokens g)) by (rewrite E2; constructor). assert (R1 : g_root g ∈ nodes g) by (rewrite E3; by apply elem_of_list_singleton).
    assert (R2 : g_root og ∉ nodes g). { rewrite E3. intros Hx%elem_of_list_singleton. rewrite Hx in O1. done. }
    destruct (merge_graphs_ok g og r (reach_NInv _ HR) (reach_NInv _ Ro) N1 No HF R1 O1 R2 O2 O3 Hm) as [(e & _ & E)|(g1 & -> & _ & M)]; [|by exists g1]. unfold create_token_mapping in E. by rewrite E2 in E.
  Qed.
  Lemma e_exists : ∃ r, merge_graphs g og r.
  Proof using All.
    destruct (init_facts name ns root) as (E1 & E2 & E3). exists (merge_exec g og). apply merge_exec_ok. intros m Hm. unfold create_token_mapping in Hm. rewrite E2 in Hm. cbn in Hm. injection Hm as <-. constructor.
  Qed.
  Context (g1 : graph) (Hmg : merge_graphs g og (g1, None)) (M : merge_result (aligned g og) g og g1).
  Lemma e_layers : layers_of_text ts g1 ogs.
  Proof using All.
    destruct (init_facts name ns root) as (E1 & E2 & E3). assert (ET : g_tokens g1 = g_tokens og) by (rewrite (mr_tokens _ _ _ _ M), E2; done). assert (EN : g_ns g1 = ns) by (by rewrite (mr_ns _ _ _ _ M)).
    assert (HN : ∀ n, n ∈ nodes g1 → n = g_root g ∨ n ∈ nodes og). { intros n [Hn|(m & Hm & _ & ->)]%(mr_nodes _ _ _ _ M); [left; rewrite E3 in Hn; by apply elem_of_list_singleton in Hn|right; by rewrite e_aligned]. }
    unfold layers_of_text. rewrite EN. split.
    - pose proof (lt_built _ _ _ _ H) as T. apply Forall_cons in T as [Ro T]. apply Forall_cons. split; [|exact T]. exact (R_merge _ _ og (g1, None) HR Ro Hmg).
    - pose proof (lt_text _ _ _ _ H) as T. apply Forall_cons in T as [So T]. apply Forall_cons. split; [|exact T]. unfold says. rewrite ET.
      apply Forall2_same_length_lookup_2; [by eapply said_len|]. intros i n t Hn Hi. destruct (Forall2_lookup_l _ _ _ _ _ So Hn) as (v & Hv & E). rewrite Hi in Hv. injection Hv as <-.
      assert (Hto : n ∈ g_tokens og) by (by eapply elem_of_list_lookup_2). destruct (proj1 (node_mem og n) (said_node _ _ _ So Hto)) as [a Ha].
      destruct (mr_other _ _ _ _ M n a) as (a' & Ha' & _ & _ & HT); [|exact Ha|]. { intros ->. by apply (proj1 (proj2 Ho)). }
      rewrite e_aligned in Ha', HT. rewrite E1 in HT. unfold get_token. rewrite Ha', EN, HT. destruct (dget (ns +:+ ":token") a) as [v|] eqn:Ev; [pose proof (Ht n a v Hto Ha Ev) as Eq; rewrite E in Eq; by injection Eq as ->|].
      assert (node_attrs g n = None) as ->. { destruct (node_attrs g n) as [b|] eqn:Eb; [|done]. exfalso. assert (Hx : n ∈ nodes g) by (apply node_mem; by eexists). rewrite E3 in Hx. apply elem_of_list_singleton in Hx as ->. pose proof Hr as T'. apply Forall_cons in T' as [T' _]. apply T', node_mem. by eexists. }
      cbn [oget]. unfold get_token in E. rewrite Ha in E. exact E.
    - pose proof (lt_once _ _ _ _ H) as T. apply Forall_cons in T as [? T]. apply Forall_cons. by rewrite ET.
    - rewrite ET. exact (lt_truthy _ _ _ _ H).
    - rewrite (mr_root _ _ _ _ M). apply (mr_nodes _ _ _ _ M). left. rewrite E3. by apply elem_of_list_singleton.
    - exact (lt_root _ _ _ _ H).
    - pose proof (lt_apart _ _ _ _ H) as T. pose proof Hr as T'. apply Forall_cons in T' as [_ T'].
      assert (HX : ∀ i d n, ogs !! i = Some d → n ∈ nodes g1 → n ∈ nodes d → False).
      { intros i d n Hd Hn Hn'. destruct (HN n Hn) as [->|Hx]; [by apply (proj1 (Forall_lookup _ _) T' i d Hd)|]. by specialize (T 0 (S i) og d n eq_refl Hd Hx Hn'). }
      intros [|i] [|j] d d' n Hd Hd' Hn Hn'; cbn in Hd, Hd'; [done| | |by apply (T (S i) (S j) d d' n)].
      + injection Hd as <-. by destruct (HX j d' n).
      + injection Hd' as <-. by destruct (HX i d n).
    - exact (lt_ns _ _ _ _ H).
  Qed.
End empty.
Lemma empty_thm ts name ns root og ogs r : layers_of_text_for ns ts og ogs → rooted og → true_text ns og → Forall (λ d, g_root (init_graph name ns root) ∉ nodes d) (og :: ogs) →
  merge_all (init_graph name ns root) (og :: ogs) r → ∃ g1 g', merge_result (aligned (init_graph name ns root) og) (init_graph name ns root) og g1 ∧ r = (g', None) ∧ all_merged g1 ogs g'.
Proof.
  intros H Ho Ht Hr Hm. assert (HR : reachable (λ o, no_bare_layers o ∧ no_empty_tuple o) (init_graph name ns root)) by constructor.
  inversion Hm as [|? ? ? g1 e Hx|? ? ? g1 ? Hx Hy]; subst; destruct (e_merge ts name ns root og ogs HR H Ho Ht Hr _ Hx) as (g2 & E & M); [done|]. injection E as <-.
  pose proof (e_layers ts name ns root og ogs HR H Ho Ht Hr g1 Hx M) as H1. destruct (all_thm ts ogs g1 r H1 Hy) as (g' & -> & A). by exists g1, g'.
Qed.
Lemma empty_exists ts name ns root og ogs : layers_of_text_for ns ts og ogs → rooted og → true_text ns og → Forall (λ d, g_root (init_graph name ns root) ∉ nodes d) (og :: ogs) → ∃ r, merge_all (init_graph name ns root) (og :: ogs) r.
Proof.
  intros H Ho Ht Hr. assert (HR : reachable (λ o, no_bare_layers o ∧ no_empty_tuple o) (init_graph name ns root)) by constructor.
  destruct (e_exists ts name ns root og ogs HR H Ho Ht Hr) as [r Hx]. destruct (e_merge ts name ns root og ogs HR H Ho Ht Hr r Hx) as (g1 & -> & M). destruct (all_exists ts ogs g1 (e_layers ts name ns root og ogs HR H Ho Ht Hr g1 Hx M)) as [r Hy]. exists r. by eapply MA_step.
Qed.
