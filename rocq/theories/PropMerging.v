(** * PropMerging: merging several documents (C103) *)
From Verif Require Import PyBase DocGraph Relabel SpecGraph DocGraphFacts Effects AllHist MergeAll Witness Merging SpecMerging MergingThm MergingEmpty.

(** ** C103 Merging any number of annotation layers *)
Theorem C103_merged : ∀ ts g ogs r, layers_of_text ts g ogs → merge_layers (g :: ogs) r → ∃ g', r = (g', None) ∧ all_merged g ogs g'.
Proof. intros ts g ogs r H Hm. inversion Hm; subst. by eapply all_thm. Qed.
Print Assumptions C103_merged.
(** there is a result *)
Theorem C103_exists : ∀ ts g ogs, layers_of_text ts g ogs → ∃ r, merge_layers (g :: ogs) r.
Proof. intros ts g ogs H. destruct (all_exists ts ogs g H) as [r Hr]. exists r. by constructor. Qed.
Print Assumptions C103_exists.
(** the order of the documents does not matter for nodes, attributes of other nodes than tokens, and layers *)
Lemma layers_of_text_perm ts g ogs ogs' : ogs ≡ₚ ogs' → layers_of_text ts g ogs → layers_of_text ts g ogs'.
Proof.
  intros HP [H1 H2 H3 H4 H5 H6 H7 H8]. assert (HG : g :: ogs ≡ₚ g :: ogs') by (by apply perm_skip). split; [by rewrite <-HG|by rewrite <-HG|by rewrite <-HG|done|done|by rewrite <-HP| |by rewrite <-HP].
  symmetry in HG. apply Permutation_inj in HG as (_ & f & Hf & HX). intros i j d d' n Hi Hj Hn Hn'. rewrite HX in Hi, Hj. apply Hf. by eapply H7.
Qed.
Theorem C103_order : ∀ ts g ogs ogs' g1 g2, layers_of_text ts g ogs → ogs ≡ₚ ogs' → merge_layers (g :: ogs) (g1, None) → merge_layers (g :: ogs') (g2, None) →
  (∀ n, n ∈ nodes g1 ↔ n ∈ nodes g2) ∧ (∀ n x, ohas_layer (node_attrs g1 n) x ↔ ohas_layer (node_attrs g2 n) x) ∧
  ∀ n key, n ∉ g_tokens g → key ≠ "layers" → key ≠ g_ns g +:+ ":token" → oget (node_attrs g1 n) key = oget (node_attrs g2 n) key.
Proof.
  intros ts g ogs ogs' g1 g2 H HP H1 H2. pose proof (layers_of_text_perm ts g ogs ogs' HP H) as H'.
  destruct (C103_merged ts g ogs _ H H1) as (? & [= <-] & A). destruct (C103_merged ts g ogs' _ H' H2) as (? & [= <-] & A').
  assert (HN : ∀ n, n ∈ nodes g1 ↔ n ∈ nodes g2). { intros n. rewrite (am_nodes _ _ _ A), (am_nodes _ _ _ A'). by setoid_rewrite HP. }
  pose proof (lt_text _ _ _ _ H) as T. apply Forall_cons in T as [Sg T]. rewrite Forall_forall in T. pose proof (lt_once _ _ _ _ H) as TN. apply Forall_cons in TN as [_ TN]. rewrite Forall_forall in TN.
  (* a node of the result that is no token *)
  assert (HX : ∀ n, n ∈ nodes g1 → n ∉ g_tokens g → n ∈ nodes g ∨ ∃ og a, og ∈ ogs ∧ node_attrs og n = Some a ∧ n ≠ g_root og ∧ n ∉ g_tokens og).
  { intros n [?|(og & m & Hog & Hm & Hr & ->)]%(am_nodes _ _ _ A) Ht; [by left|right]. exists og. assert (Hmt : m ∉ g_tokens og).
    { intros Hx. apply elem_of_list_lookup in Hx as [i Hi]. destruct (MergingFacts.aligned_token g og ts i m Sg (T og Hog) (TN og Hog) Hi) as (t & Hti & E). apply Ht. rewrite E. by eapply elem_of_list_lookup_2. }
    rewrite MergingFacts.aligned_other in * by exact Hmt. apply node_mem in Hm as [a Ha]. by exists a. }
  assert (HE : ∀ n, n ∉ g_tokens g → (∀ x, ohas_layer (node_attrs g1 n) x ↔ ohas_layer (node_attrs g2 n) x) ∧ ∀ key, key ≠ "layers" → key ≠ g_ns g +:+ ":token" → oget (node_attrs g1 n) key = oget (node_attrs g2 n) key).
  { intros n Ht. destruct (decide (n ∈ nodes g1)) as [Hn|Hn].
    - destruct (HX n Hn Ht) as [Hg|(og & a & Hog & Ha & Hr & Hot)]; [by rewrite (am_own _ _ _ A n Hg Ht), (am_own _ _ _ A' n Hg Ht)|].
      destruct (am_other _ _ _ A og n a Hog Ha Hr Hot) as (a1 & E1 & L1 & V1). rewrite HP in Hog. destruct (am_other _ _ _ A' og n a Hog Ha Hr Hot) as (a2 & E2 & L2 & V2). rewrite E1, E2. split.
      + intros x. specialize (L1 x). specialize (L2 x). unfold ohas_layer. naive_solver.
      + intros key K1 K2. cbn [oget]. by rewrite V1, V2.
    - assert (Hn2 : n ∉ nodes g2) by (by rewrite <-HN). assert (node_attrs g1 n = None) as -> by (destruct (node_attrs g1 n) eqn:E; [|done]; destruct Hn; apply node_mem; by eexists). assert (node_attrs g2 n = None) as -> by (destruct (node_attrs g2 n) eqn:E; [|done]; destruct Hn2; apply node_mem; by eexists). done. }
  split; [exact HN|]. split; [|intros n key Ht; by apply HE]. intros n x. destruct (decide (n ∈ g_tokens g)) as [Ht|Ht]; [|by apply HE].
  apply elem_of_list_lookup in Ht as [i Hi]. assert (Hl : i < length (g_tokens g)) by (by eapply lookup_lt_Some). pose proof (am_layers _ _ _ A i x Hl) as B1. pose proof (am_layers _ _ _ A' i x Hl) as B2.
  assert (HEx : Exists (token_layer i x) (g :: ogs) ↔ Exists (token_layer i x) (g :: ogs')) by (rewrite !Exists_exists; by setoid_rewrite HP).
  assert (T1 : token_at i g1 = node_attrs g1 n) by (unfold token_at; by rewrite (proj1 (am_rest _ _ _ A)), Hi). assert (T2 : token_at i g2 = node_attrs g2 n) by (unfold token_at; by rewrite (proj1 (am_rest _ _ _ A')), Hi).
  change (token_layer i x g1) with (ohas_layer (token_at i g1) x) in B1. change (token_layer i x g2) with (ohas_layer (token_at i g2) x) in B2. rewrite T1 in B1. rewrite T2 in B2. tauto.
Qed.
Print Assumptions C103_order.
(** the command line tool merges all layers into a new document without text *)
Theorem C103_into_new : ∀ ts name ns root og ogs, let g := init_graph name ns root in
  layers_of_text_for ns ts og ogs → rooted og → true_text ns og → Forall (λ d, g_root g ∉ nodes d) (og :: ogs) →
  (∃ r, merge_all g (og :: ogs) r) ∧
  ∀ r, merge_all g (og :: ogs) r → ∃ g1 g', merge_result (aligned g og) g og g1 ∧ r = (g', None) ∧ all_merged g1 ogs g'.
Proof. intros ts name ns root og ogs g H Ho Ht Hr. split; [by apply (empty_exists ts)|]. intros r. by apply (empty_thm ts). Qed.
Print Assumptions C103_into_new.

Definition words3 : list pyval := [VStr "Time"; VStr "flies"; VStr "fast"].
Definition wit_d : graph := wit "d" "D".
Lemma says_of g ts : get_token g <$> g_tokens g = Ok <$> ts → says g ts.
Proof. unfold says. generalize (g_tokens g). intros l. revert ts. induction l as [|n l IH]; intros [|t ts] E; try done; constructor; [by injection E|]. apply IH. by injection E. Qed.
Lemma apart_of (ls : list graph) : NoDup (concat (nodes <$> ls)) → ∀ i j d d' n, ls !! i = Some d → ls !! j = Some d' → n ∈ nodes d → n ∈ nodes d' → i = j.
Proof.
  induction ls as [|g ls IH]; [intros _ [|i]; done|]. intros (_ & HX & HN)%NoDup_app. specialize (IH HN).
  assert (HL : ∀ i d n, ls !! i = Some d → n ∈ nodes g → n ∈ nodes d → False).
  { intros i d n Hi Hg Hd. apply (HX n Hg). apply elem_of_list_In, in_concat. exists (nodes d). split; [|by apply elem_of_list_In]. apply elem_of_list_In, (elem_of_list_fmap_1 nodes). by eapply elem_of_list_lookup_2. }
  intros [|i] [|j] d d' n Hi Hj Hn Hn'; cbn in Hi, Hj; [done| | |f_equal; by eapply IH].
  - injection Hi as <-. by destruct (HL j d' n).
  - injection Hj as <-. by destruct (HL i d n).
Qed.
Lemma rooted_of P g : reachable P g → g_root g ∈ nodes g → g_root g ∉ g_tokens g → predecessors g (g_root g) = [] → rooted g.
Proof.
  intros C%reach_consistent H1 H2 H3. split; [done|]. split; [done|]. intros u k. destruct (edge_attrs g u (g_root g) k) as [a|] eqn:E; [|done]. exfalso.
  apply (not_elem_of_nil u). rewrite <-H3. apply (c_sp g C u (g_root g)). exact (edge_succ g u (g_root g) k a E).
Qed.
Lemma true_text_of ns g : Forall (λ o, oget (node_attrs g o) (ns +:+ ":token") = None) (g_tokens g) → true_text ns g.
Proof. intros H o a v Ho Ha Hv. rewrite Forall_forall in H. specialize (H o Ho). rewrite Ha in H. cbn [oget] in H. congruence. Qed.
Example C103_hyp : layers_of_text words3 wit_a [wit_b; wit_d].
Proof.
  split.
  - repeat apply List.Forall_cons; [apply wit_plain..|apply List.Forall_nil].
  - repeat apply List.Forall_cons; [apply says_of; vm_compute; reflexivity..|apply List.Forall_nil].
  - repeat apply List.Forall_cons; [vdec..|apply List.Forall_nil].
  - vdec.
  - vdec.
  - repeat apply List.Forall_cons; [|  |apply List.Forall_nil]; (eapply rooted_of; [apply wit_plain|vdec|vdec|vm_compute; reflexivity]).
  - apply apart_of. vdec.
  - repeat apply List.Forall_cons; [|  |apply List.Forall_nil]; apply true_text_of; vdec.
Qed.
(** without the condition on attribute names, the text can change *)
Definition wit_t : graph := (step wit_b (OAddNode (NStr "b1") (VSet ["B"]) None [("A:token", VStr "Zeit")])).1.
Theorem C103_text_refuted : ∃ g og g', reachable plain g ∧ reachable plain og ∧ says g words3 ∧ says og words3 ∧ merge_layers [g; og] (g', None) ∧ get_token g (NStr "a1") = Ok (VStr "Time") ∧ get_token g' (NStr "a1") = Ok (VStr "Zeit").
Proof.
  exists wit_a, wit_t, (merge_exec wit_a wit_t).1. split; [apply wit_plain|]. split; [unfold wit_t; apply R_step; [apply wit_plain|done]|]. split; [apply says_of; vm_compute; reflexivity|]. split; [apply says_of; vm_compute; reflexivity|]. split.
  - constructor. eapply MA_step; [|apply MA_nil].
    assert (E : ((merge_exec wit_a wit_t).1, None) = merge_exec wit_a wit_t) by (vm_compute; reflexivity). rewrite E. apply merge_exec_run. vm_compute. reflexivity.
  - split; vm_compute; reflexivity.
Qed.
Print Assumptions C103_text_refuted.
