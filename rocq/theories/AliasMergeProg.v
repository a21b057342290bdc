(** * AliasMergeProg: merging in the stores of programs (proofs) *)
From Verif Require Import PyBase DocGraph Relabel SpecGraph DocGraphFacts Effects History AllHist Alias SpecAlias AliasFacts AliasOps AliasProg AliasMerge SpecAliasMerge AliasMergeFacts AliasMergeRoot.

Lemma literal_bare o : ¬ shares_layers o → no_bare_layers o.
Proof.
  destruct o; try done. cbn. intros H (s & Hs & Hb). destruct s as [n|n d]; [|done].
  destruct (dget "layers" attr) eqn:E; [|done]. exfalso. apply H. split; [apply dget_is_Some; by rewrite E|by exists n].
Qed.
Lemma vexec_all_GInv cs : ∀ gs, Forall literal cs → Forall GInv gs → Forall GInv (vexec_all gs cs).1.
Proof.
  induction cs as [|c cs IH]; intros gs HL HG; [done|]. apply List.Forall_cons_iff in HL as [Hc HL]. cbn [vexec_all].
  assert (H1 : Forall GInv (vexec gs c).1).
  { destruct c as [name ns root|i o]; cbn [vexec].
    - apply Forall_app. split; [done|]. apply Forall_singleton. apply GInv_init.
    - destruct (gs !! i) as [g|] eqn:E; [|done]. pose proof (GInv_step g o (literal_bare o (proj2 Hc))) as H.
      destruct (step g o) as [g' e]. cbn [fst] in *. apply Forall_insert; [done|]. apply H. rewrite Forall_lookup in HG. by eapply HG. }
  destruct (vexec gs c) as [gs1 e1]. cbn [fst] in H1. specialize (IH gs1 HL H1).
  destruct (vexec_all gs1 cs) as [gs2 es]. exact IH.
Qed.
Lemma lookup_rest {A} (l : list A) i j b : i ≠ j → l !! j = Some b → ∃ j', delete i l !! j' = Some b ∧ (j' = j ∧ j < i ∨ S j' = j ∧ i < j).
Proof.
  intros Hij Hj. destruct (decide (j < i)).
  - exists j. split; [by rewrite lookup_delete_lt|left; lia].
  - exists (j - 1). split; [|right; lia]. rewrite lookup_delete_ge by lia. by replace (S (j - 1)) with j by lia.
Qed.
Lemma two_of {A} (l : list A) i j a b : i ≠ j → l !! i = Some a → l !! j = Some b →
  ∃ r, l ≡ₚ a :: b :: r ∧ ∀ k c, k ≠ i → k ≠ j → l !! k = Some c → c ∈ r.
Proof.
  intros Hij Hi Hj. destruct (lookup_rest l i j b Hij Hj) as (j' & Hj' & Hjj).
  exists (delete j' (delete i l)). split.
  - rewrite (delete_Permutation l i a Hi) at 1. by rewrite (delete_Permutation (delete i l) j' b Hj') at 1.
  - intros k c Hki Hkj Hk. destruct (lookup_rest l i k c) as (k' & Hk' & Hkk); [done|done|].
    destruct (lookup_rest (delete i l) j' k' c) as (k2 & Hk2 & _); [lia|done|]. by eapply elem_of_list_lookup_2.
Qed.
Lemma held_perm (gs gs' : list hgraph) : gs ≡ₚ gs' → (gs ≫= locs) ≡ₚ (gs' ≫= locs).
Proof. intros H. by rewrite H. Qed.

Lemma merge_prog cs st es i j g og h' g' e : Forall literal cs → exec_all empty_store cs = (st, es) → i ≠ j →
  st_graphs st !! i = Some g → st_graphs st !! j = Some og → plain_tokens (graph_of (st_heap st) og) →
  h_merge_renamed (st_heap st) g og = (h', g', e) →
  (graph_of h' g', e) = merge_renamed (graph_of (st_heap st) g) (graph_of (st_heap st) og) ∧
  (∃ rest, st_graphs st ≡ₚ g :: og :: rest ∧ HInv h' ((g' :: rest) ≫= locs)) ∧
  (∀ k gk, k ≠ i → k ≠ j → st_graphs st !! k = Some gk → graph_of h' gk = graph_of (st_heap st) gk) ∧
  g_node (graph_of h' og) = g_node (graph_of (st_heap st) og) ∧
  (e = None → graph_of h' og = relaid_root (h_ns g) (graph_of (st_heap st) og)).
Proof.
  intros HL E Hij Hi Hj Htok Em. destruct (exec_all_ok cs empty_store st es empty_ok HL E) as [HI HV].
  destruct (two_of _ i j g og Hij Hi Hj) as (rest & Hp & Hrest).
  assert (HI' : HInv (st_heap st) (locs g ++ locs og ++ (rest ≫= locs))).
  { eapply HInv_perm; [exact HI|]. exact (held_perm _ _ Hp). }
  assert (HG : GInv (graph_of (st_heap st) og)).
  { pose proof (vexec_all_GInv cs (shown empty_store) HL (List.Forall_nil _)) as H. rewrite <-HV in H. cbn [fst] in H. rewrite Forall_lookup in H.
    apply (H j). unfold shown. by rewrite list_lookup_fmap, Hj. }
  destruct (merge_heap _ _ _ _ _ _ _ HI' HG Htok Em) as (P1 & P2 & P3 & P4 & P5).
  split_and!; [done|by exists rest| |done|done].
  intros k gk Hki Hkj Hk. specialize (Hrest k gk Hki Hkj Hk).
  eapply (graph_of_ext _ _ _ (rest ≫= locs)); [|exact P3|].
  - eapply HInv_subm; [exact HI'|]. rewrite app_assoc. by apply submseteq_inserts_l.
  - intros l Hl. apply elem_of_list_bind. by exists gk.
Qed.
