(** * ExportThm: the two copies (proofs) *)
From Verif Require Import PyBase DocGraph Relabel SpecGraph DocGraphFacts SpanFacts Effects Export SpecExport ExportFacts.

Lemma ddel_same {V} (k : string) (d : dict string V) : ddel k (ddel k d) = ddel k d.
Proof. induction d as [|[k' v] d IH]; [reflexivity|]. cbn [ddel]. destruct (decide (k = k')) as [->|H]; [exact IH|]. cbn [ddel]. rewrite decide_False by exact H. by rewrite IH. Qed.
Lemma dset_again (k : string) (v : pyval) (d : attrs) : dset k v (dset k v d) = dset k v d.
Proof. induction d as [|[k' v'] d IH]; [cbn; by rewrite decide_True by reflexivity|]. cbn [dset]. destruct (decide (k = k')) as [->|H]; cbn [dset]; [by rewrite decide_True by reflexivity|]. rewrite decide_False by exact H. by rewrite IH. Qed.
(** ** Removing metadata *)
Definition without (l : list nid) (s s' : graph) : Prop :=
  (same_rest s s' ∧ Consistent s') ∧ nodes s' = nodes s ∧ (∀ n, node_attrs s' n = if decide (n ∈ l) then ddel "metadata" <$> node_attrs s n else node_attrs s n) ∧ ∀ u v k, edge_attrs s' u v k = edge_attrs s u v k.
Lemma drop_one n s a : Consistent s → node_attrs s n = Some a → ∃ s', change_node drop_metadata n s = Ok s' ∧ without [n] s s'.
Proof.
  intros C Ha. unfold change_node. rewrite Ha. cbn [of_option rbind drop_metadata]. eexists. split; [reflexivity|]. assert (Hn : n ∈ nodes s) by (apply node_mem; by eexists). split; [split; [done|by apply set_consistent]|]. split; [by apply nodes_set|]. split; [|reflexivity].
  intros m. rewrite node_attrs_set. destruct (decide (m = n)) as [->|H]; [rewrite decide_True by apply elem_of_list_singleton, eq_refl; by rewrite Ha|]. by rewrite decide_False by (by intros ?%elem_of_list_singleton).
Qed.
Lemma drop_there n s : Consistent s → ∃ s', drop_if_there n s = Ok s' ∧ without [n] s s'.
Proof.
  intros C. unfold drop_if_there. destruct (dmem n (g_node s)) eqn:E.
  - apply dmem_spec in E. apply node_mem in E as [a Ha]. by eapply drop_one.
  - apply dmem_false in E. exists s. split; [reflexivity|]. split; [split; [done|exact C]|]. split; [done|]. split; [|done]. intros m. destruct (decide (m ∈ [n])) as [->%elem_of_list_singleton|]; [|done]. unfold node_attrs. by rewrite (proj2 (dget_None _ _) E).
Qed.
Lemma without_trans l l' s s1 s2 : without l s s1 → without l' s1 s2 → without (l ++ l') s s2.
Proof.
  intros ((R1 & _) & N1 & A1 & E1) ((R2 & C2) & N2 & A2 & E2). split; [split; [|exact C2]|].
  - destruct R1 as (? & ? & ? & ?), R2 as (? & ? & ? & ?). split; [congruence|]. split; [congruence|]. split; congruence.
  - split; [congruence|]. split; [|intros; by rewrite E2, E1]. intros n. rewrite A2, A1. destruct (decide (n ∈ l')) as [H'|H'], (decide (n ∈ l)) as [H|H].
    + rewrite decide_True by (apply elem_of_app; by left). destruct (node_attrs s n); [|done]. cbn. by rewrite ddel_same.
    + rewrite decide_True by (apply elem_of_app; by right). done.
    + rewrite decide_True by (apply elem_of_app; by left). done.
    + rewrite decide_False by (rewrite elem_of_app; tauto). done.
Qed.
Lemma drop_all l : ∀ s, Consistent s → ∃ s', each drop_if_there l s = Ok s' ∧ without l s s'.
Proof.
  induction l as [|n l IH]; intros s C; [exists s; split; [reflexivity|]; split; [done|]; split; [done|]; split; [|done]; intros n; by rewrite decide_False by apply not_elem_of_nil|].
  destruct (drop_there n s C) as (s1 & E1 & W1). destruct (IH s1 (proj2 (proj1 W1))) as (s2 & E2 & W2). exists s2. rewrite each_cons, E1. split; [exact E2|]. apply (without_trans [n] l s s1 s2 W1 W2).
Qed.

Section thm.
  Context (py_str : pyval → string) (list_text : nat → option string) (merged : option (list nid)) (Hs : ∀ s, py_str (VStr s) = s).
  Definition roots (g : graph) : list nid := [g_root g] ++ [NStr "discoursegraph:root_node"] ++ default [] merged.
  Lemma roots_iff g n : n ∈ roots g ↔ former_root merged g n.
  Proof.
    unfold roots, former_root. rewrite !elem_of_app, !elem_of_list_singleton. destruct merged as [ns|]; cbn [default]; unfold id; [|rewrite elem_of_nil; naive_solver]. naive_solver.
  Qed.
  Lemma remove_ok g : Consistent g → g_root g ∈ nodes g → ∃ s, remove_root_metadata merged g = Ok s ∧ without (roots g) g s.
  Proof.
    intros C [a Ha]%node_mem. destruct (drop_one _ _ _ C Ha) as (s1 & E1 & W1). destruct (drop_there (NStr "discoursegraph:root_node") s1 (proj2 (proj1 W1))) as (s2 & E2 & W2). unfold remove_root_metadata. rewrite E1. cbn [rbind]. rewrite E2. cbn [rbind]. unfold roots. rewrite app_assoc. pose proof (without_trans _ _ _ _ _ W1 W2) as W12. destruct merged as [ns|]; cbn [default]; unfold id.
    - destruct (drop_all ns s2 (proj2 (proj1 W2))) as (s3 & E3 & W3). exists s3. split; [exact E3|]. by eapply without_trans.
    - exists s2. split; [reflexivity|]. rewrite app_nil_r. exact W12.
  Qed.
  Lemma remove_no g : g_root g ∉ nodes g → remove_root_metadata merged g = Err KeyError.
  Proof. intros H. unfold remove_root_metadata, change_node. destruct (node_attrs g (g_root g)) as [a|] eqn:E; [|reflexivity]. exfalso. apply H, node_mem. by eexists. Qed.

  (** ** Attributes *)
  Definition F1 (a : attrs) : attrs := match dget "layers" a with Some v => dset "layers" (VStr (py_str v)) a | None => a end.
  Definition F2 (a : attrs) : attrs := (λ p : string * pyval, (p.1, list_value list_text p.2)) <$> a.
  Definition has_layers (a : attrs) : Prop := dget "layers" a ≠ None.
  Lemma f1 a : has_layers a → layers_text py_str a = Ok (F1 a) ∧ has_layers (F1 a).
  Proof. unfold has_layers, layers_text, F1. destruct (dget "layers" a) as [v|]; [|done]. intros _. cbn [of_option rbind]. split; [reflexivity|]. by rewrite dget_dset_eq. Qed.
  Lemma f1_again a : has_layers a → F1 (F1 a) = F1 a.
  Proof using Hs. unfold has_layers, F1. destruct (dget "layers" a) as [v|]; [|done]. intros _. rewrite dget_dset_eq, Hs. apply dset_again. Qed.
  Lemma f2_again a : F2 (F2 a) = F2 a.
  Proof. unfold F2. rewrite <-list_fmap_compose. apply list_fmap_ext. intros i [k v] _. cbn. f_equal. destruct v as [| | | | | |j]; try reflexivity. cbn. destruct (list_text j) eqn:E; [reflexivity|]. cbn. by rewrite E. Qed.
  Lemma get_f2 a key : dget key (F2 a) = list_value list_text <$> dget key a.
  Proof. induction a as [|[k v] a IH]; [reflexivity|]. unfold F2 in *. rewrite fmap_cons. cbn [dget fst snd]. destruct (decide (key = k)); [reflexivity|exact IH]. Qed.
  Lemma get_f1 a key : dget key (F1 a) = if decide (key = "layers") then (λ v, VStr (py_str v)) <$> dget "layers" a else dget key a.
  Proof. unfold F1. destruct (dget "layers" a) as [v|] eqn:E; [rewrite dget_dset; by destruct (decide (key = "layers"))|]. destruct (decide (key = "layers")) as [->|]; [by rewrite E|done]. Qed.
  Lemma list_value_is v : (∃ i s, v = VObj i ∧ list_text i = Some s ∧ list_value list_text v = VStr s) ∨ ((∀ i s, v = VObj i → list_text i ≠ Some s) ∧ list_value list_text v = v).
  Proof. destruct v as [| | | | | |i]; try (right; split; [done|reflexivity]). cbn. destruct (list_text i) as [s|] eqn:E; [left; by exists i, s|]. right. split; [|reflexivity]. intros j s [= <-]. by rewrite E. Qed.
  (** an attribute dictionary with these values *)
  Lemma exported_by (drop : Prop) a a' : (∀ key, ¬ (drop ∧ key = "metadata") → dget key a' = dget key (F2 (F1 a))) → (drop → dget "metadata" a' = None) → exported py_str list_text drop a a'.
  Proof.
    intros H HD. assert (HG : ∀ key v, dget key a = Some v → ∃ v', dget key (F2 (F1 a)) = Some v' ∧ export_value py_str list_text key v v').
    { intros key v Hv. rewrite get_f2, get_f1. unfold export_value. destruct (decide (key = "layers")) as [->|Hk]; [rewrite Hv; cbn; eexists; split; reflexivity|]. rewrite Hv. cbn. eexists. split; [reflexivity|]. destruct (list_value_is v) as [(i & s & ? & ? & E)|[? E]]; rewrite E; [left; by exists i, s|by right]. }
    split; [|split; [|exact HD]].
    - intros key v Hv Hn. rewrite (H key Hn). by apply HG.
    - intros key Hk. destruct (decide (key = "metadata")) as [->|Hm].
      + destruct (dget "metadata" a') as [v|] eqn:E; [|reflexivity]. exfalso. assert (¬ (drop ∧ "metadata" = "metadata")) as Hn by (intros [Hd _]; specialize (HD Hd); congruence). rewrite (H _ Hn), get_f2, get_f1, decide_False, Hk in E; done.
      + rewrite (H key) by tauto. rewrite get_f2, get_f1. destruct (decide (key = "layers")) as [->|]; by rewrite Hk.
  Qed.
  Lemma exported_early (drop : Prop) a : drop → exported py_str list_text drop a (F2 (F1 (ddel "metadata" a))).
  Proof.
    intros Hd. apply exported_by.
    - intros key Hk. rewrite !get_f2, !get_f1, !dget_ddel. destruct (decide (key = "layers")) as [->|]; [reflexivity|]. rewrite decide_False by tauto. reflexivity.
    - intros _. rewrite get_f2, get_f1, decide_False by done. rewrite dget_ddel, decide_True by reflexivity. reflexivity.
  Qed.
  Lemma exported_late (drop : Prop) a : drop → exported py_str list_text drop a (ddel "metadata" (F2 (F1 a))).
  Proof.
    intros Hd. apply exported_by; [intros key Hk; rewrite dget_ddel, decide_False by tauto; reflexivity|]. intros _. by rewrite dget_ddel, decide_True by reflexivity.
  Qed.
  Lemma exported_plain (drop : Prop) a : ¬ drop → exported py_str list_text drop a (F2 (F1 a)).
  Proof. intros Hd. by apply exported_by. Qed.

  (** ** Graphs *)
  Definition layered_all (g : graph) : Prop := (∀ n a, node_attrs g n = Some a → has_layers a) ∧ ∀ u v k a, edge_attrs g u v k = Some a → has_layers a.
  Lemma convert_ok g : Consistent g → layered_all g → ∃ s s', layerset2str py_str g = Ok s ∧ attriblist2str list_text s = Ok s' ∧ (same_rest g s' ∧ Consistent s') ∧ nodes s' = nodes g ∧
    (∀ n, node_attrs s' n = (λ a, F2 (F1 a)) <$> node_attrs g n) ∧ ∀ u v k, edge_attrs s' u v k = (λ a, F2 (F1 a)) <$> edge_attrs g u v k.
  Proof using Hs.
    intros C [Ln Le]. destruct (change_ok (layers_text py_str) F1 has_layers f1 f1_again g C Ln Le) as (s & E & (R & C1) & N & A & B).
    destruct (change_ok (lists_text list_text) F2 (λ _, True) (λ a _, conj eq_refl I) (λ a _, f2_again a) s C1 (λ _ _ _, I) (λ _ _ _ _ _, I)) as (s' & E' & (R' & C2) & N' & A' & B').
    exists s, s'. split; [exact E|]. split; [exact E'|]. split; [split; [|exact C2]|]. { destruct R as (? & ? & ? & ?), R' as (? & ? & ? & ?). split; [congruence|]. split; [congruence|]. split; congruence. }
    split; [congruence|]. split; [intros n; rewrite A', A; by destruct (node_attrs g n)|intros u v k; rewrite B', B; by destruct (edge_attrs g u v k)].
  Qed.
  Lemma gexf_ok g : Consistent g → layered_all g → g_root g ∈ nodes g → ∃ g', gexf_copy py_str list_text merged g = Ok g' ∧ prepared py_str list_text merged g g'.
  Proof using Hs.
    intros C [Ln Le] Hr. destruct (remove_ok g C Hr) as (s & E & (R & C1) & N & A & B). assert (L1 : layered_all s).
    { split; [|intros u v k a; rewrite B; apply Le]. intros n a. rewrite A. destruct (decide (n ∈ roots g)); [|apply Ln]. destruct (node_attrs g n) as [b|] eqn:Eb; [|done]. intros [= <-]. unfold has_layers. rewrite dget_ddel, decide_False by done. by eapply Ln. }
    destruct (convert_ok s C1 L1) as (s1 & s2 & E1 & E2 & (R2 & C2) & N2 & A2 & B2). exists s2. unfold gexf_copy. rewrite E. cbn [rbind]. rewrite E1. cbn [rbind]. split; [exact E2|]. destruct R as (? & ? & ? & ?), R2 as (? & ? & ? & ?). split.
    - split; [congruence|]. split; [congruence|]. split; congruence.
    - congruence.
    - intros n a Ha. rewrite A2, A. destruct (decide (n ∈ roots g)) as [H'|H']; rewrite Ha; cbn; (eexists; split; [reflexivity|]); rewrite roots_iff in H'; [by apply exported_early|by apply exported_plain].
    - intros u v k a Ha. rewrite B2, B, Ha. cbn. eexists. split; [reflexivity|]. apply exported_plain. intros [].
    - intros u v k Ha. by rewrite B2, B, Ha.
  Qed.
  Lemma graphml_ok g : Consistent g → layered_all g → g_root g ∈ nodes g → ∃ g', graphml_copy py_str list_text merged g = Ok g' ∧ prepared py_str list_text merged g g'.
  Proof using Hs.
    intros C L Hr. destruct (convert_ok g C L) as (s1 & s2 & E1 & E2 & (R2 & C2) & N2 & A2 & B2). destruct R2 as (X1 & X2 & X3 & X4). destruct (remove_ok s2 C2) as (s & E & (R & C1) & N & A & B); [by rewrite X3, N2|]. exists s. unfold graphml_copy. rewrite E1. cbn [rbind]. rewrite E2. cbn [rbind]. split; [exact E|]. destruct R as (? & ? & ? & ?). split.
    - split; [congruence|]. split; [congruence|]. split; congruence.
    - congruence.
    - intros n a Ha. rewrite A. assert (roots s2 = roots g) as -> by (unfold roots; by rewrite X3). destruct (decide (n ∈ roots g)) as [H'|H']; rewrite A2, Ha; cbn; (eexists; split; [reflexivity|]); rewrite roots_iff in H'; [by apply exported_late|by apply exported_plain].
    - intros u v k a Ha. rewrite B, B2, Ha. cbn. eexists. split; [reflexivity|]. apply exported_plain. intros [].
    - intros u v k Ha. by rewrite B, B2, Ha.
  Qed.
  Lemma copies_no g : Consistent g → layered_all g → g_root g ∉ nodes g → gexf_copy py_str list_text merged g = Err KeyError ∧ graphml_copy py_str list_text merged g = Err KeyError.
  Proof using Hs.
    intros C L Hr. split; [unfold gexf_copy; by rewrite remove_no by exact Hr|]. destruct (convert_ok g C L) as (s1 & s2 & E1 & E2 & (R2 & C2) & N2 & A2 & B2). destruct R2 as (X1 & X2 & X3 & X4). unfold graphml_copy. rewrite E1. cbn [rbind]. rewrite E2. cbn [rbind]. apply remove_no. by rewrite X3, N2.
  Qed.
End thm.
