(** * ExportFacts: graphs for GEXF and GraphML (proofs) *)
From Verif Require Import PyBase DocGraph Relabel SpecGraph DocGraphFacts SpanFacts Effects Export SpecExport.

Lemma each_cons {A S} (f : A → S → res S) a l s : each f (a :: l) s = match f a s with Ok s' => each f l s' | Err e => Err e end.
Proof. unfold each. cbn [foldl rbind]. destruct (f a s) as [s'|e]; [reflexivity|]. induction l as [|b l IH]; [reflexivity|]. cbn [foldl rbind]. exact IH. Qed.
(** a loop that keeps [I] and makes [D a] true for each element [a], for good *)
Lemma each_ok {A S} (I : S → Prop) (D : A → S → Prop) (f : A → S → res S) (l : list A) :
  (∀ a s, a ∈ l → I s → ∃ s', f a s = Ok s' ∧ I s' ∧ D a s' ∧ ∀ b, D b s → D b s') → ∀ s, I s → ∃ s', each f l s = Ok s' ∧ I s' ∧ (∀ a, a ∈ l → D a s') ∧ ∀ b, D b s → D b s'.
Proof.
  induction l as [|a l IH]; intros HF s Hs; [exists s; split; [reflexivity|]; split; [exact Hs|]; split; [intros a Ha; by apply elem_of_nil in Ha|done]|].
  destruct (HF a s) as (s1 & E1 & I1 & D1 & K1); [left|exact Hs|]. destruct (IH (λ b s0 Hb, HF b s0 (proj2 (elem_of_cons l b a) (or_intror Hb))) s1 I1) as (s2 & E2 & I2 & D2 & K2).
  exists s2. rewrite each_cons, E1. split; [exact E2|]. split; [exact I2|]. split; [|intros b Hb; by apply K2, K1]. intros b [->|Hb]%elem_of_cons; [by apply K2|by apply D2].
Qed.
Definition same_rest (g g' : graph) : Prop := g_name g' = g_name g ∧ g_ns g' = g_ns g ∧ g_root g' = g_root g ∧ g_tokens g' = g_tokens g.
Lemma edge_attrs_put u v k a g u' v' k' : edge_attrs (put_attr u v k a g) u' v' k' = if decide (u' = u ∧ v' = v ∧ k' = k) then Some a else edge_attrs g u' v' k'.
Proof.
  unfold put_attr, edge_attrs, keydict_of. cbn [set_succ g_succ]. rewrite dget_dset. destruct (decide (u' = u)) as [->|Hu].
  - cbn [default]. unfold id. rewrite dget_dset. destruct (decide (v' = v)) as [->|Hv].
    + cbn [default]. unfold id. rewrite dget_dset. destruct (decide (k' = k)) as [->|Hk]; [by rewrite decide_True by done|]. by rewrite decide_False by tauto.
    + by rewrite decide_False by tauto.
  - by rewrite decide_False by tauto.
Qed.
Lemma node_attrs_put u v k a g n : node_attrs (put_attr u v k a g) n = node_attrs g n.
Proof. reflexivity. Qed.
Lemma node_attrs_set n a g m : node_attrs (set_node (dset n a (g_node g)) g) m = if decide (m = n) then Some a else node_attrs g m.
Proof. unfold node_attrs. cbn [set_node g_node]. by rewrite dget_dset. Qed.
Lemma nodes_set n a g : n ∈ nodes g → nodes (set_node (dset n a (g_node g)) g) = nodes g.
Proof. intros H. unfold nodes. cbn [set_node g_node]. rewrite dkeys_dset. by rewrite decide_True by exact H. Qed.

Lemma set_consistent n a g : Consistent g → n ∈ nodes g → Consistent (set_node (dset n a (g_node g)) g).
Proof. intros C Hn. pose proof (Consistent_upd g n a C Hn) as H. exact H. Qed.
Lemma put_consistent u v k a b g : Consistent g → edge_attrs g u v k = Some b → Consistent (put_attr u v k a g).
Proof.
  intros C H. pose proof (Consistent_put_edge g u v k a C (edge_node_l _ _ _ _ _ C H) (edge_node_r _ _ _ _ _ C H)) as X. unfold put_edge in X. unfold put_attr. unfold edge_attrs, keydict_of in H. unfold keydict_of. destruct (dget v (default [] (dget u (g_succ g)))) as [kd|]; [exact X|done].
Qed.
(** ** Changing all attributes *)
Section change.
  Context (f : attrs → res attrs) (F : attrs → attrs) (P : attrs → Prop) (Hf : ∀ a, P a → f a = Ok (F a) ∧ P (F a)) (Hi : ∀ a, P a → F (F a) = F a) (g : graph) (C : Consistent g).
  Context (Pn : ∀ n a, node_attrs g n = Some a → P a) (Pe : ∀ u v k a, edge_attrs g u v k = Some a → P a).
  Definition some_changed (s : graph) : Prop :=
    (same_rest g s ∧ Consistent s) ∧ nodes s = nodes g ∧ (∀ n, node_attrs s n = node_attrs g n ∨ node_attrs s n = F <$> node_attrs g n) ∧ ∀ u v k, edge_attrs s u v k = edge_attrs g u v k ∨ edge_attrs s u v k = F <$> edge_attrs g u v k.
  Definition node_done (n : nid) (s : graph) : Prop := node_attrs s n = F <$> node_attrs g n.
  Definition edge_done (u v k : nid) (s : graph) : Prop := edge_attrs s u v k = F <$> edge_attrs g u v k.
  Definition all_nodes_done (s : graph) : Prop := ∀ n, n ∈ nodes g → node_done n s.
  Lemma step_node n s : n ∈ nodes g → some_changed s → ∃ s', change_node f n s = Ok s' ∧ some_changed s' ∧ node_done n s' ∧ ∀ m, node_done m s → node_done m s'.
  Proof using Hf Hi Pn.
    intros Hn (R & N & HN & HE). apply node_mem in Hn as Hm. destruct Hm as [a Ha]. unfold change_node.
    assert (∃ b, node_attrs s n = Some b ∧ P b ∧ F b = F a) as (b & Hb & Pb & Fb). { destruct (HN n) as [E|E]; rewrite E, Ha; cbn; eexists; (split; [reflexivity|]); [split; [by eapply Pn|reflexivity]|split; [by eapply Hf, Pn|eapply Hi, Pn, Ha]]. }
    rewrite Hb. cbn [of_option rbind]. rewrite (proj1 (Hf b Pb)). cbn [rbind]. eexists. split; [reflexivity|]. assert (HD : node_done n (set_node (dset n (F b) (g_node s)) s)) by (unfold node_done; rewrite node_attrs_set, decide_True, Ha, Fb by reflexivity; reflexivity).
    split; [split; [split; [apply R|by apply set_consistent; [apply R|rewrite N]]|split; [rewrite nodes_set; [exact N|by rewrite N]|split; [|exact HE]]]|split; [exact HD|]].
    - intros m. destruct (decide (m = n)) as [->|Hmn]; [right; exact HD|]. rewrite node_attrs_set, decide_False by exact Hmn. apply HN.
    - intros m H. destruct (decide (m = n)) as [->|Hmn]; [exact HD|]. unfold node_done. rewrite node_attrs_set, decide_False by exact Hmn. exact H.
  Qed.
  Lemma step_edge u v k s : is_Some (edge_attrs g u v k) → some_changed s ∧ all_nodes_done s → ∃ s', change_edge f u v k s = Ok s' ∧ (some_changed s' ∧ all_nodes_done s') ∧ edge_done u v k s' ∧ ∀ u' v' k', edge_done u' v' k' s → edge_done u' v' k' s'.
  Proof using Hf Hi Pe.
    intros [a Ha] [(R & N & HN & HE) HA]. unfold change_edge.
    assert (∃ b, edge_attrs s u v k = Some b ∧ P b ∧ F b = F a) as (b & Hb & Pb & Fb). { destruct (HE u v k) as [E|E]; rewrite E, Ha; cbn; eexists; (split; [reflexivity|]); [split; [by eapply Pe|reflexivity]|split; [by eapply Hf, Pe|eapply Hi, Pe, Ha]]. }
    rewrite Hb. cbn [of_option rbind]. rewrite (proj1 (Hf b Pb)). cbn [rbind]. eexists. split; [reflexivity|]. assert (HD : edge_done u v k (put_attr u v k (F b) s)) by (unfold edge_done; rewrite edge_attrs_put, decide_True, Ha, Fb by done; reflexivity).
    split; [split; [split; [split; [apply R|by eapply put_consistent; [apply R|exact Hb]]|split; [exact N|split; [exact HN|]]]|exact HA]|split; [exact HD|]].
    - intros u' v' k'. destruct (decide (u' = u ∧ v' = v ∧ k' = k)) as [(-> & -> & ->)|Hne]; [right; exact HD|]. rewrite edge_attrs_put, decide_False by exact Hne. apply HE.
    - intros u' v' k' H. destruct (decide (u' = u ∧ v' = v ∧ k' = k)) as [(-> & -> & ->)|Hne]; [exact HD|]. unfold edge_done. rewrite edge_attrs_put, decide_False by exact Hne. exact H.
  Qed.
  Lemma change_ok : ∃ s, change_all f g = Ok s ∧ (same_rest g s ∧ Consistent s) ∧ nodes s = nodes g ∧ (∀ n, node_attrs s n = F <$> node_attrs g n) ∧ ∀ u v k, edge_attrs s u v k = F <$> edge_attrs g u v k.
  Proof using Hf Hi Pn Pe C.
    assert (H0 : some_changed g) by (split; [split; [done|exact C]|]; split; [done|]; split; intros; by left).
    destruct (each_ok some_changed node_done (change_node f) (nodes g) (λ n s Hn Hs, step_node n s Hn Hs) g H0) as (s1 & E1 & I1 & D1 & _).
    assert (HX : ∀ (e : nid * nid * nid * attrs) s, e ∈ edges g → some_changed s ∧ all_nodes_done s → ∃ s', each (change_edge f e.1.1.1 e.1.1.2) (dkeys (keydict_of s e.1.1.1 e.1.1.2)) s = Ok s' ∧ (some_changed s' ∧ all_nodes_done s') ∧
      edge_done e.1.1.1 e.1.1.2 e.1.2 s' ∧ ∀ b : nid * nid * nid * attrs, edge_done b.1.1.1 b.1.1.2 b.1.2 s → edge_done b.1.1.1 b.1.1.2 b.1.2 s').
    { intros [[[u v] k] a] s He Hs. cbn [fst snd].
      assert (HK : ∀ k', k' ∈ dkeys (keydict_of s u v) ↔ is_Some (edge_attrs g u v k')). { intros k'. rewrite <-dget_is_Some. fold (edge_attrs s u v k'). destruct Hs as [(_ & _ & _ & HE) _]. destruct (HE u v k') as [->| ->]; [done|]. by rewrite fmap_is_Some. }
      destruct (each_ok (λ s, (some_changed s ∧ all_nodes_done s)) (λ p : nid * nid * nid, λ s, edge_done p.1.1 p.1.2 p.2 s) (λ p s, change_edge f p.1.1 p.1.2 p.2 s) ((λ k, (u, v, k)) <$> dkeys (keydict_of s u v))) with (s := s) as (s3 & E3 & I3 & D3 & K3).
      - intros p s' (k' & -> & Hk')%elem_of_list_fmap Hs'. cbn [fst snd]. destruct (step_edge u v k' s' (proj1 (HK k') Hk') Hs') as (x & A & B & D & K). exists x. split; [exact A|]. split; [exact B|]. split; [exact D|]. intros b. apply K.
      - exact Hs.
      - assert (EQ : ∀ l t, each (λ (p : nid * nid * nid) s, change_edge f p.1.1 p.1.2 p.2 s) ((λ k, (u, v, k)) <$> l) t = each (change_edge f u v) l t). { induction l as [|k' l IH]; intros t; [reflexivity|]. rewrite fmap_cons, !each_cons. cbn [fst snd]. destruct (change_edge f u v k' t); [apply IH|reflexivity]. }
        rewrite EQ in E3. exists s3. split; [exact E3|]. split; [exact I3|]. split; [|intros b; apply (K3 (b.1.1.1, b.1.1.2, b.1.2))]. apply (D3 (u, v, k)). apply elem_of_list_fmap. exists k. split; [reflexivity|]. apply HK. apply elem_edges in He; [|exact C]. by eexists. }
    unfold change_all. rewrite E1. cbn [rbind].
    assert (HS1 : g_succ s1 = g_succ g). { clear -E1. revert E1. generalize (nodes g) as l. intros l. assert (G : ∀ l t t', each (change_node f) l t = Ok t' → g_succ t' = g_succ t). { induction l0 as [|n l0 IH]; intros t t'; [by intros [= <-]|]. rewrite each_cons. unfold change_node at 1. destruct (node_attrs t n) as [x|]; [|done]. cbn [of_option rbind]. destruct (f x) as [y|]; [|done]. cbn [rbind]. intros H. by rewrite (IH _ _ H). } apply G. }
    assert (HE1 : edges s1 = edges g) by (unfold edges; by rewrite HS1). rewrite HE1.
    destruct (each_ok (λ s, some_changed s ∧ all_nodes_done s) (λ (e : nid * nid * nid * attrs) s, edge_done e.1.1.1 e.1.1.2 e.1.2 s) (λ (e : nid * nid * nid * attrs) g, each (change_edge f e.1.1.1 e.1.1.2) (dkeys (keydict_of g e.1.1.1 e.1.1.2)) g) (edges g) HX s1) as (s & E & (HS & HA) & D & _); [split; [exact I1|exact D1]|].
    exists s. split; [exact E|]. destruct HS as (R & N & HN & HE). split; [exact R|]. split; [exact N|]. split.
    - intros n. destruct (node_attrs g n) as [a|] eqn:En; [|destruct (HN n) as [X|X]; by rewrite X, En]. rewrite (HA n) by (apply node_mem; by eexists). by rewrite En.
    - intros u v k. destruct (edge_attrs g u v k) as [a|] eqn:Ee; [|destruct (HE u v k) as [X|X]; by rewrite X, Ee]. assert (He : (u, v, k, a) ∈ edges g) by (by apply elem_edges). pose proof (D _ He) as X. cbn [fst snd] in X. rewrite X. by rewrite Ee.
  Qed.
End change.
