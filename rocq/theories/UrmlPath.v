(** * UrmlPath: the start of a longest path *)
From stdpp Require Import relations.
From Verif Require Import PyBase DocGraph Relabel StrNum Query Convert Urml.
From Verif Require Import SpecGraph DocGraphFacts SpecQuery SpanFacts GeoffFacts LabelFacts.

Fixpoint rpath {A} (R : A → A → Prop) (l : list A) : Prop :=
  match l with
  | u :: ((v :: _) as l') => R u v ∧ rpath R l'
  | _ => True
  end.
Lemma rpath_cons {A} (R : A → A → Prop) u v l : rpath R (u :: v :: l) ↔ R u v ∧ rpath R (v :: l).
Proof. done. Qed.
Lemma rpath_snoc {A} (R : A → A → Prop) l u v : rpath R ((l ++ [u]) ++ [v]) ↔ rpath R (l ++ [u]) ∧ R u v.
Proof.
  induction l as [|x l IH]; [cbn; tauto|]. destruct l as [|y l]; [cbn; tauto|]. change (((x :: y :: l) ++ [u]) ++ [v]) with (x :: y :: (l ++ [u]) ++ [v]). change ((x :: y :: l) ++ [u]) with (x :: y :: l ++ [u]).
  rewrite !rpath_cons. change (y :: (l ++ [u]) ++ [v]) with (((y :: l) ++ [u]) ++ [v]). rewrite IH. change (y :: l ++ [u]) with ((y :: l) ++ [u]). tauto.
Qed.
Lemma larger_ok x y : (larger x y = x ∨ larger x y = y) ∧ x.1 ≤ (larger x y).1 ∧ y.1 ≤ (larger x y).1.
Proof. unfold larger, pair_cmp. destruct (Nat.compare_spec x.1 y.1) as [E|E|E]; [destruct (label_cmp x.2 y.2)|..]; split; try (by left); try (by right); lia. Qed.
Lemma largest_ok l : ∀ x, largest x l ∈ x :: l ∧ ∀ y, y ∈ x :: l → y.1 ≤ (largest x l).1.
Proof.
  induction l as [|z l IH]; intros x; cbn [largest foldl]; [split; [left|]; by intros y ->%elem_of_list_singleton|]. change (foldl larger (larger x z) l) with (largest (larger x z) l).
  destruct (larger_ok x z) as (H1 & H2 & H3), (IH (larger x z)) as [I1 I2]. pose proof (I2 (larger x z) ltac:(left)) as I3. split.
  - apply elem_of_cons in I1 as [I1|I1]; [|do 2 right; done]. rewrite I1. destruct H1 as [->| ->]; [left|right; left].
  - intros y [->|[->|Hy]%elem_of_cons]%elem_of_cons; [lia|lia|]. apply I2. by right.
Qed.
Section Longest.
  Context (g : graph) (C : Consistent g).
  Local Notation pre n := (predecessors g n).
  Local Notation R := (λ u v, u ∈ pre v).
  Local Notation D := (dist (S (length (nodes g))) g).
  Lemma dist_cases k n p : dist (S k) g n = Ok p → (pre n = [] ∧ p = (0, n)) ∨
    (∃ q, p.2 ∈ pre n ∧ p.1 = S q.1 ∧ dist k g p.2 = Ok q ∧ ∀ u, u ∈ pre n → ∃ q', dist k g u = Ok q' ∧ q'.1 ≤ q.1).
  Proof.
    cbn [dist]. destruct (rmap _ _) as [ps|] eqn:E; [|done]. cbn [rbind]. intros [= <-]. apply rmap_Ok in E. destruct ps as [|p0 ps]; [left; apply Forall2_nil_inv_r in E; done|right].
    destruct (largest_ok ps p0) as [H1 H2]. set (p := largest p0 ps) in *. set (l := p0 :: ps) in *. clearbody p l.
    assert (HE : ∀ u, u ∈ pre n → ∃ q', dist k g u = Ok q' ∧ (S q'.1, u) ∈ l).
    { intros u Hu. apply elem_of_list_lookup in Hu as [i Hi]. destruct (Forall2_lookup_l _ _ _ _ _ E Hi) as (y & Hy & Ey). destruct (dist k g u) as [q'|]; [|done]. cbn in Ey. injection Ey as <-. exists q'. split; [done|]. by eapply elem_of_list_lookup_2. }
    apply elem_of_list_lookup in H1 as [i Hi]. destruct (Forall2_lookup_r _ _ _ _ _ E Hi) as (u & Hu & Eu). destruct (dist k g u) as [q|] eqn:Eq; [|done]. cbn in Eu. injection Eu as <-.
    exists q. cbn [fst snd]. split; [by eapply elem_of_list_lookup_2|]. split; [done|]. split; [done|]. intros v Hv. destruct (HE v Hv) as (q' & Hq' & Hin). exists q'. split; [done|]. apply H2 in Hin. cbn in Hin. lia.
  Qed.
  Lemma dist_mono k : ∀ n p, dist k g n = Ok p → dist (S k) g n = Ok p.
  Proof.
    induction k as [|k IH]; intros n p; [done|]. intros H. cbn [dist] in H. destruct (rmap _ _) as [ps|] eqn:E; [|done]. cbn [rbind] in H. change (dist (S (S k)) g n) with (let! ps := rmap (λ u, let! p := dist (S k) g u in Ok (S p.1, u)) (pre n) in Ok (match ps with [] => (0, n) | p :: ps => largest p ps end)).
    assert (E' : rmap (λ u, let! p := dist (S k) g u in Ok (S p.1, u)) (pre n) = Ok ps); [|by rewrite E'].
    apply rmap_Ok in E. apply rmap_Ok. eapply Forall2_impl; [exact E|]. intros u y. cbn beta. destruct (dist k g u) as [q|] eqn:Eq; [|done]. by rewrite (IH _ _ Eq).
  Qed.
  Lemma dist_err k : ∀ n e, dist k g n = Err e → e = NetworkXUnfeasible.
  Proof.
    induction k as [|k IH]; intros n e; cbn [dist]; [by intros [= <-]|]. destruct (rmap _ _) as [ps|e'] eqn:E; [done|]. cbn [rbind]. intros [= <-].
    revert E. generalize (pre n) as l. induction l as [|u l IHl]; [done|]. cbn [rmap]. destruct (dist k g u) as [q|e2] eqn:Eq; cbn [rbind].
    - destruct (rmap _ l) as [r|e3]; [done|]. cbn [rbind]. intros [= ->]. by apply IHl.
    - intros [= ->]. by eapply IH.
  Qed.
  Lemma dist_lt k : ∀ n p, dist k g n = Ok p → p.1 < k.
  Proof.
    induction k as [|k IH]; intros n p; [done|]. intros H. apply dist_cases in H as [[_ ->]|(q & _ & -> & Hq & _)]; [cbn; lia|]. apply IH in Hq. lia.
  Qed.
  (** no path to a node is longer than its distance *)
  Lemma dist_bound k : ∀ n p l, dist k g n = Ok p → rpath R (l ++ [n]) → length l ≤ p.1.
  Proof.
    induction k as [|k IH]; intros n p l; [done|]. intros H HP. destruct l as [|u l _] using rev_ind; [cbn; lia|]. apply rpath_snoc in HP as [HP Hu].
    apply dist_cases in H as [[E _]|(q & _ & -> & _ & Hall)]; [rewrite E in Hu; by apply elem_of_nil in Hu|]. destruct (Hall u Hu) as (q' & Hq' & Hle). pose proof (IH _ _ _ Hq' HP). rewrite app_length. cbn. lia.
  Qed.
  Lemma D_cases n p : D n = Ok p → (pre n = [] ∧ p = (0, n)) ∨ (∃ q, p.2 ∈ pre n ∧ p.1 = S q.1 ∧ D p.2 = Ok q).
  Proof. intros [H|(q & H1 & H2 & H3 & _)]%dist_cases; [by left|right]. exists q. split; [done|]. split; [done|]. by apply dist_mono. Qed.
  Lemma path_start_ok k : ∀ n p, D n = Ok p → p.1 < k → ∃ r l, path_start k g n = Ok r ∧ rpath R (l ++ [n]) ∧ length l = p.1 ∧ head (l ++ [n]) = Some r ∧ pre r = [].
  Proof.
    induction k as [|k IH]; intros n p Hn Hk; [lia|]. cbn [path_start]. rewrite Hn. cbn [rbind]. destruct (decide (p.1 = 0)) as [E|E].
    - exists n, []. split; [done|]. split; [done|]. split; [cbn; lia|]. split; [done|]. apply D_cases in Hn as [[H _]|(q & _ & H & _)]; [done|lia].
    - destruct (D_cases _ _ Hn) as [[_ ->]|(q & H1 & H2 & H3)]; [done|]. destruct (IH _ _ H3) as (r & l & I1 & I2 & I3 & I4 & I5); [lia|]. exists r, (l ++ [p.2]). split; [done|]. split; [by apply rpath_snoc|].
      split; [rewrite app_length; cbn; lia|]. split; [|done]. destruct l; [done|exact I4].
  Qed.
  Lemma pre_nodes u v : u ∈ pre v → u ∈ nodes g ∧ v ∈ nodes g.
  Proof.
    intros H. pose proof H as H'. rewrite <-(c_sp g C u v) in H'. unfold predecessors in H. unfold successors in H'. split.
    - rewrite <-(c_succ_dom g C). apply dget_is_Some. destruct (dget u (g_succ g)); [by eexists|]. by apply elem_of_nil in H'.
    - rewrite <-(c_pred_dom g C). apply dget_is_Some. destruct (dget v (g_pred g)); [by eexists|]. by apply elem_of_nil in H.
  Qed.
  Lemma dist_total : acyclic R → ∀ n, ∃ p, D n = Ok p.
  Proof.
    intros HA. assert (HA' : acyclic (λ v u, u ∈ pre v)).
    { intros x Hx. apply (HA x). assert (G : ∀ a b, tc (λ v u, u ∈ pre v) a b → tc R b a). { induction 1 as [a b Hab|a b c Hab _ IH]; [by apply tc_once|]. eapply tc_r; [exact IH|exact Hab]. } by apply G. }
    intros n. apply (acyclic_fuel (λ v u, u ∈ pre v) (nodes g) (λ k n, ∃ p, dist k g n = Ok p) HA'); [|..|lia].
    - intros x y H. apply pre_nodes in H as [_ H]. exact H.
    - intros k x Hk. cbn [dist]. destruct (rmap_total (λ u, let! p := dist k g u in Ok (S p.1, u)) (pre x)) as [ps ->]; [|cbn; by eexists].
      intros u Hu. destruct (Hk u Hu) as [p ->]. cbn. by eexists.
  Qed.
  Theorem longest_ok u0 v0 : acyclic R → R u0 v0 → ∃ r l, longest_path_start g = Ok r ∧ rpath R (r :: l) ∧ l ≠ [] ∧ pre r = [] ∧ r ∈ nodes g ∧ ∀ l', rpath R l' → length l' ≤ S (length l).
  Proof.
    intros HA H0. pose proof (dist_total HA) as HT. unfold longest_path_start. destruct (rmap_total D (nodes g)) as [ds E]; [intros x _; apply HT|]. rewrite E. cbn [rbind]. apply rmap_Ok in E.
    destruct ds as [|d ds]; [apply Forall2_nil_inv_r in E; apply pre_nodes in H0 as [H0 _]; rewrite E in H0; by apply elem_of_nil in H0|].
    destruct (largest_ok ds d) as [H1 H2]. set (p := largest d ds) in *.
    assert (HB : ∀ l n, rpath R (l ++ [n]) → l ≠ [] → length l ≤ p.1).
    { intros l n HP Hl. assert (Hn : n ∈ nodes g). { destruct l as [|x l _] using rev_ind; [done|]. apply rpath_snoc in HP as [_ HP]. apply pre_nodes in HP as [_ HP]. exact HP. }
      apply elem_of_list_lookup in Hn as [i Hi]. destruct (Forall2_lookup_l _ _ _ _ _ E Hi) as (y & Hy & Ey). pose proof (dist_bound _ _ _ _ Ey HP). apply elem_of_list_lookup_2 in Hy. apply H2 in Hy. lia. }
    assert (Hp : 1 ≤ p.1) by (apply (HB [u0] v0); [cbn; done|done]).
    rewrite decide_False by lia. apply elem_of_list_lookup in H1 as [i Hi]. destruct (Forall2_lookup_r _ _ _ _ _ E Hi) as (n & Hn & En).
    destruct (D_cases _ _ En) as [[_ Ep]|(q & Hq & Hs & Dq)]; [rewrite Ep in Hp; cbn in Hp; lia|]. pose proof (dist_lt _ _ _ Dq) as Hlt.
    destruct (path_start_ok (S (length (nodes g))) _ _ Dq Hlt) as (r & l & E1 & P1 & L1 & Hh & Hr).
    assert (HL : ∃ l', (l ++ [p.2]) ++ [n] = r :: l' ∧ length l' = p.1).
    { destruct l as [|x l]; cbn in Hh; injection Hh as ->; [exists [n]|exists ((l ++ [p.2]) ++ [n])]; (split; [done|]); rewrite ?app_length; cbn in *; rewrite ?app_length; cbn; lia. }
    destruct HL as (l' & El & Hl'). exists r, l'. split; [exact E1|]. split; [rewrite <-El; by apply rpath_snoc|]. split; [intros ->; cbn in Hl'; lia|]. split; [done|]. split.
    - destruct l' as [|y l']; [cbn in Hl'; lia|]. assert (HP : rpath R (r :: y :: l')) by (rewrite <-El; by apply rpath_snoc). apply rpath_cons in HP as [HP _]. apply pre_nodes in HP as [HP _]. exact HP.
    - intros k Hk. rewrite Hl'. destruct k as [|z k _] using rev_ind; [cbn; lia|]. rewrite app_length. cbn. destruct k as [|y k]; [cbn; lia|]. pose proof (HB _ _ Hk ltac:(done)). lia.
  Qed.
  (** ** Failures *)
  Lemma longest_err x : tc R x x → longest_path_start g = Err NetworkXUnfeasible.
  Proof.
    intros Hx. assert (Hin : x ∈ nodes g). { inversion Hx as [a b H|a b c H _]; subst; apply pre_nodes in H as [H _]; exact H. }
    assert (HL : ∀ m, ∃ l, rpath R (l ++ [x]) ∧ m ≤ length l).
    { assert (HC : ∀ a b, tc R a b → ∀ l, rpath R (l ++ [a]) → ∃ l', rpath R (l' ++ [b]) ∧ length l < length l').
      { induction 1 as [a b Hab|a b c Hab _ IH]; intros l Hl.
        - exists (l ++ [a]). split; [by apply rpath_snoc|]. rewrite app_length. cbn. lia.
        - destruct (IH (l ++ [a])) as (l' & H1 & H2); [by apply rpath_snoc|]. exists l'. split; [done|]. rewrite app_length in H2. cbn in H2. lia. }
      induction m as [|m (l & H1 & H2)]; [exists []; split; [done|cbn; lia]|]. destruct (HC _ _ Hx l H1) as (l' & H3 & H4). exists l'. split; [done|lia]. }
    assert (HE : D x = Err NetworkXUnfeasible).
    { destruct (D x) as [p|e] eqn:E; [|f_equal; by eapply dist_err]. destruct (HL (S p.1)) as (l & H1 & H2). pose proof (dist_bound _ _ _ _ E H1). lia. }
    unfold longest_path_start. enough (E : rmap D (nodes g) = Err NetworkXUnfeasible) by (by rewrite E).
    assert (G : ∀ l, x ∈ l → rmap D l = Err NetworkXUnfeasible); [|by apply G].
    induction l as [|y l IH]; intros Hin'; [by apply elem_of_nil in Hin'|]. change (rmap D (y :: l)) with (let! a := D y in let! b := rmap D l in Ok (a :: b)).
    destruct (D y) as [p|e] eqn:Ey; cbn [rbind]; [|f_equal; by eapply dist_err].
    apply elem_of_cons in Hin' as [<-|Hin']; [congruence|]. by rewrite IH.
  Qed.
  Lemma no_edges_err : (∀ u v, ¬ R u v) → ∃ e, longest_path_start g = Err e.
  Proof.
    intros HN. assert (HP : ∀ n, pre n = []). { intros n. destruct (pre n) as [|u l] eqn:E; [done|]. exfalso. apply (HN u n). rewrite E. left. }
    assert (HD : ∀ n, D n = Ok (0, n)) by (intros n; cbn [dist]; rewrite HP; done).
    unfold longest_path_start. destruct (rmap D (nodes g)) as [[|d ds]|e] eqn:E; cbn [rbind]; [by eexists| |by eexists]. apply rmap_Ok in E.
    destruct (largest_ok ds d) as [H1 _]. apply elem_of_list_lookup in H1 as [i Hi]. destruct (Forall2_lookup_r _ _ _ _ _ E Hi) as (n & Hn & En). rewrite HD in En. injection En as <-. cbn. by eexists.
  Qed.
End Longest.
