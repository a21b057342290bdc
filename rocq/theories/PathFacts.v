(** * PathFacts: spans in documents that consist of nested parts

    A part has the ids of the nodes around it (innermost first), its own id and any
    further data. *)
From stdpp Require Import sorting.
From Verif Require Import PyBase DocGraph SpecGraph DocGraphFacts History Effects RelabelFacts MergeFacts AllHist MergeAll GraphThms Relabel Query SpecImport ImportFacts StrNum NatSort SpecQuery SpanFacts SpecBrackets BracketFacts SpecOutline OutlineFacts OutlineSpan SelectFacts.

Section paths.
  Context {A : Type} (root : nid) (ps : list (list nid * nid * A)).
  (** the innermost node around a part is the root or a part itself *)
  Definition nested_in : Prop := ∀ path n p, (path, n, p) ∈ ps → ∃ q rest, path = q :: rest ∧ ((q = root ∧ rest = []) ∨ ∃ p', (rest, q, p') ∈ ps).
  Context (HN : nested_in) (HD : NoDup ((λ x, x.1.2) <$> ps)) (Hr : root ∉ (λ x, x.1.2) <$> ps).
  Lemma part_same path n p path' p' : (path, n, p) ∈ ps → (path', n, p') ∈ ps → path = path' ∧ p = p'.
  Proof.
    intros H H'. assert ((path, n, p) = (path', n, p')) as [= -> ->]; [|done]. clear HN Hr. induction ps as [|x l IH]; [by apply elem_of_nil in H|].
    rewrite fmap_cons in HD. apply NoDup_cons in HD as [Hx HD']. apply elem_of_cons in H as [<-|H], H' as [E|H'].
    - done.
    - exfalso. apply Hx. apply (elem_of_list_fmap_1 (λ x : list nid * nid * A, x.1.2) l _ H').
    - subst x. exfalso. apply Hx. apply (elem_of_list_fmap_1 (λ x : list nid * nid * A, x.1.2) l _ H).
    - by apply IH.
  Qed.
  Lemma root_no path p : (path, root, p) ∉ ps.
  Proof. intros H. apply Hr. apply (elem_of_list_fmap_1 (λ x : list nid * nid * A, x.1.2) ps _ H). Qed.
  Definition above (u v : nid) : Prop := ∃ path p, (path, v, p) ∈ ps ∧ head path = Some u.
  Lemma above_path u v path p : (path, v, p) ∈ ps → above u v → ∃ rest, path = u :: rest ∧ ((u = root ∧ rest = []) ∨ ∃ p', (rest, u, p') ∈ ps).
  Proof.
    intros H (path' & p' & H' & Hh). destruct (part_same _ _ _ _ _ H H') as [-> _]. destruct (HN _ _ _ H') as (q & rest & -> & Hq). injection Hh as ->. by exists rest.
  Qed.
  Lemma above_ne u v : above u v → u ≠ v.
  Proof.
    intros HP <-. pose proof HP as (path & p & H & _). destruct (above_path _ _ _ _ H HP) as (rest & -> & [[-> ->]|(p' & Hu)]).
    - by apply root_no in H.
    - destruct (part_same _ _ _ _ _ H Hu) as [E' _]. apply (f_equal length) in E'. cbn in E'. lia.
  Qed.
  Lemma path_above path : ∀ m p n, (path, m, p) ∈ ps → n ∈ path → rtc above n m.
  Proof.
    induction path as [|q rest IH]; intros m p n H Hn; [by apply elem_of_nil in Hn|].
    assert (HP : above q m) by (by eexists _, _). apply elem_of_cons in Hn as [->|Hn]; [by apply rtc_once|].
    destruct (HN _ _ _ H) as (? & ? & [= <- <-] & [[-> ->]|(p' & Hq)]); [by apply elem_of_nil in Hn|]. eapply rtc_r; [|exact HP]. by eapply IH.
  Qed.
  Lemma aboves_path n m : rtc above n m → n = m ∨ ∃ path p, (path, m, p) ∈ ps ∧ n ∈ path.
  Proof.
    induction 1 as [n|n m k Hnm Hmk IH]; [by left|]. right. destruct IH as [->|(path & p & H & Hin)].
    - destruct Hnm as (path & p & H & Hh). exists path, p. split; [done|]. destruct path; [done|]. injection Hh as ->. left.
    - exists path, p. split; [done|]. clear Hmk. pose proof Hnm as (path' & p' & H' & _). destruct (above_path _ _ _ _ H' Hnm) as (rest' & -> & _).
      revert k p H Hin. induction path as [|q rest IH]; intros k p H Hin; [by apply elem_of_nil in Hin|].
      destruct (HN _ _ _ H) as (? & ? & [= <- <-] & [[-> ->]|(p'' & Hq)]).
      + apply elem_of_list_singleton in Hin as ->. by apply root_no in H'.
      + apply elem_of_cons in Hin as [->|Hin]; [|right; by eapply IH]. right. destruct (part_same _ _ _ _ _ Hq H') as [-> _]. left.
  Qed.
  Lemma above_acyclic : acyclic above.
  Proof.
    assert (H : ∀ x y, tc above x y → ∃ path p, (path, y, p) ∈ ps ∧ ∀ path' p', (path', x, p') ∈ ps → length path' < length path).
    { induction 1 as [x y Hxy|x y z Hxy _ IH].
      - pose proof Hxy as (path & p & H & _). destruct (above_path _ _ _ _ H Hxy) as (rest & -> & Hx). exists (x :: rest), p. split; [done|]. intros path' p' H'.
        destruct Hx as [[-> ->]|(p'' & Hx)]; [by apply root_no in H'|]. destruct (part_same _ _ _ _ _ H' Hx) as [-> _]. cbn. lia.
      - destruct IH as (path & p & H & Hlt). exists path, p. split; [done|]. intros path' p' H'. pose proof Hxy as (path2 & p2 & H2 & _). specialize (Hlt _ _ H2).
        destruct (above_path _ _ _ _ H2 Hxy) as (rest & -> & Hx). destruct Hx as [[-> ->]|(p'' & Hx)]; [by apply root_no in H'|]. destruct (part_same _ _ _ _ _ H' Hx) as [-> _]. cbn in Hlt. lia. }
    intros x Hx. destruct (H x x Hx) as (path & p & Hp & Hlt). specialize (Hlt _ _ Hp). lia.
  Qed.
End paths.
Arguments nested_in {A}.
Arguments above {A}.

Section span.
  Context {A : Type} (root : nid) (ps : list (list nid * nid * A)) (isw : A → bool) (lay : list nid * nid * A → list string) (typ : A → string) (g : graph) (C : Consistent g).
  Definition part_to_edge (x : list nid * nid * A) : edge_info := (default root (head x.1.1), x.1.2, lay x, [("edge_type", VStr (typ x.2))]).
  Context (HN : nested_in root ps) (HD : NoDup ((λ x, x.1.2) <$> ps)) (Hr : root ∉ (λ x, x.1.2) <$> ps).
  Context (HE : has_edges g (part_to_edge <$> ps)) (HT : ∀ path n p, (path, n, p) ∈ ps → typ p = "spans" ∨ typ p = "dominates").
  Context (HW : ∀ t, is_token g t ↔ ∃ path p, (path, t, p) ∈ ps ∧ isw p = true).
  Lemma span_edge u v k a : edge_attrs g u v k = Some a → above ps u v ∧ (dget "edge_type" a = Some (VStr "spans") ∨ dget "edge_type" a = Some (VStr "dominates")).
  Proof.
    intros H. destruct (proj1 (has_edges_elem g _ C HE) _ _ _ _ H) as (x & Hx & E1 & E2 & _ & HK). apply elem_of_list_fmap in Hx as ([[path n] p] & -> & Hp). cbn in E1, E2. subst.
    split.
    - exists path, p. split; [done|]. destruct (HN _ _ _ Hp) as (q & rest & -> & _). done.
    - cbn [snd part_to_edge] in HK. rewrite HK by done. cbn. destruct (HT _ _ _ Hp) as [-> | ->]; [by left|by right].
  Qed.
  Lemma span_typed : typed g.
  Proof. intros u v k a H. apply span_edge in H as [_ [-> | ->]]; by eexists. Qed.
  Lemma covers_above u v : covers g u v ↔ above ps u v.
  Proof.
    split.
    - intros (_ & k & a & H & _). by apply span_edge in H as [? _].
    - intros HP. split; [by eapply above_ne|]. destruct HP as (path & p & H & Hh).
      destruct (proj2 (has_edges_elem g _ C HE) (part_to_edge (path, v, p))) as (k & a & Ha & _); [by apply elem_of_list_fmap_1|].
      cbn in Ha. destruct path as [|q rest]; [done|]. injection Hh as ->. cbn in Ha. exists k, a. split; [done|]. apply span_edge in Ha as [_ [-> | ->]]; done.
  Qed.
  Lemma span_acyclic : acyclic (covers g).
  Proof.
    intros x Hx. apply (above_acyclic root ps HN HD Hr x). revert Hx. generalize x at 2 4. intros y. induction 1 as [x y H|x y z H _ IH]; [apply tc_once|eapply tc_l; [|exact IH]]; by apply covers_above.
  Qed.
  Lemma span_below n m : below g n m ↔ n = m ∨ ∃ path p, (path, m, p) ∈ ps ∧ n ∈ path.
  Proof.
    assert (E : below g n m ↔ rtc (above ps) n m).
    { split; (induction 1 as [|x y z H _ IH]; [apply rtc_refl|eapply rtc_l; [|exact IH]]; by apply covers_above). }
    rewrite E. split; [by eapply aboves_path|]. intros [->|(path & p & H & Hn)]; [apply rtc_refl|]. by eapply path_above.
  Qed.
  Definition word_ids_in (n : nid) : list nid := (λ x, x.1.2) <$> filter (λ x, isw x.2 = true ∧ (n = x.1.2 ∨ n ∈ x.1.1)) ps.
  Theorem parts_span n : n ∈ nodes g → StronglySorted id_before (word_ids_in n) → ∀ k, length (nodes g) < k → get_span k g n = Ok (word_ids_in n).
  Proof.
    intros Hn HS k Hk. destruct (get_span_total g n C span_typed span_acyclic Hn) as [l Hl]. rewrite (Hl k Hk). f_equal.
    specialize (Hl (S (length (nodes g))) ltac:(lia)).
    apply same_sorted; [apply sorted_strongly; by eapply get_span_sorted|done|]. apply NoDup_Permutation.
    - eapply (get_span_NoDup g C span_acyclic); [|exact Hl].
      intros u1 u2 v k1 a1 k2 a2 _ _ H1 _ H2 _. destruct HE as (es & HP & HF).
      assert (HD' : NoDup ((λ e : nid * nid * nid * attrs, e.1.1.2) <$> es)).
      { assert (E : (λ e : nid * nid * nid * attrs, e.1.1.2) <$> es = (λ x : list nid * nid * A, x.1.2) <$> ps); [|rewrite E; apply HD].
        clear -HF. remember (part_to_edge <$> ps) as E eqn:EE. revert ps EE. induction HF as [|e x es E He _ IH]; intros [|p l] EE; [done|done|done|]. rewrite fmap_cons in EE. injection EE as -> ->. rewrite !fmap_cons. f_equal; [apply He|by apply IH]. }
      apply (elem_edges g _ _ _ _ C) in H1. apply (elem_edges g _ _ _ _ C) in H2. rewrite HP in H1, H2. clear -HD' H1 H2.
      assert ((u1, v, k1, a1) = (u2, v, k2, a2)) as [= -> -> _]; [|done]. induction es as [|e es IH]; [by apply elem_of_nil in H1|]. rewrite fmap_cons in HD'. apply NoDup_cons in HD' as [He HD].
      apply elem_of_cons in H1 as [<-|H1], H2 as [E|H2]; [done| | |by apply IH].
      + exfalso. apply He. apply (elem_of_list_fmap_1 (λ e : nid * nid * nid * attrs, e.1.1.2) es _ H2).
      + subst e. exfalso. apply He. apply (elem_of_list_fmap_1 (λ e : nid * nid * nid * attrs, e.1.1.2) es _ H1).
    - unfold word_ids_in. eapply NoDup_sub; [|exact HD]. clear. induction ps as [|x l IH]; [apply sublist_nil_l|]. rewrite filter_cons, fmap_cons. destruct (decide _); [rewrite fmap_cons; by apply sublist_skip|by apply sublist_cons].
    - intros t. rewrite (get_span_elem g C _ n l Hl t), HW, span_below. unfold word_ids_in. rewrite elem_of_list_fmap. split.
      + intros [(path & p & H & Hp) [->|(path' & p' & H' & Hin)]].
        * exists (path, t, p). split; [done|]. apply elem_of_list_filter. split; [|done]. split; [done|]. by left.
        * exists (path, t, p). split; [done|]. apply elem_of_list_filter. split; [|done]. split; [done|]. right. by destruct (part_same ps HD _ _ _ _ _ H H') as [-> _].
      + intros ([[path t'] p] & E & H). cbn in E. subst t'. apply elem_of_list_filter in H as [[Hp Hin] H]. cbn in Hp, Hin. split; [by exists path, p|]. destruct Hin as [->|Hin]; [by left|]. right. by exists path, p.
  Qed.
End span.
