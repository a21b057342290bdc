(** * OutlineSpan: spans of the elements of an imported outline *)
From stdpp Require Import sorting.
From Verif Require Import PyBase DocGraph SpecGraph DocGraphFacts History Effects RelabelFacts MergeFacts AllHist MergeAll GraphThms Relabel Query SpecImport ImportFacts StrNum NatSort SpecQuery SpanFacts SpecBrackets BracketFacts SpecOutline OutlineFacts.

(** ** Paths *)
(** the innermost element around a part is the root or a part itself *)
Definition nested (root : nid) (ps : parts) : Prop := ∀ path n p, (path, n, p) ∈ ps →
  ∃ q rest, path = q :: rest ∧ ((q = root ∧ rest = []) ∨ ∃ i l, q = NStr i ∧ (rest, q, PNode i l) ∈ ps).
Lemma elem_number prefix k l path n p : (path, n, p) ∈ number prefix k l → (path, p) ∈ l ∧ ∀ i la, p = PNode i la → n = NStr i.
Proof.
  revert k. induction l as [|[path' [w a|i la]] l IH]; intros k; cbn [number].
  - by intros ?%elem_of_nil.
  - intros [[= -> -> ->]|H]%elem_of_cons; [split; [left|done]|]. destruct (IH _ H). split; [by right|done].
  - intros [[= -> -> ->]|H]%elem_of_cons; [split; [left|by intros ? ? [= -> ->]]|]. destruct (IH _ H). split; [by right|done].
Qed.
Lemma number_node prefix k l path i la : (path, PNode i la) ∈ l → (path, NStr i, PNode i la) ∈ number prefix k l.
Proof.
  revert k. induction l as [|[path' [w a|i' la']] l IH]; intros k; cbn [number].
  - by intros ?%elem_of_nil.
  - intros [[=]|H]%elem_of_cons. right. by apply IH.
  - intros [[= -> -> ->]|H]%elem_of_cons; [left|right; by apply IH].
Qed.
Fixpoint item_ind' (P : item → Prop) (HW : ∀ w a, P (IWord w a)) (HN : ∀ i l its, Forall P its → P (INode i l its)) (it : item) : P it :=
  match it with
  | IWord w a => HW w a
  | INode i l its => HN i l its ((fix go its := match its return Forall P its with [] => List.Forall_nil P | x :: its => List.Forall_cons P x its (item_ind' P HW HN x) (go its) end) its)
  end.
Lemma walk_nested it : ∀ q rest path p, (path, p) ∈ walk (q :: rest) it → path = q :: rest ∨ ∃ i l rest', path = NStr i :: rest' ∧ (rest', PNode i l) ∈ walk (q :: rest) it.
Proof.
  induction it as [w a|i l its IH] using item_ind'; intros q rest path p; cbn [walk].
  - intros [= -> ->]%elem_of_list_singleton. by left.
  - intros [[= -> ->]|H]%elem_of_cons; [by left|]. right. apply elem_of_list_In, in_concat in H as (x & Hx & H). apply in_map_iff in Hx as (it & <- & Hit). apply elem_of_list_In in H. apply elem_of_list_In in Hit.
    rewrite Forall_forall in IH. destruct (IH it Hit _ _ _ _ H) as [->|(i' & l' & rest' & -> & H')].
    + exists i, l, (q :: rest). split; [done|left].
    + exists i', l', rest'. split; [done|]. right. apply elem_of_list_In, in_concat. exists (walk (NStr i :: q :: rest) it). split; [apply in_map_iff; exists it; split; [done|by apply elem_of_list_In]|by apply elem_of_list_In].
Qed.
Lemma outline_nested st root items : nested root (outline_parts st root items).
Proof.
  intros path n p H. apply elem_number in H as [H _]. unfold walk_all in H. apply elem_of_list_In, in_concat in H as (x & Hx & H). apply in_map_iff in Hx as (it & <- & Hit). apply elem_of_list_In in H.
  destruct (walk_nested it _ _ _ _ H) as [->|(i & l & rest' & -> & H')]; [exists root, []; naive_solver|]. exists (NStr i), rest'. split; [done|]. right. exists i, l. split; [done|]. apply number_node.
  apply elem_of_list_In, in_concat. exists (walk [root] it). split; [apply in_map_iff; by exists it|by apply elem_of_list_In].
Qed.
Section paths.
  Context (root : nid) (ps : parts) (base : list nid) (HN : nested root ps) (HC : ids_coherent base ps) (Hr : root ∈ base).
  Lemma path_unique path : ∀ n p path' p', (path, n, p) ∈ ps → (path', n, p') ∈ ps → path = path'.
  Proof.
    destruct HC as [HC1 HC2]. induction path as [|q rest IH]; intros n p path' p' H H'.
    - destruct (HN _ _ _ H) as (? & ? & [=] & _).
    - destruct (HC1 _ _ _ _ _ H H') as [Eh _]. destruct (HN _ _ _ H) as (? & ? & [= <- <-] & Hq). destruct (HN _ _ _ H') as (q' & rest' & -> & Hq'). injection Eh as <-. f_equal.
      destruct Hq as [[-> ->]|(i & l & -> & Hq)], Hq' as [[E ->]|(i' & l' & E & Hq')]; subst.
      + done.
      + by apply HC2 in Hq'.
      + by apply HC2 in Hq.
      + by eapply IH.
  Qed.
  (** edges of the outline *)
  Definition parent (u v : nid) : Prop := ∃ path p, (path, v, p) ∈ ps ∧ head path = Some u.
  Lemma parent_path u v path p : (path, v, p) ∈ ps → parent u v → ∃ rest, path = u :: rest ∧ ((u = root ∧ rest = []) ∨ ∃ i l, u = NStr i ∧ (rest, u, PNode i l) ∈ ps).
  Proof.
    intros H (path' & p' & H' & Hh). rewrite (path_unique _ _ _ _ _ H H'). destruct (HN _ _ _ H') as (q & rest & -> & Hq). injection Hh as ->. by exists rest.
  Qed.
  Lemma parent_ne u v : parent u v → u ≠ v.
  Proof.
    intros HP <-. pose proof HP as (path & p & H & _). destruct (parent_path _ _ _ _ H HP) as (rest & -> & [[-> ->]|(i & l & E & Hu)]).
    - destruct HC as [_ HC2]. by apply HC2 in H.
    - pose proof (path_unique _ _ _ _ _ H Hu) as E'. apply (f_equal length) in E'. cbn in E'. lia.
  Qed.
  Lemma path_parents path : ∀ m p n, (path, m, p) ∈ ps → n ∈ path → rtc parent n m.
  Proof.
    induction path as [|q rest IH]; intros m p n H Hn; [by apply elem_of_nil in Hn|].
    assert (HP : parent q m) by (by eexists _, _). apply elem_of_cons in Hn as [->|Hn]; [by apply rtc_once|].
    destruct (HN _ _ _ H) as (? & ? & [= <- <-] & [[-> ->]|(i & l & -> & Hq)]); [by apply elem_of_nil in Hn|]. eapply rtc_r; [|exact HP]. by eapply IH.
  Qed.
  Lemma parents_path n m : rtc parent n m → n = m ∨ ∃ path p, (path, m, p) ∈ ps ∧ n ∈ path.
  Proof.
    induction 1 as [n|n m k Hnm Hmk IH]; [by left|]. right. destruct IH as [->|(path & p & H & Hin)].
    - destruct Hnm as (path & p & H & Hh). exists path, p. split; [done|]. destruct path; [done|]. injection Hh as ->. left.
    - exists path, p. split; [done|]. clear Hmk. pose proof Hnm as (path' & p' & H' & _). destruct (parent_path _ _ _ _ H' Hnm) as (rest' & -> & _).
      revert k p H Hin. induction path as [|q rest IH]; intros k p H Hin; [by apply elem_of_nil in Hin|].
      destruct (HN _ _ _ H) as (? & ? & [= <- <-] & [[-> ->]|(i & l & -> & Hq)]).
      + apply elem_of_list_singleton in Hin as ->. destruct HC as [_ HC2]. by apply HC2 in H'.
      + apply elem_of_cons in Hin as [->|Hin]; [|right; by eapply IH]. right. rewrite (path_unique _ _ _ _ _ Hq H'). left.
  Qed.
  Lemma parent_acyclic : acyclic parent.
  Proof.
    assert (H : ∀ x y, tc parent x y → ∃ path p, (path, y, p) ∈ ps ∧ ∀ path' p', (path', x, p') ∈ ps → length path' < length path).
    { induction 1 as [x y Hxy|x y z Hxy _ IH].
      - pose proof Hxy as (path & p & H & _). destruct (parent_path _ _ _ _ H Hxy) as (rest & -> & Hx). exists (x :: rest), p. split; [done|]. intros path' p' H'.
        destruct Hx as [[-> ->]|(i & l & E & Hx)]; [destruct HC as [_ HC2]; by apply HC2 in H'|]. rewrite (path_unique _ _ _ _ _ H' Hx). cbn. lia.
      - destruct IH as (path & p & H & Hlt). exists path, p. split; [done|]. intros path' p' H'. pose proof Hxy as (path2 & p2 & H2 & _). specialize (Hlt _ _ H2).
        destruct (parent_path _ _ _ _ H2 Hxy) as (rest & -> & Hx). destruct Hx as [[-> ->]|(i & l & E & Hx)]; [destruct HC as [_ HC2]; by apply HC2 in H'|]. rewrite (path_unique _ _ _ _ _ H' Hx). cbn in Hlt. lia. }
    intros x Hx. destruct (H x x Hx) as (path & p & Hp & Hlt). specialize (Hlt _ _ Hp). lia.
  Qed.
End paths.

(** ** The graph *)
Lemma has_edges_elem g E : Consistent g → has_edges g E → (∀ u v k a, edge_attrs g u v k = Some a → ∃ x, x ∈ E ∧ edge_is (u, v, k, a) x) ∧
  (∀ x, x ∈ E → ∃ k a, edge_attrs g x.1.1.1 x.1.1.2 k = Some a ∧ attrs_are a x.1.2 x.2).
Proof.
  intros C (es & HP & HF). split.
  - intros u v k a H. apply (elem_edges g u v k a C) in H. rewrite HP in H. apply elem_of_list_lookup in H as [i Hi]. destruct (Forall2_lookup_l _ _ _ _ _ HF Hi) as (x & Hx & Hex). exists x. split; [by eapply elem_of_list_lookup_2|done].
  - intros x Hx. apply elem_of_list_lookup in Hx as [i Hi]. destruct (Forall2_lookup_r _ _ _ _ _ HF Hi) as ([[[u v] k] a] & He & (E1 & E2 & Ha)). apply elem_of_list_lookup_2 in He. rewrite <-HP in He. apply elem_edges in He; [|done].
    cbn in E1, E2. subst. by exists k, a.
Qed.
Section span.
  Context (st : style) (base : list node_info) (ps : parts) (g : graph) (C : Consistent g) (IM : imported st base ps g).
  Context (HN : nested (g_root g) ps) (Hr : g_root g ∈ ids base).
  Lemma edge_part u v k a : edge_attrs g u v k = Some a → parent ps u v ∧ (dget "edge_type" a = Some (VStr "spans") ∨ dget "edge_type" a = Some (VStr "dominates")).
  Proof.
    intros H. destruct (proj1 (has_edges_elem g _ C (im_edges _ _ _ _ IM)) _ _ _ _ H) as (x & Hx & E1 & E2 & _ & HK). apply elem_of_list_fmap in Hx as ([[path n] p] & -> & Hp). cbn in E1, E2. subst.
    split.
    - exists path, p. split; [done|]. destruct (HN _ _ _ Hp) as (q & rest & -> & _). done.
    - cbn [snd] in HK. rewrite HK by done. cbn. destruct p; [by left|by right].
  Qed.
  Lemma outline_typed : typed g.
  Proof. intros u v k a H. apply edge_part in H as [_ [-> | ->]]; by eexists. Qed.
  Context (HC : ids_coherent (ids base) ps).
  Lemma covers_parent u v : covers g u v ↔ parent ps u v.
  Proof.
    split.
    - intros (_ & k & a & H & _). by apply edge_part in H as [? _].
    - intros HP. split; [eapply parent_ne; [exact HN|exact HC|exact Hr|exact HP]|]. destruct HP as (path & p & H & Hh).
      destruct (proj2 (has_edges_elem g _ C (im_edges _ _ _ _ IM)) (part_edge st (g_root g) (path, v, p))) as (k & a & Ha & _); [by apply elem_of_list_fmap_1|].
      cbn in Ha. destruct path as [|q rest]; [done|]. injection Hh as ->. cbn in Ha. exists k, a. split; [done|]. apply edge_part in Ha as [_ [-> | ->]]; done.
  Qed.
  Lemma outline_acyclic : acyclic (covers g).
  Proof.
    intros x Hx. apply (parent_acyclic _ _ _ HN HC Hr x). revert Hx. generalize x at 2 4. intros y. induction 1 as [x y H|x y z H _ IH]; [apply tc_once|eapply tc_l; [|exact IH]]; by apply covers_parent.
  Qed.
  Lemma outline_below n m : below g n m ↔ n = m ∨ ∃ path p, (path, m, p) ∈ ps ∧ n ∈ path.
  Proof.
    assert (E : below g n m ↔ rtc (parent ps) n m).
    { split; (induction 1 as [|x y z H _ IH]; [apply rtc_refl|eapply rtc_l; [|exact IH]]; by apply covers_parent). }
    rewrite E. split; [by eapply parents_path|]. intros [->|(path & p & H & Hn)]; [apply rtc_refl|]. by eapply path_parents.
  Qed.
  Lemma key_token ns : ns +:+ ":token" ≠ "layers".
  Proof.
    intros E. apply (f_equal chs) in E. rewrite chs_app in E. assert (H : ":"%char ∈ chs "layers") by (rewrite <-E; apply elem_of_app; right; left).
    vm_compute in H. repeat (apply elem_of_cons in H as [H|H]; [done|]). by apply elem_of_nil in H.
  Qed.
  Lemma outline_is_token t : is_token g t ↔ ∃ path w extra, (path, t, PWord w extra) ∈ ps.
  Proof.
    split.
    - intros (a & Ha & Hk). destruct (decide (Exists (λ x, x.1.2 = t ∧ is_word_part x.2 = true) ps)) as [H|H].
      + apply Exists_exists in H as ([[path n] [w extra|i l]] & Hin & E & Hw); [|done]. cbn in E. subst. by eexists _, _, _.
      + exfalso. rewrite (im_others _ _ _ _ IM t a Ha) in Hk; [by destruct Hk| |apply key_token]. intros path w extra Hw. apply H, Exists_exists. by eexists.
    - intros (path & w & extra & H). destruct (im_words _ _ _ _ IM _ _ _ _ H) as (a & Ha & Hk). exists a. split; [done|]. rewrite Hk by apply key_token. rewrite dget_dset_eq. by eexists.
  Qed.
  Lemma outline_token_is path t w extra : (path, t, PWord w extra) ∈ ps → token_is g t w.
  Proof. intros H. destruct (im_words _ _ _ _ IM _ _ _ _ H) as (a & Ha & Hk). exists a. split; [done|]. rewrite Hk by apply key_token. by rewrite dget_dset_eq. Qed.
  (** membership *)
  Lemma outline_span_elem n : n ∈ nodes g → (∀ path w extra, (path, n, PWord w extra) ∉ ps) →
    ∃ l, (∀ k, length (nodes g) < k → get_span k g n = Ok l) ∧ sorted nat_cmp l ∧ ∀ t, t ∈ l ↔ t ∈ tokens_in n ps.
  Proof.
    intros Hn Hw. destruct (get_span_total g n C outline_typed outline_acyclic Hn) as [l Hl]. exists l. split; [done|]. specialize (Hl (S (length (nodes g))) ltac:(lia)). split; [by eapply get_span_sorted|].
    intros t. rewrite (get_span_elem g C _ n l Hl t), outline_is_token, outline_below. unfold tokens_in. rewrite elem_of_list_fmap. split.
    - intros [(path & w & extra & H) [->|(path' & p & H' & Hin)]]; [by apply Hw in H|]. exists (path, t, PWord w extra). split; [done|]. apply elem_of_list_filter. split; [|done]. split; [done|]. cbn.
      by rewrite (path_unique _ _ _ HN HC Hr _ _ _ _ _ H H').
    - intros ([[path t'] p] & E & H). cbn in E. subst t'. apply elem_of_list_filter in H as [[Hp Hin] H]. cbn in Hp, Hin. destruct p as [w extra|]; [|done]. split; [by exists path, w, extra|]. right. by exists path, (PWord w extra).
  Qed.
End span.
Lemma ids_ok_coherent base ps : ids_ok base ps → ids_coherent base ps.
Proof.
  intros [ND HB]. split; [|done]. intros path n p path' p' H H'.
  assert ((path, n, p) = (path', n, p')) as [= -> ->]; [|done]. clear HB. induction ps as [|x ps IH]; [by apply elem_of_nil in H|].
  rewrite fmap_cons in ND. apply NoDup_cons in ND as [Hx ND]. apply elem_of_cons in H as [<-|H], H' as [E|H'].
  - done.
  - exfalso. apply Hx. apply (elem_of_list_fmap_1 (λ x, x.1.2) ps _ H').
  - subst x. exfalso. apply Hx. apply (elem_of_list_fmap_1 (λ x, x.1.2) ps _ H).
  - by apply IH.
Qed.
(** ** Order *)
Definition no_digit_end (prefix : string) : Prop := ∀ c, last (chs prefix) = Some c → is_digit c = false.
Lemma token_id_lt prefix i j : no_digit_end prefix → (0 ≤ i < j)%Z → nat_cmp (NStr (prefix +:+ str_Z i)) (NStr (prefix +:+ str_Z j)) = Lt.
Proof.
  intros Hp Hij. assert (E : ∀ z, (0 ≤ z)%Z → prefix +:+ str_Z z = str (chs prefix ++ chs (str_N (Z.to_N z)) ++ [])).
  { intros z Hz. rewrite app_nil_r, <-chs_app, str_chs. by destruct z. }
  rewrite !E by lia. rewrite nat_cmp_number; [apply N.compare_lt_iff; lia|done|done|done|lia].
Qed.
Lemma tokens_sorted prefix l : no_digit_end prefix → ∀ n k, (0 ≤ k)%Z → StronglySorted id_before (tokens_in n (number prefix k l)).
Proof.
  intros Hp n. induction l as [|[path [w a|i la]] l IH]; intros k Hk; cbn [number].
  - constructor.
  - unfold tokens_in in *. rewrite filter_cons. destruct (decide _) as [Hd|Hd]; [|apply IH; lia]. rewrite fmap_cons. constructor; [apply IH; lia|]. apply Forall_forall. intros x Hx.
    apply elem_of_list_fmap in Hx as ([[path' n'] p'] & -> & Hx). apply elem_of_list_filter in Hx as [[Hw _] Hx]. cbn in Hw. destruct p' as [w' a'|]; [|done]. apply number_word_id in Hx as (j & Hj & ->). right. apply token_id_lt; [done|lia].
  - unfold tokens_in in *. rewrite filter_cons. destruct (decide _) as [[Hd _]|_]; [done|by apply IH].
Qed.
Lemma tokens_NoDup prefix l : ∀ n k, NoDup (tokens_in n (number prefix k l)).
Proof.
  intros n. induction l as [|[path [w a|i la]] l IH]; intros k; cbn [number].
  - apply NoDup_nil_2.
  - unfold tokens_in in *. rewrite filter_cons. destruct (decide _) as [Hd|Hd]; [|apply IH]. rewrite fmap_cons. apply NoDup_cons. split; [|apply IH]. intros Hx.
    apply elem_of_list_fmap in Hx as ([[path' n'] p'] & E & Hx). apply elem_of_list_filter in Hx as [[Hw _] Hx]. cbn in Hw, E. destruct p' as [w' a'|]; [|done]. apply number_word_id in Hx as (j & Hj & ->). apply prefix_id_inj in E. lia.
  - unfold tokens_in in *. rewrite filter_cons. destruct (decide _) as [[Hd _]|_]; [done|by apply IH].
Qed.
Lemma sorted_strongly l : sorted nat_cmp l → StronglySorted (λ x y, nat_cmp x y ≠ Gt) l.
Proof. induction l as [|x l IH]; [constructor|]. intros [HF HS]%sorted_cons. constructor; [by apply IH|exact HF]. Qed.
Theorem outline_span st base wk g n : let ps := number (s_prefix st) 1 wk in Consistent g → imported st base ps g → nested (g_root g) ps → g_root g ∈ ids base → no_digit_end (s_prefix st) →
  ids_ok (ids base) ps → n ∈ nodes g → (∀ path w extra, (path, n, PWord w extra) ∉ ps) →
  ∀ k, length (nodes g) < k → get_span k g n = Ok (tokens_in n ps).
Proof.
  intros ps C IM HN Hr Hp Hok Hn Hw k Hk. pose proof (ids_ok_coherent _ _ Hok) as HC.
  destruct (outline_span_elem st base ps g C IM HN Hr HC n Hn Hw) as (l & Hl & HS & HE). rewrite (Hl k Hk). f_equal.
  apply same_sorted; [by apply sorted_strongly|by apply tokens_sorted|]. apply NoDup_Permutation; [|apply tokens_NoDup|done].
  eapply (get_span_NoDup g C (outline_acyclic st base ps g C IM HN Hr HC)); [|by apply (Hl (S (length (nodes g)))); lia].
  intros u1 u2 v k1 a1 k2 a2 _ _ H1 _ H2 _. destruct (im_edges _ _ _ _ IM) as (es & HP & HF).
  assert (HD : NoDup ((λ e : nid * nid * nid * attrs, e.1.1.2) <$> es)).
  { assert (E : (λ e : nid * nid * nid * attrs, e.1.1.2) <$> es = (λ x : list nid * nid * part, x.1.2) <$> ps); [|rewrite E; apply Hok].
    clear -HF. clearbody ps. remember (part_edge st (g_root g) <$> ps) as E eqn:EE. revert ps EE. induction HF as [|e x es E He _ IH]; intros [|p ps] EE; [done|done|done|]. rewrite fmap_cons in EE. injection EE as -> ->. rewrite !fmap_cons. f_equal; [apply He|by apply IH]. }
  apply (elem_edges g _ _ _ _ C) in H1. apply (elem_edges g _ _ _ _ C) in H2. rewrite HP in H1, H2. clear -HD H1 H2.
  assert ((u1, v, k1, a1) = (u2, v, k2, a2)) as [= -> -> _]; [|done]. induction es as [|e es IH]; [by apply elem_of_nil in H1|]. rewrite fmap_cons in HD. apply NoDup_cons in HD as [He HD].
  apply elem_of_cons in H1 as [<-|H1], H2 as [E|H2]; [done| | |by apply IH].
  - exfalso. apply He. apply (elem_of_list_fmap_1 (λ e : nid * nid * nid * attrs, e.1.1.2) es _ H2).
  - subst e. exfalso. apply He. apply (elem_of_list_fmap_1 (λ e : nid * nid * nid * attrs, e.1.1.2) es _ H1).
Qed.
(** ** The text *)
Lemma outline_text g prefix l : ∀ k, (∀ path n w extra, (path, n, PWord w extra) ∈ number prefix k l → token_is g n w) → Forall2 (token_is g) (word_ids (number prefix k l)) (part_words l).
Proof.
  induction l as [|[path [w a|i la]] l IH]; intros k H; cbn [number] in *.
  - constructor.
  - change (part_words ((path, PWord w a) :: l)) with (w :: part_words l). unfold word_ids. rewrite filter_cons_True by done. rewrite fmap_cons. constructor; [eapply H; left|]. apply IH. intros. eapply H. by right.
  - change (part_words ((path, PNode i la) :: l)) with (part_words l). unfold word_ids. rewrite filter_cons_False by done. apply IH. intros. eapply H. by right.
Qed.
Lemma importing_text name st base ns root wk g : importing name st base ns root wk g → text_tokens g (part_words wk).
Proof.
  intros HI. unfold text_tokens. rewrite (ig_tokens _ _ _ _ _ _ _ HI). apply outline_text. intros path n w extra H. eapply outline_token_is; [by eapply importing_imported|exact H].
Qed.
Lemma importing_inv name st base ns root wk g : importing name st base ns root wk g → GInv g.
Proof. intros [(N & HB & _) _ _ _ _]. apply HB. Qed.
