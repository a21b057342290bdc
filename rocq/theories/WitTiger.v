(** * WitTiger: concrete TigerXML sentences and executable checks of the hypotheses *)
From stdpp Require Import relations.
From Verif Require Import PyBase DocGraph Query Conano SpecGraph SpecImport SpecQuery SpanFacts WitQuery SpecTiger.

Definition hasb (x : xml) (key : string) : bool := match dget key (x_attrib x) with Some _ => true | None => false end.
Lemma hasb_ok x key : hasb x key = true → has_att x key.
Proof. unfold hasb, has_att. destruct (dget key (x_attrib x)); [by eexists|done]. Qed.
Fixpoint labelb (seen : bool) (ps : list xml) : bool :=
  match ps with
  | [] => true
  | n :: ps =>
    let seen := seen || negb (bool_decide (length (edges_in n) = 0)) in
    (seen || bool_decide (length (secedges_in n) = 0)) && labelb seen ps
  end.
Definition completeb (x : xml) : bool :=
  match head (elements ["graph"] x) with Some y => hasb y "root" | None => false end &&
  forallb (λ t, hasb t "id" && hasb t "word" && forallb (λ e, hasb e "idref") (secedges_in t)) (tokens_in x) &&
  forallb (λ n, hasb n "id" && hasb n "cat" && forallb (λ e, hasb e "idref" && hasb e "label") (edges_in n) && forallb (λ e, hasb e "idref") (secedges_in n)) (phrases_in x) &&
  labelb false (phrases_in x).
Ltac sp H := repeat match type of H with _ && _ = true => let H' := fresh "H" in apply andb_true_iff in H as [H H'] end.
Lemma fb {A} (f : A → bool) l : forallb f l = true → ∀ x, x ∈ l → f x = true.
Proof. rewrite forallb_forall. intros H x Hx. by apply H, elem_of_list_In. Qed.
Lemma labelb_ok ps : ∀ seen pre0, (seen = true → (p ← pre0; edges_in p) ≠ []) → labelb seen ps = true →
  ∀ pre n post, ps = pre ++ n :: post → secedges_in n ≠ [] → (p ← pre0 ++ pre ++ [n]; edges_in p) ≠ [].
Proof.
  induction ps as [|p ps IH]; intros seen pre0 Hseen H pre n post E Hn; [by destruct pre|]. cbn [labelb] in H. apply andb_true_iff in H as [H1 H2].
  assert (Hseen' : seen || negb (bool_decide (length (edges_in p) = 0)) = true → (q ← pre0 ++ [p]; edges_in q) ≠ []).
  { intros [Hs|Hs]%orb_true_iff; rewrite bind_app.
    - intros [E1 _]%app_eq_nil. by apply Hseen.
    - intros [_ E2]%app_eq_nil. apply negb_true_iff, bool_decide_eq_false in Hs. apply Hs. rewrite bind_cons, app_nil_r in E2. by rewrite E2. }
  destruct pre as [|p' pre]; cbn in E; injection E as E1 E2; subst.
  - apply Hseen'. apply orb_true_iff in H1 as [H1|H1]; [done|]. apply bool_decide_eq_true in H1. by apply nil_length_inv in H1.
  - specialize (IH _ (pre0 ++ [p']) Hseen' H2 pre n post eq_refl Hn). by rewrite <-!app_assoc in IH.
Qed.
Lemma check_complete x : completeb x = true → complete x.
Proof.
  unfold completeb. intros H. sp H. split.
  - destruct (head (elements ["graph"] x)) as [y|]; [|done]. exists y. split; [done|by apply hasb_ok].
  - intros t Ht. pose proof (fb _ _ H2 t Ht) as K. cbn beta in K. sp K. split; [by apply hasb_ok|]. split; [by apply hasb_ok|]. intros e He. apply hasb_ok. exact (fb _ _ H3 e He).
  - intros n Hn. pose proof (fb _ _ H1 n Hn) as K. cbn beta in K. sp K. split; [by apply hasb_ok|]. split; [by apply hasb_ok|]. split.
    + intros e He. pose proof (fb _ _ H4 e He) as K'. cbn beta in K'. sp K'. split; by apply hasb_ok.
    + intros e He. apply hasb_ok. exact (fb _ _ H3 e He).
  - intros pre n post E Hn. exact (labelb_ok _ false [] ltac:(done) H0 pre n post E Hn).
Qed.
Definition well_formedb (x : xml) : bool :=
  forallb (λ y, bool_decide (NoDup (dkeys (x_attrib y)))) (tokens_in x ++ phrases_in x ++ (p ← tokens_in x ++ phrases_in x; edges_in p ++ secedges_in p)).
Lemma check_well_formed x : well_formedb x = true → well_formed x.
Proof. intros H y Hy. pose proof (fb _ _ H y Hy) as K. cbn beta in K. by apply bool_decide_eq_true in K. Qed.
Definition no_token_attb (x : xml) : bool := forallb (λ n, negb (hasb n "token")) (phrases_in x).
Lemma check_no_token_att x : no_token_attb x = true → no_token_att x.
Proof. intros H n Hn. pose proof (fb _ _ H n Hn) as K. cbn beta in K. unfold hasb in K. intros [v Hv]. by rewrite Hv in K. Qed.
Lemma check_good x : well_formedb x && completeb x && no_token_attb x = true → good_sentence x.
Proof. intros H. sp H. split; [by apply check_well_formed|]. split; [by apply check_complete|by apply check_no_token_att]. Qed.
Lemma check_goods l : forallb (λ x, well_formedb x && completeb x && no_token_attb x) l = true → Forall good_sentence l.
Proof. intros H. apply Forall_forall. intros x Hx. apply check_good. exact (fb _ _ H x Hx). Qed.
Definition rankedb (rank : nid → nat) (x : xml) : bool :=
  forallb (λ n, forallb (λ e, rank (node_of "idref" e) <? rank (node_of "id" n))%nat (edges_in n)) (phrases_in x).
Lemma check_child_acyclic rank x : rankedb rank x = true → ∀ n, ¬ tc (child x) n n.
Proof.
  intros H. apply (rank_acyclic _ rank). intros u v (n & e & Hn & He & -> & ->). pose proof (fb _ _ (fb _ _ H n Hn) e He) as K. cbn beta in K. by apply Nat.ltb_lt in K.
Qed.
Definition rootedb (x : xml) : bool :=
  forallb (λ n, bool_decide (n = sentence_root x) || existsb (λ p, existsb (λ e, bool_decide (n = node_of "idref" e)) (edges_in p)) (phrases_in x)) (linked_ids x).
Lemma check_tree rank x : rankedb rank x && bool_decide (NoDup (n ← phrases_in x; node_of "idref" <$> edges_in n)) && rootedb x = true → tree_shaped x.
Proof.
  intros H. sp H. split; [by apply (check_child_acyclic rank)|by apply bool_decide_eq_true in H1|].
  intros n Hn. pose proof (fb _ _ H0 n Hn) as K. cbn beta in K. apply orb_true_iff in K as [K|K]; [left; by apply bool_decide_eq_true in K|right].
  apply existsb_exists in K as (p & Hp & K). apply existsb_exists in K as (e & He & K). apply bool_decide_eq_true in K. exists (node_of "id" p), p, e. rewrite <-!elem_of_list_In in *. done.
Qed.
Definition distinct_keysb (l : list nid) : bool := forallb (λ t, forallb (λ t', match nat_cmp t t' with Eq => bool_decide (t = t') | _ => true end) l) l.
Lemma check_distinct_keys l : distinct_keysb l = true → distinct_keys l.
Proof. intros H t t' Ht Ht' E. pose proof (fb _ _ (fb _ _ H t Ht) t' Ht') as K. cbn beta in K. rewrite E in K. by apply bool_decide_eq_true in K. Qed.

(** ** Sentences *)
Definition tx (tag : string) (a : dict string string) (kids : list xml) : xml := XElem tag a None kids None.
Definition tx_t (id word : string) (kids : list xml) : xml := tx "t" [("id", id); ("word", word)] kids.
Definition tx_nt (id cat : string) (kids : list xml) : xml := tx "nt" [("id", id); ("cat", cat)] kids.
Definition tx_e (idref label : string) : xml := tx "edge" [("idref", idref); ("label", label)] [].
Definition tx_sec (idref label : string) : xml := tx "secedge" [("idref", idref); ("label", label)] [].
Definition tx_s (id root : string) (ts nts : list xml) : xml :=
  tx "s" [("id", id)] [tx "graph" [("root", root)] [tx "terminals" [] ts; tx "nonterminals" [] nts]].
Definition tx_corpus (ss : list xml) : xml := tx "corpus" [("id", "c")] [tx "head" [] []; tx "body" [] ss].
(** (S (NP der Hund) bellt) . *)
Definition tx_hund : xml :=
  tx_s "s1" "s1_500" [tx_t "s1_1" "der" []; tx_t "s1_2" "Hund" [tx_sec "s1_3" "RE"]; tx_t "s1_3" "bellt" []; tx_t "s1_4" "." []]
    [tx_nt "s1_501" "NP" [tx_e "s1_1" "NK"; tx_e "s1_2" "NK"]; tx_nt "s1_500" "S" [tx_e "s1_501" "SB"; tx_e "s1_3" "HD"; tx_sec "s1_501" "OA"]].
(** (VP (PP im Garten)) *)
Definition tx_garten : xml :=
  tx_s "s2" "s2_500" [tx_t "s2_1" "im" []; tx_t "s2_2" "Garten" []] [tx_nt "s2_500" "VP" [tx_e "s2_501" "MO"]; tx_nt "s2_501" "PP" [tx_e "s2_1" "AC"; tx_e "s2_2" "NK"]].
Definition tx_doc : xml := tx_corpus [tx_hund; tx_garten].
(** a headline: the only token is the root *)
Definition tx_headline (id word : string) : xml := tx_s id (id +:+ "_1") [tx_t (id +:+ "_1") word []] [].
Definition tx_rank (n : nid) : nat :=
  if bool_decide (n ∈ [NStr "s1_500"; NStr "s2_500"]) then 2 else if bool_decide (n ∈ [NStr "s1_501"; NStr "s2_501"]) then 1 else 0.
