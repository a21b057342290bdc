(** * DotFacts: graphs for graphviz (proofs) *)
From Verif Require Import PyBase DocGraph Relabel StrNum Query Text TextFacts LabelFacts SpanFacts GeoffFacts SpecGraph DocGraphFacts Effects Dot SpecDot.
From Verif Require RstRead.

(** ** Quoting *)
Lemma body_esc s : quoted_body s (esc s).
Proof.
  induction s as [|c s IH]; [constructor|]. rewrite esc_cons. destruct (decide (c = dquote)) as [->|Hc]; [by constructor|]. by constructor.
Qed.
Lemma body_is s b : quoted_body s b → b = esc s.
Proof.
  induction 1 as [|s b H IH|c s b Hc H IH]; [reflexivity| |]; rewrite esc_cons, <-IH; [reflexivity|]. rewrite decide_False by exact Hc. reflexivity.
Qed.
Lemma quoted_iff s q : quoted s q ↔ q = quote_for_pydot (chs s).
Proof.
  unfold quoted, quote_for_pydot. fold (esc (chs s)). split; [intros (b & ->%body_is & ->); reflexivity|]. intros ->. exists (esc (chs s)). split; [apply body_esc|reflexivity].
Qed.
Lemma quoted_inj s t q : quoted s q → quoted t q → s = t.
Proof. intros ->%quoted_iff H%quoted_iff. apply quote_inj in H. by apply chs_inj. Qed.
Lemma quote_id_quoted n : quoted (id_text n) (quote_id n).
Proof. apply quoted_iff. reflexivity. Qed.
Lemma quote_value_iff v q : quote_value v = Ok q ↔ ∃ s, shown v s ∧ quoted s q.
Proof.
  split.
  - destruct v as [|[]|z|s|l| |i]; cbn [quote_value]; try done; intros [= <-]; eexists; (split; [constructor|by apply quoted_iff]).
  - intros (s & [s'|z| |] & ->%quoted_iff); reflexivity.
Qed.
Lemma dot_label_iff a l : dot_label a = Ok l ↔ label_shown a l.
Proof.
  unfold dot_label, label_shown. destruct (dget "label" a) as [v|]; [|split; [by intros [= <-]|by intros ->]]. destruct (quote_value v) as [q|e] eqn:E; cbn [rbind].
  - apply quote_value_iff in E as (s & Hs & Hq). split; [intros [= <-]; by exists s, q|]. intros (s' & q' & Hs' & Hq' & ->). assert (s' = s) as -> by (destruct Hs'; inversion Hs; reflexivity). apply quoted_iff in Hq, Hq'. by rewrite Hq, Hq'.
  - split; [done|]. intros (s & q & Hs & Hq & _). assert (quote_value v = Ok q) by (apply quote_value_iff; by exists s). congruence.
Qed.
Lemma dot_label_total a : (∃ l, dot_label a = Ok l) ↔ showable a.
Proof.
  split.
  - intros [l H%dot_label_iff] v Hv. unfold label_shown in H. rewrite Hv in H. destruct H as (s & _ & Hs & _). by exists s.
  - intros H. unfold showable in H. destruct (dget "label" a) as [v|] eqn:E; [|exists None; apply dot_label_iff; unfold label_shown; by rewrite E]. destruct (H v eq_refl) as [s Hs]. exists (Some (quote_for_pydot (chs s))). apply dot_label_iff. unfold label_shown. rewrite E. exists s, (quote_for_pydot (chs s)). split; [exact Hs|]. split; [by apply quoted_iff|reflexivity].
Qed.
Lemma dot_label_err a e : dot_label a = Err e → e = TypeError ∧ ¬ showable a.
Proof.
  intros H. split.
  - unfold dot_label in H. destruct (dget "label" a) as [v|]; [|done]. destruct v as [|[]|z|s|l| |i]; cbn in H; congruence.
  - intros [l Hl]%dot_label_total. congruence.
Qed.
Lemma dot_node_iff p q : dot_node p = Ok q ↔ node_shown p q.
Proof.
  unfold dot_node, node_shown. destruct q as [q l]. cbn [fst snd]. rewrite <-dot_label_iff. destruct (dot_label p.2) as [l'|e]; cbn [rbind].
  - split; [intros [= <- <-]; split; [apply quote_id_quoted|reflexivity]|]. intros [->%quoted_iff [= <-]]. reflexivity.
  - split; [done|]. by intros [_ ?].
Qed.
Lemma dot_edge_iff e q : dot_edge e = Ok q ↔ edge_shown e q.
Proof.
  unfold dot_edge, edge_shown. destruct q as [[q r] l]. cbn [fst snd]. rewrite <-dot_label_iff. destruct (dot_label e.2) as [l'|x]; cbn [rbind].
  - split; [intros [= <- <- <-]; split; [apply quote_id_quoted|split; [apply quote_id_quoted|reflexivity]]|]. intros (->%quoted_iff & ->%quoted_iff & [= <-]). reflexivity.
  - split; [done|]. by intros (_ & _ & ?).
Qed.

(** ** The new graph *)
Lemma add_keys ns : ∀ d, dkeys (foldl add_dot_node d ns) = dkeys (foldl add_dot_node d ns) ∧ (NoDup (dkeys d) → NoDup (dkeys (foldl add_dot_node d ns))) ∧ ∀ q, q ∈ dkeys (foldl add_dot_node d ns) ↔ q ∈ dkeys d ∨ q ∈ ns.*1.
Proof.
  induction ns as [|p ns IH]; intros d; [split; [done|]; split; [done|]; intros q; cbn [foldl]; change (([] : list (chars * option chars)).*1) with ([] : list chars); rewrite elem_of_nil; tauto|]. cbn [foldl]. destruct (IH (add_dot_node d p)) as (_ & H1 & H2). split; [done|]. split.
  - intros H. apply H1. unfold add_dot_node. by apply NoDup_dset.
  - intros q. rewrite H2. unfold add_dot_node. rewrite dkeys_dset_elem, fmap_cons, elem_of_cons. tauto.
Qed.
Lemma add_plain ns : ∀ d, NoDup (dkeys d ++ ns.*1) → foldl add_dot_node d ns = d ++ ns.
Proof.
  induction ns as [|[k v] ns IH]; intros d H; [by rewrite app_nil_r|]. cbn [foldl]. rewrite fmap_cons in H. cbn [fst] in H. assert (Hk : k ∉ dkeys d). { apply NoDup_app in H as (_ & H & _). intros Hk. apply (H _ Hk). left. }
  unfold add_dot_node at 2. cbn [fst snd]. rewrite RstRead.dset_new by exact Hk. assert (dget k d = None) as -> by (by apply dget_None). assert (match v with Some l => Some l | None => default None None end = v) as -> by (by destruct v). rewrite IH; [by rewrite <-app_assoc|]. unfold dkeys in *. rewrite fmap_app, <-app_assoc. exact H.
Qed.
Lemma touched es : ∀ d : dict chars (option chars), (∀ e, e ∈ es → e.1.1 ∈ dkeys d ∧ e.1.2 ∈ dkeys d) → foldl (λ d (e : chars * chars * option chars), touch (touch d e.1.1) e.1.2) d es = d.
Proof.
  induction es as [|e es IH]; intros d H; [reflexivity|]. cbn [foldl]. destruct (H e) as [H1 H2]; [left|]. assert (HT : ∀ n, n ∈ dkeys d → touch d n = d) by (intros n Hk; unfold touch; by rewrite (proj2 (dmem_spec n d) Hk)). rewrite (HT _ H1), (HT _ H2). apply IH. intros e' He'. apply H. by right.
Qed.
Lemma nodes_data_eq g : Consistent g → g_node g = nodes_data g.
Proof.
  intros C. unfold nodes_data, nodes, dkeys. rewrite <-list_fmap_compose. rewrite <-(list_fmap_id (g_node g)) at 1. apply list_fmap_ext. intros i [n a] Hi. cbn. unfold node_attrs.
  assert (H : dget n (g_node g) = Some a) by (apply elem_dget; [apply C|by eapply elem_of_list_lookup_2]). by rewrite H.
Qed.
Section thm.
  Context (ordn : list (nid * attrs) → list (nid * attrs)) (orde : list (nid * nid * nid * attrs) → list (nid * nid * nid * attrs)) (Hn : ∀ l, ordn l ≡ₚ l) (He : ∀ l, orde l ≡ₚ l) (g : graph) (C : Consistent g).
  Lemma dot_thm : Forall (λ p, showable p.2) (nodes_data g) → Forall (λ e, showable e.2) (edges g) → ∃ d, preprocess_for_pydot ordn orde g = Ok d ∧ d_name d = g_name g ∧
    (∃ es, es ≡ₚ edges g ∧ Forall2 edge_shown es (d_edges d)) ∧ NoDup (d_nodes d).*1 ∧ (∀ q, q ∈ (d_nodes d).*1 ↔ ∃ n, n ∈ nodes g ∧ quoted (id_text n) q) ∧
    (texts_differ g → ∃ ns, ns ≡ₚ nodes_data g ∧ Forall2 node_shown ns (d_nodes d)).
  Proof using Hn He C.
    intros Sn Se. unfold preprocess_for_pydot. rewrite (nodes_data_eq g C). rewrite Forall_forall in Sn. rewrite Forall_forall in Se.
    destruct (rmap_total dot_node (ordn (nodes_data g))) as [ns Ens]. { intros p Hp. rewrite Hn in Hp. destruct (proj2 (dot_label_total p.2) (Sn p Hp)) as [l Hl]. unfold dot_node. rewrite Hl. by eexists. }
    destruct (rmap_total dot_edge (orde (edges g))) as [es Ees]. { intros p Hp. rewrite He in Hp. destruct (proj2 (dot_label_total p.2) (Se p Hp)) as [l Hl]. unfold dot_edge. rewrite Hl. by eexists. }
    rewrite Ens, Ees. cbn [rbind]. apply rmap_Ok in Ens, Ees. assert (Fn : Forall2 node_shown (ordn (nodes_data g)) ns) by (eapply Forall2_impl; [exact Ens|]; intros p q; apply dot_node_iff). assert (Fe : Forall2 edge_shown (orde (edges g)) es) by (eapply Forall2_impl; [exact Ees|]; intros p q; apply dot_edge_iff).
    assert (Hk : ns.*1 = quote_id <$> (ordn (nodes_data g)).*1). { clear -Fn. induction Fn as [|p q l l' [Hq _] HF IH]; [reflexivity|]. rewrite !fmap_cons, IH. apply quoted_iff in Hq. by rewrite Hq. }
    assert (Hd : (ordn (nodes_data g)).*1 ≡ₚ nodes g). { rewrite Hn. unfold nodes_data. rewrite <-list_fmap_compose. unfold compose. cbn. by rewrite list_fmap_id. }
    destruct (add_keys ns []) as (_ & K1 & K2).
    assert (KK : ∀ q, q ∈ dkeys (foldl add_dot_node [] ns) ↔ ∃ n, n ∈ nodes g ∧ quoted (id_text n) q). { intros q. rewrite K2. change (dkeys ([] : dict chars (option chars))) with ([] : list chars). rewrite Hk, Hd, elem_of_nil, elem_of_list_fmap. split; [intros [[]|(n & -> & Hx)]; exists n; split; [exact Hx|apply quote_id_quoted]|]. intros (n & Hx & ->%quoted_iff). right. by exists n. }
    assert (ET : foldl (λ d (e : chars * chars * option chars), touch (touch d e.1.1) e.1.2) (foldl add_dot_node [] ns) es = foldl add_dot_node [] ns).
    { apply touched. intros q Hq. apply elem_of_list_lookup in Hq as [i Hi]. destruct (Forall2_lookup_r _ _ _ _ _ Fe Hi) as (e & Hei & H1 & H2 & _). assert (Hx : e ∈ edges g) by (rewrite <-He; by eapply elem_of_list_lookup_2). destruct e as [[[u v] k] a]. apply elem_edges in Hx; [|exact C]. split; apply KK; [exists u|exists v]; (split; [|assumption]); [by eapply edge_node_l|by eapply edge_node_r]. }
    rewrite ET. eexists. split; [reflexivity|]. cbn [d_name d_edges d_nodes]. split; [reflexivity|]. split; [exists (orde (edges g)); split; [apply He|exact Fe]|]. split; [apply K1, NoDup_nil_2|]. split; [exact KK|].
    intros HT. exists (ordn (nodes_data g)). split; [apply Hn|]. rewrite (add_plain ns []); [exact Fn|]. change (dkeys ([] : dict chars (option chars)) ++ ns.*1) with (ns.*1). rewrite Hk, Hd. apply NoDup_fmap_2_strong; [|apply C]. intros n m Hx Hy E. apply HT; [exact Hx|exact Hy|]. eapply quoted_inj; [apply quote_id_quoted|]. rewrite E. apply quote_id_quoted.
  Qed.
  Lemma dot_rejects e : preprocess_for_pydot ordn orde g = Err e → e = TypeError ∧ (Exists (λ p, ¬ showable p.2) (nodes_data g) ∨ Exists (λ e, ¬ showable e.2) (edges g)).
  Proof using Hn He C.
    intros H. unfold preprocess_for_pydot in H. rewrite (nodes_data_eq g C) in H. destruct (rmap dot_node (ordn (nodes_data g))) as [ns|x] eqn:En; cbn [rbind] in H.
    - destruct (rmap dot_edge (orde (edges g))) as [es|x] eqn:Ee; cbn [rbind] in H; [done|]. injection H as ->. apply rmap_err in Ee as (p & Hp & Hx). rewrite He in Hp. unfold dot_edge in Hx. destruct (dot_label p.2) as [|y] eqn:El; cbn [rbind] in Hx; [done|]. injection Hx as ->. apply dot_label_err in El as [-> Hs]. split; [reflexivity|]. right. apply Exists_exists. by exists p.
    - injection H as ->. apply rmap_err in En as (p & Hp & Hx). rewrite Hn in Hp. unfold dot_node in Hx. destruct (dot_label p.2) as [|y] eqn:El; cbn [rbind] in Hx; [done|]. injection Hx as ->. apply dot_label_err in El as [-> Hs]. split; [reflexivity|]. left. apply Exists_exists. by exists p.
  Qed.
End thm.
