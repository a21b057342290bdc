(** * ExbWrite: exporting a graph as an Exmaralda document *)
From Verif Require Import PyBase DocGraph Relabel StrNum Query Text Rst Exb.
From Verif Require Import SpecGraph DocGraphFacts Effects SpecQuery SpanFacts SelectFacts LabelFacts OffsetFacts TextFacts LatexRead SpecExbWrite.

Lemma imap_pair_snoc {A} (l : list A) x : imap pair (l ++ [x]) = imap pair l ++ [(length l, x)].
Proof. rewrite imap_app. cbn. by rewrite Nat.add_0_r. Qed.
Lemma imap_pair_elem {A} (l : list A) i x : (i, x) ∈ imap pair l ↔ l !! i = Some x.
Proof. rewrite elem_of_lookup_imap. split; [by intros (? & ? & [= -> ->] & ?)|]. intros H. by exists i, x. Qed.
(** ** Positions of tokens *)
Lemma token_index_get g n i : NoDup (g_tokens g) → dget n (token_index g) = Some i ↔ g_tokens g !! i = Some n.
Proof.
  unfold token_index. generalize (g_tokens g) as l. intros l. revert i. induction l as [|x l IH] using rev_ind; intros i HD; [done|]. apply NoDup_app in HD as (HD & HX & _).
  rewrite imap_pair_snoc, foldl_app. cbn [foldl fst snd]. rewrite dget_dset. destruct (decide (n = x)) as [->|Hn].
  - assert (Hx : x ∉ l) by (intros H; apply (HX _ H); left). split.
    + intros [= <-]. by rewrite lookup_app_r, Nat.sub_diag.
    + intros H. f_equal. apply lookup_app_Some in H as [H|[H1 H2]]; [by apply elem_of_list_lookup_2 in H|]. destruct (i - length l) eqn:E; [lia|done].
  - rewrite (IH i HD). split; intros H.
    + by apply lookup_app_l_Some.
    + apply lookup_app_Some in H as [H|[H1 H2]]; [done|]. destruct (i - length l); [|done]. injection H2 as ->. done.
Qed.
(** ** Attributes of tokens *)
Lemma exported_iff k : exported_attr k = true ↔ exported k.
Proof. unfold exported_attr, exported. rewrite andb_true_iff, !negb_true_iff, !bool_decide_eq_false. done. Qed.
Definition row := (string * nid * pyval)%type.
Definition collect (m : dict string (dict nid pyval)) (r : row) : dict string (dict nid pyval) := dset r.1.1 (dset r.1.2 r.2 (default [] (dget r.1.1 m))) m.
Definition functional (R : list row) : Prop := ∀ k n v w, (k, n, v) ∈ R → (k, n, w) ∈ R → v = w.
Lemma collect_ok R : functional R → let m := foldl collect [] R in
  NoDup (dkeys m) ∧ (∀ k, k ∈ dkeys m ↔ ∃ n v, (k, n, v) ∈ R) ∧ (∀ k d, dget k m = Some d → NoDup (dkeys d) ∧ ∀ n v, dget n d = Some v ↔ (k, n, v) ∈ R).
Proof.
  induction R as [|[[k0 n0] v0] R IH] using rev_ind; intros HF; cbn [foldl] in *.
  - split; [constructor|]. split; [|done]. intros k. cbn. rewrite elem_of_nil. split; [done|]. intros (? & ? & H). by apply elem_of_nil in H.
  - rewrite foldl_app. cbn [foldl]. destruct IH as (H1 & H2 & H3). { intros k n v w A B. eapply HF; apply elem_of_app; left; done. }
    set (m := foldl collect [] R) in *. unfold collect. cbn [fst snd]. set (d0 := default [] (dget k0 m)).
    assert (H0 : NoDup (dkeys d0) ∧ ∀ n v, dget n d0 = Some v ↔ (k0, n, v) ∈ R).
    { subst d0. destruct (dget k0 m) as [d|] eqn:E; cbn; unfold id; [by apply H3|]. split; [constructor|]. intros n v. split; [done|]. intros H. exfalso. apply dget_None in E. apply E, H2. by exists n, v. }
    clearbody d0. split; [by apply NoDup_dset|]. split.
    + intros k. rewrite dkeys_dset_elem, H2. split.
      * intros [->|(n & v & H)]; [exists n0, v0; apply elem_of_app; right; left|exists n, v; apply elem_of_app; by left].
      * intros (n & v & [H|H]%elem_of_app); [right; by exists n, v|]. apply elem_of_list_singleton in H. injection H as -> _ _. by left.
    + intros k d. rewrite dget_dset. destruct (decide (k = k0)) as [->|Hk].
      * intros [= <-]. split; [apply NoDup_dset; tauto|]. intros n v. rewrite dget_dset, elem_of_app, elem_of_list_singleton. destruct (decide (n = n0)) as [->|Hn].
        -- split; [intros [= <-]; by right|]. intros [H|H]; [|congruence]. f_equal. apply (HF k0 n0); apply elem_of_app; [right; left|by left].
        -- rewrite (proj2 H0). split; [by left|]. intros [?|?]; [done|congruence].
      * intros Hd. destruct (H3 k d Hd) as [A B]. split; [done|]. intros n v. rewrite B, elem_of_app, elem_of_list_singleton. split; [by left|]. intros [?|?]; [done|congruence].
Qed.
Lemma rows_elem g R : rconcat (λ t, let! a := of_option KeyError (node_attrs g t) in Ok (filter (λ k, exported_attr k = true) (remove_dups (dkeys a)) ≫= λ k, match dget k a with Some v => [(k, t, v)] | None => [] end)) (g_tokens g) = Ok R →
  ∀ k n v, (k, n, v) ∈ R ↔ n ∈ g_tokens g ∧ exported k ∧ ∃ a, node_attrs g n = Some a ∧ dget k a = Some v.
Proof.
  generalize (g_tokens g) as l. intros l. revert R. induction l as [|t l IH]; intros R H k n v; cbn [rconcat] in H.
  - injection H as <-. rewrite elem_of_nil. split; [done|]. intros [H _]. by apply elem_of_nil in H.
  - destruct (node_attrs g t) as [a|] eqn:Ea; [|done]. cbn [of_option rbind] in H. destruct (rconcat _ l) as [R'|] eqn:ER; [|done]. cbn [rbind] in H. injection H as <-. rewrite elem_of_app, (IH _ eq_refl), elem_of_cons.
    assert (HX : (k, n, v) ∈ (filter (λ k, exported_attr k = true) (remove_dups (dkeys a)) ≫= λ k, match dget k a with Some v => [(k, t, v)] | None => [] end) ↔ n = t ∧ exported k ∧ dget k a = Some v).
    { rewrite elem_of_list_bind. split.
      - intros (k' & H & Hk). apply elem_of_list_filter in Hk as [Hk _]. destruct (dget k' a) as [v'|] eqn:E; [|by apply elem_of_nil in H]. apply elem_of_list_singleton in H. injection H as -> -> ->. split; [done|]. split; [by apply exported_iff|done].
      - intros (-> & Hk & Hv). exists k. rewrite Hv. split; [left|]. apply elem_of_list_filter. split; [by apply exported_iff|]. rewrite elem_of_remove_dups. apply dget_Some_elem in Hv. unfold dkeys. apply elem_of_list_fmap. by exists (k, v). }
    rewrite HX. split.
    + intros [(-> & A & B)|(A & B & C)]; [|tauto]. split; [by left|]. split; [done|]. by exists a.
    + intros ([->|A] & B & C); [|tauto]. left. destruct C as (a' & C1 & C2). split; [done|]. split; [done|]. congruence.
Qed.
Lemma time_tick i : time_id i = tick i.
Proof. done. Qed.
Lemma make_event_ok i j v e : make_event i j v = Ok e ↔ ∃ s, v = VStr s ∧ e = at_points i j s.
Proof. unfold make_event. split; [destruct v; try done; intros [= <-]; eexists; done|]. intros (s & -> & ->). done. Qed.
Lemma dict_elem {A B} `{EqDecision A} (d : dict A B) k v : NoDup (dkeys d) → (k, v) ∈ d ↔ dget k d = Some v.
Proof. intros HD. split; [by apply elem_dget|apply dget_Some_elem]. Qed.
Lemma attribs_ok g m : NoDup (g_tokens g) → token_attribs g = Ok m →
  NoDup (dkeys m) ∧ (∀ k, k ∈ dkeys m ↔ exported k ∧ ∃ i v, token_value g k i v) ∧
  ∀ k d, (k, d) ∈ m → NoDup (dkeys d) ∧ ∀ n v, (n, v) ∈ d ↔ ∃ i, g_tokens g !! i = Some n ∧ token_value g k i v.
Proof.
  intros HD H. unfold token_attribs in H. destruct (rconcat _ _) as [R|] eqn:ER; [|done]. cbn [rbind] in H. injection H as H. pose proof (rows_elem g R ER) as HR.
  assert (HF : functional R). { intros k n v w A B. apply HR in A as (_ & _ & a & A1 & A2). apply HR in B as (_ & _ & b & B1 & B2). congruence. }
  pose proof (collect_ok R HF) as HC. cbv zeta in HC. change (foldl collect [] R = m) in H. rewrite H in HC. destruct HC as (H1 & H2 & H3). split; [done|].
  assert (HV : ∀ k n v, (k, n, v) ∈ R ↔ exported k ∧ ∃ i, g_tokens g !! i = Some n ∧ token_value g k i v).
  { intros k n v. rewrite HR. split.
    - intros (A & B & a & C & D). split; [done|]. apply elem_of_list_lookup in A as [i Hi]. exists i. split; [done|]. by exists n, a.
    - intros (B & i & Hi & n' & a & C & D & E). assert (n' = n) as -> by congruence. split; [by eapply elem_of_list_lookup_2|]. split; [done|]. by exists a. }
  split.
  - intros k. rewrite H2. split.
    + intros (n & v & A). apply HV in A as (A & i & B & C). split; [done|]. by exists i, v.
    + intros (A & i & v & C). pose proof C as (n & a & C1 & _). exists n, v. apply HV. split; [done|]. by exists i.
  - intros k d Hk. assert (Hd : dget k m = Some d) by (by apply dict_elem). destruct (H3 k d Hd) as [A B]. split; [done|]. intros n v. rewrite dict_elem, B, HV by done. split; [tauto|]. intros C. split; [|done].
    apply dget_Some_elem in Hd. assert (Hin : k ∈ dkeys m) by (unfold dkeys; apply elem_of_list_fmap; by exists (k, d)). apply H2 in Hin as (n' & v' & Hin). by apply HV in Hin as [? _].
Qed.
Lemma attr_row g k (d : dict nid pyval) es : NoDup (g_tokens g) → NoDup (dkeys d) → (∀ n v, (n, v) ∈ d ↔ ∃ i, g_tokens g !! i = Some n ∧ token_value g k i v) →
  Forall2 (λ (q : nid * pyval) e, ∃ i s, dget q.1 (token_index g) = Some i ∧ q.2 = VStr s ∧ e = at_points i (S i) s) d es → attr_events g k es.
Proof.
  intros HD HK HV HF. set (f := λ q : nid * pyval, (default 0 (dget q.1 (token_index g)), match q.2 with VStr s => s | _ => "" end)). exists (f <$> d).
  assert (HX : ∀ q, q ∈ d → ∃ i s, q.2 = VStr s ∧ g_tokens g !! i = Some q.1 ∧ f q = (i, s)).
  { intros q Hq. apply elem_of_list_lookup in Hq as [j Hj]. destruct (Forall2_lookup_l _ _ _ _ _ HF Hj) as (e & _ & i & s & Hi & Hs & _). exists i, s. split; [done|]. split; [by apply token_index_get|]. unfold f. by rewrite Hi, Hs. }
  split; [|split].
  - rewrite <-list_fmap_compose. clear -HF. induction HF as [|q e d es (i & s & H1 & H2 & ->) HF IH]; [done|]. rewrite fmap_cons, <-IH. f_equal. unfold compose, f. by rewrite H1, H2.
  - apply NoDup_fmap_2_strong.
    + intros x y Hx Hy E. destruct (HX x Hx) as (i & s & A1 & A2 & A3), (HX y Hy) as (i' & s' & B1 & B2 & B3). rewrite A3, B3 in E. injection E as <- <-. destruct x, y. cbn in *. congruence.
    + by eapply NoDup_fmap_1.
  - intros i s. rewrite elem_of_list_fmap. split.
    + intros (q & E & Hq). destruct (HX q Hq) as (i' & s' & A1 & A2 & A3). rewrite A3 in E. injection E as -> ->. destruct q as [n v]. cbn in *. subst v. apply HV in Hq as (i & Hi & Ht). by rewrite (NoDup_lookup _ _ _ _ HD Hi A2) in Ht.
    + intros Ht. pose proof Ht as (n & a & Hn & _). exists (n, VStr s). assert (Hq : (n, VStr s) ∈ d) by (apply HV; by exists i). split; [|done]. destruct (HX _ Hq) as (i' & s' & A1 & A2 & A3). cbn [fst snd] in *. rewrite A3. injection A1 as <-. by rewrite (NoDup_lookup _ _ _ _ HD Hn A2).
Qed.
Section Order.
  Context (order : ∀ A, list A → list A) (HO : any_order order).
  Lemma attr_tier_ok g k d c t : NoDup (g_tokens g) → NoDup (dkeys d) → (∀ n v, (n, v) ∈ d ↔ ∃ i, g_tokens g !! i = Some n ∧ token_value g k i v) →
    attr_tier order g c (k, d) = Ok t → ∃ es, t = nth_tier c (last_part k) k es ∧ attr_events g k es.
  Proof.
    intros HD HK HV H. unfold attr_tier in H. cbn [fst snd] in H. destruct (rmap _ _) as [es|] eqn:ER; [|done]. cbn [rbind] in H. injection H as <-. exists es. split; [done|]. apply rmap_Ok in ER.
    apply (attr_row g k (order _ d)); [done| | |].
    - unfold dkeys. by rewrite (HO _ d).
    - intros n v. rewrite (HO _ d). apply HV.
    - eapply Forall2_impl; [exact ER|]. intros [n v] e H. cbn [fst snd] in *. destruct (dget n _) as [i|]; [|done]. cbn [of_option rbind] in H. apply make_event_ok in H as (s & -> & ->). by exists i, s.
  Qed.
  Lemma attr_tier_total g k d c : NoDup (g_tokens g) → (∀ n v, (n, v) ∈ d ↔ ∃ i, g_tokens g !! i = Some n ∧ token_value g k i v) → (∀ i v, token_value g k i v → ∃ s, v = VStr s) →
    ∃ t, attr_tier order g c (k, d) = Ok t.
  Proof.
    intros HD HV HS. unfold attr_tier. cbn [fst snd]. destruct (rmap_total (λ q : nid * pyval, let! i := of_option KeyError (dget q.1 (token_index g)) in make_event i (S i) q.2) (order _ d)) as [es Hes].
    - intros [n v] Hq. rewrite (HO _ d) in Hq. apply HV in Hq as (i & Hi & Ht). apply token_index_get in Hi; [|done]. cbn [fst snd]. rewrite Hi. cbn [of_option rbind]. destruct (HS _ _ Ht) as [s ->]. by eexists.
    - rewrite Hes. by eexists.
  Qed.
  Lemma attr_tier_inv g k d c t : NoDup (g_tokens g) → (∀ n v, (n, v) ∈ d ↔ ∃ i, g_tokens g !! i = Some n ∧ token_value g k i v) →
    attr_tier order g c (k, d) = Ok t → ∀ i v, token_value g k i v → ∃ s, v = VStr s.
  Proof.
    intros HD HV H i v Ht. pose proof Ht as (n & a & Hn & _). assert (Hq : (n, v) ∈ order _ d) by (rewrite (HO _ d); apply HV; by exists i).
    unfold attr_tier in H. cbn [fst snd] in H. destruct (rmap _ _) as [es|] eqn:ER; [|done]. apply rmap_Ok in ER. apply elem_of_list_lookup in Hq as [j Hj]. destruct (Forall2_lookup_l _ _ _ _ _ ER Hj) as (e & _ & He). cbn [fst snd] in He.
    destruct (dget n _); [|done]. cbn [of_option rbind] in He. apply make_event_ok in He as (s & -> & _). by exists s.
  Qed.
End Order.
(** ** Annotations *)
Lemma span2event_ok g l i j : NoDup (g_tokens g) → span2event g l = Ok (i, j) ↔ ∃ a b k, head l = Some a ∧ last l = Some b ∧ g_tokens g !! i = Some a ∧ g_tokens g !! k = Some b ∧ j = S k.
Proof.
  intros HD. unfold span2event. destruct (head l) as [a|]; [|split; [done|by intros (? & ? & ? & ? & _)]]. destruct (last l) as [b|]; [|split; [done|by intros (? & ? & ? & _ & ? & _)]].
  split.
  - destruct (dget a _) as [x|] eqn:Ea; [|done]. destruct (dget b _) as [y|] eqn:Eb; [|done]. cbn. intros [= <- <-]. apply token_index_get in Ea, Eb; [|done..]. by exists a, b, y.
  - intros (a' & b' & k & [= <-] & [= <-] & Ha & Hb & ->). apply token_index_get in Ha, Hb; [|done..]. by rewrite Ha, Hb.
Qed.
(** what one node gives *)
Definition node_event (fuel : nat) (g : graph) (n : nid) (said : res pyval) : res (list event) :=
  let! l := get_span fuel g n in
  match l with [] => Ok [] | _ => let! p := span2event g l in let! v := said in let! e := make_event p.1 p.2 v in Ok [e] end.
Lemma node_event_ok fuel g n v es : NoDup (g_tokens g) → node_event fuel g n v = Ok es →
  (get_span fuel g n = Ok [] ∧ es = []) ∨ ∃ i j s, get_span fuel g n ≠ Ok [] ∧ token_extent fuel g n i j ∧ v = Ok (VStr s) ∧ es = [at_points i (S j) s].
Proof.
  intros HD H. unfold node_event in H. destruct (get_span fuel g n) as [l|] eqn:El; [|done]. cbn [rbind] in H. destruct l as [|x l]; [injection H as <-; by left|]. right.
  destruct (span2event g (x :: l)) as [[i j]|] eqn:E; [|done]. cbn [rbind fst snd] in H. apply span2event_ok in E as (a & b & k & A1 & A2 & A3 & A4 & ->); [|done]. destruct v as [v|]; [|done]. cbn [rbind] in H.
  destruct (make_event i (S k) v) as [e|] eqn:Ee; [|done]. cbn [rbind] in H. injection H as <-. apply make_event_ok in Ee as (s & -> & ->). exists i, k, s. split; [done|]. split; [|done]. by exists (x :: l), a, b.
Qed.
Lemma node_event_total fuel g n v : NoDup (g_tokens g) → get_span fuel g n = Ok [] ∨ (∃ i j s, token_extent fuel g n i j ∧ v = Ok (VStr s)) → ∃ es, node_event fuel g n v = Ok es.
Proof.
  intros HD [H|(i & j & s & (l & a & b & H1 & H2 & H3 & H4 & H5) & ->)]; unfold node_event; [rewrite H; by eexists|]. rewrite H1. cbn [rbind]. destruct l as [|x l]; [by eexists|].
  assert (E : span2event g (x :: l) = Ok (i, S j)) by (apply span2event_ok; [done|]; by exists a, b, j). rewrite E. by eexists.
Qed.
Lemma node_events_iff fuel g (V : nid → res pyval) (said : nid → string → Prop) ns ess : NoDup (g_tokens g) → (∀ n s, V n = Ok (VStr s) → said n s) →
  Forall2 (λ n es, node_event fuel g n (V n) = Ok es) ns ess → node_events fuel g ns said (concat ess).
Proof.
  intros HD HV HF. split.
  - induction HF as [|n es ns ess H HF IH]; [apply List.Forall_nil|]. apply List.Forall_cons; [|exact IH]. unfold node_event in H. destruct (get_span fuel g n) as [l|]; [by exists l|done].
  - induction HF as [|n es ns ess H HF IH]; [apply List.Forall2_nil|]. cbn [concat]. rewrite filter_cons. apply node_event_ok in H as [(H & ->)|(i & j & s & H1 & H2 & H3 & ->)]; [| |done].
    + rewrite decide_False by (intros H'; by apply H'). exact IH.
    + rewrite decide_True by done. apply List.Forall2_cons; [|exact IH]. exists i, j, s. split; [done|]. split; [by apply HV|done].
Qed.
Definition label_value (g : graph) (n : nid) : res pyval := let! a := of_option KeyError (node_attrs g n) in Ok (default (VStr "") (dget "label" a)).
Lemma label_value_ok g n s : label_value g n = Ok (VStr s) ↔ label_is g n s.
Proof.
  unfold label_value, label_is. split.
  - destruct (node_attrs g n) as [a|]; [|done]. cbn. intros [= H]. by exists a.
  - intros (a & -> & H). cbn [of_option rbind]. by rewrite H.
Qed.
Lemma rconcat_ext {A B} (f h : A → res (list B)) l : (∀ x, f x = h x) → rconcat f l = rconcat h l.
Proof. intros H. induction l as [|x l IH]; [done|]. cbn [rconcat]. by rewrite H, IH. Qed.
Lemma layer_tier_eq fuel g c layer : layer_tier fuel g c layer =
  let! ns := select_nodes_by_layer g (LOne layer) in let! es := rconcat (λ n, node_event fuel g n (label_value g n)) ns in Ok (make_tier c (last_part layer) layer es).
Proof.
  unfold layer_tier. destruct (select_nodes_by_layer g _) as [ns|]; [|done]. cbn [rbind]. f_equal. apply rconcat_ext. intros n. unfold node_event, label_value. destruct (get_span fuel g n) as [[|x l]|]; [done| |done]. cbn [rbind]. destruct (span2event g _); [|done]. cbn [rbind].
  by destruct (of_option _ _).
Qed.
Lemma layer_tier_ok fuel g c layer t : Consistent g → Layered g → NoDup (g_tokens g) → layer_tier fuel g c layer = Ok t →
  ∃ es, t = nth_tier c (last_part layer) layer es ∧ layer_events fuel g layer es.
Proof.
  intros C L HD. rewrite layer_tier_eq. destruct (nodes_by_layer_ok g (LOne layer) C L) as (ns & -> & H1 & H2). cbn [rbind]. destruct (rconcat _ ns) as [es|] eqn:ER; [|done]. cbn [rbind]. intros [= <-]. exists es. split; [done|].
  apply rconcat_Ok in ER as (ess & HF & ->). exists ns. split; [done|]. split; [exact H2|]. eapply node_events_iff; [done| |exact HF]. intros n s. apply label_value_ok.
Qed.
Lemma layer_tier_iff fuel g c layer : Consistent g → Layered g → NoDup (g_tokens g) →
  (∃ t, layer_tier fuel g c layer = Ok t) ↔ ∀ n, ohas_layer (node_attrs g n) layer → spanned_ok fuel g n ∧ (get_span fuel g n = Ok [] ∨ ∃ s, label_is g n s).
Proof.
  intros C L HD. rewrite layer_tier_eq. destruct (nodes_by_layer_ok g (LOne layer) C L) as (ns & -> & H1 & H2). cbn [rbind]. split.
  - intros (t & H) n Hn. destruct (rconcat _ ns) as [es|] eqn:ER; [|done]. apply rconcat_Ok in ER as (ess & HF & ->). assert (Hin : n ∈ ns) by (by apply H2). apply elem_of_list_lookup in Hin as [i Hi]. destruct (Forall2_lookup_l _ _ _ _ _ HF Hi) as (es & _ & He).
    apply node_event_ok in He as [(He & _)|(a & b & s & A1 & A2 & A3 & _)]; [| |done]; [split; by left|]. split; [right; by exists a, b|]. right. exists s. by apply label_value_ok.
  - intros H. assert (HT : ∀ n, n ∈ ns → ∃ es, node_event fuel g n (label_value g n) = Ok es).
    { intros n Hn. apply node_event_total; [done|]. apply H2 in Hn. destruct (H n Hn) as [[?|(i & j & A)] [?|[s B]]]; try (by left). right. exists i, j, s. split; [done|]. by apply label_value_ok. }
    clear -HT. assert (HR : ∃ es, rconcat (λ n, node_event fuel g n (label_value g n)) ns = Ok es).
    { induction ns as [|n ns IH]; [by eexists|]. cbn [rconcat]. destruct (HT n ltac:(left)) as [es ->]. destruct IH as [es' ->]; [intros m Hm; apply HT; by right|]. by eexists. }
    destruct HR as [es ->]. by eexists.
Qed.
(** ** Chains *)
Lemma chain_tier_eq fuel g c i ch : chain_tier fuel g c i ch = if decide (length ch < 3) then Ok [] else
  let! es := rconcat (λ p : nat * nid, node_event fuel g p.2 (Ok (VStr (chain_said i (length ch) p.1)))) (imap pair ch) in Ok [make_tier c "chain" ("coref-chain-" +:+ str_Z (Z.of_nat i)) es].
Proof. done. Qed.
Lemma chain_tier_ok fuel g c i ch ts : NoDup (g_tokens g) → chain_tier fuel g c i ch = Ok ts →
  (length ch < 3 ∧ ts = []) ∨ (3 ≤ length ch ∧ ∃ es, ts = [nth_tier c "chain" ("coref-chain-" +:+ str_Z (Z.of_nat i)) es] ∧ chain_events fuel g i ch es).
Proof.
  intros HD. rewrite chain_tier_eq. destruct (decide _) as [Hl|Hl]; [intros [= <-]; by left|]. right. split; [lia|]. destruct (rconcat _ _) as [es|] eqn:ER; [|done]. cbn [rbind] in H. injection H as <-. exists es. split; [done|].
  apply rconcat_Ok in ER as (ess & HF & ->). exists ess. split; [done|]. eapply Forall2_impl; [exact HF|]. intros p es He. cbn beta in He. rewrite <-(app_nil_r es). change (es ++ []) with (concat [es]). apply (node_events_iff fuel g (λ _, Ok (VStr (chain_said i (length ch) p.1)))); [done| |].
  - by intros n s [= <-].
  - apply List.Forall2_cons; [exact He|apply List.Forall2_nil].
Qed.
Lemma chain_tier_iff fuel g c i ch : NoDup (g_tokens g) → (∃ ts, chain_tier fuel g c i ch = Ok ts) ↔ (3 ≤ length ch → ∀ n, n ∈ ch → spanned_ok fuel g n).
Proof.
  intros HD. rewrite chain_tier_eq. destruct (decide _) as [Hl|Hl]; [split; [lia|by eexists]|]. split.
  - intros (t & H) _ n Hn. destruct (rconcat _ _) as [es|] eqn:ER; [|done]. apply rconcat_Ok in ER as (ess & HF & _). apply elem_of_list_lookup in Hn as [j Hj]. assert (Hin : imap pair ch !! j = Some (j, n)) by (by rewrite list_lookup_imap, Hj).
    destruct (Forall2_lookup_l _ _ _ _ _ HF Hin) as (es' & _ & He). apply node_event_ok in He as [(He & _)|(a & b & s & _ & A2 & _)]; [by left|right; by exists a, b|done].
  - intros H. assert (HR : ∀ L : list (nat * nid), (∀ p, p ∈ L → p.2 ∈ ch) → ∃ es, rconcat (λ p : nat * nid, node_event fuel g p.2 (Ok (VStr (chain_said i (length ch) p.1)))) L = Ok es).
    { intros L. induction L as [|p L IH]; intros HL; [by eexists|]. cbn [rconcat]. destruct (node_event_total fuel g p.2 (Ok (VStr (chain_said i (length ch) p.1))) HD) as [es ->].
      - destruct (H ltac:(lia) p.2) as [?|(a & b & A)]; [apply HL; left|by left|right]. exists a, b. eexists. split; [exact A|done].
      - destruct IH as [es' ->]; [intros q Hq; apply HL; by right|]. by eexists. }
    destruct (HR (imap pair ch)) as [es ->]; [|by eexists]. intros [j n] Hp. apply imap_pair_elem in Hp. by eapply elem_of_list_lookup_2.
Qed.
(** ** Words *)
Lemma word_tier_ok g t : word_tier g = Ok t ↔ ∃ ss, text_tokens g ss ∧ t = words_tier ss.
Proof.
  unfold word_tier. assert (HX : ∀ (l : list nid) s es, rmap (λ p : nat * nid, let! v := get_token g p.2 in make_event p.1 (S p.1) v) (imap (λ i x, (s + i, x)) l) = Ok es ↔ ∃ ss, Forall2 (token_is g) l ss ∧ es = imap (λ i x, at_points (s + i) (S (s + i)) x) ss).
  { induction l as [|n l IH]; intros s es.
    - cbn. split; [intros [= <-]; exists []; split; [apply List.Forall2_nil|done]|]. intros (ss & H & ->). apply Forall2_nil_inv_l in H. by subst.
    - cbn [imap rmap fst snd]. assert (HI : imap ((λ i x, (s + i, x)) ∘ S) l = imap (λ i x, (S s + i, x)) l) by (apply imap_ext; intros i x _; unfold compose; f_equal; lia). rewrite HI. specialize (IH (S s)).
      assert (HE : ∀ ss : list string, imap ((λ i x, at_points (s + i) (S (s + i)) x) ∘ S) ss = imap (λ i x, at_points (S s + i) (S (S s + i)) x) ss) by (intros ss; apply imap_ext; intros i x _; unfold compose; f_equal; lia).
      split.
      + destruct (get_token g n) as [v|] eqn:Et; [|done]. cbn [rbind]. destruct (make_event _ _ v) as [e|] eqn:Ee; [|done]. cbn [rbind]. apply make_event_ok in Ee as (x & -> & ->). destruct (rmap _ _) as [es'|]; [|done]. cbn [rbind]. intros [= <-]. destruct (proj1 (IH es') eq_refl) as (ss & H1 & ->). exists (x :: ss). split.
        * apply List.Forall2_cons; [|done]. unfold get_token in Et. destruct (node_attrs g n) as [a|] eqn:Ea; [|done]. exists a. split; [done|]. by destruct (dget _ a); [injection Et as ->|].
        * cbn [imap]. by rewrite HE.
      + intros (ss & H & ->). inversion H as [|? x ? ss' (a & A1 & A2) H2]; subst. assert (HT : get_token g n = Ok (VStr x)) by (unfold get_token; by rewrite A1, A2). rewrite HT. cbn [rbind]. assert (HM : make_event (s + 0) (S (s + 0)) (VStr x) = Ok (at_points (s + 0) (S (s + 0)) x)) by done. rewrite HM. cbn [rbind]. rewrite (proj2 (IH _) (ex_intro _ ss' (conj H2 eq_refl))). cbn [rbind imap]. by rewrite HE. }
  specialize (HX (g_tokens g) 0). split.
  - destruct (rmap _ _) as [es|] eqn:ER; [|done]. cbn [rbind]. intros [= <-]. destruct (proj1 (HX es) eq_refl) as (ss & H1 & ->). by exists ss.
  - intros (ss & H1 & ->). assert (HR := proj2 (HX _) (ex_intro _ ss (conj H1 eq_refl))). cbn [Nat.add] in HR. change (imap (λ i x, (i, x)) (g_tokens g)) with (imap pair (g_tokens g)) in HR. rewrite HR. done.
Qed.
(** ** Layers *)
Lemma layers_total g : Consistent g → Layered g → ∃ ls, get_annotation_layers g = Ok ls ∧ ∀ l, l ∈ ls ↔ used_layer g l.
Proof.
  intros C [L1 L2]. assert (H0 : ∀ a, layered a → ∃ l, layers_of a = Ok l ∧ ∀ x, x ∈ l ↔ has_layer a x).
  { intros a (l & Hl). exists l. unfold layers_of. rewrite Hl. split; [done|]. intros x. unfold has_layer. rewrite Hl. naive_solver. }
  assert (H1 : ∀ {A} (f : A → attrs) (l : list A), Forall (λ x, layered (f x)) l → ∃ r, rconcat (λ x, layers_of (f x)) l = Ok r ∧ ∀ x, x ∈ r ↔ ∃ y, y ∈ l ∧ has_layer (f y) x).
  { intros A f l HF. induction HF as [|y l Hy HF (r & Hr & IH)]; [exists []; split; [done|]; intros x; rewrite elem_of_nil; split; [done|]; intros (z & Hz & _); by apply elem_of_nil in Hz|].
    destruct (H0 _ Hy) as (k & Hk & HK). exists (k ++ r). cbn [rconcat]. rewrite Hk, Hr. split; [done|]. intros x. rewrite elem_of_app, HK, IH. split.
    - intros [?|(z & ? & ?)]; [exists y; split; [left|done]|exists z; split; [by right|done]].
    - intros (z & [->|Hz]%elem_of_cons & H); [by left|right; by exists z]. }
  assert (HN : ∀ p, p ∈ g_node g → node_attrs g p.1 = Some p.2). { intros [n a] Hp. unfold node_attrs. apply elem_dget; [apply C|done]. }
  destruct (H1 _ (λ p : nid * attrs, p.2) (g_node g)) as (A & EA & HA).
  { apply Forall_forall. intros p Hp. eapply L1. by apply HN. }
  destruct (H1 _ (λ e : edge, e.2) (edges g)) as (B & EB & HB).
  { apply Forall_forall. intros [[[u v] k] a] He. apply elem_edges in He; [|done]. by eapply L2. }
  exists (A ++ B). unfold get_annotation_layers, get_node_annotation_layers, get_edge_annotation_layers. rewrite EA, EB. split; [done|]. intros l. rewrite elem_of_app, HA, HB. unfold used_layer, ohas_layer. split.
  - intros [(p & Hp & H)|H]; [left|by right]. exists p.1, p.2. split; [by apply HN|done].
  - intros [(n & a & Hn & H)|H]; [left|by right]. exists (n, a). split; [|done]. by apply dget_Some_elem in Hn.
Qed.
Lemma informative_iff l : is_informative l = true ↔ l ∉ uninformative.
Proof. unfold is_informative. by rewrite bool_decide_eq_true. Qed.
(** ** The document *)
Lemma Forall2_imap {A B} (f : nat → A → res B) (l : list A) (r : list B) (P : nat * A → B → Prop) : rmap (λ p, f p.1 p.2) (imap pair l) = Ok r →
  (∀ i x y, l !! i = Some x → f i x = Ok y → P (i, x) y) → Forall2 P (imap pair l) r.
Proof.
  intros H HP. apply rmap_Ok in H. apply Forall2_same_length_lookup_2; [by eapply Forall2_length|]. intros i p y Hp Hy. pose proof (Forall2_lookup_lr _ _ _ _ _ _ H Hp Hy) as Hf. rewrite list_lookup_imap in Hp. destruct (l !! i) as [x|] eqn:Ex; [|done]. injection Hp as <-. apply HP; [done|exact Hf].
Qed.
Section Write.
  Context (fuel : nat) (order : ∀ A, list A → list A) (HO : any_order order) (redundant : bool) (g : graph) (HC : Consistent g) (HL : Layered g) (HD : NoDup (g_tokens g)).
  Lemma chains_ok (chains : list (list nid)) c t3 : rconcat (λ p, chain_tier fuel g (c + p.1) p.1 p.2) (imap pair chains) = Ok t3 →
    Forall2 (λ p t, ∃ es, t = nth_tier (c + p.1) "chain" ("coref-chain-" +:+ str_Z (Z.of_nat p.1)) es ∧ chain_events fuel g p.1 p.2 es) (filter (λ p : nat * list nid, 3 ≤ length p.2) (imap pair chains)) t3.
  Proof.
    intros H. apply rconcat_Ok in H as (tss & HF & ->). induction HF as [|p ts L tss H HF IH]; [apply List.Forall2_nil|]. rewrite filter_cons. cbn [concat]. apply chain_tier_ok in H as [(H1 & ->)|(H1 & es & -> & H2)]; [| |done].
    - rewrite decide_False by lia. exact IH.
    - rewrite decide_True by lia. cbn [app]. apply List.Forall2_cons; [|exact IH]. by exists es.
  Qed.
  Lemma order_elem {A} (l : list A) x : x ∈ order _ l ↔ x ∈ l.
  Proof. by rewrite (HO _ l). Qed.
  Theorem write_ok chains d : write_exb fuel order (Ok chains) redundant g = Ok d → exported_as fuel g redundant chains d.
  Proof.
    unfold write_exb. destruct (token_attribs g) as [m|] eqn:Em; [|done]. cbn [rbind]. destruct (word_tier g) as [w|] eqn:Ew; [|done]. cbn [rbind]. destruct (rmap _ (imap pair (order _ m))) as [t1|] eqn:E1; [|done]. cbn [rbind].
    destruct (layers_total g HC HL) as (ls & Els & Hls). rewrite Els. cbn [rbind]. set (ls' := filter _ (order _ (remove_dups ls))). destruct (rmap _ (imap pair ls')) as [t2|] eqn:E2; [|done]. cbn [rbind]. destruct (rconcat _ (imap pair chains)) as [t3|] eqn:E3; [|done]. cbn [rbind]. intros [= <-].
    apply word_tier_ok in Ew as (ss & Hss & ->). destruct (attribs_ok g m HD Em) as (M1 & M2 & M3). assert (HLen : length m = length (dkeys (order _ m))) by (unfold dkeys; rewrite fmap_length; by rewrite (HO _ m)).
    exists ss, (dkeys (order _ m)), ls', t1, t2, t3. split; [done|]. split; [|split; [|split; [|split; [|split; [|split; [done|done]]]]]].
    - split; [unfold dkeys; by rewrite (HO _ m)|]. intros k. rewrite <-M2. unfold dkeys. by rewrite (HO _ m).
    - split; [apply NoDup_filter; rewrite (HO _ _); apply NoDup_remove_dups|]. intros l. subst ls'. rewrite elem_of_list_filter, order_elem, elem_of_remove_dups, Hls, informative_iff. tauto.
    - apply Forall2_imap with (f := λ i p, attr_tier order g (S i) p) (P := λ p t, ∃ es, t = nth_tier (S p.1) (last_part p.2.1) p.2.1 es ∧ attr_events g p.2.1 es) in E1.
      + unfold dkeys. rewrite imap_fmap. clear -E1. assert (HQ : ∀ (L : dict string (dict nid pyval)), imap (pair ∘ id) (L.*1) = (λ p : nat * (string * dict nid pyval), (p.1, p.2.1)) <$> imap pair L).
        { intros L. rewrite fmap_imap, imap_fmap. done. }
        assert (HQ' : imap (λ n x, (n, x.1)) (order _ m) = (λ p : nat * (string * dict nid pyval), (p.1, p.2.1)) <$> imap pair (order _ m)) by (by rewrite fmap_imap).
        unfold compose. rewrite HQ'. apply Forall2_fmap_l. exact E1.
      + intros i [k d] t Hi Ht. apply elem_of_list_lookup_2 in Hi. rewrite order_elem in Hi. destruct (M3 k d Hi) as [A B]. by eapply attr_tier_ok.
    - rewrite <-HLen. apply Forall2_imap with (f := λ i l, layer_tier fuel g (S (length m) + i) l) (P := λ p t, ∃ es, t = nth_tier (1 + length m + p.1) (last_part p.2) p.2 es ∧ layer_events fuel g p.2 es) in E2; [exact E2|]. intros i l t _ Ht. by apply layer_tier_ok.
    - rewrite <-HLen. by apply chains_ok.
  Qed.
  Lemma attribs_total ss : text_tokens g ss → ∃ m, token_attribs g = Ok m.
  Proof.
    intros H. unfold token_attribs. assert (HR : ∃ R, rconcat (λ t, let! a := of_option KeyError (node_attrs g t) in Ok (filter (λ k, exported_attr k = true) (remove_dups (dkeys a)) ≫= λ k, match dget k a with Some v => [(k, t, v)] | None => [] end)) (g_tokens g) = Ok R).
    { unfold text_tokens in H. revert H. generalize (g_tokens g) as toks. clear. intros toks H. induction H as [|n s l ss (a & Ha & _) HF IH]; [by eexists|]. cbn [rconcat]. rewrite Ha. cbn [of_option rbind]. destruct IH as [R ->]. by eexists. }
    destruct HR as [R ->]. by eexists.
  Qed.
  Theorem write_iff chains : (∃ d, write_exb fuel order (Ok chains) redundant g = Ok d) ↔ exportable fuel g redundant chains.
  Proof.
    destruct (layers_total g HC HL) as (ls & Els & Hls). split.
    - intros (d & H). unfold write_exb in H. destruct (token_attribs g) as [m|] eqn:Em; [|done]. cbn [rbind] in H. destruct (word_tier g) as [w|] eqn:Ew; [|done]. cbn [rbind] in H. destruct (rmap _ (imap pair (order _ m))) as [t1|] eqn:E1; [|done]. cbn [rbind] in H.
      rewrite Els in H. cbn [rbind] in H. set (ls' := filter _ (order _ (remove_dups ls))) in H. destruct (rmap _ (imap pair ls')) as [t2|] eqn:E2; [|done]. cbn [rbind] in H. destruct (rconcat _ (imap pair chains)) as [t3|] eqn:E3; [|done]. clear H.
      apply word_tier_ok in Ew as (ss & Hss & ->). destruct (attribs_ok g m HD Em) as (M1 & M2 & M3). split; [by exists ss|]. split; [|split].
      + intros k i v Hk Hv. assert (Hin : k ∈ dkeys m) by (apply M2; split; [done|]; by exists i, v). unfold dkeys in Hin. apply elem_of_list_fmap in Hin as ([k' dd] & -> & Hin). cbn [fst] in *. destruct (M3 _ _ Hin) as [_ B].
        rewrite <-order_elem in Hin. apply elem_of_list_lookup in Hin as [j Hj]. apply rmap_Ok in E1. assert (Hj' : imap pair (order _ m) !! j = Some (j, (k', dd))) by (by rewrite list_lookup_imap, Hj).
        destruct (Forall2_lookup_l _ _ _ _ _ E1 Hj') as (t & _ & Ht). cbn [fst snd] in Ht. by eapply attr_tier_inv.
      + intros n l Hn Hl. assert (Hin : l ∈ ls'). { subst ls'. rewrite elem_of_list_filter, order_elem, elem_of_remove_dups, Hls, informative_iff. split; [done|]. left. by exists n. }
        apply elem_of_list_lookup in Hin as [j Hj]. apply rmap_Ok in E2. assert (Hj' : imap pair ls' !! j = Some (j, l)) by (by rewrite list_lookup_imap, Hj). destruct (Forall2_lookup_l _ _ _ _ _ E2 Hj') as (t & _ & Ht). cbn [fst snd] in Ht. eapply layer_tier_iff; [done|done|done| |exact Hn]. by exists t.
      + intros c n Hc H3 Hn. apply rconcat_Ok in E3 as (tss & HF & _). apply elem_of_list_lookup in Hc as [j Hj]. assert (Hj' : imap pair chains !! j = Some (j, c)) by (by rewrite list_lookup_imap, Hj). destruct (Forall2_lookup_l _ _ _ _ _ HF Hj') as (t & _ & Ht). cbn [fst snd] in Ht. eapply chain_tier_iff; [done| |exact H3|exact Hn]. by exists t.
    - intros ((ss & Hss) & H1 & H2 & H3). unfold write_exb. destruct (attribs_total ss Hss) as [m Em]. rewrite Em. cbn [rbind]. destruct (attribs_ok g m HD Em) as (M1 & M2 & M3). rewrite (proj2 (word_tier_ok g (words_tier ss))) by (by exists ss). cbn [rbind].
      destruct (rmap_total (λ p, attr_tier order g (S p.1) p.2) (imap pair (order _ m))) as [t1 ->].
      { intros [j [k dd]] Hp. apply imap_pair_elem, elem_of_list_lookup_2 in Hp. rewrite order_elem in Hp. cbn [fst snd]. destruct (M3 _ _ Hp) as [_ B]. apply attr_tier_total; [done|done|exact B|]. intros i v Hv. eapply H1; [|exact Hv]. apply (M2 k). unfold dkeys. apply elem_of_list_fmap. by exists (k, dd). }
      cbn [rbind]. rewrite Els. cbn [rbind]. set (ls' := filter _ (order _ (remove_dups ls))).
      destruct (rmap_total (λ p, layer_tier fuel g (S (length m) + p.1) p.2) (imap pair ls')) as [t2 ->].
      { intros [j l] Hp. apply imap_pair_elem, elem_of_list_lookup_2 in Hp. cbn [fst snd]. apply layer_tier_iff; [done..|]. intros n Hn. apply (H2 n l Hn). subst ls'. apply elem_of_list_filter in Hp as [Hp _]. by rewrite informative_iff in Hp. }
      cbn [rbind]. assert (HR : ∀ (L : list (nat * list nid)) c, (∀ p, p ∈ L → p.2 ∈ chains) → ∃ ts, rconcat (λ p, chain_tier fuel g (c + p.1) p.1 p.2) L = Ok ts).
      { clear -H3 HD. intros L c. induction L as [|p L IH]; intros HL; [by eexists|]. cbn [rconcat]. destruct (proj2 (chain_tier_iff fuel g (c + p.1) p.1 p.2 HD)) as [ts ->].
        - intros Hl n Hn. apply (H3 p.2); [apply HL; left|done|done].
        - destruct IH as [ts' ->]; [intros q Hq; apply HL; by right|]. by eexists. }
      destruct (HR (imap pair chains) (S (length m) + length ls')) as [t3 ->]; [|by eexists]. intros [j c] Hp. apply imap_pair_elem in Hp. by eapply elem_of_list_lookup_2.
  Qed.
End Write.
(** ** Categories *)
Lemma last_part_ok k : ":"%char ∉ chs (last_part k) ∧ (last_part k = k ∨ ∃ p, k = p +:+ ":" +:+ last_part k).
Proof.
  unfold last_part. assert (HX : ∀ l : list ascii, ∃ q, last (split_char ":"%char l) = Some q ∧ ":"%char ∉ q ∧ (q = l ∨ ∃ p, l = p ++ ":"%char :: q)).
  { induction l as [|c l (q & IH1 & IH2 & IH3)]; [exists []; split; [done|]; split; [apply not_elem_of_nil|by left]|]. cbn [split_char]. destruct (split_char ":"%char l) as [|w ws] eqn:Es; [by cbn in IH1|]. destruct (decide (c = ":"%char)) as [->|Hc].
    - exists q. split; [by rewrite last_cons, IH1|]. split; [done|]. right. destruct IH3 as [->|[p ->]]; [by exists []|]. by exists (":"%char :: p).
    - destruct ws as [|w' ws].
      + cbn in IH1. injection IH1 as <-. pose proof (TextFacts.split_char_one _ _ _ Es) as HJ. exists (c :: w). split; [done|]. split; [rewrite elem_of_cons; intros [E|E]; [by apply Hc|done]|]. left. by rewrite HJ.
      + rewrite last_cons_cons in IH1. exists q. split; [rewrite last_cons_cons; exact IH1|]. split; [done|]. right. destruct IH3 as [->|[p ->]]; [|by exists (c :: p)]. exfalso.
        pose proof (TextFacts.split_char_none ":"%char l IH2) as HN. congruence. }
  destruct (HX (chs k)) as (q & -> & H1 & H2). cbn [default]. unfold id. rewrite chs_str. split; [done|]. destruct H2 as [->|[p Hp]]; [left; apply str_chs|]. right. exists (str p). apply LatexRead.chs_inj. rewrite !chs_app, !chs_str. rewrite Hp. done.
Qed.
