(** * ExbBack: reading an exported Exmaralda document *)
From Verif Require Import PyBase DocGraph Relabel StrNum Query Text Rst Nltk Parsers Anaphora Conano Decour Ptb Convert Tiger Exb.
From Verif Require Import SpecGraph DocGraphFacts History Effects RelabelFacts GraphThms SpecImport ImportFacts PtbFacts TextFacts OffsetFacts GeoffFacts DecourFacts AnaphoraFacts TigerFacts TigerTree BuiltFrom ViewFacts SpecQuery SpanFacts SpecUrml UrmlFacts UrmlDoc LatexRead Rs3Facts SpecExb SpecExbWrite ExbRead ExbDoc ExbSpan ExbWrite.

(** ** Names *)
Lemma tick_point i : NStr (tick i) = point (Z.of_nat i).
Proof. done. Qed.
Lemma tick_inj i j : tick i = tick j → i = j.
Proof. unfold tick. intros H%append_inj_l. apply str_Z_inj in H. lia. Qed.
Lemma tick_int i : py_int (tail (chs (tick i))) = Ok (Z.of_nat i).
Proof. unfold tick. rewrite chs_app. cbn [tail app chs]. apply py_int_str_Z. Qed.
Lemma tick_extent i j x : extent (Ev (tick i) (tick j) x) = Some (Z.of_nat i, Z.of_nat j).
Proof. unfold extent. cbn [ev_start ev_end]. by rewrite !tick_int. Qed.
Lemma tick_single i j x : single (Ev (tick i) (tick j) x) ↔ j = S i.
Proof. unfold single. rewrite tick_extent. cbn. split; [intros [= H]; lia|]. intros ->. f_equal. lia. Qed.
Definition tier_no (n : nat) : string := "TIE" +:+ str_Z (Z.of_nat n).
Lemma tier_no_inj m n : tier_no m = tier_no n → m = n.
Proof. unfold tier_no. intros H%append_inj_l. apply str_Z_inj in H. lia. Qed.
Lemma digits_no c z : c ∈ [":"%char; "_"%char; "I"%char] → c ∉ chs (str_Z z).
Proof. intros Hc. apply str_Z_free; repeat (apply elem_of_cons in Hc as [->|Hc]; [done|]); by apply elem_of_nil in Hc. Qed.
Lemma no_colon_tick i : ":"%char ∉ chs (tick i).
Proof. unfold tick. rewrite chs_app. cbn [chs app]. intros [?|H]%elem_of_cons; [done|]. by apply digits_no in H; [|left]. Qed.
Lemma no_colon_tier n : ":"%char ∉ chs (tier_no n).
Proof. unfold tier_no. rewrite chs_app. change (chs "TIE") with ["T"%char; "I"%char; "E"%char]. cbn [app]. rewrite !elem_of_cons. intros [?|[?|[?|H]]]; [done..|]. by apply digits_no in H; [|left]. Qed.
Lemma no_under_tier n : "_"%char ∉ chs (tier_no n).
Proof. unfold tier_no. rewrite chs_app. change (chs "TIE") with ["T"%char; "I"%char; "E"%char]. cbn [app]. rewrite !elem_of_cons. intros [?|[?|[?|H]]]; [done..|]. apply digits_no in H; [done|]. right. left. Qed.
Definition part_no (n k : nat) : string := tier_no n +:+ "_" +:+ str_Z (Z.of_nat k).
Lemma part_chs n k : chs (part_no n k) = chs (tier_no n) ++ "_"%char :: chs (str_Z (Z.of_nat k)).
Proof. unfold part_no. rewrite !chs_app. done. Qed.
Lemma no_colon_part n k : ":"%char ∉ chs (part_no n k).
Proof. rewrite part_chs, elem_of_app, elem_of_cons. intros [H|[H|H]]; [by apply no_colon_tier in H|done|]. by apply digits_no in H; [|left]. Qed.
Lemma part_inj m n k l : part_no m k = part_no n l → m = n ∧ k = l.
Proof.
  intros H%(f_equal chs). rewrite !part_chs in H. apply cut in H as [H1 H2]; [|apply no_under_tier..]. apply chs_inj in H1, H2. apply tier_no_inj in H1. apply str_Z_inj in H2. split; [done|lia].
Qed.
Lemma tick_not_tier i n x : chs (tick i) ≠ chs (tier_no n) ++ x.
Proof.
  intros E. assert (H : "I"%char ∈ chs (str_Z (Z.of_nat i))). { unfold tick, tier_no in E. rewrite !chs_app in E. cbn [chs app] in E. injection E as E. rewrite E. left. } apply digits_no in H; [done|]. right. right. left.
Qed.
Lemma tick_ne_tier i n : tick i ≠ tier_no n.
Proof. intros E. apply (tick_not_tier i n []). by rewrite app_nil_r, E. Qed.
Lemma tick_ne_part i n k : tick i ≠ part_no n k.
Proof. intros E. apply (tick_not_tier i n ("_"%char :: chs (str_Z (Z.of_nat k)))). by rewrite E, part_chs. Qed.
Lemma tier_ne_part m n k : tier_no m ≠ part_no n k.
Proof. intros E. apply (no_under_tier m). rewrite E, part_chs. apply elem_of_app. right. left. Qed.
Lemma root_colon ns : ":"%char ∈ chs (ns +:+ ":root_node").
Proof. rewrite chs_app. apply elem_of_app. right. left. Qed.
(** ** The timeline *)
Lemma sorted_id (l : list (string * Z)) : (∀ i j a b, i < j → l !! i = Some a → l !! j = Some b → (a.2 < b.2)%Z) → isort (λ a b : string * Z, Z.compare a.2 b.2) l = l.
Proof.
  induction l as [|x l IH]; intros H; [done|]. cbn [isort]. rewrite IH by (intros i j a b Hij Ha Hb; apply (H (S i) (S j)); [lia|done|done]). destruct l as [|y l]; [done|]. cbn [StrNum.insert].
  assert (Hxy : (x.2 < y.2)%Z) by (apply (H 0 1); [lia|done|done]). apply Z.compare_lt_iff in Hxy. destruct (Z.compare x.2 y.2) eqn:Ex; [discriminate|done|discriminate].
Qed.
Definition ticks (n : nat) : list (string * Z) := (λ i, (tick i, Z.of_nat i)) <$> seq 0 (S n).
Lemma timeline_ticks d n : ex_timeline d = ticks n → timeline d = (λ i, NStr (tick i)) <$> seq 0 (S n).
Proof.
  intros H. unfold timeline. rewrite H, sorted_id; [unfold ticks; by rewrite <-list_fmap_compose|]. unfold ticks. intros i j a b Hij Ha Hb. rewrite list_lookup_fmap in Ha, Hb.
  destruct (seq 0 (S n) !! i) as [x|] eqn:Ex; [|done]. destruct (seq 0 (S n) !! j) as [y|] eqn:Ey; [|done]. apply lookup_seq in Ex as [-> _], Ey as [-> _]. injection Ha as <-. injection Hb as <-. cbn. lia.
Qed.
Lemma elem_ticks d n i : ex_timeline d = ticks n → NStr (tick i) ∈ timeline d ↔ i ≤ n.
Proof.
  intros H. rewrite (timeline_ticks d n H), elem_of_list_fmap. split.
  - intros (j & E & Hj). apply nstr_inj, tick_inj in E as <-. apply elem_of_seq in Hj. lia.
  - intros Hi. exists i. split; [done|]. apply elem_of_seq. lia.
Qed.
(** ** A document as the exporter makes them *)
Record made (n : nat) (d : exb) : Prop := {
  md_timeline : ex_timeline d = ticks n;
  md_ids : ∃ ms, NoDup ms ∧ ti_id <$> ex_tiers d = tier_no <$> ms;
  md_events : ∀ t e, t ∈ ex_tiers d → e ∈ ti_events t → ∃ i j x, e = Ev (tick i) (tick j) x ∧ i < n ∧ j ≤ n;
  md_words : ∀ t e, t ∈ ex_tiers d → ti_category t = "tok" → e ∈ ti_events t → single e
}.
Section Made.
  Context (n : nat) (d : exb) (H : made n d) (ns : string).
  Local Notation ts := (ex_tiers d).
  Lemma made_read : tiers_read None d = ts.
  Proof. unfold tiers_read. cbn. unfold id. apply filter_all, Forall_forall. intros t _. apply not_elem_of_nil. Qed.
  Lemma tier_ids (T : list tier) ms : ti_id <$> T = tier_no <$> ms → NoDup ms → NoDup (ids (T ≫= tier_nodes ns)) ∧
    ∀ x, x ∈ ids (T ≫= tier_nodes ns) → ∃ m, m ∈ ms ∧ (x = NStr (tier_no m) ∨ ∃ k, x = NStr (part_no m k)).
  Proof.
    revert ms. induction T as [|t T IH]; intros [|m ms] E HD; try done; [split; [constructor|]; intros x Hx; by apply elem_of_nil in Hx|]. rewrite !fmap_cons in E. injection E as E1 E2. apply NoDup_cons in HD as [HD1 HD]. destruct (IH ms E2 HD) as [I1 I2].
    cbn [mbind list_bind]. rewrite ids_app. assert (HT : ids (tier_nodes ns t) = NStr (tier_no m) :: ((λ k, NStr (part_no m k)) <$> seq 0 (length (ti_events t)))).
    { unfold tier_nodes, ids. rewrite fmap_cons, <-list_fmap_compose. cbn [tier_info fst]. rewrite E1. f_equal. apply list_eq. intros k. rewrite !list_lookup_fmap, list_lookup_imap. destruct (ti_events t !! k) as [e|] eqn:Ek; cbn.
      - rewrite lookup_seq_lt by (by eapply lookup_lt_Some). cbn. unfold span_name. by rewrite E1.
      - apply lookup_ge_None in Ek. by rewrite lookup_seq_ge. }
    assert (HX : ∀ x, x ∈ ids (tier_nodes ns t) → x = NStr (tier_no m) ∨ ∃ k, x = NStr (part_no m k)). { intros x. rewrite HT. intros [->|Hx]%elem_of_cons; [by left|]. apply elem_of_list_fmap in Hx as (k & -> & _). right. by exists k. }
    split.
    - apply NoDup_app. split; [|split; [|done]].
      + rewrite HT. apply NoDup_cons. split.
        * intros (k & E & _)%elem_of_list_fmap. apply nstr_inj in E. by apply tier_ne_part in E.
        * apply NoDup_fmap_2_strong; [|apply NoDup_seq]. intros k l _ _ E. apply nstr_inj in E. by apply part_inj in E as [_ ?].
      + intros x Hx Hx'. apply HX in Hx. apply I2 in Hx' as (m' & Hm & Hx'). assert (m' ≠ m) by (intros ->; done). destruct Hx as [->|[k ->]], Hx' as [E|[k' E]]; apply nstr_inj in E.
        * apply tier_no_inj in E. congruence.
        * by apply tier_ne_part in E.
        * symmetry in E. by apply tier_ne_part in E.
        * apply part_inj in E as [? _]. congruence.
    - intros x [Hx|Hx]%elem_of_app; [exists m; split; [left|by apply HX]|]. apply I2 in Hx as (m' & Hm & Hx). exists m'. split; [by right|done].
  Qed.
  Lemma filter_ids (P : tier → Prop) `{!∀ t, Decision (P t)} (T : list tier) ms : ti_id <$> T = tier_no <$> ms → NoDup ms → ∃ ms', NoDup ms' ∧ ti_id <$> filter P T = tier_no <$> ms' ∧ ∀ m, m ∈ ms' → m ∈ ms.
  Proof.
    revert ms. induction T as [|t T IH]; intros [|m ms] E HD; try done; [exists []; split; [done|]; done|]. rewrite !fmap_cons in E. injection E as E1 E2. apply NoDup_cons in HD as [HD1 HD]. destruct (IH ms E2 HD) as (ms' & I1 & I2 & I3). rewrite filter_cons. destruct (decide (P t)).
    - exists (m :: ms'). split; [apply NoDup_cons; split; [by intros ?%I3|done]|]. rewrite !fmap_cons, E1, I2. split; [done|]. intros x [->|Hx]%elem_of_cons; [left|right; by apply I3].
    - exists ms'. split; [done|]. split; [done|]. intros x Hx. right. by apply I3.
  Qed.
  Lemma made_distinct : exb_distinct ns "tok" (tiers_read None d) d.
  Proof.
    rewrite made_read. destruct (md_ids _ _ H) as (ms & HD & E). destruct (filter_ids (is_span_tier "tok") ts ms E HD) as (ms' & HD' & E' & _). destruct (tier_ids (span_tiers "tok" ts) ms' E' HD') as [I1 I2]. fold (span_nodes ns "tok" ts) in I1, I2.
    pose proof (timeline_ticks d n (md_timeline _ _ H)) as HT. unfold exb_distinct. change ((λ x : node_info, x.1.1) <$> span_nodes ns "tok" ts) with (ids (span_nodes ns "tok" ts)).
    assert (HR : ∀ s, ":"%char ∈ chs s → NStr s ∉ timeline d ++ ids (span_nodes ns "tok" ts)).
    { intros s Hs [Hx|Hx]%elem_of_app.
      - rewrite HT in Hx. apply elem_of_list_fmap in Hx as (i & E0 & _). apply nstr_inj in E0. subst s. by apply no_colon_tick in Hs.
      - apply I2 in Hx as (m & _ & [E0|[k E0]]); apply nstr_inj in E0; subst s; [by apply no_colon_tier in Hs|by apply no_colon_part in Hs]. }
    split.
    - apply NoDup_cons. split; [apply HR, root_colon|]. apply NoDup_app. split; [|split; [|done]].
      + rewrite HT. apply NoDup_fmap_2_strong; [|apply NoDup_seq]. intros i j _ _ E0. by apply nstr_inj, tick_inj in E0.
      + intros x Hx Hx'. rewrite HT in Hx. apply elem_of_list_fmap in Hx as (i & -> & _). apply I2 in Hx' as (m & _ & [E0|[k E0]]); apply nstr_inj in E0; [by apply tick_ne_tier in E0|by apply tick_ne_part in E0].
    - unfold first_root. change "discoursegraph:root_node" with ("discoursegraph" +:+ ":root_node"). apply HR, root_colon.
  Qed.
  Lemma made_formed : exb_formed "tok" (tiers_read None d) d.
  Proof.
    rewrite made_read. apply Forall_forall. intros t Ht. apply Forall_forall. intros e He. split; [|split].
    - destruct (md_events _ _ H t e Ht He) as (i & j & x & -> & _). rewrite tick_extent. by eexists.
    - intros Hw. by eapply md_words.
    - intros _. destruct (md_events _ _ H t e Ht He) as (i & j & x & -> & Hi & _). cbn [ev_start]. apply (elem_ticks d n i (md_timeline _ _ H)). lia.
  Qed.
  Lemma made_inside : exb_inside "tok" (tiers_read None d) d.
  Proof.
    rewrite made_read. intros t e p Ht _ He Hp. destruct (md_events _ _ H t e Ht He) as (i & j & x & -> & Hi & Hj). unfold points in Hp. rewrite tick_extent in Hp. apply elem_of_list_fmap in Hp as (z & -> & Hz). apply elem_xrange in Hz.
    replace z with (Z.of_nat (Z.to_nat z)) by lia. rewrite <-tick_point. apply (elem_ticks d n _ (md_timeline _ _ H)). lia.
  Qed.
End Made.
(** ** Exported documents *)
Definition ptext (x : option string) : option string := match x with Some "" => None | y => y end.
Definition pevent (e : event) : event := Ev (ev_start e) (ev_end e) (ptext (ev_text e)).
Definition ptier (t : tier) : tier := Tier (ti_id t) (ti_category t) (ti_type t) (ti_display t) (pevent <$> ti_events t).
Lemma parsed_tiers d : ex_tiers (parsed d) = ptier <$> ex_tiers d.
Proof.
  unfold parsed. cbn [ex_tiers]. apply list_fmap_ext. intros _ t _. unfold ptier. f_equal. apply list_fmap_ext. intros _ e _. unfold pevent, ptext. f_equal. by destruct (ev_text e) as [[|? ?]|].
Qed.
Definition inside_of (n : nat) (e : event) : Prop := ∃ i j s, e = at_points i j s ∧ i < n ∧ j ≤ n.
Lemma attr_inside g k es : attr_events g k es → Forall (inside_of (length (g_tokens g))) es.
Proof.
  intros (ps & -> & _ & HP). apply Forall_forall. intros e (p & -> & Hp)%elem_of_list_fmap. destruct p as [i s]. apply HP in Hp as (n & a & Hn & _). apply lookup_lt_Some in Hn. exists i, (S i), s. split; [done|lia].
Qed.
Lemma nodes_inside fuel g ns said es : node_events fuel g ns said es → Forall (inside_of (length (g_tokens g))) es.
Proof.
  intros [_ HF]. revert HF. generalize (filter (λ n, get_span fuel g n ≠ Ok []) ns) as L. intros L HF. induction HF as [|n e L es (i & j & s & (l & a & b & _ & _ & _ & H1 & H2) & _ & ->) HF IH]; [apply List.Forall_nil|]. apply List.Forall_cons; [|done].
  apply lookup_lt_Some in H1, H2. exists i, (S j), s. split; [done|lia].
Qed.
Lemma chain_inside fuel g i c es : chain_events fuel g i c es → Forall (inside_of (length (g_tokens g))) es.
Proof.
  intros (ess & -> & HF). induction HF as [|p es L ess H HF IH]; [apply List.Forall_nil|]. cbn [concat]. apply Forall_app. split; [by eapply nodes_inside|exact IH].
Qed.
Lemma words_inside g ss : text_tokens g ss → Forall (inside_of (length (g_tokens g))) (ti_events (words_tier ss)).
Proof.
  intros H%Forall2_length. apply Forall_forall. cbn [ti_events words_tier nth_tier]. intros e He. apply elem_of_lookup_imap in He as (i & s & -> & Hi). apply lookup_lt_Some in Hi. exists i, (S i), s. split; [done|lia].
Qed.
Lemma numbered {A} (c : nat) (f : nat → A → string * string) (Q : nat → A → list event → Prop) (L : list (nat * A)) ts :
  Forall2 (λ p t, ∃ es, t = nth_tier (c + p.1) (f p.1 p.2).1 (f p.1 p.2).2 es ∧ Q p.1 p.2 es) L ts → ti_id <$> ts = tier_no <$> ((λ p : nat * A, c + p.1) <$> L).
Proof. induction 1 as [|p t L ts (es & -> & _) HF IH]; [done|]. rewrite !fmap_cons, IH. done. Qed.
Lemma imap_fst {A} (l : list A) : (imap pair l).*1 = seq 0 (length l).
Proof.
  apply list_eq. intros i. rewrite list_lookup_fmap, list_lookup_imap. destruct (l !! i) as [e|] eqn:E; cbn.
  - rewrite lookup_seq_lt; [done|]. by eapply lookup_lt_Some.
  - apply lookup_ge_None in E. by rewrite lookup_seq_ge.
Qed.
Lemma shift_fst {A} c (l : list (nat * A)) : (λ p : nat * A, c + p.1) <$> l = (λ i, c + i) <$> l.*1.
Proof. by rewrite <-list_fmap_compose. Qed.
Lemma NoDup_shift c l : NoDup l → NoDup ((λ i, c + i) <$> l).
Proof. intros H. apply NoDup_fmap_2_strong; [|done]. intros x y _ _ E. lia. Qed.
Section Back.
  Context (fuel : nat) (g : graph) (redundant : bool) (chains : list (list nid)) (d : exb) (HX : exported_as fuel g redundant chains d).
  Local Notation n := (length (g_tokens g)).
  (** every tier of the document *)
  Inductive tier_kind (t : tier) : Prop :=
  | KWords ss : text_tokens g ss → t = words_tier ss → tier_kind t
  | KAttr k c es : exported_attribute g k → t = nth_tier c (last_part k) k es → attr_events g k es → tier_kind t
  | KLayer l c es : exported_layer g redundant l → t = nth_tier c (last_part l) l es → layer_events fuel g l es → tier_kind t
  | KChain i c es ch : t = nth_tier c "chain" ("coref-chain-" +:+ str_Z (Z.of_nat i)) es → chain_events fuel g i ch es → tier_kind t.
  Lemma tiers_kind t : t ∈ ex_tiers d → tier_kind t.
  Proof.
    destruct HX as (ss & ks & ls & t1 & t2 & t3 & H1 & [_ H2] & [_ H3] & H4 & H5 & H6 & _ & H8). rewrite H8. intros [->|Ht]%elem_of_cons; [by eapply KWords|]. rewrite !elem_of_app in Ht. destruct Ht as [Ht|[Ht|Ht]]; apply elem_of_list_lookup in Ht as [i Hi].
    - destruct (Forall2_lookup_r _ _ _ _ _ H4 Hi) as ([j k] & Hj & es & -> & He). apply elem_of_list_lookup_2, imap_pair_elem, elem_of_list_lookup_2 in Hj. eapply KAttr; [by apply H2|done|done].
    - destruct (Forall2_lookup_r _ _ _ _ _ H5 Hi) as ([j k] & Hj & es & -> & He). apply elem_of_list_lookup_2, imap_pair_elem, elem_of_list_lookup_2 in Hj. eapply KLayer; [by apply H3|done|done].
    - destruct (Forall2_lookup_r _ _ _ _ _ H6 Hi) as ([j k] & Hj & es & -> & He). eapply KChain; done.
  Qed.
  Lemma kind_words ss : text_tokens g ss → words_tier ss ∈ ex_tiers d.
  Proof.
    destruct HX as (ss' & ks & ls & t1 & t2 & t3 & H1 & _ & _ & _ & _ & _ & _ & H8). intros H. assert (ss = ss') as ->; [|rewrite H8; left]. clear -H H1. unfold text_tokens in *. revert ss' H1. induction H as [|x s l ss (a & A1 & A2) HF IH]; intros ss' H1; inversion H1 as [|? s' ? ss'' (b & B1 & B2) HF']; subst; [done|]. f_equal; [congruence|]. by apply IH.
  Qed.
  Lemma kind_attr k : exported_attribute g k → ∃ c es, nth_tier c (last_part k) k es ∈ ex_tiers d ∧ attr_events g k es.
  Proof.
    destruct HX as (ss & ks & ls & t1 & t2 & t3 & H1 & [_ H2] & [_ H3] & H4 & H5 & H6 & _ & H8). intros Hk. apply H2 in Hk. apply elem_of_list_lookup in Hk as [i Hi]. assert (Hi' : imap pair ks !! i = Some (i, k)) by (by rewrite list_lookup_imap, Hi).
    destruct (Forall2_lookup_l _ _ _ _ _ H4 Hi') as (t & Ht & es & -> & He). eexists _, es. split; [|exact He]. rewrite H8. right. apply elem_of_app. left. by eapply elem_of_list_lookup_2.
  Qed.
  Lemma kind_layer l : exported_layer g redundant l → ∃ c es, nth_tier c (last_part l) l es ∈ ex_tiers d ∧ layer_events fuel g l es.
  Proof.
    destruct HX as (ss & ks & ls & t1 & t2 & t3 & H1 & [_ H2] & [_ H3] & H4 & H5 & H6 & _ & H8). intros Hk. apply H3 in Hk. apply elem_of_list_lookup in Hk as [i Hi]. assert (Hi' : imap pair ls !! i = Some (i, l)) by (by rewrite list_lookup_imap, Hi).
    destruct (Forall2_lookup_l _ _ _ _ _ H5 Hi') as (t & Ht & es & -> & He). eexists _, es. split; [|exact He]. rewrite H8. right. apply elem_of_app. right. apply elem_of_app. left. by eapply elem_of_list_lookup_2.
  Qed.
  Lemma kind_inside t : t ∈ ex_tiers d → Forall (inside_of n) (ti_events t).
  Proof.
    intros Ht. destruct (tiers_kind t Ht) as [ss H ->|k c es _ -> H|l c es _ -> H|i c es ch -> H].
    - by apply words_inside.
    - by eapply attr_inside.
    - destruct H as (L & _ & _ & H). by eapply nodes_inside.
    - by eapply chain_inside.
  Qed.
  Lemma back_made : no_other_words g redundant → made n (parsed d).
  Proof.
    intros HW. split.
    - by destruct HX as (ss & ks & ls & t1 & t2 & t3 & _ & _ & _ & _ & _ & _ & H7 & _).
    - rewrite parsed_tiers, <-list_fmap_compose. change (ti_id ∘ ptier) with ti_id. destruct HX as (ss & ks & ls & t1 & t2 & t3 & H1 & [H2 _] & [H3 _] & H4 & H5 & H6 & _ & H8).
      apply (numbered 1 (λ _ k, (last_part k, k)) (λ _ k es, attr_events g k es)) in H4. apply (numbered (1 + length ks) (λ _ k, (last_part k, k)) (λ _ k es, layer_events fuel g k es)) in H5.
      apply (numbered (1 + length ks + length ls) (λ i _, ("chain", "coref-chain-" +:+ str_Z (Z.of_nat i))) (λ i c es, chain_events fuel g i c es)) in H6. rewrite shift_fst in H4. rewrite shift_fst in H5. rewrite shift_fst in H6. rewrite imap_fst in H4, H5.
      set (cs := (filter _ (imap pair chains)).*1) in H6. assert (HC : NoDup cs). { subst cs. apply NoDup_fmap_2_strong.
        - intros [x c1] [y c2] Hx Hy E. cbn in E. subst y. apply elem_of_list_filter in Hx as [_ Hx], Hy as [_ Hy]. apply imap_pair_elem in Hx, Hy. congruence.
        - apply NoDup_filter. apply (NoDup_fmap_1 fst). rewrite imap_fst. apply NoDup_seq. }
      exists (0 :: ((λ i, 1 + i) <$> seq 0 (length ks)) ++ ((λ i, 1 + length ks + i) <$> seq 0 (length ls)) ++ ((λ i, 1 + length ks + length ls + i) <$> cs)). split.
      + apply NoDup_cons. split.
        * rewrite !elem_of_app. intros [Hx|[Hx|Hx]]; apply elem_of_list_fmap in Hx as (? & ? & _); lia.
        * apply NoDup_app. split; [apply NoDup_shift, NoDup_seq|]. split.
          -- intros x Hx. rewrite elem_of_app. apply elem_of_list_fmap in Hx as (y & -> & Hy). apply elem_of_seq in Hy. intros [Hx|Hx]; apply elem_of_list_fmap in Hx as (z & ? & _); lia.
          -- apply NoDup_app. split; [apply NoDup_shift, NoDup_seq|]. split; [|by apply NoDup_shift]. intros x Hx Hx'. apply elem_of_list_fmap in Hx as (y & -> & Hy). apply elem_of_seq in Hy. apply elem_of_list_fmap in Hx' as (z & ? & _). lia.
      + rewrite H8, !fmap_cons, !fmap_app, H4, H5, H6. done.
    - intros t e Ht He. rewrite parsed_tiers in Ht. apply elem_of_list_fmap in Ht as (t0 & -> & Ht). cbn [ptier ti_events] in He. apply elem_of_list_fmap in He as (e0 & -> & He). pose proof (kind_inside t0 Ht) as HF. rewrite Forall_forall in HF. destruct (HF _ He) as (i & j & s & -> & Hi & Hj). by exists i, j, (ptext (Some s)).
    - intros t e Ht Hc He. rewrite parsed_tiers in Ht. apply elem_of_list_fmap in Ht as (t0 & -> & Ht). cbn [ptier ti_events ti_category] in He, Hc. apply elem_of_list_fmap in He as (e0 & -> & He).
      destruct (tiers_kind t0 Ht) as [ss H ->|k c es Hk -> H|l c es Hk -> H|i c es ch -> H]; cbn [nth_tier ti_category ti_events words_tier] in Hc, He; [|exfalso; apply (HW k); [by left|rewrite Hc; left]|exfalso; apply (HW l); [by right|rewrite Hc; left]|done].
      apply elem_of_lookup_imap in He as (i & s & -> & _). cbn [pevent at_points ev_start ev_end ev_text]. by apply tick_single.
  Qed.
End Back.
