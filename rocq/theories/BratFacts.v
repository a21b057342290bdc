(** * BratFacts: proofs for C49 *)
From Verif Require Import PyBase DocGraph Relabel SpecGraph DocGraphFacts StrNum Query SpecQuery SpanFacts NatSort OffsetFacts Text Brackets SpecBrackets BracketFacts Brat SpecBrat.
From stdpp Require Import sorting.

Lemma joined_app_l ws c : ∃ post, joined (ws ++ c) = joined ws ++ post.
Proof.
  induction ws as [|w ws IH]; [by exists (joined c)|]. destruct IH as [post IH]. cbn [app]. rewrite (joined_cons w ws), (joined_cons w (ws ++ c)).
  destruct ws as [|w' ws]; cbn [app] in *.
  - destruct c as [|x c]; [exists []; by rewrite app_nil_r|by eexists].
  - exists post. rewrite IH, <-app_assoc. done.
Qed.
Lemma joined_segment a ws c s : ws ≠ [] → ∃ pre post stop, joined (a ++ ws ++ c) = pre ++ joined ws ++ post ∧
  word_offsets s (a ++ ws ++ c) !! length a = Some (s + Z.of_nat (length pre), stop)%Z.
Proof.
  intros Hne. revert s. induction a as [|x a IH]; intros s.
  - destruct (joined_app_l ws c) as [post E]. destruct ws as [|w ws]; [done|]. eexists [], post, _. split; [exact E|]. cbn. rewrite Z.add_0_r. reflexivity.
  - destruct (IH (s + Z.of_nat (String.length x) + 1)%Z) as (pre & post & stop & E1 & E2). exists (chs x ++ " "%char :: pre), post, stop. split.
    + change ((x :: a) ++ ws ++ c) with (x :: (a ++ ws ++ c)). rewrite joined_cons. destruct (a ++ ws ++ c) as [|y l] eqn:E; [by destruct a, ws|]. rewrite E1, <-!app_assoc. done.
    + change ((x :: a) ++ ws ++ c) with (x :: (a ++ ws ++ c)). cbn [length]. cbn [word_offsets lookup list_lookup]. etransitivity; [exact E2|]. do 2 f_equal.
      rewrite app_length, slen. cbn [length]. lia.
Qed.
(** dividing a list by a key *)
Lemma divide {A K} `{EqDecision K} (f : A → option K) (ks : list K) : NoDup ks → ∀ l, Forall (λ x, ∃ k, f x = Some k ∧ k ∈ ks) l →
  concat ((λ k, filter (λ x, f x = Some k) l) <$> ks) ≡ₚ l.
Proof.
  induction 1 as [|k ks Hk HD IH]; intros l HF.
  - destruct HF as [|x l (k & _ & Hk%elem_of_nil)]; done.
  - rewrite fmap_cons. cbn [concat]. assert (E' : (λ k, filter (λ x, f x = Some k) l) <$> ks = (λ k', filter (λ x, f x = Some k') (filter (λ x, f x ≠ Some k) l)) <$> ks).
    { apply list_fmap_ext. intros i k' Hk'. rewrite list_filter_filter. apply list_filter_iff. intros x. split; [|tauto]. intros Hx. split; [done|]. rewrite Hx. intros [= ->]. apply Hk. by eapply elem_of_list_lookup_2. }
    rewrite E', IH.
    + clear. induction l as [|x l IHl]; [done|]. rewrite !filter_cons. destruct (decide (f x = Some k)), (decide (f x ≠ Some k)); try tauto.
      * cbn [app]. by rewrite IHl.
      * rewrite <-Permutation_middle. by rewrite IHl.
    + apply Forall_forall. intros x [Hx Hl]%elem_of_list_filter. rewrite Forall_forall in HF. destruct (HF x Hl) as (k' & E & [->|Hk']%elem_of_cons); [done|]. by exists k'.
Qed.

(** the span and text of a markable *)
Definition span_data (g : graph) (renamed : option (dict nid nid)) (ns : string) (m : nid) : list nid * string :=
  match node_attrs g m with
  | Some a => match dget (ns +:+ ":span") a with
              | Some (VStr s) => match spanstring2tokens g renamed (chs s) with
                                 | Ok ts => (ts, match tokens2text g ts with Ok x => x | Err _ => "" end)
                                 | Err _ => ([], "")
                                 end
              | _ => ([], "")
              end
  | None => ([], "")
  end.
Lemma span_data_ok g renamed ns m ts : span_of g renamed ns m ts → (span_data g renamed ns m).1 = ts.
Proof. intros (a & s & H1 & H2 & H3). unfold span_data. by rewrite H1, H2, H3. Qed.
Section markables.
  Context (g : graph) (renamed : option (dict nid nid)) (ns : string).
  Notation sp := (span_data g renamed ns).
  Definition good (m : nid) : Prop := ∃ ts x, span_of g renamed ns m ts ∧ ts ≠ [] ∧ tokens2text g ts = Ok x.
  Lemma brat_markables_ok ms : Forall good ms → ∀ k first md, ∃ first' md', brat_markables g renamed ns ms k first md = Ok (first', md') ∧
    (∀ t, default [] (dget t first') = default [] (dget t first) ++ filter (λ m, head (sp m).1 = Some t) ms) ∧
    (∀ m, m ∉ ms → dget m md' = dget m md) ∧
    (∀ m, m ∈ ms → ∃ j, dget m md' = Some (k + j, (sp m).2) ∧ ms !! j = Some m ∧ ∀ j', j < j' → ms !! j' ≠ Some m).
  Proof.
    induction 1 as [|m ms (ts & x & Hs & Hne & Ht) HF IH]; intros k first md.
    - exists first, md. split_and!; try done; [intros t; by rewrite app_nil_r|by intros m ?%elem_of_nil].
    - destruct ts as [|t0 ts]; [done|]. pose proof (span_data_ok _ _ _ _ _ Hs) as Hd. assert (Hx : (sp m).2 = x).
      { destruct Hs as (a & s & H1 & H2 & H3). unfold span_data. rewrite H1, H2, H3, Ht. done. }
      destruct (IH (S k) (dappend t0 m first) (dset m (k, x) md)) as (first' & md' & E & F1 & F2 & F3).
      exists first', md'. split_and!.
      + destruct Hs as (a & s & H1 & H2 & H3). cbn [brat_markables]. rewrite H1. cbn [of_option rbind]. rewrite H2. cbn [of_option rbind]. rewrite H3. cbn [rbind]. rewrite Ht. exact E.
      + intros t. rewrite F1, dget_dappend, <-app_assoc. f_equal. rewrite filter_cons, Hd. cbn [head]. destruct (decide (t = t0)) as [->|Hne'].
        * by rewrite decide_True.
        * rewrite decide_False by congruence. done.
      + intros m' [Hm1 Hm2]%not_elem_of_cons. rewrite F2 by done. by apply dget_dset_ne.
      + intros m' Hm'. destruct (decide (m' ∈ ms)) as [Hin|Hout].
        * destruct (F3 m' Hin) as (j & G1 & G2 & G3). exists (S j). split_and!; [rewrite G1; do 2 f_equal; lia|done|].
          intros [|j'] Hj; [lia|]. apply G3. lia.
        * apply elem_of_cons in Hm' as [->|]; [|done]. exists 0. split_and!; [rewrite F2, dget_dset_eq, Hx by done; by rewrite Nat.add_0_r|done|].
          intros [|j'] Hj Hl; [lia|]. apply Hout. by eapply elem_of_list_lookup_2.
  Qed.
  Lemma brat_markables_bad ms : ∀ k first md r, brat_markables g renamed ns ms k first md = Ok r → Forall good ms.
  Proof.
    induction ms as [|m ms IH]; intros k first md r; [constructor|]. cbn [brat_markables].
    destruct (node_attrs g m) as [a|] eqn:H1; [|done]. cbn [of_option rbind]. destruct (dget (ns +:+ ":span") a) as [v|] eqn:H2; [|done]. cbn [of_option rbind].
    destruct v as [| | |s| | |]; try done. destruct (spanstring2tokens g renamed (chs s)) as [ts|] eqn:H3; [|done]. cbn [rbind].
    destruct (tokens2text g ts) as [x|] eqn:H4; [|done]. cbn [rbind]. destruct (head ts) as [t0|] eqn:H5; [|done]. cbn [of_option rbind].
    intros HR. constructor; [|by eapply IH]. exists ts, x. split_and!; [by exists a, s|by intros ->|done].
  Qed.
  (** the entities of the tokens *)
  Context (first : dict nid (list nid)) (md : dict nid (nat * string)) (num : nid → nat).
  Definition ents_at (t : nid) (on : Z) : list entity :=
    (λ m, Entity m (num m) on (on + Z.of_nat (String.length (sp m).2)) (sp m).2) <$> default [] (dget t first).
  Definition ents_of (toks : list nid) (offs : list (Z * Z)) : list entity := concat (zip_with (λ t p, ents_at t p.1) toks offs).
  Lemma brat_tokens_ok toks ss : Forall2 (token_is g) toks ss → (∀ t m, m ∈ default [] (dget t first) → dget m md = Some (num m, (sp m).2)) →
    ∀ on, brat_tokens g first md toks on = Ok (concat (entity_line <$> ents_of toks (word_offsets on ss))).
  Proof.
    intros HF Hmd. induction HF as [|t s toks ss Ht HF IH]; intros on; [done|]. cbn [brat_tokens].
    apply token_str_is in Ht. rewrite Ht. cbn [rbind]. rewrite IH.
    assert (E : (match dget t first with
         | None => Ok []
         | Some ms => rconcat (λ m, let! p := of_option KeyError (dget m md) in Ok (entity_text p.1 on (on + Z.of_nat (String.length p.2)) (chs p.2))) ms
         end) = Ok (concat (entity_line <$> ents_at t on))).
    { unfold ents_at. pose proof (Hmd t) as Hm. destruct (dget t first) as [ms|]; [|done]. change (default [] (Some ms)) with ms in *. induction ms as [|m ms IHm]; [done|].
      cbn [rconcat]. rewrite Hm by left. cbn [of_option rbind]. rewrite IHm by (intros; apply Hm; by right). cbn [rbind]. rewrite !fmap_cons. done. }
    rewrite E. cbn [rbind]. unfold ents_of. cbn [word_offsets zip_with]. cbn [concat]. rewrite fmap_app, concat_app. done.
  Qed.
  Lemma ents_markables toks offs : length toks = length offs → en_markable <$> ents_of toks offs = concat ((λ t, default [] (dget t first)) <$> toks).
  Proof.
    revert offs. induction toks as [|t toks IH]; intros [|p offs]; try done. intros [= E]. unfold ents_of in *. cbn [zip_with concat]. rewrite fmap_app, IH, fmap_cons by done. cbn [concat]. f_equal.
    unfold ents_at. rewrite <-list_fmap_compose. by rewrite list_fmap_id.
  Qed.
  Lemma ents_elem toks offs e : e ∈ ents_of toks offs → ∃ i t p m, toks !! i = Some t ∧ offs !! i = Some p ∧ m ∈ default [] (dget t first) ∧
    e = Entity m (num m) p.1 (p.1 + Z.of_nat (String.length (sp m).2)) (sp m).2.
  Proof.
    unfold ents_of. intros (l & He & Hl)%elem_concat. apply elem_of_list_lookup in Hl as [i Hi]. rewrite lookup_zip_with in Hi.
    destruct (toks !! i) as [t|] eqn:Ht; [|done]. destruct (offs !! i) as [p|] eqn:Hp; [|done]. cbn in Hi. injection Hi as <-.
    apply elem_of_list_fmap in He as (m & -> & Hm). by exists i, t, p, m.
  Qed.
  Lemma ents_sorted toks ss : ∀ on, Forall (λ e, on ≤ en_from e)%Z (ents_of toks (word_offsets on ss)) ∧ StronglySorted (λ e e', en_from e ≤ en_from e')%Z (ents_of toks (word_offsets on ss)).
  Proof.
    revert ss. induction toks as [|t toks IH]; intros [|s ss] on; try (split; constructor). unfold ents_of in *. cbn [word_offsets zip_with concat].
    destruct (IH ss (on + Z.of_nat (String.length s) + 1)%Z) as [H1 H2].
    assert (HA : Forall (λ e, en_from e = on) (ents_at t on)) by (unfold ents_at; apply Forall_fmap, Forall_forall; done).
    split.
    - apply Forall_app. split; [eapply Forall_impl; [exact HA|]; cbn; intros; lia|]. eapply Forall_impl; [exact H1|]. cbn. intros; lia.
    - cbn [fst]. induction HA as [|e l He HA IHl]; [exact H2|]. cbn [app]. constructor; [exact IHl|]. apply Forall_app. split.
      + eapply Forall_impl; [exact HA|]. cbn. intros; lia.
      + eapply Forall_impl; [exact H1|]. cbn. intros; lia.
  Qed.
End markables.
Lemma brat_relations_ok md num ps : (∀ p, p ∈ ps → (∃ x, dget p.1 md = Some (num p.1, x)) ∧ ∃ y, dget p.2 md = Some (num p.2, y)) →
  ∀ k, brat_relations md ps k = Ok (concat (imap (λ i p, relation_line (k + i) (num p.1) (num p.2)) ps)).
Proof.
  induction ps as [|p ps IH]; intros H k; [done|]. cbn [brat_relations]. destruct (H p) as [[x Hx] [y Hy]]; [left|]. rewrite Hx, Hy. cbn [of_option rbind fst].
  rewrite IH by (intros; apply H; by right). cbn [rbind imap concat]. rewrite Nat.add_0_r. do 2 f_equal. f_equal. apply imap_ext. intros i q _. unfold compose. by rewrite Nat.add_succ_r.
Qed.
Lemma nat_sorted_down_ok l : decreasing (nat_sorted_down l) l.
Proof.
  unfold nat_sorted_down. split; [by rewrite reverse_Permutation, nat_sorted_perm, reverse_Permutation|].
  intros i j x y Hij Hx Hy. set (L := nat_sorted (reverse l)) in *.
  pose proof (lookup_lt_Some _ _ _ Hx) as Lx. pose proof (lookup_lt_Some _ _ _ Hy) as Ly. rewrite reverse_length in Lx, Ly.
  rewrite reverse_lookup in Hx by done. rewrite reverse_lookup in Hy by done.
  pose proof (nat_sorted_sorted (reverse l)) as HS. assert (Hyx : nat_cmp y x ≠ Gt) by (refine (HS _ _ _ _ _ Hy Hx); lia).
  rewrite nat_cmp_opp. destruct (nat_cmp y x); cbn; congruence.
Qed.
Lemma brat_output_ok g renamed layer show chains ns ss : layer_namespace g layer = ns → text_tokens g ss → NoDup (g_tokens g) →
  Forall (λ m, ∃ ts i, span_of g renamed ns m ts ∧ contiguous g i ts) (concat chains) →
  ∃ ups downs ents num, Forall2 increasing ups chains ∧ Forall2 decreasing downs chains ∧
    (∀ m, m ∈ concat chains → last_position (concat ups) m (num m)) ∧
    en_markable <$> ents ≡ₚ concat chains ∧ Forall (λ e, en_number e = num (en_markable e) ∧ marks g renamed ns ss e) ents ∧
    StronglySorted (λ e e', en_from e ≤ en_from e')%Z ents ∧
    brat_output g renamed layer show chains = Ok (concat (entity_line <$> ents) ++
      if show then concat (imap (λ k p, relation_line (S k) (num p.1) (num p.2)) (concat ((λ d, zip d (tail d)) <$> downs))) else []).
Proof.
  intros Hns HT HD HF. set (ms := concat (nat_sorted <$> chains)).
  assert (HP : ms ≡ₚ concat chains). { unfold ms. clear. induction chains as [|c cs IH]; [done|]. rewrite fmap_cons. cbn [concat]. by rewrite nat_sorted_perm, IH. }
  assert (HW : ∀ ts i, contiguous g i ts → ∃ a ws c, ss = a ++ ws ++ c ∧ length a = i ∧ Forall2 (token_is g) ts ws ∧ ws ≠ []).
  { intros ts i [Hne [post Hp]]. unfold text_tokens in HT. rewrite <-(take_drop i (g_tokens g)) in HT. rewrite Hp in HT.
    apply Forall2_app_inv_l in HT as (a & r & H1 & H2 & ->). apply Forall2_app_inv_l in H2 as (ws & c & H2 & H3 & ->). exists a, ws, c. split; [done|].
    split; [|split; [done|]]. { rewrite <-(Forall2_length _ _ _ H1). rewrite take_length. assert (i < length (g_tokens g)); [|lia].
      destruct (decide (i < length (g_tokens g))) as [|Hi]; [done|]. rewrite drop_ge in Hp by lia. by destruct ts. }
    intros ->. apply Forall2_nil_inv_r in H2. done. }
  assert (HG : Forall (good g renamed ns) ms).
  { rewrite HP. eapply Forall_impl; [exact HF|]. intros m (ts & i & Hs & Hc). destruct (HW ts i Hc) as (a & ws & c & -> & _ & Hw & _).
    exists ts, (str (joined ws)). split_and!; [done|apply Hc|by apply tokens2text_is]. }
  destruct (brat_markables_ok g renamed ns ms HG 1 [] []) as (first & md & E1 & F1 & _ & F3).
  set (num := λ m, match dget m md with Some p => p.1 | None => 0 end).
  assert (Hnum : ∀ m, m ∈ ms → dget m md = Some (num m, (span_data g renamed ns m).2) ∧ last_position ms m (num m)).
  { intros m Hm. destruct (F3 m Hm) as (j & G1 & G2 & G3). unfold num. rewrite G1. cbn [fst]. split; [done|]. split_and!; [lia| |].
    - by replace (1 + j - 1) with j by lia.
    - intros j' Hj. apply G3. lia. }
  cbn in F1. set (ents := ents_of g renamed ns first num (g_tokens g) (word_offsets 0 ss)).
  assert (Hlen : length (g_tokens g) = length (word_offsets 0 ss)) by (rewrite word_offsets_length; by apply Forall2_length in HT).
  assert (Hhead : ∀ m, m ∈ ms → ∃ ts i t, span_of g renamed ns m ts ∧ contiguous g i ts ∧ (span_data g renamed ns m).1 = ts ∧ head ts = Some t ∧ g_tokens g !! i = Some t).
  { intros m Hm. rewrite HP in Hm. rewrite Forall_forall in HF. destruct (HF m Hm) as (ts & i & Hs & Hc). destruct ts as [|t ts]; [by destruct Hc|].
    exists (t :: ts), i, t. split_and!; try done; [by apply span_data_ok|]. destruct Hc as [_ [post Hp]].
    replace i with (i + 0) by lia. rewrite <-lookup_drop, Hp. done. }
  exists (nat_sorted <$> chains), (nat_sorted_down <$> chains), ents, num. split_and!.
  - apply Forall2_fmap_l. apply Forall_Forall2_diag, Forall_forall. intros c _. split; [apply nat_sorted_perm|apply nat_sorted_sorted].
  - apply Forall2_fmap_l. apply Forall_Forall2_diag, Forall_forall. intros c _. apply nat_sorted_down_ok.
  - intros m Hm. rewrite <-HP in Hm. by apply Hnum.
  - unfold ents. rewrite ents_markables by done. rewrite <-HP. rewrite (list_fmap_ext _ (λ t, filter (λ m, head (span_data g renamed ns m).1 = Some t) ms) (g_tokens g)) by (intros; apply F1).
    apply (divide (λ m, head (span_data g renamed ns m).1)); [done|]. apply Forall_forall. intros m Hm. destruct (Hhead m Hm) as (ts & i & t & _ & _ & -> & -> & Ht).
    exists t. split; [done|]. by eapply elem_of_list_lookup_2.
  - apply Forall_forall. intros e He. apply ents_elem in He as (i & t & p & m & Ht & Hp & Hm & ->). cbn [en_markable en_number en_from en_to en_text]. split; [done|].
    rewrite F1, elem_of_list_filter in Hm. destruct Hm as [Hh Hm]. destruct (Hhead m Hm) as (ts & i' & t' & Hs & Hc & Hd & Hh' & Ht').
    rewrite Hd, Hh' in Hh. injection Hh as ->. pose proof (NoDup_lookup _ _ _ _ HD Ht Ht') as ->. destruct (HW ts i' Hc) as (a & ws & c & Hss & Ha & Hw & Hne).
    assert (Hx : (span_data g renamed ns m).2 = str (joined ws)).
    { destruct Hs as (b & s & H1 & H2 & H3). unfold span_data. rewrite H1, H2, H3. cbn [snd]. by rewrite (tokens2text_is g ts ws Hw). }
    rewrite Hx. destruct (joined_segment a ws c 0 Hne) as (pre & post & stop & G1 & G2). rewrite <-Hss, Ha, Hp in G2. injection G2 as ->. cbn [fst]. rewrite Z.add_0_l.
    unfold marks. cbn [en_markable en_number en_from en_to en_text]. split.
    + exists pre, post. rewrite chs_str, Hss. split_and!; [done|done|]. rewrite app_length, slen, chs_str. lia.
    + exists ts, i', ws, stop. split_and!; [done|done|done|by rewrite chs_str|done].
  - apply ents_sorted.
  - unfold brat_output. rewrite Hns. fold ms. rewrite E1. cbn [rbind fst snd].
    rewrite (brat_tokens_ok g renamed ns first md num _ ss HT) by (intros t m Hm; rewrite F1, elem_of_list_filter in Hm; destruct Hm as [_ Hm]; by apply (Hnum m Hm)). cbn [rbind]. fold ents.
    destruct show; [|by rewrite app_nil_r]. rewrite (brat_relations_ok md num).
    + cbn [rbind]. rewrite <-list_fmap_compose. done.
    + intros p Hp. apply elem_concat in Hp as (l & Hp & (c & -> & Hc)%elem_of_list_fmap).
      assert (Hin : p.1 ∈ c ∧ p.2 ∈ c).
      { destruct (nat_sorted_down_ok c) as [Hperm _]. rewrite <-Hperm. unfold neighbours in Hp. destruct p as [x y]. split; [by eapply elem_of_zip_l|]. apply elem_of_zip_r in Hp. cbn [snd].
        destruct (nat_sorted_down c); [done|]. by right. }
      assert (Hms : ∀ x, x ∈ c → x ∈ ms) by (intros x Hx; rewrite HP; apply elem_concat; by exists c).
      destruct Hin as [H1%Hms%Hnum H2%Hms%Hnum]. split; eexists; [apply H1|apply H2].
Qed.
Lemma numbers_all l num : NoDup l → (∀ m, m ∈ l → last_position l m (num m)) → num <$> l = seq 1 (length l).
Proof.
  intros HD H. apply list_eq. intros i. rewrite list_lookup_fmap. destruct (l !! i) as [m|] eqn:E.
  - cbn. assert (i < length l) by by apply lookup_lt_Some in E. rewrite lookup_seq_lt by done. f_equal.
    destruct (H m) as (H1 & H2 & _); [by eapply elem_of_list_lookup_2|]. pose proof (NoDup_lookup _ _ _ _ HD E H2). lia.
  - cbn. symmetry. apply lookup_ge_None. rewrite seq_length. by apply lookup_ge_None.
Qed.
Lemma ups_perm ups chains : Forall2 increasing ups chains → concat ups ≡ₚ concat chains.
Proof. induction 1 as [|u c us cs [H _] _ IH]; [done|]. cbn [concat]. by rewrite H, IH. Qed.
