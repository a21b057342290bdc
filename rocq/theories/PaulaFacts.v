(** * PaulaFacts: renaming, grouping, features, offsets (C83-C86) *)
From Verif Require Import PyBase DocGraph Relabel StrNum Query Text Paula.
From Verif Require Import SpecGraph DocGraphFacts History Effects RelabelFacts MergeFacts GraphThms AllHist SpecQuery SpanFacts SelectFacts OffsetFacts TextFacts NatSort LabelFacts SpecExbWrite ExbWrite SpecPaula.

(** ** Renaming *)
Lemma xid_free s : ∃ t, xid (NStr s) = NStr t ∧ ":"%char ∉ chs t ∧ length (chs t) = length (chs s).
Proof. eexists. split; [reflexivity|]. rewrite chs_str. split; [apply xpointer_free|apply fmap_length]. Qed.
Lemma colon_new n : colon_id n → ¬ colon_id (xid n) ∧ xid n ≠ n ∧ nid_truthy (xid n) = true ∧ ∃ t, xid n = NStr t.
Proof.
  intros (s & -> & Hs). destruct (xid_free s) as (t & Ht & Hf & Hl). rewrite Ht. split; [|split; [|split; [|eauto]]].
  - intros (t' & [= <-] & H). done.
  - intros [= ->]. done.
  - cbn. destruct t as [|c t]; [|done]. cbn in Hl. destruct (chs s); [by apply elem_of_nil in Hs|done].
Qed.
Lemma map_get g n : n ∈ nodes g → NoDup (nodes g) → dget n (xpointer_map g) = Some (xid n).
Proof.
  intros Hn HD. apply elem_dget; [unfold dkeys, xpointer_map; rewrite <-list_fmap_compose; change (fst ∘ _) with (@id nid); by rewrite list_fmap_id|].
  apply elem_of_list_fmap. eauto.
Qed.
Lemma relabel_xid g out : NInv g → apart_ids g → relabel_inplace g (xpointer_map g) out → ∃ g', out = (g', None) ∧ NInv g' ∧ same_doc g g' ∧ iso xid g g'.
Proof.
  intros HN (HC & HI) HR. assert (C : Consistent g) by apply HN. pose proof (c_nodup _ C) as HD.
  assert (K1 : (xpointer_map g).*1 = nodes g) by (unfold xpointer_map; rewrite <-list_fmap_compose; change (fst ∘ _) with (@id nid); by rewrite list_fmap_id).
  assert (K2 : (xpointer_map g).*2 = xid <$> nodes g) by (unfold xpointer_map; by rewrite <-list_fmap_compose).
  assert (HM : mapping_ok (xpointer_map g) g).
  { split.
    - by rewrite K1.
    - rewrite K2. apply NoDup_fmap_2_strong; [|done]. intros x y Hx Hy. by apply HI.
    - intros o. by rewrite K1.
    - intros n _ Hn. by rewrite K1.
    - intros o n Ho. unfold xpointer_map in Ho. apply elem_of_list_fmap in Ho as (x & [= -> ->] & Hx). destruct (colon_new x) as (_ & Hne & _); [by apply HC|]. intros E. apply Hne. symmetry. exact E.
    - intros o n Ho. unfold xpointer_map in Ho. apply elem_of_list_fmap in Ho as (x & [= -> ->] & Hx). destruct (colon_new x) as (_ & _ & Ht & _); [by apply HC|]. change (ensure_xpointer_compatibility x) with (xid x). by rewrite Ht. }
  destruct (relabel_inplace_iso g _ out HN HM HR) as [(g' & -> & N' & D' & I')|(_ & (x & Hx1 & Hx2) & _)].
  - exists g'. split; [done|]. split; [done|]. split; [done|]. eapply iso_ext; [|exact C|exact I']. intros n Hn. unfold mapped. by rewrite (map_get g n Hn HD).
  - exfalso. rewrite K1 in Hx1. rewrite K2 in Hx2. apply elem_of_list_fmap in Hx2 as (y & -> & Hy). destruct (colon_new y) as (H & _); [by apply HC|]. by apply H, HC.
Qed.

(** ** Grouping *)
Section Group.
  Context (order : ∀ A, list A → list A) (HO : any_order order).
  Lemma group_inv (es : list edge) : let m := foldl group_edge [] es in NoDup (dkeys m) ∧
    (∀ u d, dget u m = Some d → d ≠ [] ∧ NoDup (dkeys d) ∧ ∀ v a, dget v d = Some a → ∃ k, (u, v, k, a) ∈ es) ∧
    ∀ u v k a, (u, v, k, a) ∈ es → ∃ d, dget u m = Some d ∧ v ∈ dkeys d.
  Proof.
    cbn zeta. induction es as [|[[[u0 v0] k0] a0] es (I1 & I2 & I3)] using rev_ind.
    { cbn. split; [apply NoDup_nil_2|]. split; [done|]. intros u v k a H. by apply elem_of_nil in H. }
    rewrite foldl_app. cbn [foldl]. set (m := foldl group_edge [] es) in *. unfold group_edge. cbn [fst snd].
    set (d0 := default [] (dget u0 m)).
    assert (D0 : NoDup (dkeys d0) ∧ ∀ v a, dget v d0 = Some a → ∃ k, (u0, v, k, a) ∈ es).
    { subst d0. destruct (dget u0 m) as [d|] eqn:E; cbn; [by destruct (I2 _ _ E) as (_ & ? & ?)|]. split; [apply NoDup_nil_2|done]. }
    split; [by apply NoDup_dset|]. split.
    - intros u d. rewrite dget_dset. destruct (decide (u = u0)) as [->|Hu].
      + intros [= <-]. split; [|split; [apply NoDup_dset, D0|]].
        * intros E. pose proof (dget_dset v0 v0 a0 d0) as G. rewrite decide_True in G by done. by rewrite E in G.
        * intros v a. rewrite dget_dset. destruct (decide (v = v0)) as [->|Hv].
          -- intros [= <-]. exists k0. apply elem_of_app. right. left.
          -- intros H. apply D0 in H as [k Hk]. exists k. apply elem_of_app. by left.
      + intros H. apply I2 in H as (H1 & H2 & H3). split; [done|]. split; [done|]. intros v a Ha. apply H3 in Ha as [k Hk]. exists k. apply elem_of_app. by left.
    - intros u v k a H. rewrite dget_dset. apply elem_of_app in H as [H|H].
      + apply I3 in H as (d & Hd & Hv). destruct (decide (u = u0)) as [->|Hu]; [|eauto]. eexists. split; [reflexivity|]. subst d0. rewrite Hd. cbn [default]. rewrite dkeys_dset_elem. by right.
      + apply elem_of_list_singleton in H. injection H as -> -> -> ->. rewrite decide_True by done. eexists. split; [reflexivity|]. rewrite dkeys_dset_elem. by left.
  Qed.
  Lemma grouped_ok (es : list edge) : NoDup (grouped order es).*1 ∧
    (∀ u d, (u, d) ∈ grouped order es → d ≠ [] ∧ NoDup d.*1 ∧ ∀ v a, (v, a) ∈ d → ∃ k, (u, v, k, a) ∈ es) ∧
    ∀ u v k a, (u, v, k, a) ∈ es → ∃ d, (u, d) ∈ grouped order es ∧ v ∈ d.*1.
  Proof.
    destruct (group_inv es) as (I1 & I2 & I3). unfold grouped. set (m := foldl group_edge [] es) in *. split_and!.
    - rewrite <-list_fmap_compose. change (NoDup (fst <$> order _ m)). rewrite (HO _ m). exact I1.
    - intros u d H. apply elem_of_list_fmap in H as ([u' d'] & [= -> ->] & H). rewrite (HO _ m) in H. apply (dict_elem m) in H; [|done]. cbn [fst snd]. apply I2 in H as (H1 & H2 & H3). split; [|split].
      + intros E. apply H1. apply Permutation_nil. rewrite <-(HO _ d'), E. done.
      + rewrite (HO _ d'). exact H2.
      + intros v a. rewrite (HO _ d'). intros Hv. apply H3. by apply dict_elem.
    - intros u v k a H. apply I3 in H as (d & Hd & Hv). exists (order _ d). split; [|by rewrite (HO _ d)]. apply elem_of_list_fmap. exists (u, d). split; [done|]. rewrite (HO _ m). by apply dict_elem.
  Qed.
End Group.
Lemma Forall_pre {A B} (R : A → B → Prop) l : Forall (λ x, ∃ y, R y x) l → ∃ ys, Forall2 R ys l.
Proof. induction 1 as [|x l (y & Hy) _ (ys & Hys)]; [exists []|exists (y :: ys)]; constructor; done. Qed.

(** ** Features *)
Lemma feats_ok order keep (P : string → Prop) a : any_order order → (∀ k, keep k = true ↔ P k) → (∀ k v, dget k a = Some v → P k → ∃ s, v = VStr s) →
  ∃ fs, make_feats order keep a = Ok fs ∧ feats_are P a fs.
Proof.
  intros HO HK HV. unfold make_feats. set (ks := order _ (remove_dups (dkeys a))).
  assert (Hks : NoDup ks ∧ ∀ k, k ∈ ks ↔ k ∈ dkeys a).
  { subst ks. split; [rewrite (HO _ (remove_dups _)); apply NoDup_remove_dups|]. intros k. rewrite (HO _ (remove_dups _)). apply elem_of_remove_dups. }
  destruct Hks as [HD HE].
  assert (H : ∃ fs, rconcat (λ k, if keep k then match dget k a with Some (VStr s) => Ok [(k, s)] | _ => Err TypeError end else Ok []) ks = Ok fs ∧ NoDup fs.*1 ∧ (∀ k s, (k, s) ∈ fs ↔ k ∈ ks ∧ P k ∧ dget k a = Some (VStr s))).
  { assert (Hin : ∀ k, k ∈ ks → k ∈ dkeys a) by (intros; by apply HE). clear HE. clearbody ks. induction ks as [|k ks IH].
    - exists []. split; [done|]. split; [apply NoDup_nil_2|]. intros k s. rewrite !elem_of_nil. tauto.
    - apply NoDup_cons in HD as [Hk HD]. destruct IH as (fs & E & F1 & F2); [done|intros; apply Hin; by right|]. cbn [rconcat]. rewrite E. destruct (keep k) eqn:Ek.
      + assert (Hk' := proj1 (HK k) Ek). destruct (dget k a) as [v|] eqn:Eg.
        2:{ apply dget_None in Eg. exfalso. apply Eg, Hin. left. }
        destruct (HV _ _ Eg Hk') as [s ->]. cbn [rbind]. exists ((k, s) :: fs). split; [done|]. split.
        * rewrite fmap_cons. apply NoDup_cons. split; [|done]. cbn [fst]. intros H. apply elem_of_list_fmap in H as ([k' s'] & -> & H). apply F2 in H as [H _]. done.
        * intros k' s'. rewrite elem_of_cons, F2, elem_of_cons. split.
          -- intros [[= -> ->]|?]; [|tauto]. split; [by left|]. split; done.
          -- intros ([->|?] & Hp & Hg); [|tauto]. left. rewrite Eg in Hg. by injection Hg as ->.
      + cbn [rbind]. exists fs. split; [done|]. split; [done|]. intros k' s'. rewrite F2, elem_of_cons. split; [tauto|]. intros ([->|?] & Hp & Hg); [|tauto]. apply HK in Hp. congruence. }
  destruct H as (fs & E & F1 & F2). exists fs. split; [exact E|]. split; [exact F1|]. intros k s. rewrite F2. split; [tauto|]. intros [Hp Hg]. split; [|done]. apply HE. apply dget_Some_elem in Hg. apply elem_of_list_fmap. exists (k, VStr s). done.
Qed.
Lemma feats_eqv (P : string → Prop) a a' fs : ¬ P "layers" → attr_eqv a a' → feats_are P a' fs → feats_are P a fs.
Proof.
  intros HP [_ HA] [H1 H2]. split; [done|]. intros k s. rewrite H2. split; intros [Hk Hg]; (split; [done|]); assert (k ≠ "layers") by (intros ->; done).
  - by rewrite HA.
  - by rewrite <-HA.
Qed.

(** ** Offsets *)
Lemma onsets_ok ss : ∀ n ts, length ts = length ss → ∃ os, get_onsets (S n) (zip ts (VStr <$> ss)) = Ok os ∧ (λ o : nid * nat * nat, o.1.1) <$> os = ts ∧
  ∀ i s, ss !! i = Some s → ∃ o before after, os !! i = Some o ∧ joined (take (S i) ss) = before ++ chs s ∧ joined ss = before ++ chs s ++ after ∧ o.1.2 = S (n + length before) ∧ o.2 = length (chs s).
Proof.
  induction ss as [|s ss IH]; intros n [|t ts] HL; try done.
  - exists []. split; [done|]. split; [done|]. intros i s H. done.
  - injection HL as HL. rewrite fmap_cons. cbn [zip zip_with get_onsets]. destruct (IH (n + (length (chs s) + 1)) ts HL) as (os & E & F1 & F2). replace (S n + (length (chs s) + 1)) with (S (n + (length (chs s) + 1))) by lia.
    rewrite E. cbn [rbind]. eexists. split; [reflexivity|]. split; [rewrite fmap_cons, F1; done|]. intros [|i] w Hw.
    + injection Hw as <-. eexists _, [], (match ss with [] => [] | _ => " "%char :: joined ss end). split; [reflexivity|]. cbn [fst snd take app length]. split; [done|]. split; [|split; lia]. rewrite joined_cons. destruct ss as [|s' ss]; [by rewrite app_nil_r|reflexivity].
    + cbn in Hw. destruct (F2 _ _ Hw) as (o & b & a & H1 & H2 & H3 & H4 & H5). exists o, (chs s ++ " "%char :: b), a. split; [done|]. destruct ss as [|s' ss']; [done|]. cbn [take]. cbn [take] in H2. rewrite !joined_cons in *. split; [|split; [|split]].
      * rewrite H2, <-app_assoc. done.
      * rewrite H3, <-app_assoc. done.
      * rewrite H4, app_length. cbn [length]. lia.
      * done.
Qed.
