(** * RstThms: the results about rs3 documents *)
From stdpp Require Import relations.
From Verif Require Import PyBase DocGraph Relabel StrNum Query Text Rst SpecRst SpanFacts SelectFacts RstLayout RstWrite RstRead RstRound RstBack.

(** ** C32 *)
Lemma arrange_in L x : x ∈ arrange L ↔ x ∈ L.
Proof. by rewrite arrange_perm. Qed.
Lemma write_wf defaults r : rst_ok r → ∃ d, (write_rs3 defaults (rst_tree r)).2 = Ok d ∧ rs3_wf d ∧
  concat (xtext <$> d_body d) = edus r ∧ (∀ rel ty, (rel, ty) ∈ relations r → (rel, ty) ∈ d_rels d).
Proof.
  intros Hok. rewrite (write_ok defaults r Hok). cbn [snd]. eexists. split; [done|]. cbn [d_body d_rels].
  assert (Hrels : ∀ rel ty, (rel, ty) ∈ relations r → (rel, ty) ∈ sort_header (header defaults r)).
  { intros rel ty Hin. unfold sort_header. rewrite isort_perm. apply dget_Some_elem, header_own; [apply Hok|done]. }
  split; [|split; [by rewrite arrange_texts, lay_texts|exact Hrels]].
  destruct (lay_parents r (start r) None) as (x & l & E & Hl). destruct (lay_head (start r) None r) as (x' & l' & E' & Hid & Hp & Hr).
  rewrite E in E'. injection E' as <- <-. destruct (lay_up r (start r) None) as (x' & l' & E' & Hu). rewrite E in E'. injection E' as <- <-.
  split; cbn [d_body d_rels].
  - rewrite arrange_perm. apply lay_NoDup.
  - exists x. apply Permutation_singleton_r. rewrite arrange_perm, E, filter_cons, decide_True by done. f_equiv.
    rewrite filter_none; [done|]. apply Forall_forall. intros y Hy Hpy. destruct (Hl _ Hy) as (z & rel & _ & Hz & _). congruence.
  - intros y p Hy Hpy. rewrite arrange_in in Hy. rewrite E in Hy. apply elem_of_cons in Hy as [->|Hy].
    { rewrite Hp in Hpy. done. }
    destruct (Hl _ Hy) as (z & rel & Hz & Hz' & _). exists z. split; [by apply arrange_in|congruence].
  - intros y Hy. rewrite arrange_in in Hy. exists x. split; [apply arrange_in; rewrite E; left|]. split; [done|].
    eapply rtc_subrel; [|exact (Hu y Hy)]. intros a b (H1 & H2 & H3). split; [by apply arrange_in|]. split; [by apply arrange_in|done].
  - intros y Hy. rewrite arrange_in in Hy. rewrite E in Hy. apply elem_of_cons in Hy as [->|Hy]; [by rewrite Hp, Hr|].
    destruct (Hl _ Hy) as (z & rel & Hz & Hz' & Hr' & Hd). rewrite Hz', Hr'. destruct Hd as [?|[ty Hty]]; [by left|right; exists ty; by apply Hrels].
Qed.

(** any accepted tree *)
Definition leaf_at (T : ntree) (pos : list nat) : list string := match subtree_at T pos with Some (NLeaf s) => [s] | _ => [] end.
Lemma leaves_positions t : ∀ T pos, subtree_at T pos = Some t → concat (leaf_at T <$> (app pos <$> treepositions t)) = nleaves t.
Proof.
  induction t as [s|l ts IH] using ntree_ind'; intros T pos Hp.
  - cbn [treepositions fmap list_fmap concat]. rewrite !app_nil_r. unfold leaf_at. rewrite Hp. done.
  - rewrite treepositions_NTree, !fmap_cons. cbn [concat]. rewrite app_nil_r. unfold leaf_at at 1. rewrite Hp. cbn [app].
    assert (G : ∀ ts1 ts2, ts = ts1 ++ ts2 → concat (leaf_at T <$> (app pos <$> tpos_kids (length ts1) ts2)) = nleaves (NTree l ts2)).
    { intros ts1 ts2. revert ts1. induction ts2 as [|t ts2 IH2]; intros ts1 ->; [done|].
      rewrite tpos_kids_cons, !fmap_app, concat_app. cbn [nleaves]. f_equal.
      - apply Forall_app in IH as [_ IH]. apply Forall_cons in IH as [IHt _].
        rewrite <-(IHt T (pos ++ [length ts1])).
        + f_equal. rewrite <-!list_fmap_compose. apply list_fmap_ext. intros i x _. simpl. by rewrite <-(assoc_L (++)).
        + rewrite subtree_at_app, Hp. simpl. by rewrite list_lookup_middle.
      - specialize (IH2 (ts1 ++ [t])). rewrite app_length in IH2. simpl in IH2. rewrite Nat.add_1_r in IH2. apply IH2. by rewrite <-(assoc_L (++)). }
    by apply (G [] ts).
Qed.
Lemma gen_elem_out T rels pos y i : treepositions T !! i = Some pos → gen_elem T rels pos = Ok y →
  sublist (xid <$> y) [idn (S i)] ∧ concat (xtext <$> y) = leaf_at T pos ∧ Forall (λ x, is_seg x = match leaf_at T pos with [] => false | _ => true end) y.
Proof.
  intros Hi H. unfold gen_elem in H.
  assert (Hid : node_id T pos = Ok (idn (S i))).
  { unfold node_id. rewrite (find_nodup _ i); [done|apply NoDup_treepositions|done]. }
  rewrite Hid in H. unfold at_pos in H. unfold leaf_at. destruct (subtree_at T pos) as [t|]; [|done]. cbn [of_option rbind] in H.
  apply rbind_Ok in H as (ty & Hty & H). destruct t as [s|l ts].
  - injection Hty as <-. apply rbind_Ok in H as ([rel p] & _ & [= <-]). destruct p; simpl; (split; [reflexivity|]); split; [done|by repeat constructor|done|by repeat constructor].
  - assert (ty ≠ LeafNode). { intros ->. simpl in Hty. repeat case_decide; try done. by destruct ts. }
    destruct ty; try done; [injection H as <-; simpl; split; [by apply sublist_nil_l|]; split; [done|constructor]..|].
    apply rbind_Ok in H as ([rel p] & _ & H). apply rbind_Ok in H as (gt & _ & [= <-]).
    destruct p; simpl; (split; [reflexivity|]); split; [done|by repeat constructor|done|by repeat constructor].
Qed.
Lemma sublist_app {A} (a b c d : list A) : sublist a b → sublist c d → sublist (a ++ c) (b ++ d).
Proof. intros H1 H2. induction H1; simpl; [done|by constructor|by constructor]. Qed.
Lemma write_any defaults T d : (write_rs3 defaults T).2 = Ok d → NoDup (xid <$> d_body d) ∧ concat (xtext <$> d_body d) = nleaves T.
Proof.
  unfold write_rs3. destruct (extract_relations T []) as [rels|e]; [|done]. cbn [snd]. generalize (dict_update defaults rels) as D. intros D H.
  apply rbind_Ok in H as (els & Hels & [= <-]). cbn [d_body]. fold (arrange els). unfold gen_body in Hels.
  assert (G : ∀ ps i els, (∀ j, treepositions T !! (i + j) = ps !! j) → rconcat (gen_elem T D) ps = Ok els →
    sublist (xid <$> els) ((λ j, idn (S j)) <$> seq i (length ps)) ∧ concat (xtext <$> filter (λ x, is_seg x = true) els) = concat (leaf_at T <$> ps)).
  { clear. induction ps as [|p ps IH]; intros i els Hi H; [injection H as <-; split; [reflexivity|done]|].
    cbn [rconcat] in H. apply rbind_Ok in H as (y & Hy & H). apply rbind_Ok in H as (ys & Hys & [= <-]).
    destruct (gen_elem_out T D p y i) as (H1 & H2 & H3); [by rewrite <-(Nat.add_0_r i), Hi|done|].
    destruct (IH (S i) ys) as [H4 H5]; [|done|]. { intros j. specialize (Hi (S j)). rewrite Nat.add_succ_r in Hi. exact Hi. }
    split.
    - rewrite fmap_app. cbn [length seq fmap list_fmap]. change (idn (S i) :: ?l) with ([idn (S i)] ++ l). by apply sublist_app.
    - rewrite filter_app, fmap_app, concat_app, fmap_cons. cbn [concat]. f_equal; [|done]. rewrite <-H2. destruct (leaf_at T p) as [|s ss] eqn:El.
      + rewrite filter_none, H2; [done|]. eapply Forall_impl; [exact H3|]. intros x Hx. simpl in Hx. by rewrite Hx.
      + by rewrite filter_all. }
  destruct (G (treepositions T) 0 els) as [H1 H2]; [done|done|]. split.
  - rewrite arrange_perm. eapply NoDup_sub; [exact H1|]. apply NoDup_fmap_2; [|apply NoDup_seq]. intros a b E%idn_inj. lia.
  - rewrite arrange_texts, H2. rewrite <-(leaves_positions T T [] eq_refl). f_equal. f_equal.
    change (app []) with (λ x : list nat, x). by rewrite list_fmap_id.
Qed.

(** ** C33 *)
Lemma reltypes_header d rel : NoDup d.*1 → dget rel (extract_relationtypes {| d_rels := sort_header d; d_body := [] |}) = dget rel d.
Proof.
  intros Hnd. unfold extract_relationtypes. cbn [d_rels]. fold (dict_update [] (sort_header d)).
  assert (Hp : sort_header d ≡ₚ d) by apply isort_perm.
  assert (Hnd' : NoDup (sort_header d).*1) by by rewrite Hp.
  destruct (dget rel d) as [ty|] eqn:E.
  - apply dget_dict_update_nil; [done|]. apply elem_dget; [done|]. rewrite Hp. by apply dget_Some_elem.
  - rewrite dget_dict_update_notin; [done|]. rewrite Hp. by apply dget_None.
Qed.
Lemma lay_good rt r : (∀ rel ty, (rel, ty) ∈ relations r → dget rel rt = Some ty) → dget "span" rt = None → Forall normal_text (edus r) →
  Forall (elem_good rt) (lay (start r) None r).
Proof.
  intros Ht Hs HF. apply Forall_forall. intros x Hx. split.
  - apply Forall_forall. intros s Hxs. rewrite <-(lay_texts r (start r) None) in HF. rewrite Forall_forall in HF. apply HF, elem_concat.
    exists (xtext x). split; [done|]. apply elem_of_list_fmap_1. apply elem_of_list_filter. split; [|done]. destruct x; [done|by apply elem_of_nil in Hxs].
  - destruct (lay_parents r (start r) None) as (y & l & E & Hl). destruct (lay_head (start r) None r) as (y' & l' & E' & _ & _ & Hr).
    rewrite E in E'. injection E' as <- <-. rewrite E in Hx. apply elem_of_cons in Hx as [->|Hx]; [by rewrite Hr|].
    destruct (Hl _ Hx) as (z & rel & _ & _ & -> & [->|[ty Hty]]); unfold rt_of.
    + rewrite Hs. do 2 right. left.
    + rewrite (Ht _ _ Hty). simpl. assert (ty = "rst" ∨ ty = "multinuc") as [-> | ->]; [|left|right; left].
      clear -Hty. revert Hty. induction r as [s|rel' nf n s IHn IHs|rel' l IH] using rst_ind'; intros Hty; [by apply elem_of_nil in Hty| |].
      * destruct nf; cbn [relations] in Hty; (apply elem_of_cons in Hty as [[= -> ->]|Hty]; [by left|]); apply elem_of_app in Hty as [?|?]; auto.
      * rewrite relations_Multi in Hty. apply elem_of_cons in Hty as [[= -> ->]|Hty]; [by right|].
        apply elem_concat in Hty as (L & Hty & (c & -> & Hc)%elem_of_list_fmap). rewrite Forall_forall in IH. by eapply IH.
Qed.
Lemma read_written r defaults : rst_ok r → Forall normal_text (edus r) → NoDup (edus r) → NoDup defaults.*1 → dget "span" defaults = None →
  ∃ d t n, (write_rs3 defaults (rst_tree r)).2 = Ok d ∧ erase t = rst_tree r ∧ ∀ f, n ≤ f → read_rs3 f d = Ok t.
Proof.
  intros Hok HF Hnd Hdk Hsp. rewrite (write_ok defaults r Hok). cbn [snd]. set (d := {| d_rels := _; d_body := _ |}).
  exists d. set (k := start r). set (rt := extract_relationtypes d).
  assert (Hdh : NoDup (header defaults r).*1) by by apply NoDup_dict_update.
  assert (Hrt : ∀ rel, dget rel rt = dget rel (header defaults r)) by (intros rel; apply (reltypes_header _ rel Hdh)).
  destruct Hok as [Hm Hn H1t].
  assert (Hty : ∀ rel ty, (rel, ty) ∈ relations r → dget rel rt = Some ty) by (intros rel ty Hin; rewrite Hrt; by apply header_own).
  assert (Hspan : dget "span" rt = None).
  { rewrite Hrt, header_other; [done|]. intros ([rel ty] & E & Hin)%elem_of_list_fmap. simpl in E. subst rel.
    rewrite Forall_forall in Hn. destruct (Hn _ Hin) as (_ & _ & _ & H). done. }
  pose proof (lay_NoDup r k None) as Hids. pose proof (arrange_perm (lay k None r)) as HP.
  destruct (read_data rt (arrange (lay k None r))) as (rd & Hrd & [D1 D2 D3]).
  { by rewrite HP. } { rewrite HP. by apply lay_good. }
  assert (Hseg : filter (λ x, is_seg x = true) (arrange (lay k None r)) = filter (λ x, is_seg x = true) (lay k None r)).
  { unfold arrange. rewrite filter_app. rewrite (filter_all _ (filter (λ x, is_seg x = true) _)).
    2: { apply Forall_forall. by intros x [Hx _]%elem_of_list_filter. }
    rewrite (filter_none _ (filter (λ x, is_seg x = false) _)); [by rewrite app_nil_r|].
    apply Forall_forall. intros x [Hx _]%elem_of_list_filter. by rewrite Hx. }
  rewrite Hseg in D2.
  assert (Hed : NoDup (r_edus rd)). { rewrite D2. eapply NoDup_sub; [apply sublist_fmap, sublist_filter|exact Hids]. }
  assert (HS : sub rd rt k None r 0 []).
  { split.
    - intros x Hx. rewrite D1. apply elem_dget.
      + unfold dkeys. rewrite <-list_fmap_compose. unfold compose. simpl. change ((λ x : xelem, xid x) <$> ?l) with (xid <$> l). by rewrite HP.
      + apply elem_of_list_fmap. exists x. split; [done|]. by apply arrange_in.
    - intros j _. rewrite D3. unfold kin. rewrite HP. by destruct (decide (j = k)).
    - done.
    - exists [], []. rewrite D2, app_nil_r. done.
    - intros x Hx Hg Hin. rewrite D2 in Hin. apply elem_of_list_fmap in Hin as (y & Ey & Hy). apply elem_of_list_filter in Hy as [Hys Hy].
      assert (x = y) as ->; [|congruence]. apply elem_of_list_lookup in Hx as [i Hi]. apply elem_of_list_lookup in Hy as [j Hj].
      assert (i = j) as ->; [|congruence]. eapply NoDup_lookup; [exact Hids| |]; rewrite list_lookup_fmap; [by rewrite Hi|by rewrite Hj, Ey]. }
  assert (Hst : NoDup (edu_strings rd)).
  { destruct (edu_strings_sub rd rt _ _ _ _ _ HS) as (pre & post & E & Hl). destruct pre; [|done]. cbn [app] in E.
    assert (Hlen : length (edu_strings rd) = length (edus r)). { unfold edu_strings. rewrite fmap_length, D2, fmap_length. apply lay_seg_length. }
    rewrite E, app_length in Hlen. destruct post; [|simpl in Hlen; lia]. rewrite E, app_nil_r. done. }
  assert (Hroot : kids_of rd None = [idn k]).
  { rewrite D3. apply Permutation_singleton_r. unfold kin. rewrite HP. destruct (lay_parents r k None) as (x & l & E & Hl).
    destruct (lay_head k None r) as (x' & l' & E' & Hid & Hp & _). rewrite E in E'. injection E' as <- <-. rewrite E.
    rewrite filter_cons, decide_True by done. rewrite filter_none; [by rewrite fmap_cons, Hid|].
    apply Forall_forall. intros y Hy Hpy. destruct (Hl _ Hy) as (z & rel & _ & Hz & _). congruence. }
  destruct (sub_top rd rt _ _ _ _ _ HS) as (x & Hx & Hinf & Hid & Hp & Hr & Hseg' & Hgt & Htx).
  assert (Hh : ev (λ f, node_height rd f (idn k) = Ok 1)).
  { exists 1. intros [|f] Hf; [lia|]. simpl. rewrite Hinf. unfold info_of. cbn [i_parent]. by rewrite Hp. }
  assert (Hrtype : i_reltype (inf rd (idn k)) = "") by (rewrite Hinf; unfold info_of; cbn [i_reltype]; by rewrite Hr).
  assert (G : ∃ t, erase t = rst_tree r ∧ ev (λ f, dt rd f (idn k) = Ok t)).
  { assert (Htr : typed rt r) by (split; [done|exact Hty]).
    destruct r as [s|rel nf n s|rel l].
    - exists (DTree "N" (Some (idn k)) [DLeaf s]). split; [done|]. exists 1. intros [|f] Hf; [lia|].
      rewrite dt_seg by by rewrite Hinf. unfold segment2tree. rewrite (proj1 (Permutation_nil_r _) (kids_edu rd rt _ _ _ _ _ HS)).
      rewrite Hrtype. rewrite decide_False by done. rewrite Hinf, Htx. done.
    - destruct Hm as [Hmn Hms]. destruct (typed_Mono rt _ _ _ _ Htr) as (Hok & Ht & Htn & Hts).
      destruct (core_Mono rd rt Hed Hst rel nf n s Hmn Hms) with (k := k) (ro := @None (string * string)) (lo := 0) (ext := @nil string) (h := 1) as (t & Et & Evt); try done.
      + by apply (read_block rd rt Hed Hst Hspan).
      + by apply (read_block rd rt Hed Hst Hspan).
      + exists t. split; [done|]. destruct (sub_Mono _ _ _ _ _ _ _ _ _ _ HS) as (_ & _ & Hk). cbn [app] in Hk. apply Permutation_singleton_r in Hk.
        eapply ev_S; [exact Evt|]. intros f Hf. rewrite dt_grp by by rewrite Hinf. unfold group2tree. rewrite Hrtype, Hk.
        rewrite decide_False by (intros [?|?]; done). rewrite decide_True by by left. rewrite Hinf, Hgt. rewrite decide_False by done. exact Hf.
    - assert (Hm' := Hm). apply multi_ok_Multi in Hm' as [Hlen Hml]. destruct (typed_Multi rt _ _ Htr) as (Hok & Ht & Htl).
      destruct (core_Multi rd rt Hed rel l Hml) with (k := k) (ro := @None (string * string)) (lo := 0) (ext := @nil string) (h := 1) as (ts & Ets & Evt); try done.
      + apply Forall_forall. intros c Hc. rewrite Forall_forall in Hml, Htl. apply (read_block rd rt Hed Hst Hspan); [by apply Hml|by apply Htl].
      + exists (DTree rel (Some (idn k)) ts). split; [simpl; by rewrite Ets|].
        destruct (sub_Multi _ _ _ _ _ _ _ _ HS) as (_ & Hk). cbn [app] in Hk.
        pose proof (nuclei_info rd rt _ _ _ _ _ _ HS Ht) as Hinfo. pose proof (places_two (S k) 0 l Hlen) as Hlen2. rewrite <-Hk in Hinfo, Hlen2.
        eapply ev_S; [exact Evt|]. intros f Hf. rewrite dt_grp by by rewrite Hinf. unfold group2tree. rewrite Hrtype.
        rewrite decide_False by (intros [?|?]; done). rewrite decide_True by by left. rewrite Hinf, Hgt. rewrite decide_True by done.
        rewrite (filter_all _ (kids_of rd (Some (idn k)))); [|eapply Forall_impl; [exact Hinfo|]; by intros i [? _]].
        destruct (Hf _ Hk) as (us & U1 & U2 & _).
        destruct (kids_of rd (Some (idn k))) as [|m ms] eqn:Ek; [simpl in Hlen2; lia|]. rewrite <-Ek in *.
        rewrite U1. cbn [rbind]. rewrite U2. cbn [rbind]. rewrite Ek in Hinfo. apply Forall_cons in Hinfo as [[_ Hm1] _]. rewrite Hm1. cbn [mk rbind].
        rewrite filter_none; [done|]. apply Forall_forall. intros y Hy Hn'. by apply Hn'. }
  destruct G as (t & Et & n & Hn'). exists t, n. split; [done|]. split; [done|]. intros f Hf. unfold read_rs3, get_rs3_data. fold rt.
  cbn [d d_body]. fold k. rewrite Hrd. cbn [rbind]. unfold root2tree. rewrite Hroot. by apply Hn'.
Qed.

(** ** C34 *)
Lemma last_use_dget (d : dict string string) (e : list (string * string)) rel : dget rel (dict_update d e) = match last_use rel e with Some ty => Some ty | None => dget rel d end.
Proof.
  revert d. induction e as [|[y v] e IH]; intros d; [done|]. change (dict_update d ((y, v) :: e)) with (dict_update (dset y v d) e). rewrite IH.
  unfold last_use. rewrite filter_cons. cbn [fst]. destruct (decide (y = rel)) as [->|Hne].
  - rewrite fmap_cons. cbn [snd]. destruct ((filter (λ p : string * string, p.1 = rel) e).*2) as [|a l] eqn:E; cbn [last]; [by rewrite dget_dset_eq|].
    destruct (last (a :: l)) eqn:El; [done|]. by apply last_None in El.
  - destruct (last _); [done|]. by rewrite dget_dset_ne.
Qed.
Lemma header_last d r rel : dget rel (header d r) = match last_use rel (relations r) with Some ty => Some ty | None => dget rel d end.
Proof.
  unfold header. destruct (decide (rel ∈ (relations r).*1)) as [Hin|Hin].
  - assert (Hn : dget rel (dict_update [] (relations r)) = last_use rel (relations r)) by (rewrite last_use_dget; by destruct (last_use rel (relations r))).
    destruct (last_use rel (relations r)) as [ty|] eqn:El.
    + apply dget_dict_update_nil; [apply NoDup_dict_update, NoDup_nil_2|done].
    + exfalso. apply elem_of_list_fmap in Hin as ([x ty] & -> & Hin). cbn [fst] in El. unfold last_use in El. apply last_None in El.
      assert (Hx : ty ∈ (filter (λ p : string * string, p.1 = x) (relations r)).*2).
      { apply elem_of_list_fmap. exists (x, ty). split; [done|]. by apply elem_of_list_filter. }
      rewrite El in Hx. by apply elem_of_nil in Hx.
  - assert (El : last_use rel (relations r) = None).
    { unfold last_use. apply last_None. assert (H : filter (λ p : string * string, p.1 = rel) (relations r) = []); [|by rewrite H].
      apply filter_none. apply Forall_forall. intros p Hp <-. apply Hin. by apply elem_of_list_fmap_1. }
    rewrite El. fold (header d r). by apply header_other.
Qed.
Lemma last_use_app rel l1 l2 : last_use rel (l1 ++ l2) = match last_use rel l2 with Some ty => Some ty | None => last_use rel l1 end.
Proof.
  unfold last_use. rewrite filter_app, fmap_app. rewrite last_app. done.
Qed.
Lemma after_writes rs : Forall rst_ok rs → NoDup (after_writing (rst_tree <$> rs)).*1 ∧
  ∀ rel, dget rel (after_writing (rst_tree <$> rs)) = match last_use rel (concat (relations <$> rs)) with Some ty => Some ty | None => dget rel default_relations end.
Proof.
  unfold after_writing. induction rs as [|r rs IH] using rev_ind; intros HF.
  - split; [|done]. cbn. apply (bool_decide_unpack (NoDup _)). by vm_compute.
  - apply Forall_app in HF as [HF Hr]. apply Forall_cons in Hr as [Hr _]. destruct (IH HF) as [IH1 IH2].
    rewrite fmap_app, foldl_app. cbn [fmap list_fmap foldl]. rewrite write_ok by done. cbn [fst]. split; [by apply NoDup_dict_update|].
    intros rel. rewrite header_last, IH2. rewrite fmap_app, concat_app, last_use_app. cbn [fmap list_fmap concat]. rewrite app_nil_r.
    by destruct (last_use rel (relations r)).
Qed.
Lemma header_exact rs r : Forall rst_ok rs → rst_ok r → ∃ d, (write_rs3 (after_writing (rst_tree <$> rs)) (rst_tree r)).2 = Ok d ∧ NoDup (d_rels d).*1 ∧
  ∀ rel ty, (rel, ty) ∈ d_rels d ↔ match last_use rel (concat (relations <$> rs) ++ relations r) with Some ty' => ty' = ty | None => (rel, ty) ∈ default_relations end.
Proof.
  intros HF Hr. rewrite write_ok by done. cbn [snd]. eexists. split; [done|]. cbn [d_rels]. destruct (after_writes rs HF) as [A1 A2].
  assert (Hnd : NoDup (header (after_writing (rst_tree <$> rs)) r).*1) by by apply NoDup_dict_update.
  assert (Hp : sort_header (header (after_writing (rst_tree <$> rs)) r) ≡ₚ header (after_writing (rst_tree <$> rs)) r) by apply isort_perm.
  split; [by rewrite Hp|]. intros rel ty. rewrite Hp.
  assert (Hiff : ∀ (D : dict string string), NoDup D.*1 → (rel, ty) ∈ D ↔ dget rel D = Some ty).
  { intros D HD. split; [by apply elem_dget|apply dget_Some_elem]. }
  rewrite (Hiff _ Hnd), header_last, A2, last_use_app.
  destruct (last_use rel (relations r)) as [t1|]; [split; congruence|]. destruct (last_use rel (concat (relations <$> rs))) as [t1|]; [split; congruence|].
  symmetry. apply Hiff. apply (bool_decide_unpack (NoDup _)). by vm_compute.
Qed.
Lemma body_same d1 d2 r : rst_ok r → ∃ x1 x2, (write_rs3 d1 (rst_tree r)).2 = Ok x1 ∧ (write_rs3 d2 (rst_tree r)).2 = Ok x2 ∧ d_body x1 = d_body x2.
Proof. intros Hr. rewrite !write_ok by done. cbn [snd]. by eexists _, _. Qed.
Lemma normal_char c : is_space c = false → normal_text (String c "").
Proof. intros Hc. exists [[c]]. split; [done|]. split; [|done]. constructor; [|constructor]. split; [done|]. by repeat constructor. Qed.
