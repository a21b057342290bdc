(** * DisTree: the .dis tree of an RST tree, and back *)
From Verif Require Import PyBase DocGraph Relabel SpecGraph StrNum Query Text SpecText Rst SpecRst Nltk Dis SpecDis SpanFacts RstLayout RstRead RstRound RstThms NltkFacts DisText DisEscape.

(** ** numbering of the leaves *)
Definition lpos_kids (i : nat) (ts : list ntree) : list (list nat) := concat (imap (λ j t, cons (i + j) <$> leaf_positions t) ts).
Lemma lpos_kids_cons i t ts : lpos_kids i (t :: ts) = (cons i <$> leaf_positions t) ++ lpos_kids (S i) ts.
Proof.
  unfold lpos_kids. simpl. rewrite Nat.add_0_r. f_equal. f_equal. apply imap_ext. intros j x _. simpl. by rewrite Nat.add_succ_r.
Qed.
Lemma lpos_kids_app i ts us : lpos_kids i (ts ++ us) = lpos_kids i ts ++ lpos_kids (i + length ts) us.
Proof.
  revert i. induction ts as [|t ts IH]; intros i; [simpl; by rewrite Nat.add_0_r|].
  cbn [app]. rewrite !lpos_kids_cons, IH, <-(assoc_L (++)). simpl. by rewrite Nat.add_succ_r.
Qed.
Lemma filter_map_cons (i : nat) (t : ntree) (P : list nat → bool) (Q : list nat → bool) (l : list (list nat)) : (∀ p, p ∈ l → P (i :: p) = Q p) →
  filter (λ p, P p = true) (cons i <$> l) = cons i <$> filter (λ p, Q p = true) l.
Proof.
  clear t. induction l as [|p l IH]; intros H; [done|]. rewrite fmap_cons, !filter_cons.
  rewrite IH by (intros q Hq; apply H; by right). specialize (H p ltac:(left)). rewrite H.
  destruct (decide (Q p = true)); done.
Qed.
Lemma leaf_positions_NTree l ts : leaf_positions (NTree l ts) = lpos_kids 0 ts.
Proof.
  unfold leaf_positions. rewrite treepositions_NTree, filter_cons, decide_False by done.
  assert (G : ∀ ts1 ts2, ts = ts1 ++ ts2 → filter (λ p, leaf_here (NTree l ts) p = true) (tpos_kids (length ts1) ts2) = lpos_kids (length ts1) ts2).
  { intros ts1 ts2. revert ts1. induction ts2 as [|t ts2 IH]; intros ts1 E; [done|]. rewrite tpos_kids_cons, lpos_kids_cons, filter_app. f_equal.
    - unfold leaf_positions. apply (filter_map_cons _ t). intros p _. unfold leaf_here. cbn [subtree_at]. rewrite E. by rewrite list_lookup_middle.
    - specialize (IH (ts1 ++ [t])). rewrite app_length in IH. simpl in IH. rewrite Nat.add_1_r in IH. apply IH. by rewrite <-(assoc_L (++)). }
  by apply (G [] ts).
Qed.
Lemma leaf_positions_NLeaf s : leaf_positions (NLeaf s) = [[]].
Proof. done. Qed.
Lemma length_lpos t : length (leaf_positions t) = length (nleaves t).
Proof.
  induction t as [s|l ts IH] using ntree_ind'; [done|]. rewrite leaf_positions_NTree. cbn [nleaves].
  generalize 0 as i. induction IH as [|t ts Ht HF IHF]; intros i; [done|]. rewrite lpos_kids_cons, !app_length, fmap_length, Ht, IHF. done.
Qed.
Lemma NoDup_lpos t : NoDup (leaf_positions t).
Proof. unfold leaf_positions. apply NoDup_filter, NoDup_treepositions. Qed.
Lemma nleaves_NTree l ts : nleaves (NTree l ts) = concat (nleaves <$> ts).
Proof. simpl. induction ts as [|t ts IH]; [done|]. rewrite fmap_cons. cbn [concat]. by rewrite IH. Qed.
Lemma nleaves_body r : nleaves (body r) = edus r.
Proof.
  induction r as [s|rel nf n s IHn IHs|rel l IH] using rst_ind'; [done|destruct nf; simpl; by rewrite !app_nil_r, IHn, IHs|].
  cbn [body]. rewrite nleaves_NTree, edus_Multi. change (map ?f l) with (f <$> l). rewrite <-list_fmap_compose. f_equal.
  apply list_fmap_ext. intros i c Hi. simpl. rewrite app_nil_r. rewrite Forall_forall in IH. apply IH. by eapply elem_of_list_lookup_2.
Qed.
(** the leaves of the subtree at [pos] come after [lo] others *)
Definition lblock (T : ntree) (pos : list nat) (t : ntree) (lo : nat) : Prop :=
  subtree_at T pos = Some t ∧ ∃ pre post, leaf_positions T = pre ++ (app pos <$> leaf_positions t) ++ post ∧ length pre = lo.
Lemma lblock_root T : lblock T [] T 0.
Proof. split; [done|]. exists [], []. split; [|done]. rewrite app_nil_r. simpl. rewrite list_fmap_id. done. Qed.
Lemma lblock_child T pos l ts lo i u : lblock T pos (NTree l ts) lo → ts !! i = Some u →
  lblock T (pos ++ [i]) u (lo + sum_list ((λ t, length (nleaves t)) <$> take i ts)).
Proof.
  intros (Hs & pre & post & E & Hk) Hi. split.
  - rewrite subtree_at_app, Hs. simpl. by rewrite Hi.
  - pose proof (take_drop_middle _ _ _ Hi) as Ets. pose proof (lookup_lt_Some _ _ _ Hi) as Hlt.
    rewrite leaf_positions_NTree, <-Ets, lpos_kids_app in E.
    rewrite Nat.add_0_l, take_length_le in E by lia. rewrite lpos_kids_cons in E.
    exists (pre ++ (app pos <$> lpos_kids 0 (take i ts))), ((app pos <$> lpos_kids (S i) (drop (S i) ts)) ++ post). split.
    + rewrite E. rewrite !fmap_app, <-!(assoc_L (++)). f_equal. f_equal.
      f_equal. rewrite <-list_fmap_compose. apply list_fmap_ext. intros j x _. simpl. by rewrite <-(assoc_L (++)).
    + rewrite app_length, fmap_length.
      assert (Hlen : ∀ j us, length (lpos_kids j us) = sum_list ((λ t, length (nleaves t)) <$> us)).
      { intros j us. revert j. induction us as [|x us IH]; intros j; [done|].
        rewrite lpos_kids_cons, app_length, fmap_length, length_lpos, IH. done. }
      rewrite Hlen. lia.
Qed.
(** the span of units lo+1 .. lo+n *)
Definition span_tree (lo n : nat) : ntree := match n with 1 => NTree "leaf" [num (S lo)] | _ => NTree "span" [num (S lo); num (lo + n)] end.
Lemma lblock_number T pos t lo k p : lblock T pos t lo → (app pos <$> leaf_positions t) !! k = Some p → leaf_number T p = Ok (S (lo + k)).
Proof.
  intros (_ & pre & post & E & Hl) Hk. unfold leaf_number. rewrite (find_nodup _ (lo + k)); [done|apply NoDup_lpos|].
  rewrite E, <-Hl. rewrite lookup_app_r by lia. replace (length pre + k - length pre) with k by lia.
  rewrite lookup_app_l; [done|]. by eapply lookup_lt_Some.
Qed.
Lemma make_span_block T pos t lo n : lblock T pos t lo → length (nleaves t) = n → 0 < n → make_span T pos t = Ok (span_tree lo n).
Proof.
  intros HB Hn Hp. unfold make_span. pose proof (lblock_number T pos t lo) as HL. revert HL.
  assert (Hlen : length (app pos <$> leaf_positions t) = n) by by rewrite fmap_length, length_lpos.
  revert Hlen. generalize (app pos <$> leaf_positions t) as ps. intros ps Hlen HL.
  destruct ps as [|p [|q ps]]; simpl in Hlen; [lia| |].
  - rewrite (HL 0 p HB eq_refl). cbn [rbind]. rewrite <-Hlen, Nat.add_0_r. done.
  - rewrite (HL 0 p HB eq_refl). cbn [rbind]. rewrite Nat.add_0_r.
    rewrite (HL (S (length ps)) (List.last (q :: ps) p) HB).
    + cbn [rbind]. rewrite <-Hlen. cbn [span_tree]. by rewrite !Nat.add_succ_r.
    + change ((p :: q :: ps) !! S (length ps)) with ((q :: ps) !! length ps). clear. revert q. induction ps as [|x ps IH]; intros q; [done|].
      change (List.last (q :: x :: ps) p) with (List.last (x :: ps) p). exact (IH x).
Qed.

(** ** the tree that is written *)
Section dkids.
  Definition dnode (lab rel : string) (lo n : nat) (ks : list ntree) : ntree :=
    NTree lab (span_tree lo n :: NTree "rel2par" [NLeaf rel] :: ks).
  Definition n_edus (r : rst) : nat := length (edus r).
  (** the children of the node of [r] after span and relation; lo units come
      before *)
  Fixpoint dkids (lo : nat) (r : rst) : list ntree :=
    match r with
    | Edu s => [NTree "text" (words_tree (marked (split_blanks (chs s))))]
    | Mono rel true n s => [dnode "Nucleus" "span" lo (n_edus n) (dkids lo n);
                            dnode "Satellite" rel (lo + n_edus n) (n_edus s) (dkids (lo + n_edus n) s)]
    | Mono rel false n s => [dnode "Satellite" rel lo (n_edus s) (dkids lo s);
                             dnode "Nucleus" "span" (lo + n_edus s) (n_edus n) (dkids (lo + n_edus s) n)]
    | Multi rel l => (fix go lo l := match l with
        | [] => []
        | c :: l => dnode "Nucleus" rel lo (n_edus c) (dkids lo c) :: go (lo + n_edus c) l end) lo l
    end.
End dkids.
Fixpoint dmulti (rel : string) (lo : nat) (l : list rst) : list ntree :=
  match l with [] => [] | c :: l => dnode "Nucleus" rel lo (n_edus c) (dkids lo c) :: dmulti rel (lo + n_edus c) l end.
Lemma dkids_Multi lo rel l : dkids lo (Multi rel l) = dmulti rel lo l.
Proof. simpl. revert lo. induction l as [|c l IH]; intros lo; [done|]. cbn [dmulti]. by rewrite IH. Qed.
Definition cvs (T : ntree) (l : string) (ts : list ntree) (pos : list nat) := fix go (j : nat) (us : list ntree) : res (list ntree) :=
  match us with [] => Ok [] | u :: us => let! a := cv T l ts pos j u in let! b := go (S j) us in Ok (a ++ b) end.
Lemma cv_NTree T pl sibs pos i l ts : cv T pl sibs pos i (NTree l ts) =
  if decide (l = "N" ∨ l = "S") then
    let! span := make_span T (pos ++ [i]) (NTree l ts) in
    let! rel := make_rel2par pl sibs i l in
    let! cs := cvs T l ts (pos ++ [i]) 0 ts in
    Ok [NTree (convert_label l) (span :: rel :: cs)]
  else cvs T l ts (pos ++ [i]) 0 ts.
Proof. reflexivity. Qed.
Lemma convert_NTree l ts : convert (NTree l ts) =
  rbind (cvs (NTree l ts) l ts [] 0 ts) (λ cs, Ok (NTree "Root" (NTree "span" [NLeaf "1"; num (length (leaf_positions (NTree l ts)))] :: cs))).
Proof. reflexivity. Qed.
Definition name_ok (rel : string) : Prop := rel ≠ "N" ∧ rel ≠ "S".
Lemma n_edus_pos r : multi_ok r → 0 < n_edus r.
Proof.
  unfold n_edus. induction r as [s|rel nf n s IHn IHs|rel l IH] using rst_ind'; intros Hm; [simpl; lia| |].
  - destruct Hm as [Hn Hs]. specialize (IHn Hn). destruct nf; simpl; rewrite app_length; lia.
  - apply multi_ok_Multi in Hm as [Hl Hm]. rewrite edus_Multi. destruct l as [|c l]; [simpl in Hl; lia|].
    rewrite fmap_cons. cbn [concat]. rewrite app_length. apply Forall_cons in IH as [IH _]. apply Forall_cons in Hm as [Hm _]. specialize (IH Hm). lia.
Qed.
Lemma nleaves_under l r : length (nleaves (NTree l [body r])) = n_edus r.
Proof. rewrite nleaves_NTree. cbn [fmap list_fmap concat]. by rewrite app_nil_r, nleaves_body. Qed.
(** the children of the node at pos *)
Definition cv_content (T : ntree) (r : rst) : Prop := ∀ pl sibs pos i lo, lblock T (pos ++ [i]) (body r) lo →
  cv T pl sibs pos i (body r) = Ok (dkids lo r).
Lemma cv_nuc T r lab pl sibs pos i lo rel : cv_content T r → multi_ok r → lab = "N" ∨ lab = "S" →
  lblock T (pos ++ [i]) (NTree lab [body r]) lo → make_rel2par pl sibs i lab = Ok (NTree "rel2par" [NLeaf rel]) →
  cv T pl sibs pos i (NTree lab [body r]) = Ok [dnode (convert_label lab) rel lo (n_edus r) (dkids lo r)].
Proof.
  intros HC Hm Hl HB Hr. rewrite cv_NTree. rewrite decide_True by done.
  rewrite (make_span_block T _ _ lo (n_edus r) HB); [|apply nleaves_under|by apply n_edus_pos]. cbn [rbind]. rewrite Hr. cbn [rbind].
  pose proof (lblock_child _ _ _ _ _ 0 _ HB eq_refl) as HB0. cbn [take fmap list_fmap sum_list] in HB0.
  change (sum_list _) with 0 in HB0. rewrite Nat.add_0_r in HB0.
  unfold cvs. rewrite (HC _ _ _ _ _ HB0). cbn [rbind]. rewrite app_nil_r. done.
Qed.
Lemma rel2par_mono (rel : string) (nf : bool) bn bs :
  let ts := if nf then [NTree "N" [bn]; NTree "S" [bs]] else [NTree "S" [bs]; NTree "N" [bn]] in
  make_rel2par rel ts (if nf then 0 else 1) "N" = Ok (NTree "rel2par" [NLeaf "span"]) ∧
  make_rel2par rel ts (if nf then 1 else 0) "S" = Ok (NTree "rel2par" [NLeaf rel]).
Proof. by destruct nf. Qed.
Lemma rel2par_multi rel (l : list rst) i : make_rel2par rel (map (λ c, NTree "N" [body c]) l) i "N" = Ok (NTree "rel2par" [NLeaf rel]).
Proof.
  unfold make_rel2par. rewrite decide_False by done.
  assert (E : rmap nlabel (map (λ c, NTree "N" [body c]) l) = Ok (replicate (length l) "N")).
  { induction l as [|c l IH]; [done|]. cbn [map rmap nlabel rbind]. by rewrite IH. }
  rewrite E. cbn [rbind].
  assert (H : ∀ x, x ∈ take i (replicate (length l) "N") ++ drop (S i) (replicate (length l) "N") → x = "N").
  { intros x [Hx|Hx]%elem_of_app.
    - eapply elem_of_list_lookup in Hx as [j Hx]. rewrite lookup_take_Some in Hx. destruct Hx as [Hx _]. by apply lookup_replicate in Hx as [-> _].
    - eapply elem_of_list_lookup in Hx as [j Hx]. rewrite lookup_drop in Hx. by apply lookup_replicate in Hx as [-> _]. }
  rewrite decide_False by (intros E2; rewrite E2 in H; specialize (H "S" ltac:(left)); done).
  match goal with |- context [forallb ?f ?l] => assert (forallb f l = true) as -> end; [|done].
  apply forallb_forall. intros x Hx. apply bool_decide_eq_true. apply H. by apply elem_of_list_In.
Qed.
Definition names_ok (r : rst) : Prop := Forall (λ p, name_ok p.1) (relations r).
Definition texts_ok (r : rst) : Prop := Forall (λ s, split_blanks (chs s) ≠ []) (edus r).
(** the children of a relation node *)
Lemma cvs_body T r l ts : multi_ok r → names_ok r → texts_ok r → body r = NTree l ts →
  (∀ c, multi_ok c → names_ok c → texts_ok c → (match r with Edu _ => False | Mono _ _ n s => c = n ∨ c = s | Multi _ l => c ∈ l end) → cv_content T c) →
  ∀ pos lo, lblock T pos (body r) lo → cvs T l ts pos 0 ts = Ok (dkids lo r).
Proof.
  intros Hm Hn Ht Eb IH pos lo HB. destruct r as [s|rel nf n s|rel k]; [done| |].
  - destruct Hm as [Hmn Hms].
    assert (names_ok n ∧ names_ok s) as [Hnn Hns].
    { unfold names_ok in *. destruct nf; simpl in Hn; apply Forall_cons in Hn as [_ Hn]; apply Forall_app in Hn as [? ?]; done. }
    assert (texts_ok n ∧ texts_ok s) as [Htn Hts].
    { unfold texts_ok in *. destruct nf; simpl in Ht; apply Forall_app in Ht as [? ?]; done. }
    destruct (rel2par_mono rel nf (body n) (body s)) as [RN RS].
    assert (HCn : cv_content T n) by (apply IH; auto). assert (HCs : cv_content T s) by (apply IH; auto).
    destruct nf; simpl in Eb; injection Eb as <- <-.
    + pose proof (lblock_child _ _ _ _ _ 0 _ HB eq_refl) as B0. pose proof (lblock_child _ _ _ _ _ 1 _ HB eq_refl) as B1.
      assert (E0 : lo + sum_list ((λ t, length (nleaves t)) <$> take 0 [NTree "N" [body n]; NTree "S" [body s]]) = lo) by (simpl; lia).
      assert (E1 : lo + sum_list ((λ t, length (nleaves t)) <$> take 1 [NTree "N" [body n]; NTree "S" [body s]]) = lo + n_edus n).
      { cbn [take fmap list_fmap sum_list]. rewrite nleaves_under. simpl. lia. }
      assert (B0' : lblock T (pos ++ [0]) (NTree "N" [body n]) lo) by (rewrite <-E0; exact B0).
      assert (B1' : lblock T (pos ++ [1]) (NTree "S" [body s]) (lo + n_edus n)) by (rewrite <-E1; exact B1).
      clear B0 B1. rename B0' into B0. rename B1' into B1. unfold cvs.
      rewrite (cv_nuc T n "N" _ _ _ _ lo "span" HCn Hmn ltac:(by left) B0 RN). cbn [rbind].
      rewrite (cv_nuc T s "S" _ _ _ _ _ rel HCs Hms ltac:(by right) B1 RS). cbn [rbind app]. done.
    + pose proof (lblock_child _ _ _ _ _ 0 _ HB eq_refl) as B0. pose proof (lblock_child _ _ _ _ _ 1 _ HB eq_refl) as B1.
      assert (E0 : lo + sum_list ((λ t, length (nleaves t)) <$> take 0 [NTree "S" [body s]; NTree "N" [body n]]) = lo) by (simpl; lia).
      assert (E1 : lo + sum_list ((λ t, length (nleaves t)) <$> take 1 [NTree "S" [body s]; NTree "N" [body n]]) = lo + n_edus s).
      { cbn [take fmap list_fmap sum_list]. rewrite nleaves_under. simpl. lia. }
      assert (B0' : lblock T (pos ++ [0]) (NTree "S" [body s]) lo) by (rewrite <-E0; exact B0).
      assert (B1' : lblock T (pos ++ [1]) (NTree "N" [body n]) (lo + n_edus s)) by (rewrite <-E1; exact B1).
      clear B0 B1. rename B0' into B0. rename B1' into B1. unfold cvs.
      rewrite (cv_nuc T s "S" _ _ _ _ lo rel HCs Hms ltac:(by right) B0 RS). cbn [rbind].
      rewrite (cv_nuc T n "N" _ _ _ _ _ "span" HCn Hmn ltac:(by left) B1 RN). cbn [rbind app]. done.
  - injection Eb as <- <-. apply multi_ok_Multi in Hm as [_ Hm]. unfold names_ok in Hn. unfold texts_ok in Ht. rewrite relations_Multi in Hn. rewrite edus_Multi in Ht.
    apply Forall_cons in Hn as [_ Hn]. rewrite dkids_Multi.
    assert (G : ∀ k1 k2, k = k1 ++ k2 → cvs T rel (map (λ c, NTree "N" [body c]) k) pos (length k1) (map (λ c, NTree "N" [body c]) k2) =
      Ok (dmulti rel (lo + sum_list (n_edus <$> k1)) k2)).
    { intros k1 k2. revert k1. induction k2 as [|c k2 IHk]; intros k1 E; [done|]. cbn [map dmulti].
      change (cvs ?T ?rel ?ts ?pos ?j (?u :: ?us)) with (rbind (cv T rel ts pos j u) (λ a, rbind (cvs T rel ts pos (S j) us) (λ b, Ok (a ++ b)))).
      assert (Hc : c ∈ k) by (rewrite E; apply elem_of_app; right; left).
      assert (Hi : map (λ c, NTree "N" [body c]) k !! length k1 = Some (NTree "N" [body c])).
      { rewrite E, map_app. rewrite lookup_app_r by by rewrite map_length. rewrite map_length, Nat.sub_diag. done. }
      pose proof (lblock_child _ _ _ _ _ _ _ HB Hi) as B0.
      assert (E0 : sum_list ((λ t, length (nleaves t)) <$> take (length k1) (map (λ c, NTree "N" [body c]) k)) = sum_list (n_edus <$> k1)).
      { rewrite E, map_app, take_app_alt by by rewrite map_length. clear. induction k1 as [|c l IH]; [done|].
        cbn [map]. rewrite !fmap_cons. cbn [sum_list]. change (sum_list (?x :: ?l)) with (x + sum_list l). rewrite IH, nleaves_under. done. }
      assert (B0' : lblock T (pos ++ [length k1]) (NTree "N" [body c]) (lo + sum_list (n_edus <$> k1))) by (rewrite <-E0; exact B0).
      clear B0. rename B0' into B0.
      assert (HCc : cv_content T c).
      { apply IH; [rewrite Forall_forall in Hm; by apply Hm| | |done].
        - unfold names_ok. rewrite Forall_forall in Hn |- *. intros p Hp. apply Hn. apply elem_concat. exists (relations c). split; [done|]. by apply elem_of_list_fmap_1.
        - unfold texts_ok. rewrite Forall_forall in Ht |- *. intros p Hp. apply Ht. apply elem_concat. exists (edus c). split; [done|]. by apply elem_of_list_fmap_1. }
      rewrite (cv_nuc T c "N" _ _ _ _ (lo + sum_list (n_edus <$> k1)) rel HCc); [|rewrite Forall_forall in Hm; by apply Hm|by left|exact B0|apply rel2par_multi]. cbn [rbind].
      specialize (IHk (k1 ++ [c])). rewrite app_length in IHk. simpl in IHk. rewrite Nat.add_1_r in IHk. rewrite IHk by by rewrite <-(assoc_L (++)).
      cbn [rbind app]. do 2 f_equal. f_equal. rewrite fmap_app, sum_list_with_app || idtac. clear. rewrite <-Nat.add_assoc. f_equal.
      induction k1 as [|x k1 IH]; simpl; [lia|]. unfold fmap in *. lia. }
    specialize (G [] k eq_refl). cbn [length fmap list_fmap] in G. change (sum_list []) with 0 in G. rewrite Nat.add_0_r in G. exact G.
Qed.
Lemma cv_body T r : multi_ok r → names_ok r → texts_ok r → cv_content T r.
Proof.
  induction r as [s|rel nf n s IHn IHs|rel l IH] using rst_ind'; intros Hm Hn Ht pl sibs pos i lo HB.
  - cbn [body cv dkids]. unfold make_edu. unfold texts_ok in Ht. cbn [edus] in Ht. apply Forall_cons in Ht as [Ht _].
    destruct (split_blanks (chs s)) as [|w ws] eqn:E; [done|]. done.
  - assert (Eb : ∃ ts, body (Mono rel nf n s) = NTree rel ts) by (destruct nf; by eexists). destruct Eb as [ts Eb].
    assert (name_ok rel) as [H1 H2] by (unfold names_ok in Hn; rewrite Forall_forall in Hn; apply (Hn (rel, "rst")); destruct nf; left).
    rewrite Eb, cv_NTree, decide_False by naive_solver. eapply cvs_body; [exact Hm|exact Hn|exact Ht|exact Eb| |exact HB].
    intros c Hmc Hnc Htc [-> | ->]; [by apply IHn|by apply IHs].
  - assert (name_ok rel) as [H1 H2] by (unfold names_ok in Hn; rewrite Forall_forall in Hn; apply (Hn (rel, "multinuc")); left).
    cbn [body]. rewrite cv_NTree, decide_False by naive_solver. eapply (cvs_body T (Multi rel l)); [exact Hm|exact Hn|exact Ht|reflexivity| |exact HB].
    intros c Hmc Hnc Htc Hc. rewrite Forall_forall in IH. by apply IH.
Qed.
Definition root_of (r : rst) : ntree := NTree "Root" (NTree "span" [num 1; num (n_edus r)] :: dkids 0 r).
Lemma convert_rst r : multi_ok r → names_ok r → texts_ok r → convert (rst_tree r) = Ok (root_of r).
Proof.
  intros Hm Hn Ht.
  assert (Eb : ∃ l ts, rst_tree r = NTree l ts) by (destruct r as [s|rel [] n s|rel l]; by eexists _, _). destruct Eb as (l & ts & Eb).
  assert (Hlen : length (leaf_positions (rst_tree r)) = n_edus r).
  { rewrite length_lpos. destruct r as [s|rel nf n s|rel k]; [done| |]; unfold rst_tree; by rewrite nleaves_body. }
  assert (G : cvs (NTree l ts) l ts [] 0 ts = Ok (dkids 0 r)); [|rewrite Eb in Hlen |- *; by rewrite convert_NTree, Hlen, G].
  rewrite <-Eb. destruct r as [s|rel nf n s|rel k].
  - injection Eb as <- <-. unfold cvs. rewrite (cv_body _ (Edu s) Hm Hn Ht _ _ [] 0 0); [done|].
    apply (lblock_child _ [] "N" [NLeaf s] 0 0 (NLeaf s)); [apply lblock_root|done].
  - eapply cvs_body; [exact Hm|exact Hn|exact Ht|exact Eb| |apply lblock_root]. intros c Hmc Hnc Htc _. by apply cv_body.
  - eapply cvs_body; [exact Hm|exact Hn|exact Ht|exact Eb| |apply lblock_root]. intros c Hmc Hnc Htc _. by apply cv_body.
Qed.
