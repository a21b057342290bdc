(** * DisThms: the results about .dis files *)
From Verif Require Import PyBase DocGraph Relabel SpecGraph StrNum Query Text SpecText Rst SpecRst Nltk Dis SpecDis SpanFacts RstLayout RstRead RstRound RstThms NltkFacts DisText DisEscape DisTree.

(** ** the written tree can be written *)
Lemma plain_simple s : s ≠ [] → Forall atomc s → "!"%char ∉ s → "B"%char ∉ s → plain s.
Proof.
  intros Hne HF H1 H2. split; [done| |].
  - intros Ho. apply H1. eapply occurs_elem; [exact Ho|]. rewrite mark_eq. right; left.
  - intros (x & y & [(_ & _ & Ho)|(_ & _ & Ho)]); apply H2; (eapply occurs_elem; [exact Ho|]); cbn; do 3 right; left.
Qed.
Ltac plain_const := apply plain_simple; [done|repeat (apply List.Forall_cons; [by split; [|split]|]); constructor|cbn; rewrite !not_elem_of_cons; repeat split; try done; apply not_elem_of_nil..].
Lemma plain_num n : plain (chs (str_Z (Z.of_nat n))).
Proof.
  assert (E : str_Z (Z.of_nat n) = str_N (N.of_nat n)) by (unfold str_Z; destruct n; [done|]; simpl; f_equal).
  rewrite E. pose proof (str_N_digits (N.of_nat n)) as HF. apply plain_simple; [apply str_N_nonempty| | |].
  - eapply Forall_impl; [exact HF|]. intros c Hc. split; [intros ->; done|]. split; [intros ->; done|].
    unfold is_space. apply bool_decide_eq_false. intros Hi. repeat (apply elem_of_cons in Hi as [->|Hi]; [done|]). by apply elem_of_nil in Hi.
  - intros Hi. rewrite Forall_forall in HF. by apply HF in Hi.
  - intros Hi. rewrite Forall_forall in HF. by apply HF in Hi.
Qed.
Lemma good_leaf s : plain (chs s) → good (NLeaf s).
Proof. apply G_leaf. Qed.
Lemma good_num n : good (num n).
Proof. apply G_leaf, plain_num. Qed.
Lemma good_span lo n : good (span_tree lo n).
Proof.
  assert (G2 : good (NTree "span" [num (S lo); num (lo + n)])).
  { apply G_node; [plain_const|done|]. repeat (apply List.Forall_cons; [apply good_num|]). constructor. }
  destruct n as [|[|n]]; [exact G2| |exact G2]. apply G_node; [plain_const|done|]. apply List.Forall_cons; [apply good_num|constructor].
Qed.
Lemma plain_name rel : dis_name rel → plain (chs rel).
Proof.
  intros [[Hw1 Hw2] [H1 H2] Hm He _]. split; [|done|done]. split; [done|]. rewrite Forall_forall in Hw2 |- *. intros c Hc.
  split; [by intros ->|]. split; [by intros ->|]. by apply Hw2.
Qed.
Lemma good_dnode lab rel lo n ks : lab = "Nucleus" ∨ lab = "Satellite" → plain (chs rel) → Forall good ks → good (dnode lab rel lo n ks).
Proof.
  intros Hl Hr HF. apply G_node; [destruct Hl as [-> | ->]; plain_const|done|]. apply List.Forall_cons; [apply good_span|].
  apply List.Forall_cons; [|done]. apply G_node; [plain_const|done|]. apply List.Forall_cons; [by apply G_leaf|constructor].
Qed.
Definition names_dis (r : rst) : Prop := Forall (λ p, dis_name p.1) (relations r).
Definition texts_dis (r : rst) : Prop := Forall dis_text (edus r).
Lemma dis_text_words s : dis_text s → ∃ ws, split_blanks (chs s) = ws ∧ ws ≠ [] ∧ Forall is_word ws ∧ chs s = join_words ws.
Proof. intros [(ws & Hne & HF & E) _ _ _]. exists ws. rewrite E, split_join by done. done. Qed.
Lemma good_text s : dis_text s → good (NTree "text" (words_tree (marked (split_blanks (chs s))))).
Proof.
  intros H. destruct (dis_text_words s H) as (ws & -> & Hne & HF & E). destruct H as [_ Hm He Hx]. rewrite E in *. by apply G_text.
Qed.
Lemma good_dkids r : names_dis r → texts_dis r → ∀ lo, Forall good (dkids lo r).
Proof.
  assert (Hspan : plain (chs "span")) by plain_const.
  induction r as [s|rel nf n s IHn IHs|rel l IH] using rst_ind'; intros Hn Ht lo; unfold names_dis, texts_dis in *.
  - cbn [edus] in Ht. apply Forall_cons in Ht as [Ht _]. cbn [dkids]. apply List.Forall_cons; [by apply good_text|constructor].
  - assert (Hrel : dis_name rel) by (rewrite Forall_forall in Hn; apply (Hn (rel, "rst")); destruct nf; left). apply plain_name in Hrel.
    destruct nf; simpl in Hn, Ht; apply Forall_cons in Hn as [_ Hn]; apply Forall_app in Hn as [? ?]; apply Forall_app in Ht as [? ?]; cbn [dkids];
      (apply List.Forall_cons; [apply good_dnode; auto|]); (apply List.Forall_cons; [apply good_dnode; auto|constructor]).
  - rewrite relations_Multi in Hn. rewrite edus_Multi in Ht. apply Forall_cons in Hn as [Hrel Hn]. apply plain_name in Hrel. rewrite dkids_Multi.
    revert lo Hn Ht. induction IH as [|c l IHc IH IHl]; intros lo Hn Ht; [constructor|]. rewrite fmap_cons in Hn. rewrite fmap_cons in Ht. cbn [concat] in Hn, Ht.
    apply Forall_app in Hn as [? ?]; apply Forall_app in Ht as [? ?]. cbn [dmulti]. constructor; [apply good_dnode; auto|by apply IHl].
Qed.
Lemma good_root r : names_dis r → texts_dis r → good (root_of r).
Proof.
  intros Hn Ht. apply G_node; [plain_const|done|]. apply List.Forall_cons; [|by apply good_dkids].
  apply G_node; [plain_const|done|]. repeat (apply List.Forall_cons; [apply good_num|]). constructor.
Qed.
(** ** reading the tree *)
Lemma leaves_words ws : leaves (NTree "text" (words_tree ws)) = str <$> ws.
Proof. unfold words_tree. cbn [leaves]. induction ws as [|w ws IH]; [done|]. rewrite !fmap_cons. by rewrite IH. Qed.
Lemma get_edu_text_marked s : dis_text s → get_edu_text (NTree "text" (words_tree (marked (split_blanks (chs s))))) = Ok s.
Proof.
  intros H. destruct (dis_text_words s H) as (ws & -> & Hne & HF & E). unfold get_edu_text. rewrite decide_True by done. rewrite leaves_words.
  rewrite <-list_fmap_compose. rewrite (list_fmap_ext (chs ∘ str) id) by (intros i x _; apply chs_str). rewrite list_fmap_id, marked_join by done.
  do 2 f_equal. unfold re_sub. replace (mark ++ join_words ws ++ mark) with (mark ++ join_words ws ++ mark ++ []) by by rewrite app_nil_r.
  destruct H as [_ Hm _ _]. rewrite E in Hm. rewrite region_scan; [cbn [scan]; rewrite app_nil_r, <-E; apply str_chs|done|].
  intros Hnl. exfalso. revert Hnl. apply join_words_nl. eapply Forall_impl; [exact HF|]. intros w. apply word_nl.
Qed.
Lemma is_leaf_span lo n ts : is_leaf_node (span_tree lo n :: ts) = Ok (bool_decide (n = 1)).
Proof. destruct n as [|[|n]]; done. Qed.
Lemma n_edus_Mono rel nf n s : n_edus (Mono rel nf n s) = n_edus n + n_edus s.
Proof. unfold n_edus. destruct nf; simpl; rewrite app_length; lia. Qed.
Lemma n_edus_Multi rel l : n_edus (Multi rel l) = sum_list (n_edus <$> l).
Proof. unfold n_edus at 1. rewrite edus_Multi. induction l as [|c l IH]; [done|]. rewrite !fmap_cons. cbn [concat]. rewrite app_length, IH. done. Qed.
Lemma n_edus_two r : multi_ok r → match r with Edu _ => True | _ => n_edus r ≠ 1 end.
Proof.
  intros Hm. destruct r as [s|rel nf n s|rel l]; [done| |].
  - destruct Hm as [Hn Hs]. apply n_edus_pos in Hn, Hs. rewrite n_edus_Mono. lia.
  - apply multi_ok_Multi in Hm as [Hl Hm]. rewrite n_edus_Multi. destruct l as [|a [|b l]]; simpl in Hl; [lia..|].
    apply Forall_cons in Hm as [Ha Hm]. apply Forall_cons in Hm as [Hb _]. apply n_edus_pos in Ha, Hb. rewrite !fmap_cons.
    change (sum_list (?x :: ?y :: ?k)) with (x + (y + sum_list k)). lia.
Qed.
(** the part of dis2tree that deals with the children *)
Definition rel_body (children : list (ntree * res ntree)) : res ntree :=
  let! types := rmap (λ p : ntree * res ntree, get_tree_type p.1) children in
  let of_type := λ x, filter (λ p : string * (ntree * res ntree), p.1 = x) (zip types children) in
  let nucs := of_type "Nucleus" in
  let sats := of_type "Satellite" in
  match of_type "Root", sats, nucs with
  | [], [], (_, (c, _)) :: _ :: _ =>
    let! subs := rmap (λ p : string * (ntree * res ntree), p.2.2) nucs in
    let! rel := get_relation_type c in Ok (NTree rel subs)
  | [], [(_, (sat, rs))], [(_, (_, rn))] =>
    let! n := rn in let! s := rs in
    let! rel := get_relation_type sat in
    Ok (NTree rel (if decide (types = ["Nucleus"; "Satellite"]) then [n; s] else [s; n]))
  | _, _, _ => Err AssertionError
  end.
Lemma rbind_assoc {A B D} (x : res A) (f : A → res B) (g : B → res D) : rbind (rbind x f) g = rbind x (λ a, rbind (f a) g).
Proof. by destruct x. Qed.
Lemma dis2tree_span w l ts : l ∈ tree_types → is_leaf_node ts = Ok false → dis2tree w (NTree l ts) =
  rbind (rel_body (drop (if decide (l = "Root") then 1 else 2) ((λ u, (u, dis2tree true u)) <$> ts)))
    (λ b, Ok (if w then NTree (nuc_label l) [b] else b)).
Proof.
  intros Hl Hs. cbn [dis2tree]. rewrite decide_True by done. rewrite Hs. cbn [rbind]. unfold rel_body. rewrite rbind_assoc. done.
Qed.
Definition conv (u : ntree) : ntree * res ntree := (u, dis2tree true u).
Lemma rel_body_dkids r : multi_ok r → match r with Edu _ => False | _ => True end →
  (∀ c, match r with Edu _ => False | Mono _ _ n s => c = n ∨ c = s | Multi _ l => c ∈ l end → ∀ lab rel lo, lab = "Nucleus" ∨ lab = "Satellite" →
     dis2tree true (dnode lab rel lo (n_edus c) (dkids lo c)) = Ok (NTree (nuc_label lab) [body c])) →
  ∀ lo, rel_body (conv <$> dkids lo r) = Ok (body r).
Proof.
  intros Hm Hr IH lo. destruct r as [s|rel nf n s|rel l]; [done| |].
  - assert (IHn := IH n ltac:(by left)). assert (IHs := IH s ltac:(by right)).
    destruct nf; cbn [dkids]; rewrite !fmap_cons; unfold conv; rewrite IHn by auto; rewrite IHs by auto; reflexivity.
  - apply multi_ok_Multi in Hm as [Hlen Hm]. rewrite dkids_Multi.
    assert (E1 : rmap (λ p : ntree * res ntree, get_tree_type p.1) (conv <$> dmulti rel lo l) = Ok (replicate (length l) "Nucleus")).
    { clear. revert lo. induction l as [|c l IH]; intros lo; [done|]. cbn [dmulti]. rewrite fmap_cons. cbn [rmap]. rewrite IH. reflexivity. }
    unfold rel_body. rewrite E1. cbn [rbind].
    assert (E2 : ∀ lo (l : list rst) x, filter (λ p : string * (ntree * res ntree), p.1 = x) (zip (replicate (length l) "Nucleus") (conv <$> dmulti rel lo l)) =
       if decide (x = "Nucleus") then zip (replicate (length l) "Nucleus") (conv <$> dmulti rel lo l) else []).
    { clear. intros lo l. revert lo. induction l as [|c l IH]; intros lo x; [by destruct (decide (x = "Nucleus"))|].
      cbn [dmulti length replicate]. rewrite fmap_cons. cbn [zip zip_with]. rewrite filter_cons, IH. destruct (decide (x = "Nucleus")) as [->|Hx].
      - by rewrite decide_True.
      - rewrite decide_False by (simpl; congruence). done. }
    rewrite !E2. rewrite !decide_False by done. rewrite decide_True by done.
    assert (E3 : ∀ lo, rmap (λ p : string * (ntree * res ntree), p.2.2) (zip (replicate (length l) "Nucleus") (conv <$> dmulti rel lo l)) = Ok (map (λ c, NTree "N" [body c]) l)).
    { clear -IH. induction l as [|c l IHl]; intros lo; [done|]. cbn [dmulti length replicate]. rewrite fmap_cons. cbn [zip zip_with rmap].
      unfold conv at 1. cbn [snd]. rewrite (IH c ltac:(left)) by by left. cbn [rbind]. rewrite IHl; [done|]. intros d Hd. apply IH. by right. }
    specialize (E3 lo). destruct l as [|a [|b l]]; simpl in Hlen; [lia..|]. cbn [dmulti length replicate] in *. rewrite !fmap_cons in *. cbn [zip zip_with] in *.
    rewrite E3. reflexivity.
Qed.
Lemma dis2tree_dnode r : multi_ok r → texts_dis r → ∀ lab rel lo, lab = "Nucleus" ∨ lab = "Satellite" →
  dis2tree true (dnode lab rel lo (n_edus r) (dkids lo r)) = Ok (NTree (nuc_label lab) [body r]).
Proof.
  assert (Hlab : ∀ lab, lab = "Nucleus" ∨ lab = "Satellite" → lab ∈ tree_types ∧ lab ≠ "Root").
  { intros lab [-> | ->]; (split; [|done]); [right; left|right; right; left]. }
  induction r as [s|rel nf n s IHn IHs|rel l IH] using rst_ind'; intros Hm Ht lab rl lo Hl; destruct (Hlab lab Hl) as [Hin Hnr].
  - unfold texts_dis in Ht. cbn [edus] in Ht. apply Forall_cons in Ht as [Ht _]. change (n_edus (Edu s)) with 1. unfold dnode.
    cbn [dis2tree]. rewrite decide_True by done. rewrite is_leaf_span. rewrite bool_decide_true by done. cbn [rbind dkids].
    rewrite get_edu_text_marked by done. done.
  - pose proof (n_edus_two _ Hm) as H2. simpl in H2. unfold dnode. rewrite dis2tree_span; [|done|rewrite is_leaf_span; f_equal; by apply bool_decide_false].
    rewrite decide_False by done. rewrite !fmap_cons. cbn [drop]. change (λ u, (u, dis2tree true u)) with conv. rewrite drop_0.
    rewrite rel_body_dkids; [done|done|done|]. destruct Hm as [Hmn Hms].
    assert (texts_dis n ∧ texts_dis s) as [Htn Hts]. { unfold texts_dis in *. destruct nf; simpl in Ht; apply Forall_app in Ht as [? ?]; done. }
    intros c [-> | ->] lab' rel' lo' Hl'; [by apply IHn|by apply IHs].
  - pose proof (n_edus_two _ Hm) as H2. simpl in H2. unfold dnode. rewrite dis2tree_span; [|done|rewrite is_leaf_span; f_equal; by apply bool_decide_false].
    rewrite decide_False by done. rewrite !fmap_cons. cbn [drop]. change (λ u, (u, dis2tree true u)) with conv. rewrite drop_0.
    rewrite rel_body_dkids; [done|done|done|]. apply multi_ok_Multi in Hm as [Hlen Hm]. unfold texts_dis in Ht. rewrite edus_Multi in Ht.
    intros c Hc lab' rel' lo' Hl'. rewrite Forall_forall in IH. apply IH; [done|rewrite Forall_forall in Hm; by apply Hm| |done].
    unfold texts_dis. rewrite Forall_forall in Ht |- *. intros p Hp. apply Ht. apply elem_concat. exists (edus c). split; [done|]. by apply elem_of_list_fmap_1.
Qed.
Lemma dis2tree_root r : multi_ok r → texts_dis r → match r with Edu _ => False | _ => True end → dis2tree false (root_of r) = Ok (body r).
Proof.
  intros Hm Ht Hr. unfold root_of. rewrite dis2tree_span; [|left|done]. rewrite decide_True by done. rewrite !fmap_cons. cbn [drop]. change (λ u, (u, dis2tree true u)) with conv. rewrite drop_0.
  rewrite rel_body_dkids; [done|done|done|]. destruct r as [s|rel nf n s|rel l]; [done| |].
  - destruct Hm as [Hmn Hms]. assert (texts_dis n ∧ texts_dis s) as [Htn Hts]. { unfold texts_dis in *. destruct nf; simpl in Ht; apply Forall_app in Ht as [? ?]; done. }
    intros c [-> | ->] lab' rel' lo' Hl'; by apply dis2tree_dnode.
  - apply multi_ok_Multi in Hm as [Hlen Hm]. unfold texts_dis in Ht. rewrite edus_Multi in Ht.
    intros c Hc lab' rel' lo' Hl'. apply dis2tree_dnode; [rewrite Forall_forall in Hm; by apply Hm| |done].
    unfold texts_dis. rewrite Forall_forall in Ht |- *. intros p Hp. apply Ht. apply elem_concat. exists (edus c). split; [done|]. by apply elem_of_list_fmap_1.
Qed.
(** ** C36 *)
Lemma names_ok_dis r : names_dis r → names_ok r.
Proof. intros H. eapply Forall_impl; [exact H|]. intros p [_ _ _ _ Hp]. exact Hp. Qed.
Lemma texts_ok_normal r : Forall normal_text (edus r) → texts_ok r.
Proof. intros H. eapply Forall_impl; [exact H|]. intros s (ws & Hne & HF & E). rewrite E, split_join by done. done. Qed.
Lemma texts_ok_dis r : texts_dis r → texts_ok r.
Proof. intros H. apply texts_ok_normal. eapply Forall_impl; [exact H|]. intros s Hs. apply Hs. Qed.
Lemma dis_round_trip r : multi_ok r → names_dis r → texts_dis r → match r with Edu _ => False | _ => True end →
  ∃ s, write_dis (rst_tree r) = Ok s ∧ read_dis s = Ok (rst_tree r).
Proof.
  intros Hm Hn Ht Hr. unfold write_dis. rewrite convert_rst; [|done|by apply names_ok_dis|by apply texts_ok_dis]. cbn [rbind].
  eexists. split; [done|]. unfold read_dis. unfold root_of. rewrite dis_file_good by by apply good_root. cbn [rbind]. fold (root_of r).
  rewrite dis2tree_root by done. by destruct r.
Qed.
(** ** C35 *)
Lemma edu_unit units lo s : normal_text s → units !! lo = Some s → ∀ lab rel, lab = "Nucleus" ∨ lab = "Satellite" →
  dis_unit units (S lo) (dnode lab rel lo 1 (dkids lo (Edu s))).
Proof.
  intros (ws & Hne & HF & E) Hu lab rel Hl. unfold dnode. cbn [dkids span_tree]. rewrite E, split_join by done. unfold words_tree.
  change ((λ w, NLeaf (str w)) <$> marked ws) with (NLeaf ∘ str <$> marked ws). rewrite (list_fmap_compose str NLeaf (marked ws)). change (num ?n) with (number n). apply (DU units (S lo) s lab rel ws); [|lia|done|done|done|done| |].
  - by rewrite Nat.sub_succ, Nat.sub_0_r.
  - rewrite <-list_fmap_compose. rewrite (list_fmap_ext (chs ∘ str) id) by (intros i x _; apply chs_str). rewrite list_fmap_id. by apply marked_join.
  - by rewrite fmap_length, length_marked.
Qed.
Lemma span_number lo n : n ≠ 1 → span_tree lo n = NTree "span" [number (S lo); number (lo + n)].
Proof. intros H. destruct n as [|[|n]]; [done|done|done]. Qed.
Lemma dnode_spans units r : multi_ok r → Forall normal_text (edus r) → ∀ lo, (∀ i, i < n_edus r → units !! (lo + i) = edus r !! i) →
  ∀ lab rel, lab = "Nucleus" ∨ lab = "Satellite" → dis_node units (S lo) (lo + n_edus r) (dnode lab rel lo (n_edus r) (dkids lo r)).
Proof.
  induction r as [s|rel nf n s IHn IHs|rel l IH] using rst_ind'; intros Hm Ht lo Hu lab rl Hl.
  - change (n_edus (Edu s)) with 1 in *. rewrite Nat.add_1_r. apply DN_leaf, edu_unit; [by apply Forall_cons in Ht as [? _]| |done].
    specialize (Hu 0 ltac:(lia)). by rewrite Nat.add_0_r in Hu.
  - pose proof (n_edus_two _ Hm) as H2. simpl in H2. unfold dnode. rewrite span_number by done. rewrite n_edus_Mono in *. destruct Hm as [Hmn Hms].
    pose proof (n_edus_pos _ Hmn). pose proof (n_edus_pos _ Hms). apply DN_span; [lia|done|].
    destruct nf; cbn [dkids edus] in *; apply Forall_app in Ht as [Htn Hts].
    + apply (DN_more units (S lo) (lo + n_edus n)).
      * apply IHn; [done|done| |by left]. intros i Hi. rewrite Hu by lia. rewrite lookup_app_l by done. done.
      * apply DN_one. rewrite Nat.add_assoc. apply IHs; [done|done| |by right]. intros i Hi. rewrite <-Nat.add_assoc, Hu by lia.
        unfold n_edus at 1. rewrite lookup_app_r by (unfold n_edus in *; lia). f_equal. lia.
    + replace (lo + (n_edus n + n_edus s)) with (lo + n_edus s + n_edus n) by lia. apply (DN_more units (S lo) (lo + n_edus s)).
      * apply IHs; [done|done| |by right]. intros i Hi. rewrite Hu by lia. rewrite lookup_app_l by done. done.
      * apply DN_one. apply IHn; [done|done| |by left]. intros i Hi. rewrite <-Nat.add_assoc, Hu by lia.
        unfold n_edus at 1. rewrite lookup_app_r by (unfold n_edus in *; lia). f_equal. lia.
  - pose proof (n_edus_two _ Hm) as H2. simpl in H2. unfold dnode. rewrite span_number by done.
    pose proof (n_edus_pos _ Hm) as H3. apply multi_ok_Multi in Hm as [Hlen Hm].
    apply DN_span; [lia|done|]. rewrite dkids_Multi, n_edus_Multi in *. rewrite edus_Multi in Ht, Hu. clear H2 H3 Hl.
    assert (Hne : l ≠ []) by (intros ->; simpl in Hlen; lia). clear Hlen. revert lo Hu.
    induction l as [|c l IHl]; intros lo Hu; [done|]. rewrite !fmap_cons in *. cbn [concat] in *. apply Forall_app in Ht as [Htc Ht].
    apply Forall_cons in Hm as [Hmc Hm]. apply Forall_cons in IH as [IHc IH]. cbn [dmulti]. change (sum_list (?x :: ?k)) with (x + sum_list k) in *.
    assert (HN : dis_node units (S lo) (lo + n_edus c) (dnode "Nucleus" rel lo (n_edus c) (dkids lo c))).
    { apply IHc; [done|done| |by left]. intros i Hi. rewrite Hu by lia. by rewrite lookup_app_l. }
    destruct l as [|d l]; [cbn [dmulti fmap list_fmap]; change (sum_list []) with 0; rewrite Nat.add_0_r; by apply DN_one|].
    eapply DN_more; [exact HN|]. rewrite Nat.add_assoc. apply IHl; [done|done|done|done|].
    intros i Hi. rewrite <-Nat.add_assoc, Hu by lia. unfold n_edus at 1. rewrite lookup_app_r by (unfold n_edus in *; lia). f_equal. lia.
Qed.
Lemma convert_spans r : multi_ok r → names_ok r → Forall normal_text (edus r) → match r with Edu _ => False | _ => True end →
  ∃ ts, convert (rst_tree r) = Ok (NTree "Root" (NTree "span" [number 1; number (length (edus r))] :: ts)) ∧ dis_nodes (edus r) 1 (length (edus r)) ts.
Proof.
  intros Hm Hn Ht Hr. eexists. split; [rewrite convert_rst; [reflexivity|done|done|by apply texts_ok_normal]|].
  assert (H : dis_node (edus r) 1 (0 + n_edus r) (dnode "Nucleus" "" 0 (n_edus r) (dkids 0 r))).
  { apply dnode_spans; [done|done|done|by left]. }
  assert (H2 : n_edus r ≠ 1) by (pose proof (n_edus_two _ Hm); by destruct r).
  inversion H as [? ? Hu|? ? ? ? ? ? ? Hs]; subst; [congruence|done].
Qed.
(** ** the form of the written tree *)
Lemma dnode_node role rel lo n ks : 0 < n → dnode role rel lo n ks = node role rel (S lo) (lo + n) ks.
Proof.
  intros H. unfold dnode, node, units_span. destruct n as [|[|n]]; [lia| |].
  - rewrite decide_True by lia. done.
  - rewrite decide_False by lia. done.
Qed.
Lemma dkids_written r : multi_ok r → Forall normal_text (edus r) → ∀ lo, written r (S lo) (lo + n_edus r) (dkids lo r).
Proof.
  induction r as [s|rel nf n s IHn IHs|rel l IH] using rst_ind'; intros Hm Ht lo.
  - change (n_edus (Edu s)) with 1 in *. rewrite Nat.add_1_r. cbn [edus] in Ht. apply Forall_cons in Ht as [(ws & Hne & HF & E) _].
    cbn [dkids]. rewrite E, split_join by done. unfold words_tree.
    change ((λ w, NLeaf (str w)) <$> marked ws) with (NLeaf ∘ str <$> marked ws). rewrite (list_fmap_compose str NLeaf (marked ws)).
    apply (W_unit (S lo) s ws); [done|done|done| |].
    + rewrite <-list_fmap_compose. rewrite (list_fmap_ext (chs ∘ str) id) by (intros i x _; apply chs_str). rewrite list_fmap_id. by apply marked_join.
    + by rewrite fmap_length, length_marked.
  - destruct Hm as [Hmn Hms]. pose proof (n_edus_pos _ Hmn). pose proof (n_edus_pos _ Hms). rewrite n_edus_Mono.
    destruct nf; cbn [dkids edus] in *; apply Forall_app in Ht as [Htn Hts]; rewrite !dnode_node by done.
    + rewrite Nat.add_assoc. apply W_nuc_sat; auto.
    + rewrite (Nat.add_comm (n_edus n)), Nat.add_assoc. apply W_sat_nuc; auto.
  - apply multi_ok_Multi in Hm as [Hlen Hm]. rewrite dkids_Multi, n_edus_Multi, edus_Multi in *. apply W_multi.
    assert (Hne : l ≠ []) by (intros ->; simpl in Hlen; lia). clear Hlen. revert lo.
    induction l as [|c l IHl]; intros lo; [done|]. rewrite !fmap_cons in *. cbn [concat] in *. apply Forall_app in Ht as [Htc Ht].
    apply Forall_cons in Hm as [Hmc Hm]. apply Forall_cons in IH as [IHc IH]. cbn [dmulti]. change (sum_list (?x :: ?k)) with (x + sum_list k).
    pose proof (n_edus_pos _ Hmc). rewrite dnode_node by done. rewrite Nat.add_assoc.
    destruct l as [|d l]; [cbn [dmulti fmap list_fmap]; change (sum_list []) with 0; rewrite Nat.add_0_r; apply WA_one; auto|].
    apply WA_more; [by apply IHc|]. by apply IHl.
Qed.
Lemma convert_written r : multi_ok r → names_ok r → Forall normal_text (edus r) → match r with Edu _ => False | _ => True end →
  ∃ ts, convert (rst_tree r) = Ok (NTree "Root" (NTree "span" [number 1; number (length (edus r))] :: ts)) ∧ written r 1 (length (edus r)) ts.
Proof.
  intros Hm Hn Ht Hr. eexists. split; [rewrite convert_rst; [reflexivity|done|done|by apply texts_ok_normal]|]. by apply (dkids_written r Hm Ht 0).
Qed.
