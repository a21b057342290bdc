(** * LatexAccept: which trees the writer accepts *)
From Verif Require Import PyBase DocGraph Relabel StrNum Query Text Rst Nltk Parsers Latex SpecLatex TextFacts SpanFacts LatexFacts LatexTree LatexRead.

Definition ok {A} (r : res A) : Prop := ∃ x, r = Ok x.
Lemma ok_bind {A B} (r : res A) (f : A → res B) : ok (let! x := r in f x) ↔ ∃ x, r = Ok x ∧ ok (f x).
Proof. destruct r as [x|e]; cbn [rbind]; [split; [by exists x|by intros (? & [= ->] & ?)]|split; [by intros [? ?]|by intros (? & ? & _)]]. Qed.
Lemma ok_rmap {A B} (f : A → res B) l : ok (rmap f l) ↔ Forall (λ x, ok (f x)) l.
Proof.
  induction l as [|x l IH]; [split; [intros _; apply List.Forall_nil|by exists []]|]. cbn [rmap]. rewrite ok_bind, Forall_cons, <-IH. split.
  - intros (y & E & H). split; [by exists y|]. apply ok_bind in H as (ys & E' & _). by exists ys.
  - intros [[y E] [ys E']]. exists y. split; [done|]. rewrite E'. by eexists.
Qed.
Lemma ok_Ok {A} (x : A) : ok (Ok x).
Proof. by exists x. Qed.
Lemma not_ok_Err {A} e : ¬ ok (A := A) (Err e).
Proof. by intros [? ?]. Qed.
Lemma all_kids_Forall {A} (P : A → Prop) l : all_kids P l ↔ Forall P l.
Proof. apply go_Forall. Qed.
Lemma types_labels ts types : rmap type_of ts = Ok types → types = omap tree_label ts ∧ length types = length ts.
Proof.
  revert types. induction ts as [|c ts IH]; intros types E; [injection E as <-; done|]. cbn [rmap] in E. destruct c as [s|k us]; [done|]. cbn [type_of] in E.
  destruct (decide (is_ns k)); [|done]. cbn [rbind] in E. destruct (rmap type_of ts) as [ys|]; [|done]. injection E as <-. destruct (IH ys eq_refl) as [-> E].
  split; [done|]. cbn [length]. by rewrite E.
Qed.
Lemma ok_types ts : ok (rmap type_of ts) ↔ Forall (λ c, ∃ k us, c = NTree k us ∧ is_ns k) ts.
Proof.
  rewrite ok_rmap. apply Forall_proper; [|done]. intros [s|k us]; cbn [type_of].
  - split; [intros H; by apply not_ok_Err in H|by intros (? & ? & ? & _)].
  - destruct (decide (is_ns k)); [split; [intros _; by exists k, us|intros _; apply ok_Ok]|]. split; [intros H; by apply not_ok_Err in H|by intros (? & ? & [= -> ->] & ?)].
Qed.
Lemma Forall_concat {A} (P : A → Prop) ls : Forall P (concat ls) ↔ Forall (Forall P) ls.
Proof. induction ls as [|l ls IH]; [split; intros _; apply List.Forall_nil|]. cbn [concat]. by rewrite Forall_app, IH, Forall_cons. Qed.
Lemma ok_ids {A} (l : list (res A)) : ok (rmap (λ r, r) l) ↔ Forall ok l.
Proof. apply ok_rmap. Qed.
Lemma grandkids_concat ts : grandkids ts = concat (map tree_kids ts).
Proof. induction ts as [|c ts IH]; [done|]. unfold grandkids in *. cbn [mbind list_bind map concat]. f_equal. exact IH. Qed.
Lemma rmap_len {A B} (f : A → res B) l r : rmap f l = Ok r → length r = length l.
Proof. revert r. induction l as [|x l IH]; intros r E; [by injection E as <-|]. cbn [rmap] in E. destruct (f x); [|done]. cbn [rbind] in E. destruct (rmap f l) as [ys|]; [|done]. injection E as <-. cbn. by rewrite (IH ys eq_refl). Qed.
Lemma subs_length lvl ts : length (concat (map (subs_of lvl) ts)) = length (grandkids ts).
Proof.
  rewrite grandkids_concat. induction ts as [|c ts IH]; [done|].
  change (length (subs_of lvl c ++ concat (map (subs_of lvl) ts)) = length (tree_kids c ++ concat (map tree_kids ts))). rewrite !app_length, IH.
  f_equal. destruct c as [|k us]; [done|]. apply map_length.
Qed.
Lemma inner_length ts : length (concat (map inner_of ts)) = length (grandkids ts).
Proof.
  rewrite grandkids_concat. induction ts as [|c ts IH]; [done|].
  change (length (inner_of c ++ concat (map inner_of ts)) = length (tree_kids c ++ concat (map tree_kids ts))). rewrite !app_length, IH.
  f_equal. destruct c as [|k us]; [done|]. apply map_length.
Qed.
Lemma index_N_some l : is_Some (index_N l) ↔ "N" ∈ l.
Proof.
  induction l as [|x l IH]; [split; [by intros [? ?]|intros H; by apply elem_of_nil in H]|]. cbn [index_N]. rewrite elem_of_cons. destruct (decide (x = "N")) as [->|Hx].
  - split; [by left|intros _; by eexists].
  - rewrite fmap_is_Some, IH. split; [by right|]. intros [?|?]; [by subst|done].
Qed.
Lemma ok_nlabel t : ok (nlabel t) ↔ is_Some (tree_label t).
Proof. destruct t; cbn; [split; [intros H; by apply not_ok_Err in H|by intros [? ?]]|split; intros _; [by eexists|apply ok_Ok]]. Qed.
Lemma nlabel_labels l r : rmap nlabel l = Ok r → r = omap tree_label l.
Proof.
  revert r. induction l as [|t l IH]; intros r E; [by injection E as <-|]. cbn [rmap] in E. destruct t as [|k us]; [done|]. cbn [nlabel rbind] in E. destruct (rmap nlabel l) as [ys|]; [|done].
  injection E as <-. rewrite (IH ys eq_refl). done.
Qed.
Lemma ok_make_multisat (names : list string) nuctypes elements n : length names = n → length nuctypes = n → length elements = n →
  ok (make_multisat (zip (zip names nuctypes) elements)) ↔ 2 <= n ∧ "N" ∈ default [] (head nuctypes).
Proof.
  intros E1 E2 E3. unfold make_multisat. assert (El : length (zip (zip names nuctypes) elements) = n) by (rewrite !zip_with_length; lia). rewrite El. destruct (decide (1 < n)) as [Hn|Hn].
  2:{ split; [intros H; by apply not_ok_Err in H|]. intros [? _]. lia. }
  destruct names as [|a names], nuctypes as [|b nuctypes], elements as [|c elements]; cbn in E1, E2, E3; try lia. cbn [zip zip_with]. rewrite ok_bind. cbn [head from_option]. unfold id.
  rewrite <-index_N_some. split.
  - intros (x & E & _). split; [lia|]. destruct (index_N b) as [i|]; [exists i; reflexivity|done].
  - intros (_ & x & E). exists x. rewrite E. split; [done|apply ok_Ok].
Qed.
(** sizes *)
Fixpoint nsize (t : ntree) : nat := match t with NLeaf _ => 1 | NTree _ ts => S (sum_list (map nsize ts)) end.
Lemma nsize_kid l ts c : c ∈ ts → nsize c < nsize (NTree l ts).
Proof.
  intros H. cbn [nsize]. enough (nsize c <= sum_list (map nsize ts)) by lia. induction ts as [|d ts IH]; [by apply elem_of_nil in H|]. change (sum_list (map nsize (d :: ts))) with (nsize d + sum_list (map nsize ts)).
  apply elem_of_cons in H as [->|H]; [lia|]. specialize (IH H). lia.
Qed.
Definition parts_accepted (t : ntree) : Prop := match t with NTree _ (x :: _) => accepted x | _ => True end.
Lemma accepted_eq l ts : ¬ is_ns l → accepted (NTree l ts) ↔
  Forall (λ c, ∃ k us, c = NTree k us ∧ is_ns k ∧ Forall accepted us) ts ∧ relation_shape l ts ∧
  (l = "MONONUC-MULTISAT" → "S" ∈ omap tree_label ts → Forall (λ u, Forall parts_accepted (tree_kids u)) (grandkids ts)).
Proof.
  intros H. cbn [accepted]. rewrite decide_False by exact H. rewrite !all_kids_Forall.
  assert (E1 : Forall (λ c, match c with NLeaf _ => False | NTree k us => (k = "N" ∨ k = "S") ∧ all_kids accepted us end) ts ↔ Forall (λ c, ∃ k us, c = NTree k us ∧ is_ns k ∧ Forall accepted us) ts).
  { apply Forall_proper; [|done]. intros [s|k us]; [split; [done|by intros (? & ? & ? & _)]|]. rewrite all_kids_Forall. split; [intros [? ?]; by exists k, us|by intros (? & ? & [= -> ->] & ? & ?)]. }
  assert (E2 : Forall (λ c, match c with NLeaf _ => True | NTree _ us => all_kids (λ u, match u with NLeaf _ => True | NTree _ es =>
         all_kids (λ e, match e with NTree _ (x :: _) => accepted x | _ => True end) es end) us end) ts ↔ Forall (λ u, Forall parts_accepted (tree_kids u)) (grandkids ts)).
  { rewrite grandkids_concat, Forall_concat. rewrite Forall_map. apply Forall_proper; [|done]. intros [s|k us]; cbn [tree_kids]; [split; intros _; [apply List.Forall_nil|done]|].
    rewrite all_kids_Forall. apply Forall_proper; [|done]. intros [s|k' es]; cbn [tree_kids]; [split; intros _; [apply List.Forall_nil|done]|]. rewrite all_kids_Forall. done. }
  rewrite E1, E2. done.
Qed.
Lemma accepts_iff t lvl : ok (rsttree2rstlatex t lvl) ↔ accepted t.
Proof.
  remember (nsize t) as n eqn:En. revert t lvl En. induction (lt_wf n) as [n _ IH]. intros t lvl ->. destruct t as [s|l ts]; [split; [done|intros _; apply ok_Ok]|].
  destruct (decide (is_ns l)) as [Hl|Hl].
  { cbn [rsttree2rstlatex accepted]. rewrite decide_True by done. rewrite decide_True by exact Hl. destruct ts; [split; [intros H; by apply not_ok_Err in H|done]|split; [done|intros _; apply ok_Ok]]. }
  rewrite accepted_eq by done. rewrite latex_eq by done. rewrite ok_bind.
  assert (Hsub : ∀ lvl, Forall ok (concat (map (subs_of lvl) ts)) ↔ Forall (λ c, Forall accepted (tree_kids c)) ts).
  { intros lvl'. rewrite Forall_concat, Forall_map. rewrite !Forall_forall. apply forall_proper. intros c. split.
    - intros K Hc. specialize (K Hc). destruct c as [s|k us]; [apply List.Forall_nil|]. cbn [subs_of tree_kids] in *. rewrite Forall_map in K. rewrite Forall_forall in K |- *.
      intros u Hu. apply (IH (nsize u)) with (lvl := S lvl'); [|done|by apply K]. pose proof (nsize_kid l ts _ Hc). pose proof (nsize_kid k us u Hu). lia.
    - intros K Hc. specialize (K Hc). destruct c as [s|k us]; [apply List.Forall_nil|]. cbn [subs_of tree_kids] in *. rewrite Forall_map. rewrite Forall_forall in K |- *.
      intros u Hu. apply (IH (nsize u)); [|done|by apply K]. pose proof (nsize_kid l ts _ Hc). pose proof (nsize_kid k us u Hu). lia. }
  assert (Hinner : Forall (λ es, Forall ok es) (concat (map inner_of ts)) ↔
    Forall (λ u, Forall (λ e, is_Some (tree_label e) ∧ tree_kids e ≠ [] ∧ parts_accepted e) (tree_kids u)) (grandkids ts)).
  { rewrite grandkids_concat, !Forall_concat, !Forall_map. rewrite !Forall_forall. apply forall_proper. intros c.
    enough (Hc : c ∈ ts → Forall (Forall ok) (inner_of c) ↔ Forall (λ u, Forall (λ e, is_Some (tree_label e) ∧ tree_kids e ≠ [] ∧ parts_accepted e) (tree_kids u)) (tree_kids c)) by (split; intros K Hin; apply (Hc Hin); auto).
    intros Hc. destruct c as [s|k us]; [split; intros _; apply List.Forall_nil|]. cbn [inner_of tree_kids]. rewrite Forall_map, !Forall_forall. apply forall_proper. intros u.
    enough (Hu : u ∈ us → Forall ok (parts_of_rel u) ↔ Forall (λ e, is_Some (tree_label e) ∧ tree_kids e ≠ [] ∧ parts_accepted e) (tree_kids u)) by (split; intros K Hin; apply (Hu Hin); auto).
    intros Hu. destruct u as [s|k' es]; [split; intros _; apply List.Forall_nil|]. cbn [parts_of_rel tree_kids]. rewrite Forall_map, !Forall_forall. apply forall_proper. intros e.
    enough (He : e ∈ es → ok (part_of_rel e) ↔ is_Some (tree_label e) ∧ tree_kids e ≠ [] ∧ parts_accepted e) by (split; intros K Hin; apply (He Hin); auto).
    intros He. destruct e as [s|k'' [|x xs]]; cbn [part_of_rel tree_kids tree_label parts_accepted].
    - split; [intros K; by apply not_ok_Err in K|]. by intros ([? ?] & _).
    - split; [intros K; by apply not_ok_Err in K|]. by intros (_ & ? & _).
    - rewrite (IH (nsize x) ltac:(pose proof (nsize_kid l ts _ Hc); pose proof (nsize_kid k us _ Hu); pose proof (nsize_kid k' es _ He); pose proof (nsize_kid k'' (x :: xs) x ltac:(left)); lia) x 0 eq_refl).
      split; [intros ?; split; [by eexists|done]|by intros (_ & _ & ?)]. }
  assert (Hout : ∀ types strings, rmap type_of ts = Ok types → rmap (λ r, r) (concat (map (subs_of lvl) ts)) = Ok strings →
    (ok (relation_out l ts lvl types strings) ↔ relation_shape l ts ∧
      (l = "MONONUC-MULTISAT" → "S" ∈ omap tree_label ts → Forall (λ u, Forall parts_accepted (tree_kids u)) (grandkids ts)))).
  { intros types strings Et Es. pose proof (proj1 (ok_types ts) (ex_intro _ _ Et)) as Hns. destruct (types_labels ts types Et) as [El Elen]. apply rmap_len in Es. rewrite subs_length in Es.
    assert (Hall : Forall is_ns types).
    { rewrite El. apply Forall_forall. intros k Hk. apply elem_of_list_omap in Hk as (c & Hc & Ek). rewrite Forall_forall in Hns. destruct (Hns c Hc) as (k' & us & -> & H). injection Ek as <-. exact H. }
    unfold relation_out, relation_shape. rewrite <-El. destruct (decide (types ≠ [] ∧ Forall (λ k, k = "N") types)) as [HN|HN].
    { split; [|intros _; apply ok_Ok]. intros _. split; [by left|]. intros _ HS. destruct HN as [_ HN]. rewrite Forall_forall in HN. by specialize (HN _ HS). }
    assert (HS : types ≠ [] → "S" ∈ types).
    { intros Hne. destruct (decide ("S" ∈ types)) as [|HS]; [done|]. destruct HN. split; [done|]. rewrite Forall_forall in Hall |- *. intros k Hk. destruct (Hall k Hk) as [| ->]; [done|]. by destruct HS. }
    change multisat with "MONONUC-MULTISAT". destruct (decide (l = "MONONUC-MULTISAT")) as [Hm|Hm].
    - cbv zeta. rewrite <-grandkids_concat, !ok_bind. split.
      + intros (names & E1 & K). apply ok_bind in K as (nuctypes & E2 & K). apply ok_bind in K as (elements & E3 & K). apply ok_bind in K as (s & E4 & _).
        pose proof (rmap_len _ _ _ E1) as L1. pose proof (rmap_len _ _ _ E2) as L2. pose proof (rmap_len _ _ _ E3) as L3. rewrite inner_length in L3.
        destruct (proj1 (ok_make_multisat names nuctypes elements _ L1 L2 L3) (ex_intro _ _ E4)) as [Hlen HfN].
        assert (Hp : Forall (λ es, Forall ok es) (concat (map inner_of ts))) by (eapply Forall_impl; [exact (proj1 (ok_rmap _ _) (ex_intro _ _ E3))|]; intros es; apply ok_ids). rewrite Hinner in Hp.
        assert (Hlab : Forall (λ r, is_Some (tree_label r)) (grandkids ts)) by (eapply Forall_impl; [exact (proj1 (ok_rmap _ _) (ex_intro _ _ E1))|]; intros r; apply ok_nlabel).
        split.
        * right. left. split; [done|]. split; [apply HS; intros E; rewrite E in Elen; destruct ts; [cbn in Hlen; lia|done]|]. split; [exact Hlen|]. split.
          -- destruct (grandkids ts) as [|r rs]; [cbn in Hlen; lia|]. cbn [rmap] in E2. destruct r as [s'|k es]; [done|]. cbn [kid_labels] in E2. destruct (rmap nlabel es) as [ys|] eqn:Ey; [|done]. cbn [rbind] in E2.
             destruct (rmap kid_labels rs); [|done]. injection E2 as <-. cbn [head from_option] in HfN. unfold id in HfN. apply nlabel_labels in Ey. subst ys. exact HfN.
          -- rewrite Forall_forall in Hp, Hlab |- *. intros r Hr. split; [by apply Hlab|]. eapply Forall_impl; [exact (Hp r Hr)|]. intros e (? & ? & _). done.
        * intros _ _. eapply Forall_impl; [exact Hp|]. intros u Hu. eapply Forall_impl; [exact Hu|]. by intros e (_ & _ & ?).
      + intros [[HN'|[(_ & HSin & Hlen & HfN & Hsh)|(? & _)]] Hpa]; [by destruct HN|..|done]. specialize (Hpa Hm HSin).
        destruct (proj2 (ok_rmap nlabel (grandkids ts))) as [names E1]; [eapply Forall_impl; [exact Hsh|]; intros r [Hr _]; by apply ok_nlabel|].
        destruct (proj2 (ok_rmap kid_labels (grandkids ts))) as [nuctypes E2].
        { eapply Forall_impl; [exact Hsh|]. intros r [[k Hr] Hes]. destruct r as [|k' es]; [done|]. cbn [kid_labels]. apply ok_rmap. eapply Forall_impl; [exact Hes|]. intros e [He _]. by apply ok_nlabel. }
        assert (Hp : Forall (λ es, Forall ok es) (concat (map inner_of ts))).
        { apply Hinner. rewrite Forall_forall in Hsh, Hpa |- *. intros u Hu. destruct (Hsh u Hu) as [_ Hes]. specialize (Hpa u Hu). rewrite Forall_forall in Hes, Hpa |- *. intros e He. destruct (Hes e He). split; [done|]. split; [done|by apply Hpa]. }
        destruct (proj2 (ok_rmap (λ es, rmap (λ r : res chars, r) es) (concat (map inner_of ts)))) as [elements E3]; [eapply Forall_impl; [exact Hp|]; intros es; apply ok_ids|].
        exists names. split; [done|]. apply ok_bind. exists nuctypes. split; [done|]. apply ok_bind. exists elements. split; [done|]. apply ok_bind.
        pose proof (rmap_len _ _ _ E1) as L1. pose proof (rmap_len _ _ _ E2) as L2. pose proof (rmap_len _ _ _ E3) as L3. rewrite inner_length in L3.
        destruct (proj2 (ok_make_multisat names nuctypes elements _ L1 L2 L3)) as [s E4]; [|exists s; split; [done|apply ok_Ok]]. split; [exact Hlen|].
        destruct (grandkids ts) as [|r rs]; [cbn in Hlen; lia|]. cbn [rmap] in E2. destruct r as [s'|k es]; [done|]. cbn [kid_labels] in E2. destruct (rmap nlabel es) as [ys|] eqn:Ey; [|done]. cbn [rbind] in E2.
        destruct (rmap kid_labels rs); [|done]. injection E2 as <-. cbn [head from_option]. unfold id. apply nlabel_labels in Ey. subst ys. exact HfN.
    - destruct (decide (length types = 2)) as [H2|H2].
      + rewrite ok_bind. unfold make_nucsat. split.
        * intros (s & E & _). destruct (decide _) as [[D1 D2]|]; [|done]. destruct (decide _) as [(D3 & D4 & _)|]; [|done]. split; [|done]. right. right. split; [done|]. split; [lia|]. split; [done|]. split; [done|]. lia.
        * intros [[HN'|[(? & _)|(_ & T1 & T2 & T3 & T4)]] _]; [by destruct HN|done|]. rewrite decide_True by lia. rewrite decide_True by (split; [done|]; split; [done|]; exact Hall).
          eexists. split; [reflexivity|apply ok_Ok].
      + split; [intros K; by apply not_ok_Err in K|]. intros [[HN'|[(? & _)|(_ & T1 & _)]] _]; [by destruct HN|done|]. lia. }
  split.
  - intros (types & Et & K). apply ok_bind in K as (strings & Es & K). pose proof (proj1 (ok_types ts) (ex_intro _ _ Et)) as Hns.
    pose proof (proj1 (Hsub lvl) (proj1 (ok_ids _) (ex_intro _ _ Es))) as Hk. split; [|by apply (Hout types strings Et Es)].
    rewrite Forall_forall in Hns, Hk |- *. intros c Hc. destruct (Hns c Hc) as (k & us & -> & Hns'). exists k, us. split; [done|]. split; [done|]. exact (Hk _ Hc).
  - intros (Hc & HR). destruct (proj2 (ok_types ts)) as [types Et]; [eapply Forall_impl; [exact Hc|]; intros c (k & us & -> & ? & _); by exists k, us|].
    destruct (proj2 (ok_ids (concat (map (subs_of lvl) ts)))) as [strings Es]; [apply Hsub; eapply Forall_impl; [exact Hc|]; by intros c (k & us & -> & _ & ?)|].
    exists types. split; [done|]. apply ok_bind. exists strings. split; [done|]. apply (Hout types strings Et Es). exact HR.
Qed.
