(** * DisgraphRst: the file of a rhetorical structure tree, read as a graph *)
From Verif Require Import PyBase DocGraph Relabel SpecGraph StrNum Query Text SpecText Rst SpecRst Nltk Dis SpecDis SpanFacts RstLayout RstRead RstRound RstThms NltkFacts DisText DisEscape DisTree DisThms.
From Verif Require SelectFacts.
From Verif Require Import SpecDisgraph DisgraphFacts.

Definition rpart (sat : bool) (rel : string) (lo : nat) (c : rst) : disunit :=
  match c with Edu s => Unit sat rel (unit_number (S lo)) s | _ => Span sat rel (unit_number (S lo)) (unit_number (lo + n_edus c)) (rst_parts lo c) end.
Fixpoint rmulti (rel : string) (lo : nat) (l : list rst) : list disunit :=
  match l with [] => [] | c :: l => rpart false rel lo c :: rmulti rel (lo + n_edus c) l end.
Lemma parts_Mono_true lo rel n s : rst_parts lo (Mono rel true n s) = [rpart false "span" lo n; rpart true rel (lo + n_edus n) s].
Proof. reflexivity. Qed.
Lemma parts_Mono_false lo rel n s : rst_parts lo (Mono rel false n s) = [rpart true rel lo s; rpart false "span" (lo + n_edus s) n].
Proof. reflexivity. Qed.
Lemma parts_Multi lo rel l : rst_parts lo (Multi rel l) = rmulti rel lo l.
Proof. cbn [rst_parts]. revert lo. induction l as [|c l IH]; intros lo; [done|]. cbn [rmulti]. by rewrite <-IH. Qed.
Lemma rpart_sat sat rel lo c : is_sat (rpart sat rel lo c) = sat.
Proof. by destruct c. Qed.
(** ** The form of the file *)
Definition fits (c : rst) : Prop := ∀ sat rel lo, unit_form (rpart sat rel lo c) (dnode (role_name sat) rel lo (n_edus c) (dkids lo c)).
Lemma fits_parts r : multi_ok r → match r with Edu _ => False | _ => True end →
  (∀ c, match r with Edu _ => False | Mono _ _ n s => c = n ∨ c = s | Multi _ l => c ∈ l end → fits c) → ∀ lo, Forall2 unit_form (rst_parts lo r) (dkids lo r).
Proof.
  intros Hm Hr H lo. destruct r as [s|rel [] n s|rel l]; [done| | |].
  - rewrite parts_Mono_true. cbn [dkids]. constructor; [apply (H n (or_introl eq_refl) false)|]. constructor; [apply (H s (or_intror eq_refl) true)|constructor].
  - rewrite parts_Mono_false. cbn [dkids]. constructor; [apply (H s (or_intror eq_refl) true)|]. constructor; [apply (H n (or_introl eq_refl) false)|constructor].
  - rewrite parts_Multi, dkids_Multi. clear Hm Hr. revert lo H. induction l as [|c l IH]; intros lo H; [constructor|]. cbn [rmulti dmulti]. constructor; [apply (H c (elem_of_list_here _ _) false)|].
    apply IH. intros c' Hc'. apply H. by right.
Qed.
Lemma all_fit r : multi_ok r → texts_dis r → fits r.
Proof.
  induction r as [s|rel nf n s IHn IHs|rel l IH] using rst_ind'; intros Hm Ht sat rl lo.
  - unfold texts_dis in Ht. cbn [edus] in Ht. apply Forall_cons in Ht as [Ht _]. change (n_edus (Edu s)) with 1. cbn [rpart unit_form dkids]. unfold dnode. cbn [span_tree].
    eexists. split; [|reflexivity]. destruct (dis_text_words s Ht) as (ws & -> & Hne & HF & E). exists (str <$> marked ws). split; [|split; [|split]].
    + unfold words_tree. by rewrite <-list_fmap_compose.
    + rewrite <-list_fmap_compose. rewrite (list_fmap_ext (chs ∘ str) id) by (intros i x _; apply chs_str). rewrite list_fmap_id, marked_join by done. by rewrite E.
    + apply Ht.
    + rewrite E. apply join_words_nl. eapply Forall_impl; [exact HF|]. intros w. apply word_nl.
  - assert (Hn : n_edus (Mono rel nf n s) ≠ 1) by apply (n_edus_two _ Hm). cbn [rpart unit_form]. exists (dkids lo (Mono rel nf n s)). split.
    + apply one_by_one_iff, fits_parts; [done|done|]. unfold texts_dis in *. destruct Hm as [Hm1 Hm2]. intros c [->| ->].
      * apply IHn; [done|]. destruct nf; cbn [edus] in Ht; by apply Forall_app in Ht as [? ?].
      * apply IHs; [done|]. destruct nf; cbn [edus] in Ht; by apply Forall_app in Ht as [? ?].
    + unfold dnode. rewrite span_number by done. done.
  - assert (Hn : n_edus (Multi rel l) ≠ 1) by apply (n_edus_two _ Hm). cbn [rpart unit_form]. exists (dkids lo (Multi rel l)). split.
    + apply one_by_one_iff, fits_parts; [done|done|]. unfold texts_dis in *. rewrite edus_Multi in Ht. apply multi_ok_Multi in Hm as [_ Hm]. intros c Hc. rewrite Forall_forall in IH, Hm. apply IH; [done|by apply Hm|].
      rewrite Forall_forall in Ht |- *. intros x Hx. apply Ht, elem_of_list_In, in_concat. exists (edus c). split; apply elem_of_list_In; [|done]. by apply elem_of_list_fmap_1.
    + unfold dnode. rewrite span_number by done. done.
Qed.
Lemma rst_form r : multi_ok r → texts_dis r → match r with Edu _ => False | _ => True end → doc_form (rst_doc r) (root_of r).
Proof.
  intros Hm Ht Hr. exists (dkids 0 r). split; [|reflexivity]. apply one_by_one_iff. cbn [rst_doc dd_parts]. apply fits_parts; [done|done|]. unfold texts_dis in *. intros c Hc. destruct r as [s|rel nf n s|rel l]; [done| |].
  - destruct Hm as [Hm1 Hm2]. destruct Hc as [->| ->]; (apply all_fit; [done|]); unfold texts_dis; destruct nf; cbn [edus] in Ht; by apply Forall_app in Ht as [? ?].
  - apply multi_ok_Multi in Hm as [_ Hm]. rewrite Forall_forall in Hm. apply all_fit; [by apply Hm|]. unfold texts_dis. rewrite edus_Multi in Ht.
    rewrite Forall_forall in Ht |- *. intros x Hx. apply Ht, elem_of_list_In, in_concat. exists (edus c). split; apply elem_of_list_In; [|done]. by apply elem_of_list_fmap_1.
Qed.
Lemma rst_written r : multi_ok r → names_dis r → texts_dis r → match r with Edu _ => False | _ => True end →
  ∃ s, write_dis (rst_tree r) = Ok s ∧ dis_file s = Ok (root_of r).
Proof.
  intros Hm Hn Ht Hr. unfold write_dis. rewrite convert_rst; [|done|by apply names_ok_dis|by apply texts_ok_dis]. cbn [rbind].
  eexists. split; [done|]. unfold root_of. apply dis_file_good. by apply good_root.
Qed.
(** ** What is left *)
Definition units_text (us : list disunit) : list string := u ← us; match u with Unit _ _ _ s => [s] | _ => [] end.
Lemma units_text_app a b : units_text (a ++ b) = units_text a ++ units_text b.
Proof. unfold units_text. apply bind_app. Qed.
Lemma bind_cons {A B} (f : A → list B) a l : ((a :: l) ≫= f) = f a ++ (l ≫= f).
Proof. reflexivity. Qed.
Lemma rpart_parts sat rel lo c : parts_read (rpart sat rel lo c) = tail (rst_parts lo c).
Proof. by destruct c. Qed.
Lemma tail_rmulti rel lo l : tail (rmulti rel lo l) = match l with [] => [] | c :: l => rmulti rel (lo + n_edus c) l end.
Proof. by destruct l. Qed.
Lemma rpart_units sat rel lo c : units_text (read_inside (rpart sat rel lo c)) = kept c.
Proof.
  revert sat rel lo. induction c as [s|rel nf n s IHn IHs|rel l IH] using rst_ind'; intros sat rl lo; [done| |]; rewrite read_inside_parts, rpart_parts.
  - cbn [rpart]. destruct nf; [rewrite parts_Mono_true|rewrite parts_Mono_false]; cbn [tail mbind list_bind]; rewrite app_nil_r.
    + change (units_text (?a :: ?l)) with (units_text l). apply IHs.
    + change (units_text (?a :: ?l)) with (units_text l). apply IHn.
  - cbn [rpart]. rewrite parts_Multi, tail_rmulti. match goal with |- units_text (?a :: ?l) = _ => change (units_text (a :: l)) with (units_text l) end. cbn [kept].
    destruct l as [|c l]; [done|]. rewrite fmap_cons. cbn [tail]. apply Forall_cons in IH as [_ IH]. generalize (lo + n_edus c) as lo'. revert IH. induction l as [|x l IHl]; intros IH lo'; [done|].
    apply Forall_cons in IH as [Hx IH]. cbn [rmulti]. rewrite bind_cons, units_text_app, fmap_cons, Hx. cbn [concat]. f_equal. by apply IHl.
Qed.
Lemma doc_units r : match r with Edu _ => False | _ => True end → units_text (read_of (rst_doc r)) = kept_of r.
Proof.
  intros Hr. unfold read_of. cbn [rst_doc dd_parts]. destruct r as [s|rel [] n s|rel l]; [done| | |].
  - rewrite parts_Mono_true. cbn [mbind list_bind]. rewrite app_nil_r, units_text_app, !rpart_units. done.
  - rewrite parts_Mono_false. cbn [mbind list_bind]. rewrite app_nil_r, units_text_app, !rpart_units. done.
  - rewrite parts_Multi. cbn [kept_of]. generalize 0 as lo. induction l as [|c l IH]; intros lo; [done|]. cbn [rmulti]. rewrite bind_cons, units_text_app, fmap_cons, rpart_units. cbn [concat]. f_equal. by apply IH.
Qed.
Lemma words_units us : (us ≫= words_of) = units_text us ≫= text_words.
Proof.
  induction us as [|u us IH]; [done|]. unfold units_text in *. rewrite !bind_cons, bind_app, IH. f_equal. destruct u as [s r i x|s r a b k]; [|done]. cbn [mbind list_bind]. by rewrite app_nil_r.
Qed.
Lemma kept_words r : match r with Edu _ => False | _ => True end → doc_words (rst_doc r) = kept_of r ≫= text_words.
Proof. intros Hr. unfold doc_words. by rewrite words_units, doc_units. Qed.
Lemma length_tokens ns tokenize d : length (doc_tokens ns tokenize d) = if tokenize then length (doc_words d) else 0.
Proof.
  unfold doc_tokens, doc_words. induction (read_of d) as [|u us IH]; [by destruct tokenize|]. rewrite !bind_cons, !app_length, IH. destruct u as [s r i x|s r a b k]; cbn [unit_tokens].
  - destruct tokenize; [|done]. by rewrite imap_length.
  - unfold words_of, text_of. destruct tokenize; done.
Qed.
(** ** Which trees can be read *)
Lemma combination_nuclei s r a b us : Forall (λ v, is_sat v = false) (tail us) → combination_ok (Span s r a b us).
Proof.
  intros HF. left. cbn [parts_read]. cut (filter (λ v, is_sat v = true) (tail us) = []); [by intros ->|]. induction HF as [|v l Hv HF IH]; [done|]. rewrite filter_cons, decide_False by congruence. exact IH.
Qed.
Lemma rmulti_nuclei rel lo l : Forall (λ v, is_sat v = false) (rmulti rel lo l).
Proof. revert lo. induction l as [|c l IH]; intros lo; [constructor|]. cbn [rmulti]. constructor; [apply rpart_sat|apply IH]. Qed.
Lemma rpart_fine sat rel lo c : Forall combination_ok (read_inside (rpart sat rel lo c)) ↔ fine sat c.
Proof.
  revert sat rel lo. induction c as [s|rel nf n s IHn IHs|rel l IH] using rst_ind'; intros sat rl lo.
  - cbn. split; [done|]. intros _. apply List.Forall_cons; [by left|exact (List.Forall_nil _)].
  - rewrite read_inside_parts, rpart_parts, Forall_cons, Forall_bind. destruct nf; [rewrite parts_Mono_true|rewrite parts_Mono_false]; cbn [tail fine]; rewrite Forall_cons.
    + rewrite IHs. assert (HC : combination_ok (rpart sat rl lo (Mono rel true n s)) ↔ sat = false); [|rewrite HC; split; [tauto|intros [? ?]; split; [done|split; [done|exact (List.Forall_nil _)]]]].
      unfold combination_ok. rewrite rpart_sat. cbn [rpart parts_read]. rewrite parts_Mono_true. cbn [tail]. rewrite !filter_cons, !rpart_sat, decide_True, decide_False by done. rewrite !filter_nil. cbn [length].
      split; [intros [?|[_ [?|[_ ?]]]]; [done|done|done]|intros ->; right; split; [done|by right]].
    + rewrite IHn. split; [tauto|]. intros H. split; [|split; [done|exact (List.Forall_nil _)]]. cbn [rpart]. rewrite parts_Mono_false. apply combination_nuclei. cbn [tail]. apply List.Forall_cons; [apply rpart_sat|exact (List.Forall_nil _)].
  - rewrite read_inside_parts, rpart_parts, Forall_cons, Forall_bind, parts_Multi, tail_rmulti. cbn [rpart]. rewrite parts_Multi. cbn [fine].
    assert (HC : combination_ok (Span sat rl (unit_number (S lo)) (unit_number (lo + n_edus (Multi rel l))) (rmulti rel lo l))).
    { apply combination_nuclei. rewrite tail_rmulti. destruct l; [exact (List.Forall_nil _)|apply rmulti_nuclei]. }
    destruct l as [|c l]; [cbn; split; [done|intros _; split; [done|exact (List.Forall_nil _)]]|]. rewrite fmap_cons. cbn [tail]. apply Forall_cons in IH as [_ IH].
    cut (∀ lo, Forall (λ a, Forall combination_ok (read_inside a)) (rmulti rel lo l) ↔ foldr and True (fine false <$> l)). { intros ->. split; [intros [_ H]; exact H|intros H; split; [exact HC|exact H]]. }
    clear HC. induction IH as [|x l Hx IH IHl]; intros lo'; [cbn; split; [done|intros _; exact (List.Forall_nil _)]|]. cbn [rmulti]. rewrite Forall_cons, Hx, IHl. done.
Qed.
Lemma doc_fine r : match r with Edu _ => False | _ => True end → Forall combination_ok (read_of (rst_doc r)) ↔ fine_of r.
Proof.
  intros Hr. unfold read_of. cbn [rst_doc dd_parts]. rewrite Forall_bind. destruct r as [s|rel [] n s|rel l]; [done| | |]; cbn [fine_of].
  - rewrite parts_Mono_true, !Forall_cons, !rpart_fine. split; [tauto|]. intros [? ?]. repeat (split; [done|]). exact (List.Forall_nil _).
  - rewrite parts_Mono_false, !Forall_cons, !rpart_fine. split; [tauto|]. intros [? ?]. repeat (split; [done|]). exact (List.Forall_nil _).
  - rewrite parts_Multi. generalize 0 as lo. clear Hr. induction l as [|c l IH]; intros lo; [split; intros _; exact (List.Forall_nil _)|]. cbn [rmulti]. by rewrite !Forall_cons, rpart_fine, IH.
Qed.
(** ** The numbers of the units *)
Lemma unit_ids_app a b : unit_ids (a ++ b) = unit_ids a ++ unit_ids b.
Proof. unfold unit_ids. apply bind_app. Qed.
Lemma rmulti_ids rel l : Forall (λ c, ∀ sat rel lo, unit_ids (all_inside (rpart sat rel lo c)) = unit_number <$> seq (S lo) (n_edus c)) l →
  ∀ lo, unit_ids (rmulti rel lo l ≫= all_inside) = unit_number <$> seq (S lo) (sum_list (n_edus <$> l)).
Proof.
  induction 1 as [|c l Hc H IH]; intros lo; [done|]. cbn [rmulti]. rewrite bind_cons, unit_ids_app, Hc, IH, fmap_cons. change (sum_list (?x :: ?k)) with (x + sum_list k). rewrite seq_app, fmap_app. do 3 f_equal.
Qed.
Lemma parts_ids r : match r with Edu _ => False | _ => True end → (∀ c, match r with Edu _ => False | Mono _ _ n s => c = n ∨ c = s | Multi _ l => c ∈ l end → ∀ sat rel lo, unit_ids (all_inside (rpart sat rel lo c)) = unit_number <$> seq (S lo) (n_edus c)) →
  ∀ lo, unit_ids (rst_parts lo r ≫= all_inside) = unit_number <$> seq (S lo) (n_edus r).
Proof.
  intros Hr H lo. destruct r as [s|rel nf n s|rel l]; [done| |].
  - destruct nf; [rewrite parts_Mono_true|rewrite parts_Mono_false]; cbn [mbind list_bind]; rewrite app_nil_r, unit_ids_app, !H by tauto; rewrite <-fmap_app, n_edus_Mono.
    + by rewrite seq_app.
    + by rewrite (Nat.add_comm (n_edus n)), seq_app.
  - rewrite parts_Multi, rmulti_ids, n_edus_Multi; [done|]. apply Forall_forall. exact H.
Qed.
Lemma rpart_ids c : ∀ sat rel lo, unit_ids (all_inside (rpart sat rel lo c)) = unit_number <$> seq (S lo) (n_edus c).
Proof.
  assert (HS : ∀ sat rel a b us, unit_ids (all_inside (Span sat rel a b us)) = unit_ids (us ≫= all_inside)) by (intros; cbn [all_inside]; by rewrite concat_fmap).
  induction c as [s|rel nf n s IHn IHs|rel l IH] using rst_ind'; intros sat rl lo; [done| |]; cbn [rpart]; rewrite HS; (rewrite parts_ids; [done|done|]).
  - intros c [->| ->]; [exact IHn|exact IHs].
  - intros c Hc. rewrite Forall_forall in IH. by apply IH.
Qed.
Lemma bind_sublist {A B} (f g : A → list B) l : Forall (λ a, sublist (f a) (g a)) l → sublist (l ≫= f) (l ≫= g).
Proof. induction 1 as [|a l Ha H IH]; [constructor|]. rewrite !bind_cons. by apply sublist_app. Qed.
Lemma read_sublist u : sublist (read_inside u) (all_inside u).
Proof.
  induction u as [s r i x|s r a b us IH] using disunit_ind'; [done|]. rewrite read_inside_parts. cbn [parts_read all_inside]. rewrite concat_fmap. constructor. destruct us as [|u us]; [constructor|]. cbn [tail].
  rewrite bind_cons. apply sublist_inserts_l. apply bind_sublist. by apply Forall_cons in IH as [_ IH].
Qed.
Lemma ids_sublist (us vs : list disunit) : sublist us vs → sublist (unit_ids us) (unit_ids vs).
Proof.
  unfold unit_ids. induction 1 as [|x l k H IH|x l k H IH]; [constructor| |]; rewrite ?bind_cons.
  - by apply sublist_app.
  - by apply sublist_inserts_l.
Qed.
Lemma rst_ids r : match r with Edu _ => False | _ => True end → NoDup (unit_ids (read_of (rst_doc r))).
Proof.
  intros Hr. eapply SelectFacts.NoDup_sub; [apply ids_sublist; apply (bind_sublist read_inside all_inside); apply Forall_forall; intros u _; apply read_sublist|]. cbn [rst_doc dd_parts].
  rewrite parts_ids by (done || (intros; apply rpart_ids)). apply (NoDup_fmap_2_strong unit_number); [|apply NoDup_seq]. intros x y _ _ E. unfold unit_number in E. apply str_Z_inj in E. lia.
Qed.
(** ** Units that are lost *)
Lemma sublist_concat {A} (f g : rst → list A) l : Forall (λ c, sublist (f c) (g c)) l → sublist (concat (f <$> l)) (concat (g <$> l)).
Proof. induction 1 as [|c l Hc H IH]; [constructor|]. rewrite !fmap_cons. cbn [concat]. by apply sublist_app. Qed.
Lemma kept_sublist r : sublist (kept r) (edus r).
Proof.
  induction r as [s|rel nf n s IHn IHs|rel l IH] using rst_ind'; [done| |].
  - destruct nf; cbn [kept edus]; by apply sublist_inserts_l.
  - rewrite edus_Multi. cbn [kept]. destruct l as [|c l]; [constructor|]. rewrite !fmap_cons. cbn [tail concat]. apply sublist_inserts_l. apply sublist_concat. by apply Forall_cons in IH as [_ IH].
Qed.
Lemma kept_of_sublist r : sublist (kept_of r) (edus r).
Proof.
  destruct r as [s|rel nf n s|rel l]; [done| |].
  - destruct nf; cbn [kept_of edus]; apply sublist_app; apply kept_sublist.
  - rewrite edus_Multi. cbn [kept_of]. apply sublist_concat. apply Forall_forall. intros c _. apply kept_sublist.
Qed.
Lemma kept_less r : multi_ok r → match r with Edu _ => False | _ => True end → length (kept r) < length (edus r).
Proof.
  intros Hm Hr. destruct r as [s|rel nf n s|rel l]; [done| |].
  - destruct Hm as [H1 H2]. pose proof (n_edus_pos _ H1). pose proof (n_edus_pos _ H2). unfold n_edus in *. pose proof (sublist_length _ _ (kept_sublist n)). pose proof (sublist_length _ _ (kept_sublist s)).
    destruct nf; cbn [kept edus]; rewrite app_length; lia.
  - apply multi_ok_Multi in Hm as [Hl Hm]. rewrite edus_Multi. cbn [kept]. destruct l as [|c l]; [cbn in Hl; lia|]. rewrite !fmap_cons. cbn [tail concat]. rewrite app_length. apply Forall_cons in Hm as [Hc _].
    pose proof (n_edus_pos _ Hc). unfold n_edus in *. assert (HH : sublist (concat (kept <$> l)) (concat (edus <$> l))) by (apply sublist_concat, Forall_forall; intros; apply kept_sublist). apply sublist_length in HH. lia.
Qed.
Lemma flat_kept r : multi_ok r → kept_of r = edus r ↔ flat_tree r.
Proof.
  assert (HE : ∀ c, multi_ok c → kept c = edus c ↔ match c with Edu _ => True | _ => False end).
  { intros c Hc. destruct c as [s|rel nf n s|rel l]; [done| |]; (split; [|done]); intros E; apply (f_equal length) in E; match goal with H : multi_ok ?c |- _ => pose proof (kept_less c H I) end; lia. }
  assert (HA : ∀ n s, multi_ok n → multi_ok s → kept n ++ kept s = edus n ++ edus s ↔ kept n = edus n ∧ kept s = edus s).
  { intros n s Hn Hs. split; [|intros [-> ->]; done]. intros E. pose proof (sublist_length _ _ (kept_sublist n)). pose proof (sublist_length _ _ (kept_sublist s)). pose proof (f_equal length E) as EL. rewrite !app_length in EL.
    apply app_inj_1 in E; [done|]. lia. }
  intros Hm. destruct r as [s|rel nf n s|rel l]; [done| |].
  - destruct Hm as [H1 H2]. destruct nf; cbn [kept_of edus flat_tree]; rewrite HA by done; rewrite !HE by done; destruct n, s; tauto.
  - apply multi_ok_Multi in Hm as [_ Hm]. rewrite edus_Multi. cbn [kept_of flat_tree]. induction Hm as [|c l Hc Hm IH]; [split; intros _; [exact (List.Forall_nil _)|done]|]. rewrite !fmap_cons, Forall_cons. cbn [concat]. rewrite <-HE, <-IH by done.
    split; [|intros [-> ->]; done]. intros E. assert (HH : sublist (concat (kept <$> l)) (concat (edus <$> l))) by (apply sublist_concat, Forall_forall; intros; apply kept_sublist).
    apply sublist_length in HH. pose proof (sublist_length _ _ (kept_sublist c)). pose proof (f_equal length E) as EL. rewrite !app_length in EL. apply app_inj_1 in E; [done|]. lia.
Qed.
