(** * TigerReject: what the reader needs *)
From Verif Require Import PyBase DocGraph Relabel StrNum Query Text Rst Nltk Parsers Anaphora Conano Decour Ptb Convert Tiger.
From Verif Require Import SpecGraph DocGraphFacts SpecImport ImportFacts TextFacts SpecTiger TigerFacts TigerWalk TigerSent.

Lemma loop_all {S A} (f : A → S → S * option exc) (Q : A → Prop) l : ∀ s s',
  (∀ x s s', x ∈ l → f x s = (s', None) → Q x) → loop f l s = (s', None) → ∀ x, x ∈ l → Q x.
Proof.
  induction l as [|y l IH]; intros s s' HQ HL x Hx; [by apply elem_of_nil in Hx|]. cbn [loop] in HL.
  destruct (f y s) as [s1 [e|]] eqn:E; [done|]. apply elem_of_cons in Hx as [->|Hx]; [by eapply HQ; [left|]|].
  eapply IH; [|done..]. intros z t t' Hz. apply HQ. by right.
Qed.
Lemma att_dec x key : Decision (has_att x key).
Proof. unfold has_att. apply _. Qed.
Lemma t_secedge_needs t e g g' : tiger_t_secedge t e g = (g', None) → has_att e "idref".
Proof. intros H. destruct (att_dec e "idref") as [|Hn]; [done|]. unfold tiger_t_secedge in H. by rewrite x_get_no in H. Qed.
Lemma feat_needs ns x k v : NoDup (dkeys (x_attrib x)) → dget (ns +:+ ":" +:+ k) (x_feats ns x) = Some v → has_att x k.
Proof. intros HN. rewrite feats_get, dget_in_ns by done. unfold has_att. destruct (dget k (x_attrib x)); [by eexists|done]. Qed.
Lemma token_needs t s s' : NoDup (dkeys (x_attrib t)) → tiger_terminal t s = (s', None) →
  has_att t "id" ∧ has_att t "word" ∧ ∀ e, e ∈ secedges_in t → has_att e "idref".
Proof.
  intros HN H. destruct s as [g ts]. unfold tiger_terminal in H. destruct (att_dec t "id") as [Hid|Hn]; [|by rewrite x_get_no in H].
  rewrite (x_get_ok _ _ Hid) in H. destruct (dget (g_ns g +:+ ":word") (x_feats (g_ns g) t)) as [w|] eqn:Ew; [|done].
  change (g_ns g +:+ ":word") with (g_ns g +:+ ":" +:+ "word") in Ew. split; [done|]. split; [exact (feat_needs _ _ _ _ HN Ew)|].
  destruct (add_node _ _ _ _ _) as [g1 [e|]]; [done|]. injection H as _ H. rewrite findall_elements in H.
  destruct (loop (tiger_t_secedge (NStr (att "id" t))) (elements ["secedge"] t) g1) as [g2 o] eqn:EL. cbn in H. subst o.
  eapply loop_all; [|exact EL]. intros e gg gg' _. apply t_secedge_needs.
Qed.
Lemma edge_needs n e s s' : NoDup (dkeys (x_attrib e)) → tiger_edge n e s = (s', None) → has_att e "idref" ∧ has_att e "label" ∧ s'.2 ≠ None.
Proof.
  intros HN H. destruct s as [g last]. unfold tiger_edge in H. destruct (att_dec e "idref") as [Hid|Hn]; [|by rewrite x_get_no in H].
  rewrite (x_get_ok _ _ Hid) in H. destruct (tiger_target _ _) as [g1 [x|]]; [done|]. split; [done|].
  destruct (of_option KeyError (node_attrs g1 _)) as [a|]; [|done]. cbn [rbind] in H. destruct (of_option KeyError (dget "layers" a)) as [l|]; [|done]. cbn [rbind] in H.
  destruct l; try done. cbn [rbind] in H. change (g_ns g1 +:+ ":label") with (g_ns g1 +:+ ":" +:+ "label") in H.
  destruct (dget (g_ns g1 +:+ ":" +:+ "label") (x_feats (g_ns g1) e)) as [lab|] eqn:Elab; [|done]. cbn [rbind of_option] in H.
  split; [exact (feat_needs _ _ _ _ HN Elab)|]. injection H as <- _. done.
Qed.
Lemma n_secedge_needs n e s s' : tiger_n_secedge n e s = (s', None) → has_att e "idref" ∧ s.2 ≠ None ∧ s'.2 = s.2.
Proof.
  intros H. destruct s as [g last]. unfold tiger_n_secedge in H. destruct (att_dec e "idref") as [Hid|Hn]; [|by rewrite x_get_no in H].
  rewrite (x_get_ok _ _ Hid) in H. destruct (tiger_target _ _) as [g1 [x|]]; [done|]. destruct last as [last|]; [|done]. cbn [rbind of_option] in H.
  destruct last as [lab|]; [|done]. cbn [rbind of_option] in H. injection H as <- _. done.
Qed.
Lemma loop_inv {S A} (f : A → S → S * option exc) (I : S → Prop) l : ∀ s s',
  (∀ x s s', x ∈ l → I s → f x s = (s', None) → I s') → I s → loop f l s = (s', None) → I s'.
Proof.
  induction l as [|y l IH]; intros s s' HI Hs HL; cbn [loop] in HL; [by injection HL as <-|].
  destruct (f y s) as [s1 [e|]] eqn:E; [done|]. eapply IH; [|exact (HI y s s1 (elem_of_list_here _ _) Hs E)|done]. intros z t t' Hz. apply HI. by right.
Qed.
Lemma edges_last n es s s' : Forall (λ e, NoDup (dkeys (x_attrib e))) es → loop (tiger_edge n) es s = (s', None) → s'.2 = None → s.2 = None ∧ es = [].
Proof.
  intros HF HL Hs. destruct es as [|e es]; [by injection HL as <-|]. exfalso. cbn [loop] in HL. destruct (tiger_edge n e s) as [s1 [x|]] eqn:E; [done|].
  apply Forall_cons in HF as [He HF]. apply edge_needs in E as (_ & _ & E); [|done].
  enough (s'.2 ≠ None) by done. revert HL. apply (loop_inv _ (λ s, s.2 ≠ None)); [|done]. intros y t t' Hy _ Ht. apply edge_needs in Ht as (_ & _ & ?); [done|]. rewrite Forall_forall in HF. by apply HF.
Qed.
Lemma phrase_needs n s s' : NoDup (dkeys (x_attrib n)) → Forall (λ e, NoDup (dkeys (x_attrib e))) (edges_in n) → tiger_nonterminal n s = (s', None) →
  has_att n "id" ∧ has_att n "cat" ∧ (∀ e, e ∈ edges_in n → has_att e "idref" ∧ has_att e "label") ∧ (∀ e, e ∈ secedges_in n → has_att e "idref") ∧
  (s.2 = None → edges_in n = [] → secedges_in n = [] ∧ s'.2 = None).
Proof.
  intros HN HF H. destruct s as [g last]. unfold tiger_nonterminal in H. destruct (att_dec n "id") as [Hid|Hn]; [|by rewrite x_get_no in H].
  rewrite (x_get_ok _ _ Hid) in H. destruct (dget (g_ns g +:+ ":cat") (x_feats (g_ns g) n)) as [c|] eqn:Ec; [|done].
  change (g_ns g +:+ ":cat") with (g_ns g +:+ ":" +:+ "cat") in Ec. split; [done|]. split; [exact (feat_needs _ _ _ _ HN Ec)|].
  destruct (if decide _ then _ else _) as [g1 [x|]]; [done|]. rewrite !findall_elements in H. change (elements ["edge"] n) with (edges_in n) in H. change (elements ["secedge"] n) with (secedges_in n) in H.
  destruct (loop (tiger_edge _) _ _) as [s2 [x|]] eqn:E2; [done|]. split; [|split].
  - eapply loop_all; [|exact E2]. intros e t t' He Ht. apply edge_needs in Ht as (? & ? & _); [done|]. rewrite Forall_forall in HF. by apply HF.
  - eapply loop_all; [|exact H]. intros e t t' He Ht. by apply n_secedge_needs in Ht as (? & _).
  - cbn [fst snd]. intros -> Ee. assert (E2' : loop (tiger_edge (NStr (att "id" n))) [] (g1, None) = (s2, None)) by (rewrite <-Ee; exact E2). injection E2' as <-.
    destruct (secedges_in n) as [|y ys]; [split; [done|]; change ((g1, None, None) = (s', None : option exc)) in H; injection H as <-; done|]. cbn [loop] in H. destruct (tiger_n_secedge _ y _) as [s3 [x|]] eqn:E3; [done|]. by apply n_secedge_needs in E3 as (_ & ? & _).
Qed.
Lemma phrases_label ps : ∀ s s', Forall (λ n, NoDup (dkeys (x_attrib n)) ∧ Forall (λ e, NoDup (dkeys (x_attrib e))) (edges_in n)) ps →
  loop tiger_nonterminal ps s = (s', None) → s.2 = None →
  ∀ pre n post, ps = pre ++ n :: post → secedges_in n ≠ [] → (p ← pre ++ [n]; edges_in p) ≠ [].
Proof.
  induction ps as [|m ps IH]; intros s s' HF HL Hs pre n post E Hn; [by destruct pre|].
  apply Forall_cons in HF as [[Hm He] HF]. cbn [loop] in HL. destruct (tiger_nonterminal m s) as [s1 [x|]] eqn:E1; [done|].
  apply (phrase_needs _ _ _ Hm He) in E1 as (_ & _ & _ & _ & HK). destruct pre as [|m' pre]; injection E as -> ->.
  - cbn. rewrite app_nil_r. intros Ee. by destruct (HK Hs Ee).
  - rewrite <-app_comm_cons, bind_cons. destruct (edges_in m') eqn:Ee; [|done]. destruct (HK Hs eq_refl) as [_ Hs1]. rewrite app_nil_l. by eapply IH.
Qed.
Lemma sentence_needs i ns x : well_formed x → (tiger_sentence i ns x).2 = None → complete x.
Proof.
  intros HW H. unfold tiger_sentence in H. rewrite removed_root' in H.
  destruct (x_find "graph" x) as [y|] eqn:EF; [|done]. cbn [of_option rbind] in H.
  destruct (att_dec y "root") as [Hr|Hr]; [|by rewrite x_get_no in H]. rewrite (x_get_ok _ _ Hr) in H.
  destruct (tiger_sentence2graph _ _ _) as [[g ts] [e|]] eqn:E2; [done|]. clear H.
  unfold tiger_sentence2graph in E2. destruct (add_node _ _ _ _ _) as [g1 [e|]]; [done|]. rewrite x_path_elements in E2. change (elements ["graph"; "terminals"; "t"] x) with (tokens_in x) in E2.
  destruct (loop tiger_terminal _ _) as [[g2 ts2] [e|]] eqn:E3; [done|]. destruct (node_update _ _ _) as [g3 [e|]]; [done|].
  rewrite x_path_elements in E2. change (elements ["graph"; "nonterminals"; "nt"] x) with (phrases_in x) in E2. destruct (loop tiger_nonterminal _ _) as [[g4 l4] o] eqn:E4. injection E2 as _ _ ->.
  assert (HWp : ∀ n, n ∈ phrases_in x → NoDup (dkeys (x_attrib n)) ∧ Forall (λ e, NoDup (dkeys (x_attrib e))) (edges_in n)).
  { intros n Hn. split; [apply HW; apply elem_of_app; right; apply elem_of_app; by left|]. apply Forall_forall. intros e He. apply HW. apply elem_of_app. right. apply elem_of_app. right. apply elem_of_list_bind. exists n. split; apply elem_of_app; [by left|by right]. }
  split.
  - exists y. split; [|done]. unfold x_find in EF. by rewrite findall_elements in EF.
  - eapply loop_all; [|exact E3]. intros t s s' Ht. apply token_needs. apply HW. apply elem_of_app. by left.
  - eapply loop_all; [|exact E4]. intros n s s' Hn Hs. destruct (HWp n Hn) as [H1 H2]. apply phrase_needs in Hs as (? & ? & ? & ? & _); done.
  - eapply phrases_label; [|exact E4|done]. apply Forall_forall. exact HWp.
Qed.
