(** * GeoffFacts: proofs for C48 *)
From Verif Require Import PyBase DocGraph SpecGraph DocGraphFacts Effects StrNum Query SpanFacts Text Geoff SpecGeoff SpecParse ParseFacts.

Lemma join_nl_joined l : join_nl l = joined [newline] l.
Proof. induction l as [|x [|y l] IH]; [done|done|]. cbn [join_nl joined] in *. rewrite IH. done. Qed.
Lemma view_shows a d : json_view a d → shows a d.
Proof.
  intros (d0 & HF & HP). split.
  - rewrite HP. assert (E : d0.*1 = a.*1); [|by rewrite E]. clear HP. induction HF as [|p q a d0 [E _] _ IH]; [done|]. rewrite !fmap_cons. by f_equal.
  - intros l Hl. apply elem_of_list_lookup in Hl as [i Hi]. destruct (Forall2_lookup_l _ _ _ _ _ HF Hi) as ([k j] & Hj & E & Hd). cbn in E, Hd. subst k. rewrite decide_True in Hd by done.
    destruct Hd as (l0 & l' & [= <-] & Hp & ->). exists l'. split; [|done]. rewrite HP. by eapply elem_of_list_lookup_2.
  - intros k v Hk. rewrite HP. split.
    + intros Hl. apply elem_of_list_lookup in Hl as [i Hi]. destruct (Forall2_lookup_l _ _ _ _ _ HF Hi) as ([k' j] & Hj & E & Hd). cbn in E, Hd. subst k'. rewrite decide_False in Hd by done. subst j.
      by eapply elem_of_list_lookup_2.
    + intros Hl. apply elem_of_list_lookup in Hl as [i Hi]. destruct (Forall2_lookup_r _ _ _ _ _ HF Hi) as ([k' j] & Hj & E & Hd). cbn in E, Hd. subst k'. rewrite decide_False in Hd by done. injection Hd as ->.
      by eapply elem_of_list_lookup_2.
Qed.
Lemma item_exists p : (p.1 = "layers" → ∃ l, p.2 = VSet l) → ∃ q, item_view p q.
Proof.
  intros H. unfold item_view. destruct (decide (p.1 = "layers")) as [E|E].
  - destruct (H E) as [l Hl]. exists (p.1, JList l). split; [done|]. by exists l, l.
  - exists (p.1, JVal p.2). done.
Qed.
Lemma view_exists a : (∀ k v, (k, v) ∈ a → k = "layers" → ∃ l, v = VSet l) → ∃ d, json_view a d.
Proof.
  intros H. assert (E : ∃ d, Forall2 item_view a d).
  { induction a as [|[k v] a IH]; [by exists []|]. destruct IH as [d Hd]; [intros k' v' Hin; apply H; by right|]. destruct (item_exists (k, v)) as [q Hq]; [cbn; apply H; left|]. exists (q :: d). by constructor. }
  destruct E as [d Hd]. exists d, d. done.
Qed.
Lemma dset_new {V} (k : string) (v : V) d : dget k d = None → dset k v d = d ++ [(k, v)].
Proof. induction d as [|[k' v'] d IH]; [done|]. cbn. destruct (decide (k = k')); [done|]. intros H. by rewrite IH. Qed.
Lemma with_label_ok n a : labelled n a (with_label n a).
Proof.
  destruct n as [z|s]; [done|]. cbn. unfold dmem. destruct (dget "label" a) as [v|] eqn:E; [by left|]. right. split; [done|]. by apply dset_new.
Qed.
Lemma view_nonempty a d : json_view a d → a ≠ [] → length d ≠ 0.
Proof. intros (d0 & HF & HP) Ha. rewrite HP. destruct HF; done. Qed.
Lemma view_layers a d l : json_view a d → dget "layers" a = Some (VSet l) → length d ≠ 0.
Proof. intros H Ha. apply (view_nonempty a d H). by intros ->. Qed.
Lemma with_label_layers n a : dget "layers" (with_label n a) = dget "layers" a.
Proof. destruct n as [z|s]; [done|]. cbn. destruct (dmem "label" a); [done|]. by apply dget_dset_ne. Qed.
Lemma cut {A} (c : A) a b a' b' : c ∉ a → c ∉ a' → a ++ c :: b = a' ++ c :: b' → a = a' ∧ b = b'.
Proof.
  revert a'. induction a as [|x a IH]; intros [|y a'] H1 H2 E.
  - by injection E.
  - injection E as -> _. destruct H2. left.
  - injection E as -> _. destruct H1. left.
  - injection E as -> E. rewrite not_elem_of_cons in H1, H2. destruct (IH a') as [-> ->]; tauto.
Qed.
Lemma cut_end {A} (c : A) a b a' b' : c ∉ b → c ∉ b' → a ++ c :: b = a' ++ c :: b' → a = a' ∧ b = b'.
Proof.
  intros H1 H2 E. apply (f_equal reverse) in E. rewrite !reverse_app, !reverse_cons, <-!app_assoc in E. cbn [app] in E.
  apply cut in E as [E1 E2]; [|by rewrite elem_of_reverse..]. by apply (inj reverse) in E1, E2.
Qed.
Lemma node_text_inj n n' x x' : " "%char ∉ chs (nid_str n) → " "%char ∉ chs (nid_str n') → node_text n x = node_text n' x' → nid_str n = nid_str n' ∧ x = x'.
Proof.
  intros H1 H2 E. unfold node_text in E. injection E as E. apply cut in E as [E1%chs_inj E2]; [|done..]. split; [done|]. by apply (inj (.++ _)) in E2.
Qed.
Lemma edge_text_inj u v u' v' x x' : ")"%char ∉ chs (nid_str u) → ")"%char ∉ chs (nid_str u') → "("%char ∉ chs (nid_str v) → "("%char ∉ chs (nid_str v') →
  edge_text u v x = edge_text u' v' x' → nid_str u = nid_str u' ∧ nid_str v = nid_str v' ∧ x = x'.
Proof.
  intros H1 H2 H3 H4 E.
  assert (E' : chs (nid_str u) ++ ")"%char :: chs "-[:LINKS_TO " ++ x ++ chs "]->" ++ "("%char :: chs (nid_str v) ++ chs ")" =
    chs (nid_str u') ++ ")"%char :: chs "-[:LINKS_TO " ++ x' ++ chs "]->" ++ "("%char :: chs (nid_str v') ++ chs ")") by exact (f_equal tail E). clear E.
  apply cut in E' as [E1%chs_inj E2]; [|done..]. apply (inj (app (chs "-[:LINKS_TO "))) in E2.
  rewrite !(assoc_L (++) x), !(assoc_L (++) x') in E2. apply cut_end in E2 as [E3 E4].
  - apply (inj (.++ _)) in E3. apply (inj (.++ _)) in E4. apply chs_inj in E4. done.
  - rewrite not_elem_of_app. split; [done|]. by intros [=]%elem_of_list_singleton.
  - rewrite not_elem_of_app. split; [done|]. by intros [=]%elem_of_list_singleton.
Qed.
Lemma cut_ne (a : list ascii) : ∀ (b r : list ascii) r', ")"%char ∉ a → ")"%char ∉ b → " "%char ∉ b → a ++ " "%char :: r ≠ b ++ ")"%char :: r'.
Proof.
  induction a as [|c a IH]; intros [|d b] r r' H1 H2 H3 E.
  - done.
  - injection E as <- _. destruct H3. left.
  - injection E as -> _. destruct H1. left.
  - injection E as <- E. rewrite not_elem_of_cons in H1, H2, H3. destruct H1, H2, H3. by apply (IH b r r').
Qed.
Lemma node_edge_text n u v x x' : ")"%char ∉ chs (nid_str n) → ")"%char ∉ chs (nid_str u) → " "%char ∉ chs (nid_str u) → node_text n x ≠ edge_text u v x'.
Proof.
  intros H1 H2 H3 E.
  assert (E' : chs (nid_str n) ++ " "%char :: x ++ chs ")" = chs (nid_str u) ++ ")"%char :: chs "-[:LINKS_TO " ++ x' ++ chs "]->(" ++ chs (nid_str v) ++ chs ")") by exact (f_equal tail E). clear E.
  by apply (cut_ne (chs (nid_str n)) (chs (nid_str u)) _ _ H1 H2 H3) in E'.
Qed.
(** ** The export *)
Lemma node2geoff_text enc n d : length d ≠ 0 → node2geoff enc n d = let! x := enc d in Ok (node_text n x).
Proof. intros H. unfold node2geoff. by rewrite decide_False. Qed.
Lemma edge2geoff_text enc u v d : length d ≠ 0 → edge2geoff enc "LINKS_TO" u v d = let! x := enc d in Ok (edge_text u v x).
Proof. intros H. unfold edge2geoff. by rewrite decide_False. Qed.
Lemma zip_cons {A B} (x : A) (y : B) l k : zip (x :: l) (y :: k) = (x, y) :: zip l k.
Proof. done. Qed.
Lemma rmap_err {A B} (f : A → res B) l e : rmap f l = Err e → ∃ x, x ∈ l ∧ f x = Err e.
Proof.
  induction l as [|x l IH]; [done|]. cbn [rmap]. destruct (f x) as [y|e'] eqn:E; cbn [rbind].
  - destruct (rmap f l) as [ys|e'']; [done|]. cbn [rbind]. intros [= ->]. destruct IH as (z & Hz & Hf); [done|]. exists z. split; [by right|done].
  - intros [= ->]. exists x. split; [left|done].
Qed.
Lemma geoff_ok enc g r : Consistent g → (∀ n a, node_attrs g n = Some a → ∃ l, dget "layers" a = Some (VSet l)) →
  (∀ u v k a, edge_attrs g u v k = Some a → ∃ l, dget "layers" a = Some (VSet l)) → convert_to_geoff enc g r →
  (∃ e d, r = Err e ∧ enc d = Err e ∧ ((∃ n a a', node_attrs g n = Some a ∧ labelled n a a' ∧ shows a' d) ∨ ∃ u v k a, edge_attrs g u v k = Some a ∧ shows a d)) ∨
  ∃ nls els, r = Ok (joined [newline] (nls ++ els)) ∧
    Forall2 (λ n line, ∃ a a' d x, node_attrs g n = Some a ∧ labelled n a a' ∧ shows a' d ∧ enc d = Ok x ∧ line = node_text n x) (nodes g) nls ∧
    Forall2 (λ (e : nid * nid * nid * attrs) line, e.1.1.1 ∈ nodes g ∧ e.1.1.2 ∈ nodes g ∧ ∃ d x, shows e.2 d ∧ enc d = Ok x ∧ line = edge_text e.1.1.1 e.1.1.2 x) (edges g) els.
Proof.
  intros C HN HE Hc.
  assert (HnF : Forall (λ p : nid * attrs, node_attrs g p.1 = Some p.2 ∧ ∃ l, dget "layers" p.2 = Some (VSet l)) (g_node g)).
  { apply Forall_forall. intros [n a] Hp. assert (Ha : node_attrs g n = Some a) by (apply elem_dget; [apply C|done]). split; [done|]. by apply (HN n). }
  assert (HeF : Forall (λ e : nid * nid * nid * attrs, edge_attrs g e.1.1.1 e.1.1.2 e.1.2 = Some e.2 ∧ ∃ l, dget "layers" e.2 = Some (VSet l)) (edges g)).
  { apply Forall_forall. intros [[[u v] k] a] Hp. apply elem_edges in Hp; [|done]. split; [done|]. by eapply HE. }
  assert (HL : layerset2list_ok g = Ok ()).
  { unfold layerset2list_ok. assert (E : ∀ {A} (f : A → attrs) l, Forall (λ x, ∃ l, dget "layers" (f x) = Some (VSet l)) l → ∃ us, rmap (λ x, layers_ok (f x)) l = Ok us).
    { intros A f l. induction 1 as [|x l [y Hy] _ [us IH]]; [by exists []|]. cbn [rmap]. unfold layers_ok at 1. rewrite Hy, IH. by eexists. }
    destruct (E _ (λ p : nid * attrs, p.2) (g_node g)) as [u1 E1]; [eapply Forall_impl; [exact HnF|]; by intros ? [??]|].
    destruct (E _ (λ e : nid * nid * nid * attrs, e.2) (edges g)) as [u2 E2]; [eapply Forall_impl; [exact HeF|]; by intros ? [??]|]. by rewrite E1, E2. }
  inversion Hc as [e He|nds eds _ Hn He]; subst; [congruence|]. unfold graph2geoff.
  (* the node lines *)
  assert (HNL : (∃ e d, rmap (λ p, node2geoff enc p.1 p.2) (zip (nodes g) nds) = Err e ∧ enc d = Err e ∧ ∃ n a a', node_attrs g n = Some a ∧ labelled n a a' ∧ shows a' d) ∨
    ∃ nls, rmap (λ p, node2geoff enc p.1 p.2) (zip (nodes g) nds) = Ok nls ∧
      Forall2 (λ n line, ∃ a a' d x, node_attrs g n = Some a ∧ labelled n a a' ∧ shows a' d ∧ enc d = Ok x ∧ line = node_text n x) (nodes g) nls).
  { unfold nodes, dkeys. revert HnF Hn. generalize (g_node g). clear. intros l HnF Hn. induction Hn as [|[n a] d l nds Hv Hn IH]; [right; exists []; by split; [|constructor]|].
    apply Forall_cons in HnF as [[Hna [y Hy]] HnF]. cbn in Hv, Hna, Hy. destruct (view_shows _ _ Hv) as [].
    assert (Hlen : length d ≠ 0) by (apply (view_layers _ _ y Hv); by rewrite with_label_layers).
    rewrite fmap_cons. cbn [fst]. rewrite zip_cons. cbn [rmap fst snd]. rewrite node2geoff_text by done.
    destruct (enc d) as [x|e] eqn:Ed; cbn [rbind].
    - destruct (IH HnF) as [(e & d' & E & Ed' & Hw)|(nls & E & HF)].
      + left. exists e, d'. rewrite E. done.
      + right. rewrite E. cbn [rbind]. eexists. split; [reflexivity|]. constructor; [|done].
        exists a, (with_label n a), d, x. split_and!; [done|apply with_label_ok|by apply view_shows|done|done].
    - left. exists e, d. split_and!; [done|done|]. exists n, a, (with_label n a). split_and!; [done|apply with_label_ok|by apply view_shows]. }
  destruct HNL as [(e & d & -> & Ed & Hw)|(nls & -> & HF)]; [left; exists e, d; split_and!; [done|done|by left]|]. cbn [rbind].
  assert (HEL : (∃ e d, rmap (λ p, edge2geoff enc "LINKS_TO" p.1.1 p.1.2 p.2) (zip ((λ e : nid * nid * nid * attrs, e.1.1) <$> edges g) eds) = Err e ∧ enc d = Err e ∧ ∃ u v k a, edge_attrs g u v k = Some a ∧ shows a d) ∨
    ∃ els, rmap (λ p, edge2geoff enc "LINKS_TO" p.1.1 p.1.2 p.2) (zip ((λ e : nid * nid * nid * attrs, e.1.1) <$> edges g) eds) = Ok els ∧
      Forall2 (λ (e : nid * nid * nid * attrs) line, e.1.1.1 ∈ nodes g ∧ e.1.1.2 ∈ nodes g ∧ ∃ d x, shows e.2 d ∧ enc d = Ok x ∧ line = edge_text e.1.1.1 e.1.1.2 x) (edges g) els).
  { revert HeF He. generalize (edges g). clear -C. intros l HeF He. induction He as [|[[[u v] k] a] d l eds Hv He IH]; [right; exists []; by split; [|constructor]|].
    apply Forall_cons in HeF as [[Hea [y Hy]] HeF]. cbn in Hv, Hea, Hy.
    assert (Hlen : length d ≠ 0) by (apply (view_layers _ _ y Hv); done).
    rewrite fmap_cons. cbn [fst]. rewrite zip_cons. cbn [rmap fst snd]. rewrite edge2geoff_text by done.
    destruct (enc d) as [x|e] eqn:Ed; cbn [rbind].
    - destruct (IH HeF) as [(e & d' & E & Ed' & Hw)|(nls & E & HF)].
      + left. exists e, d'. rewrite E. done.
      + right. rewrite E. cbn [rbind]. eexists. split; [reflexivity|]. constructor; [|done]. cbn [fst snd].
        split; [by eapply edge_node_l|]. split; [by eapply edge_node_r|]. exists d, x. split_and!; [by apply view_shows|done|done].
    - left. exists e, d. split_and!; [done|done|]. exists u, v, k, a. split; [done|by apply view_shows]. }
  destruct HEL as [(e & d & -> & Ed & Hw)|(els & -> & HF')]; [left; exists e, d; split_and!; [done|done|by right]|]. cbn [rbind].
  right. exists nls, els. split_and!; [by rewrite join_nl_joined|done|done].
Qed.
Lemma views {A} (f : A → attrs) l : Forall (λ x, ∀ k v, (k, v) ∈ f x → k = "layers" → ∃ l, v = VSet l) l → ∃ ds, Forall2 (λ x d, json_view (f x) d) l ds.
Proof.
  induction 1 as [|x l Hx _ [ds IH]]; [by exists []|]. destruct (view_exists _ Hx) as [d Hd]. exists (d :: ds). by constructor.
Qed.
Lemma geoff_runs enc g : layerset2list_ok g = Ok () → (∀ p, p ∈ g_node g → ∀ k v, (k, v) ∈ p.2 → k = "layers" → ∃ l, v = VSet l) →
  (∀ e : nid * nid * nid * attrs, e ∈ edges g → ∀ k v, (k, v) ∈ e.2 → k = "layers" → ∃ l, v = VSet l) → ∃ r, convert_to_geoff enc g r.
Proof.
  intros HL H1 H2. destruct (views (λ p : nid * attrs, with_label p.1 p.2) (g_node g)) as [nds Hn].
  { apply Forall_forall. intros [n a] Hp k v Hk ->. cbn in Hk. apply (H1 _ Hp "layers"); [|done]. cbn. destruct n as [z|s]; [done|]. cbn in Hk. unfold dmem in Hk.
    destruct (dget "label" a) eqn:E; [done|]. rewrite dset_new in Hk by done. apply elem_of_app in Hk as [Hk|Hk]; [done|]. by apply elem_of_list_singleton in Hk. }
  destruct (views (λ e : nid * nid * nid * attrs, e.2) (edges g)) as [eds He].
  { apply Forall_forall. intros e Hp k v Hk. by apply (H2 e Hp k). }
  eexists. by eapply GE_lines.
Qed.
(** ** Runs on concrete documents, with an encoder that always writes [x] *)
Definition sets_b (a : attrs) : bool := forallb (λ kv : string * pyval, if decide (kv.1 = "layers") then match kv.2 with VSet _ => true | _ => false end else true) a.
Lemma constant_export g x : Consistent g → (∀ n a, node_attrs g n = Some a → ∃ l, dget "layers" a = Some (VSet l)) →
  (∀ u v k a, edge_attrs g u v k = Some a → ∃ l, dget "layers" a = Some (VSet l)) →
  layerset2list_ok g = Ok () → forallb (λ p : nid * attrs, sets_b p.2) (g_node g) = true → forallb (λ e : nid * nid * nid * attrs, sets_b e.2) (edges g) = true →
  convert_to_geoff (λ _, Ok x) g (Ok (joined [newline] (map (λ n, node_text n x) (nodes g) ++ map (λ e : nid * nid * nid * attrs, edge_text e.1.1.1 e.1.1.2 x) (edges g)))).
Proof.
  intros C HN HE HL H1 H2.
  assert (HS : ∀ a, sets_b a = true → ∀ k v, (k, v) ∈ a → k = "layers" → ∃ l, v = VSet l).
  { intros a Ha k v Hk ->. unfold sets_b in Ha. rewrite forallb_forall in Ha. apply elem_of_list_In, Ha in Hk. cbn in Hk. destruct v; try discriminate Hk. by eexists. }
  destruct (geoff_runs (λ _, Ok x) g HL) as [r Hr].
  { intros p Hp. rewrite forallb_forall in H1. apply HS, H1. by apply elem_of_list_In. }
  { intros p Hp. rewrite forallb_forall in H2. apply HS, H2. by apply elem_of_list_In. }
  destruct (geoff_ok _ _ _ C HN HE Hr) as [(e & d & _ & [=] & _)|(nls & els & -> & HNl & HEl)].
  assert (EN : nls = map (λ n, node_text n x) (nodes g)).
  { clear -HNl. induction HNl as [|n l ns nls (a & a' & d & y & _ & _ & _ & [= <-] & ->) _ IH]; [done|]. cbn [map]. by f_equal. }
  assert (EE : els = map (λ e : nid * nid * nid * attrs, edge_text e.1.1.1 e.1.1.2 x) (edges g)).
  { clear -HEl. revert HEl. generalize (edges g). intros es HE. induction HE as [|n l ns nls (_ & _ & d & y & _ & [= <-] & ->) _ IH]; [done|]. cbn [map]. by f_equal. }
  by rewrite <-EN, <-EE.
Qed.
