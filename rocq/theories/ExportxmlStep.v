(** * ExportxmlStep: one element of an ExportXML document *)
From Verif Require Import PyBase DocGraph Relabel StrNum Query Text Rst Nltk Parsers Anaphora Conano Decour Ptb Convert Tiger Urml Exportxml.
From Verif Require Import SpecGraph DocGraphFacts History Effects RelabelFacts GraphThms SpecImport ImportFacts PtbFacts TextFacts OffsetFacts GeoffFacts DecourFacts AnaphoraFacts ConllReadText TigerFacts BuiltFrom ViewFacts SpecAnaphora SpecQuery SpanFacts SpecRs3Graph Rs3Facts Rs3Desc Rs3Read Rs3Doc.
From Verif Require UrmlFacts TigerTree UrmlDoc ConanoFacts.
From Verif Require Import SpecExportxml ExportxmlFacts.

(** ** Looking around *)
Definition agrees {A} (r : res A) (o : option A) : Prop := match o with Some a => r = Ok a | None => ∃ e, r = Err e end.
Lemma agrees_Ok {A} (r : res A) o a : agrees r o → r = Ok a → o = Some a.
Proof. unfold agrees. destruct o as [b|]; [intros -> [= ->]; done|intros [e ->]; done]. Qed.
Lemma get_agrees x key : agrees (x_get (x_attrib x) key) (att key x).
Proof. unfold x_get, att. destruct (dget key _); [done|by exists KeyError]. Qed.
Lemma outer_agrees anc x (d : option string) : agrees (match d with Some i => Ok i | None => match anc with [] => Err AttributeError | p :: _ => x_get (x_attrib p) xml_id end end)
  (match d with Some i => Some i | None => outer_id (anc, x) end).
Proof.
  destruct d as [i|]; [done|]. unfold outer_id. cbn [fst]. destruct anc as [|p anc]; [by exists AttributeError|]. cbn [head mbind option_bind]. apply get_agrees.
Qed.
Lemma id_agrees anc x : agrees (get_element_id anc x) (id_in (anc, x)).
Proof. unfold get_element_id, id_in, own_id, att. cbn [snd]. change "{http://www.w3.org/XML/1998/namespace}id" with xml_id. apply outer_agrees. Qed.
Lemma parent_agrees anc x : agrees (get_parent_id anc x) (parent_in (anc, x)).
Proof. unfold get_parent_id, parent_in, att. cbn [snd]. apply outer_agrees. Qed.
Lemma closest_same tags anc : iterancestors tags anc = closest tags anc.
Proof. induction anc as [|y anc IH]; [done|]. cbn. by rewrite IH. Qed.
Lemma first_agrees anc x : agrees (let! i := get_element_id anc x in Ok (first_part i)) (before_underscore <$> id_in (anc, x)).
Proof.
  pose proof (id_agrees anc x) as H. unfold agrees in H. destruct (id_in (anc, x)) as [i|]; [rewrite H; done|]. destruct H as [e ->]. by exists e.
Qed.
Lemma sentence_agrees anc x : agrees (get_sentence_id anc x) (sentence_at (anc, x)).
Proof.
  unfold get_sentence_id, sentence_at. rewrite closest_same. cbn [fst]. destruct (closest _ _) as [[a y]|]; [apply id_agrees|apply first_agrees].
Qed.
Lemma phrase_agrees anc x : agrees (if dmem "parent" (x_attrib x) then get_parent_id anc x else get_sentence_id anc x) (above_phrase (anc, x)).
Proof.
  unfold above_phrase, att, dmem. cbn [snd]. pose proof (parent_agrees anc x) as HP. unfold parent_in, att in HP. cbn [snd] in HP.
  destruct (dget "parent" (x_attrib x)); [exact HP|apply sentence_agrees].
Qed.
Lemma word_agrees anc x : agrees (word_parent anc x) (above_word (anc, x)).
Proof.
  unfold word_parent, above_word. cbn [fst]. destruct anc as [|y anc]; [by exists AttributeError|].
  destruct (decide (x_tag y ∈ ["node"; "sentence"])) as [H|H].
  - rewrite decide_True by (rewrite !elem_of_cons, elem_of_nil in H; tauto). apply parent_agrees.
  - rewrite decide_False by (rewrite !elem_of_cons, elem_of_nil in H; tauto). rewrite closest_same. destruct (closest _ _) as [[a z]|]; [apply id_agrees|apply first_agrees].
Qed.
Lemma inside_same x anc : iterdescendants anc x = inside_of anc x.
Proof. reflexivity. Qed.
Lemma names_agree (l : list place) : agrees (rmap (λ p : place, let! i := get_element_id p.1 p.2 in Ok (NStr i)) l)
  (if forallb (λ p, match id_in p with Some _ => true | None => false end) l then Some (node_at <$> l) else None).
Proof.
  induction l as [|[a x] l IH]; [done|]. cbn [forallb rmap fst snd]. pose proof (id_agrees a x) as H. rewrite fmap_cons. unfold agrees in H, IH |- *. assert (EN : node_at (a, x) = NStr (default "" (id_in (a, x)))) by done. rewrite EN.
  destruct (id_in (a, x)) as [i|] eqn:Ei; [|destruct H as [e H]; exists e; by rewrite H]. rewrite H. cbn [rbind andb].
  destruct (forallb _ l).
  - rewrite IH. done.
  - destruct IH as [e IH]. exists e. by rewrite IH.
Qed.
Lemma named_dec (l : list place) : forallb (λ p, match id_in p with Some _ => true | None => false end) l = true ↔ all_named l.
Proof.
  unfold all_named. induction l as [|p l IH]; [split; [intros _; exact (List.Forall_nil _)|done]|]. cbn [forallb]. rewrite andb_true_iff, IH, Forall_cons.
  destruct (id_in p) as [i|]; split; intros [H1 H2]; [split; [by exists i|done]|by split|done|by destruct H1].
Qed.
Definition seek (l : list place) : option (list nid) := if forallb (λ p, match id_in p with Some _ => true | None => false end) l then Some (node_at <$> l) else None.
Lemma seek_some l : is_Some (seek l) ↔ all_named l.
Proof. rewrite <-named_dec. unfold seek. destruct (forallb _ l); [split; [done|by eexists]|]. by split; [intros [? ?]|]. Qed.
Lemma seek_val l ns : seek l = Some ns → ns = node_at <$> l.
Proof. unfold seek. destruct (forallb _ l); [by intros [= <-]|done]. Qed.
Lemma below_agrees tag anc x : agrees (ids_below tag anc x) (seek (tagged tag (inside (anc, x)))).
Proof. unfold ids_below, tagged, inside. rewrite inside_same. apply names_agree. Qed.
Lemma kids_agree anc x : agrees (rmap (λ k, let! i := get_element_id (x :: anc) k in Ok (NStr i)) (x_kids x)) (seek (children (anc, x))).
Proof.
  unfold children. cbn [fst snd]. pose proof (names_agree ((λ k, (x :: anc, k)) <$> x_kids x)) as H.
  assert (E : ∀ l : list xml, rmap (λ p : place, let! i := get_element_id p.1 p.2 in Ok (NStr i)) ((λ k, (x :: anc, k)) <$> l) = rmap (λ k, let! i := get_element_id (x :: anc) k in Ok (NStr i)) l).
  { induction l as [|k l IH]; [done|]. rewrite fmap_cons. cbn [rmap fst snd]. by rewrite IH. }
  rewrite E in H. exact H.
Qed.
(** ** Control *)
Lemma then_ok (p q : xprog) st st' : x_then p q st = (st', None) ↔ ∃ st1, p st = (st1, None) ∧ q st1 = (st', None).
Proof.
  unfold x_then. destruct (p st) as [st1 [e|]]; split; [done|intros (? & [=] & _)|by exists st1|by intros (? & [= ->] & ?)].
Qed.
Lemma need_ok {A} (r : res A) (k : A → xprog) st st' : x_need r k st = (st', None) ↔ ∃ a, r = Ok a ∧ k a st = (st', None).
Proof. unfold x_need. destruct r as [a|e]; split; [by exists a|by intros (? & [= <-] & ?)|done|by intros (? & [=] & _)]. Qed.
Lemma graph_ok f st st' : on_graph f st = (st', None) ↔ ∃ g', f (xs_graph st) = (g', None) ∧ st' = XState g' (xs_tokens st) (xs_connective st).
Proof.
  unfold on_graph. destruct (f (xs_graph st)) as [g' [e|]]; cbn [fst snd]; split; [done|intros (? & [=] & _)|intros [= <-]; by exists g'|intros (? & [= <-] & ->); done].
Qed.
Definition one_step (ns : string) (o : xopts) (p : place) : xprog :=
  let anc := p.1 in let x := p.2 in
  if decide (x_tag x = "word") then add_word ns anc x else parse ns o anc x.
Lemma loop_app {S A} (f : A → S → S * option exc) l l' s : loop f (l ++ l') s = match loop f l s with (s, Some e) => (s, Some e) | (s, None) => loop f l' s end.
Proof. revert s. induction l as [|x l IH]; intros s; [done|]. cbn [loop app]. destruct (f x s) as [s1 [e|]]; [done|]. apply IH. Qed.
Lemma parse_word ns o anc x : x_tag x = "word" → ∀ st, parse ns o anc x st = x_then (add_word ns anc x) (loop (parse ns o (x :: anc)) (x_kids x)) st.
Proof. destruct x as [tag a t kids tl]. cbn [x_tag]. intros -> st. reflexivity. Qed.
Lemma parse_steps ns o : ∀ x anc st, parse ns o anc x st = loop (one_step ns o) (read_at anc x) st.
Proof.
  refine (ConanoFacts.xml_ind' _ _). intros tag a t kids tl IH anc st.
  assert (E : read_at anc (XElem tag a t kids tl) = (anc, XElem tag a t kids tl) :: if decide (tag = "word") then concat (read_at (XElem tag a t kids tl :: anc) <$> kids) else []) by done.
  rewrite E. cbn [loop]. unfold one_step at 1. cbn [fst snd]. change (x_tag (XElem tag a t kids tl)) with tag. destruct (decide (tag = "word")) as [Ht|Ht].
  - rewrite parse_word by done. unfold x_then. destruct (add_word ns anc _ st) as [st1 [e|]]; [done|]. cbn [x_kids]. clear E. revert st1. set (y := XElem tag a t kids tl). clearbody y.
    induction IH as [|k kids HK _ IHk]; intros st1; [done|]. rewrite fmap_cons. cbn [concat loop]. rewrite loop_app, HK. destruct (loop _ (read_at _ k) st1) as [s [e|]]; [done|]. apply IHk.
  - cbn [loop]. by destruct (parse ns o anc _ st) as [s [e|]].
Qed.
Lemma loop_ext {S A} (f f' : A → S → S * option exc) l s : (∀ x s, f x s = f' x s) → loop f l s = loop f' l s.
Proof. intros H. revert s. induction l as [|x l IH]; intros s; [done|]. cbn [loop]. rewrite H. destruct (f' x s) as [s1 [e|]]; [done|]. apply IH. Qed.
Lemma loop_bind {S A B} (f : B → S → S * option exc) (h : A → list B) l s : loop (λ x s, loop f (h x) s) l s = loop f (l ≫= h) s.
Proof.
  revert s. induction l as [|x l IH]; intros s; [done|]. cbn [loop]. rewrite bind_cons, loop_app. destruct (loop f (h x) s) as [s1 [e|]]; [done|]. apply IH.
Qed.
Lemma walk_steps ns o x st : x_each (λ p : place, parse ns o p.1 p.2) (iterdescendants [] x) st = loop (one_step ns o) (read_of x) st.
Proof.
  unfold x_each, read_of, inside. cbn [fst snd]. rewrite inside_same, <-loop_bind. apply loop_ext. intros p s. apply parse_steps.
Qed.

(** ** Effects *)
Record side := Side { sd_name : string; sd_toks : list nid; sd_sents : list nid; sd_lists : dict nid (list nid); sd_dicts : dict nid (dict string string) }.
Section Element.
  Context (ns : string) (o : xopts) (root : nid).
  Notation V := (mview ns root).
  Notation L l := (ns +:+ ":" +:+ l).
  Record seen (st : xstate) (F : list node_info) (E : list edge_info) (d : side) : Prop := {
    sn_view : viewed (xs_graph st) (V F E) E;
    sn_ns : g_ns (xs_graph st) = ns;
    sn_root : g_root (xs_graph st) = root;
    sn_side : d = Side (g_name (xs_graph st)) (g_tokens (xs_graph st)) (g_sentences (xs_graph st)) (xs_tokens st) (xs_connective st);
  }.
  Lemma seen_doc g g' T C F E F' E' d : seen (XState g T C) F E d → viewed g' (V F' E') E' → same_doc g g' → seen (XState g' T C) F' E' d.
  Proof.
    intros [_ H1 H2 H3] HV (P1 & P2 & P3 & P4 & P5 & P6). cbn [xs_graph xs_tokens xs_connective] in *. split; cbn [xs_graph xs_tokens xs_connective]; [done|by rewrite P2|by rewrite P3|]. by rewrite P1, P4, P5.
  Qed.
  Lemma e_node st F E d n l ad attr a : seen st F E d → (∀ k, k ≠ "layers" → dget k (given_attrs ad attr) = dget k a) →
    ∃ st', on_graph (λ g, add_node g n (VSet (ns :: l)) ad attr) st = (st', None) ∧ seen st' (F ++ [(n, l, a)]) E d.
  Proof.
    destruct st as [g T C]. intros HS Ha. destruct (s_node ns root g F E n l ad attr a (sn_view _ _ _ _ HS) Ha) as (g' & E1 & V1 & D1).
    exists (XState g' T C). split; [unfold on_graph; cbn [xs_graph]; by rewrite E1|by eapply seen_doc].
  Qed.
  Lemma e_update st F E d n a : seen st F E d → n ∈ mentioned root F E → dget "layers" a = None →
    ∃ st', on_graph (λ g, node_update g n a) st = (st', None) ∧ seen st' (F ++ [(n, [], a)]) E d.
  Proof.
    destruct st as [g T C]. intros HS Hn Ha. destruct (s_update ns root g F E n a (sn_view _ _ _ _ HS) Hn Ha) as (g' & E1 & V1 & D1).
    exists (XState g' T C). split; [unfold on_graph; cbn [xs_graph]; by rewrite E1|by eapply seen_doc].
  Qed.
  Lemma e_layer st F E d n l : seen st F E d → n ∈ mentioned root F E →
    ∃ st', on_graph (λ g, add_layer_node g n l) st = (st', None) ∧ seen st' (F ++ [(n, [l], [])]) E d.
  Proof.
    destruct st as [g T C]. intros HS Hn. destruct (s_layer ns root g F E n l (sn_view _ _ _ _ HS) Hn) as (g' & E1 & V1 & D1).
    exists (XState g' T C). split; [unfold on_graph; cbn [xs_graph]; by rewrite E1|by eapply seen_doc].
  Qed.
  Lemma e_edge st F E d (u : graph → nid) v w layers l ad attr b : seen st F E d → asked_layers ns layers l → u (xs_graph st) = w → (∀ k, k ≠ "layers" → dget k (given_attrs ad attr) = dget k b) →
    ∃ st', on_graph (λ g, add_edge g (u g) v layers None ad attr) st = (st', None) ∧ seen st' F (E ++ [(w, v, l, b)]) d.
  Proof.
    destruct st as [g T C]. intros HS Hl Hu Hb. pose proof (sn_ns _ _ _ _ HS) as Hns. cbn [xs_graph] in *. destruct (s_edge ns root g F E w v layers l ad attr b (sn_view _ _ _ _ HS)) as (g' & E1 & V1 & D1); [done|by rewrite Hns|done|].
    exists (XState g' T C). split; [unfold on_graph; cbn [xs_graph]; by rewrite Hu, E1|by eapply seen_doc].
  Qed.
  Lemma e_edges {A} (h : A → nid) st F E d u l attr b (ws : list A) : seen st F E d → (∀ k, k ≠ "layers" → dget k (given_attrs None attr) = dget k b) →
    ∃ st', x_each (λ w, on_graph (λ g, add_edge g u (h w) (VSet (ns :: l)) None None attr)) ws st = (st', None) ∧ seen st' F (E ++ ((λ w, (u, h w, ns :: l, b)) <$> ws)) d.
  Proof.
    intros HS Hb. revert st E HS. induction ws as [|w ws IH]; intros st E HS; [exists st; split; [done|]; by rewrite fmap_nil, app_nil_r|].
    destruct (e_edge st F E d (λ _, u) (h w) u (VSet (ns :: l)) (ns :: l) None attr b HS) as (st1 & E1 & H1); [by left|done|done|].
    unfold x_each. cbn [loop]. rewrite E1. destruct (IH st1 _ H1) as (st2 & E2 & H2). exists st2. split; [exact E2|]. rewrite <-app_assoc in H2. exact H2.
  Qed.
  Lemma e_facts st F F' E d : seen st F E d → viewed (xs_graph st) (V F' E) E → seen st F' E d.
  Proof. intros [_ H1 H2 H3] HV. by split. Qed.
  Lemma e_join st F E d n l a l' a' : seen st ((F ++ [(n, l, a)]) ++ [(n, l', a')]) E d → seen st (F ++ [(n, l ++ l', a' ++ a)]) E d.
  Proof. intros HS. eapply e_facts; [exact HS|]. apply facts_join, HS. Qed.
End Element.
