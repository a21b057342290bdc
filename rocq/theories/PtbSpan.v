(** * PtbSpan: the nodes of parse trees and their spans *)
From stdpp Require Import sorting.
From Verif Require Import PyBase DocGraph SpecGraph DocGraphFacts History Effects RelabelFacts MergeFacts AllHist MergeAll GraphThms Relabel StrNum NatSort Query SpecQuery SpanFacts Text Rst SpecImport ImportFacts RstLayout SpecBrackets BracketFacts OutlineSpan PathFacts AnaphoraFacts Ptb SpecPtb PtbFacts.

(** numbers increase *)
Definition rising (k k' : Z) (l : list place) : Prop := (k ≤ k')%Z ∧ ∃ zs, place_ids l = NInt <$> zs ∧ StronglySorted Z.lt zs ∧ Forall (λ z, k ≤ z < k')%Z zs.
Lemma rising_app k k1 k2 l l' : rising k k1 l → rising k1 k2 l' → rising k k2 (l ++ l').
Proof.
  intros (H1 & zs & E1 & S1 & F1) (H2 & zs' & E2 & S2 & F2). split; [lia|]. exists (zs ++ zs'). split; [unfold place_ids in *; by rewrite !fmap_app, E1, E2|]. split.
  - clear E1 E2. induction S1 as [|z zs S1 IH HF]; [done|]. apply Forall_cons in F1 as [Hz F1]. cbn. constructor; [by apply IH|]. apply Forall_app. split; [done|]. eapply Forall_impl; [exact F2|]. cbn. intros. lia.
  - apply Forall_app. split; (eapply Forall_impl; [eassumption|]); cbn; intros; lia.
Qed.
Lemma rising_one k path kd : rising k (k + 1) [(path, NInt k, kd)].
Proof. split; [lia|]. exists [k]. split; [done|]. split; [by repeat constructor|]. apply Forall_singleton. lia. Qed.
Lemma rising_le k k' k1 l : rising k k' l → (k' ≤ k1)%Z → rising k k1 l.
Proof. intros (H & zs & E & S & F) Hk. split; [lia|]. exists zs. split; [done|]. split; [done|]. eapply Forall_impl; [exact F|]. cbn. intros. lia. Qed.
Lemma rising_ge k k' k0 l : rising k k' l → (k0 ≤ k)%Z → rising k0 k' l.
Proof. intros (H & zs & E & S & F) Hk. split; [lia|]. exists zs. split; [done|]. split; [done|]. eapply Forall_impl; [exact F|]. cbn. intros. lia. Qed.
Lemma rising_elem k k' l path n p : rising k k' l → (path, n, p) ∈ l → ∃ j, n = NInt j ∧ (k ≤ j < k')%Z.
Proof.
  intros (H & zs & E & S & F) Hin. assert (Hn : n ∈ place_ids l) by apply (elem_of_list_fmap_1 (λ x : place, x.1.2) l _ Hin). rewrite E in Hn. apply elem_of_list_fmap in Hn as (z & -> & Hz). exists z. split; [done|]. rewrite Forall_forall in F. by apply F.
Qed.
(** every node is directly below the node around the tree, or below a node of the tree *)
Definition nested_below (P : list nid) (l : list place) : Prop := ∀ path n p, (path, n, p) ∈ l → path = P ∨ ∃ q rest p', path = q :: rest ∧ (rest, q, p') ∈ l.
Lemma nested_app P l l' : nested_below P l → nested_below P l' → nested_below P (l ++ l').
Proof.
  intros H1 H2 path n p [H|H]%elem_of_app.
  - destruct (H1 _ _ _ H) as [->|(q & rest & p' & -> & Hq)]; [by left|]. right. exists q, rest, p'. split; [done|]. apply elem_of_app. by left.
  - destruct (H2 _ _ _ H) as [->|(q & rest & p' & -> & Hq)]; [by left|]. right. exists q, rest, p'. split; [done|]. apply elem_of_app. by right.
Qed.
Definition all_below (P : list nid) (l : list place) : Prop := ∀ path n p, (path, n, p) ∈ l → ∃ pre, path = pre ++ P.
Lemma all_below_app P l l' : all_below P l → all_below P l' → all_below P (l ++ l').
Proof. intros H1 H2 path n p [H|H]%elem_of_app; [by eapply H1|by eapply H2]. Qed.
Definition place_words (l : list place) : list string := omap (λ x : place, match x.2 with PkToken w _ => Some w | PkPhrase _ _ => None end) l.
Lemma place_words_app l l' : place_words (l ++ l') = place_words l ++ place_words l'.
Proof. apply omap_app. Qed.
Record shape (P : list nid) (k k' : Z) (l : list place) (ws : list string) : Prop := {
  sh_rising : rising k k' l;
  sh_nested : nested_below P l;
  sh_below : all_below P l;
  sh_words : place_words l = ws;
}.
Definition tree_shape (t : ntree) : Prop := ∀ P k ps k', ptb_places P k t = (ps, k') → shape P k k' ps (terminals_below t).
Lemma kids_shape P keep ks : Forall ptb_tree ks → Forall tree_shape ks → ∀ k ps k', kid_places (ptb_places P) keep k ks = (ps, k') →
  shape P k k' ps (concat (map (if keep then terminals_below else terminals) ks)).
Proof.
  intros HF. induction HF as [|t ks Ht HF IH]; intros HS k ps k'; cbn [kid_places].
  - intros [= <- <-]. split; [|by intros ? ? ? ?%elem_of_nil..|done]. split; [lia|]. exists []. split; [done|]. split; constructor.
  - apply Forall_cons in HS as [Hs HS]. specialize (IH HS). destruct (decide _) as [[El ->]|Hn].
    + intros HP. destruct (IH _ _ _ HP) as [H1 H2 H3 H4]. split; [eapply rising_ge; [exact H1|lia]|done|done|]. rewrite H4. cbn. destruct t as [w|l kk]; [inversion Ht|]. cbn in El. subst l. done.
    + destruct (ptb_places P k t) as [p k1] eqn:E1. destruct (kid_places (ptb_places P) keep k1 ks) as [q k2] eqn:E2. intros [= <- <-]. destruct (Hs _ _ _ _ E1) as [H1 H2 H3 H4]. destruct (IH _ _ _ E2) as [I1 I2 I3 I4].
      split; [by eapply rising_app|by apply nested_app|by apply all_below_app|]. rewrite place_words_app, H4, I4. cbn [map concat]. f_equal. destruct keep; [done|]. destruct t as [w|l kk]; [inversion Ht|]. cbn. rewrite decide_False; [done|]. intros ->. by apply Hn.
Qed.
Lemma phrase_shape P k k' kd p ws : (∃ l c, kd = PkPhrase l c) → shape (NInt k :: P) (k + 1) k' p ws → shape P k k' ((P, NInt k, kd) :: p) ws.
Proof.
  intros (l & c & ->) [H1 H2 H3 H4]. split.
  - apply (rising_app _ (k + 1) _ [_]); [apply rising_one|done].
  - intros path n q [[= -> -> ->]|H]%elem_of_cons; [by left|]. right. destruct (H2 _ _ _ H) as [->|(q' & rest & p' & -> & Hq)].
    + eexists _, _, _. split; [done|left].
    + exists q', rest, p'. split; [done|by right].
  - intros path n q [[= -> -> ->]|H]%elem_of_cons; [by exists []|]. destruct (H3 _ _ _ H) as [pre ->]. exists (pre ++ [NInt k]). by rewrite <-app_assoc.
  - done.
Qed.
Lemma tree_shape_ok t : ptb_tree t → tree_shape t.
Proof.
  induction t as [w|l ks IH] using ntree_ind'; intros Ht; [inversion Ht|]. intros P k ps k' HP.
  inversion Ht as [tag w Hw|l' ks' HF]; subst.
  - cbn in HP. injection HP as <- <-. split; [eapply rising_le; [apply rising_one|lia]| | |done].
    + intros path n p [= -> -> ->]%elem_of_list_singleton. by left.
    + intros path n p [= -> -> ->]%elem_of_list_singleton. by exists [].
  - rewrite ptb_places_phrase in HP by done. destruct (kid_places _ false (k + 1) ks) as [p k1] eqn:EK. injection HP as <- <-.
    apply phrase_shape; [by eexists _, _|]. apply (kids_shape _ false ks HF); [|done].
    clear -IH HF. induction HF as [|t ks Ht HF IH']; [constructor|]. apply Forall_cons in IH as [H1 H2]. constructor; [by apply H1|by apply IH'].
Qed.
Lemma sentence_shape keep root t k ps k' : ptb_sentence_tree t → sentence_places keep root k t = (ps, k') → shape [root] k k' ps (sentence_words keep t) ∧ ∃ l p, ps = ([root], NInt k, PkPhrase l None) :: p ∧ all_below [NInt k; root] p.
Proof.
  intros (l & ks & -> & HF). cbn. destruct (kid_places _ keep (k + 1) ks) as [p k1] eqn:EK. intros [= <- <-].
  assert (HS : shape [NInt k; root] (k + 1) k1 p (concat (map (if keep then terminals_below else terminals) ks))).
  { apply (kids_shape _ keep ks HF); [|done]. eapply Forall_impl; [exact HF|]. intros t Ht. by apply tree_shape_ok. }
  split; [apply phrase_shape; [by eexists _, _|done]|]. exists l, p. split; [done|]. apply HS.
Qed.
(** documents: the places of each sentence *)
Fixpoint split_places (keep : bool) (root : nid) (k : Z) (ts : list ntree) : list (Z * list place) :=
  match ts with [] => [] | t :: ts => (k, (sentence_places keep root k t).1) :: split_places keep root (sentence_places keep root k t).2 ts end.
Lemma doc_split keep root ts : ∀ k, doc_places keep root k ts = ((λ x, NInt x.1) <$> split_places keep root k ts, concat (snd <$> split_places keep root k ts)).
Proof.
  induction ts as [|t ts IH]; intros k; [done|]. cbn [doc_places split_places]. destruct (sentence_places keep root k t) as [p k1]. rewrite IH. done.
Qed.
Lemma doc_shape keep root ts : Forall ptb_sentence_tree ts → ∀ k, ∃ k', shape [root] k k' (doc_places keep root k ts).2 (concat (map (sentence_words keep) ts)).
Proof.
  intros HF. induction HF as [|t ts Ht HF IH]; intros k.
  - exists k. split; [|by intros ? ? ? ?%elem_of_nil..|done]. split; [lia|]. exists []. split; [done|]. split; constructor.
  - cbn [doc_places]. destruct (sentence_places keep root k t) as [p k1] eqn:EP. destruct (IH k1) as [k2 [I1 I2 I3 I4]]. destruct (doc_places keep root k1 ts) as [s q]. destruct (sentence_shape _ _ _ _ _ _ Ht EP) as [[H1 H2 H3 H4] _].
    exists k2. split; [by eapply rising_app|by apply nested_app|by apply all_below_app|]. cbn [snd]. rewrite place_words_app, H4. cbn [snd] in I4. rewrite I4. done.
Qed.

(** ** Spans *)
Lemma int_before i j : (0 ≤ i < j)%Z → nat_cmp (NInt i) (NInt j) = Lt.
Proof.
  intros H. change (nat_cmp (NStr ("" +:+ str_Z i)) (NStr ("" +:+ str_Z j)) = Lt). apply token_id_lt; [|done]. intros c Hc. discriminate Hc.
Qed.
Section spans.
  Context (name ns : string) (keep : bool) (ts : list ntree) (g : graph) (HF : Forall ptb_sentence_tree ts).
  Context (HS : state name ns (NInt 0) (doc_places keep (NInt 0) 1 ts).1 g
    ((NInt 0, [ns], [("label", VStr (ns +:+ ":root_node"))]) :: (place_node ns <$> (doc_places keep (NInt 0) 1 ts).2))
    (place_edge ns (NInt 0) <$> (doc_places keep (NInt 0) 1 ts).2) (place_tokens (doc_places keep (NInt 0) 1 ts).2)).
  Let ps := (doc_places keep (NInt 0) 1 ts).2.
  Lemma ps_rising : ∃ k', rising 1 k' ps.
  Proof. destruct (doc_shape keep (NInt 0) ts HF 1) as [k' [H _ _ _]]. by exists k'. Qed.
  Lemma ps_NoDup : NoDup ((λ x : place, x.1.2) <$> ps).
  Proof.
    destruct ps_rising as (k' & _ & zs & E & HSo & _). change (NoDup (place_ids ps)). rewrite E. clear -HSo. induction HSo as [|z zs HSo IH HF]; [apply NoDup_nil_2|]. rewrite fmap_cons. apply NoDup_cons. split; [|done].
    intros Hin. apply elem_of_list_fmap in Hin as (y & [= ->] & Hy). rewrite Forall_forall in HF. specialize (HF y Hy). lia.
  Qed.
  Lemma ps_root : NInt 0 ∉ (λ x : place, x.1.2) <$> ps.
  Proof. intros Hin. apply elem_of_list_fmap in Hin as ([[path n] p] & E & Hin). destruct ps_rising as [k' HR]. destruct (rising_elem _ _ _ _ _ _ HR Hin) as (j & -> & Hj). cbn in E. injection E as <-. lia. Qed.
  Lemma ps_nested : nested_in (NInt 0) ps.
  Proof.
    destruct (doc_shape keep (NInt 0) ts HF 1) as [k' [_ H _ _]]. intros path n p Hin. destruct (H _ _ _ Hin) as [->|(q & rest & p' & -> & Hq)]; [exists (NInt 0), []; by split; [|left]|]. exists q, rest. split; [done|]. right. by exists p'.
  Qed.
  Lemma place_is path n p : (path, n, p) ∈ ps → ∃ a, node_attrs g n = Some a ∧ attrs_are a (place_node ns (path, n, p)).1.2 (place_node ns (path, n, p)).2.
  Proof.
    intros H. destruct (b_nodes _ _ _ (s_built _ _ _ _ _ _ _ _ HS)) as [_ HN]. apply Forall_cons in HN as [_ HN]. rewrite Forall_forall in HN.
    destruct (HN (place_node ns (path, n, p))) as (a & Ha & Hb); [by apply elem_of_list_fmap_1|]. exists a. split; [|done]. by destruct p as [w t|l [c|]].
  Qed.
  Lemma key_label k : ns +:+ String ":" k ≠ "label".
  Proof.
    intros H. apply (f_equal chs) in H. rewrite chs_app in H. assert (HI : ":"%char ∈ chs "label") by (rewrite <-H; apply elem_of_app; right; left).
    apply elem_of_list_In in HI. vm_compute in HI. naive_solver.
  Qed.
  Lemma place_token path n w tag : (path, n, PkToken w tag) ∈ ps → token_is g n w.
  Proof.
    intros H. destruct (place_is _ _ _ H) as (a & Ha & _ & Hk). exists a. split; [done|]. rewrite (s_ns _ _ _ _ _ _ _ _ HS), Hk by apply key_layers. cbn [place_node snd dget]. rewrite decide_False by (apply key_label). by rewrite decide_True.
  Qed.
  Lemma nodes_ps n : n ∈ nodes g → n = NInt 0 ∨ ∃ path p, (path, n, p) ∈ ps.
  Proof.
    destruct (b_nodes _ _ _ (s_built _ _ _ _ _ _ _ _ HS)) as [HN _]. rewrite HN. rewrite fmap_cons. intros [->|H]%elem_of_cons; [by left|]. right.
    apply elem_of_list_fmap in H as (x & -> & H). apply elem_of_list_fmap in H as ([[path n] p] & -> & H). exists path, p. by destruct p as [w t|l [c|]].
  Qed.
  Lemma ps_words t : is_token g t ↔ ∃ path p, (path, t, p) ∈ ps ∧ is_word_place p = true.
  Proof.
    split.
    - intros (a & Ha & Hk). rewrite (s_ns _ _ _ _ _ _ _ _ HS) in Hk. assert (Ht : t ∈ nodes g) by (apply node_mem; by exists a). destruct (nodes_ps t Ht) as [->|(path & p & H)].
      + exfalso. destruct (b_nodes _ _ _ (s_built _ _ _ _ _ _ _ _ HS)) as [_ HN]. apply Forall_cons in HN as [(b & Hb & _ & Hkb) _]. cbn [fst] in Hb. rewrite Ha in Hb. injection Hb as <-. rewrite Hkb in Hk by apply key_layers. cbn [snd dget] in Hk. rewrite decide_False in Hk by (apply key_label). by destruct Hk.
      + exists path, p. split; [done|]. destruct (place_is _ _ _ H) as (b & Hb & _ & Hkb). rewrite Ha in Hb. injection Hb as <-. destruct p as [w tag|l [c|]]; [done|..]; exfalso; rewrite Hkb in Hk by apply key_layers; cbn [place_node snd dget] in Hk; rewrite decide_False in Hk by (apply key_label).
        * rewrite decide_False in Hk by (apply key_ne; done). by destruct Hk.
        * by destruct Hk.
    - intros (path & [w tag|] & H & Hw); [|done]. destruct (place_token _ _ _ _ H) as (a & Ha & Hk). exists a. split; [done|]. rewrite Hk. by eexists.
  Qed.
  Lemma ps_sorted n : StronglySorted id_before (word_ids_in ps is_word_place n).
  Proof.
    destruct ps_rising as (k' & _ & zs & E & HSo & HB). unfold word_ids_in. clear HS. revert zs E HSo HB. induction ps as [|[[path m] p] l IH]; intros zs E HSo HB; [constructor|].
    unfold place_ids in E. rewrite fmap_cons in E. destruct zs as [|z zs]; [done|]. rewrite fmap_cons in E. injection E as -> E. inversion HSo as [|? ? HSo' HFz]; subst. apply Forall_cons in HB as [Hz HB].
    specialize (IH zs E HSo' HB). rewrite filter_cons. destruct (decide _); [|done]. rewrite fmap_cons. constructor; [done|]. apply Forall_forall. intros x Hx. right.
    apply elem_of_list_fmap in Hx as ([[path' n'] p'] & -> & Hx). apply elem_of_list_filter in Hx as [_ Hx]. apply (elem_of_list_fmap_1 (λ x : place, x.1.2) l) in Hx. unfold place_ids in E. rewrite E in Hx. apply elem_of_list_fmap in Hx as (y & Ey & Hy). cbn in Ey |- *. rewrite Ey.
    rewrite Forall_forall in HFz. specialize (HFz y Hy). apply int_before. lia.
  Qed.
  Theorem ptb_spans n : n ∈ nodes g → ∀ k, length (nodes g) < k → get_span k g n = Ok (word_ids_in ps is_word_place n).
  Proof.
    intros Hn k Hk. apply (parts_span (NInt 0) ps is_word_place (λ _, [ns]) (λ _, "dominates") g); [apply (b_inv _ _ _ (s_built _ _ _ _ _ _ _ _ HS))|exact ps_nested|exact ps_NoDup|exact ps_root|exact (b_edges _ _ _ (s_built _ _ _ _ _ _ _ _ HS))|by right|exact ps_words|done|apply ps_sorted|done].
  Qed.
End spans.
(** the words below a sentence *)
Lemma word_ids_app l l' n : word_ids_in (l ++ l') is_word_place n = word_ids_in l is_word_place n ++ word_ids_in l' is_word_place n.
Proof. unfold word_ids_in. by rewrite filter_app, fmap_app. Qed.
Lemma word_ids_all l n : (∀ path m p, (path, m, p) ∈ l → n ∈ path) → word_ids_in l is_word_place n = place_tokens l.
Proof.
  unfold word_ids_in, place_tokens. induction l as [|[[path m] p] l IH]; intros H; [done|]. rewrite !filter_cons. specialize (IH (λ a b c Hin, H a b c (elem_of_list_further _ _ _ Hin))).
  destruct (decide (is_word_place _ = true)) as [Hw|Hw]; [rewrite decide_True by (split; [done|right; eapply H; left])|rewrite decide_False by (by intros [? _])]; [|done]. rewrite !fmap_cons. by rewrite IH.
Qed.
Lemma path_elem root l : nested_below [root] l → ∀ path n p m, (path, n, p) ∈ l → m ∈ path → m = root ∨ ∃ path' p', (path', m, p') ∈ l.
Proof.
  intros HN path. induction path as [|q rest IH]; intros n p m Hin Hm; [by apply elem_of_nil in Hm|]. destruct (HN _ _ _ Hin) as [[= -> ->]|(q' & rest' & p' & [= <- <-] & Hq)].
  - apply elem_of_list_singleton in Hm. by left.
  - apply elem_of_cons in Hm as [->|Hm]; [right; by exists rest, p'|by eapply IH].
Qed.
Lemma word_ids_none root l a b j : nested_below [root] l → rising a b l → NInt j ≠ root → (j < a ∨ b ≤ j)%Z → word_ids_in l is_word_place (NInt j) = [].
Proof.
  intros HN HR Hr Hj. unfold word_ids_in. assert (E : filter (λ x : place, is_word_place x.2 = true ∧ (NInt j = x.1.2 ∨ NInt j ∈ x.1.1)) l = []); [|by rewrite E].
  destruct (filter _ l) as [|[[path n] p] f] eqn:Ef; [done|]. exfalso. assert (Hin : (path, n, p) ∈ filter (λ x : place, is_word_place x.2 = true ∧ (NInt j = x.1.2 ∨ NInt j ∈ x.1.1)) l) by (rewrite Ef; left).
  apply elem_of_list_filter in Hin as [[_ Hx] Hin]. cbn in Hx. assert (Hno : ∀ path' p', (path', NInt j, p') ∉ l) by (intros path' p' H'; destruct (rising_elem _ _ _ _ _ _ HR H') as (z & [= ->] & Hz); lia).
  destruct Hx as [<-|Hx]; [by apply Hno in Hin|]. destruct (path_elem _ _ HN _ _ _ _ Hin Hx) as [?|(path' & p' & H')]; [done|by apply Hno in H'].
Qed.
Lemma split_bounds keep root ts : Forall ptb_sentence_tree ts → ∀ k x, x ∈ split_places keep root k ts → (k ≤ x.1)%Z.
Proof.
  intros HF. induction HF as [|t ts Ht HF IH]; intros k x; cbn [split_places]; [by intros ?%elem_of_nil|]. intros [->|H]%elem_of_cons; [cbn; lia|]. apply IH in H.
  destruct (sentence_places keep root k t) as [p k1] eqn:EP. destruct (sentence_shape _ _ _ _ _ _ Ht EP) as [[[? _] _ _ _] _]. cbn in H. lia.
Qed.
Lemma split_spans keep ts : Forall ptb_sentence_tree ts → ∀ k, (1 ≤ k)%Z → ∀ x, x ∈ split_places keep (NInt 0) k ts →
  word_ids_in (doc_places keep (NInt 0) k ts).2 is_word_place (NInt x.1) = place_tokens x.2.
Proof.
  intros HF. induction HF as [|t ts Ht HF IH]; intros k Hk x; cbn [split_places]; [by intros ?%elem_of_nil|]. cbn [doc_places].
  destruct (sentence_places keep (NInt 0) k t) as [p k1] eqn:EP. destruct (sentence_shape _ _ _ _ _ _ Ht EP) as [[H1 H2 H3 H4] (l & p' & Ep & Hb)]. destruct (doc_shape keep (NInt 0) ts HF k1) as [k2 [I1 I2 I3 I4]]. 
  assert (Hk1 : (k < k1)%Z). { destruct (rising_elem _ _ _ [NInt 0] (NInt k) (PkPhrase l None) H1) as (j & [= <-] & Hj); [rewrite Ep; left|lia]. }
  specialize (IH k1 ltac:(lia)). pose proof (split_bounds keep (NInt 0) ts HF k1) as HB. destruct (doc_places keep (NInt 0) k1 ts) as [s q]. cbn [fst snd] in *. rewrite word_ids_app. intros [->|H]%elem_of_cons.
  - cbn [fst snd]. rewrite (word_ids_none (NInt 0) q k1 k2); [|done|done|intros [= E]; lia|lia]. rewrite app_nil_r, Ep.
    change (word_ids_in (([NInt 0], NInt k, PkPhrase l None) :: p') is_word_place (NInt k)) with (word_ids_in p' is_word_place (NInt k)). change (place_tokens (([NInt 0], NInt k, PkPhrase l None) :: p')) with (place_tokens p').
    apply word_ids_all. intros path m pp Hin. destruct (Hb _ _ _ Hin) as [pre ->]. apply elem_of_app. right. left.
  - specialize (HB x H). rewrite (word_ids_none (NInt 0) p k k1); [|done|done|intros [= E]; lia|lia]. by apply IH.
Qed.
Lemma split_words keep ts : Forall ptb_sentence_tree ts → ∀ k, Forall2 (λ x t, place_words x.2 = sentence_words keep t) (split_places keep (NInt 0) k ts) ts.
Proof.
  intros HF. induction HF as [|t ts Ht HF IH]; intros k; cbn [split_places]; [constructor|]. apply Forall2_cons. split; [|done]. destruct (sentence_places keep (NInt 0) k t) as [p k1] eqn:EP. by destruct (sentence_shape _ _ _ _ _ _ Ht EP) as [[_ _ _ ?] _].
Qed.
Lemma tokens_are g l : (∀ path n w tag, (path, n, PkToken w tag) ∈ l → token_is g n w) → Forall2 (token_is g) (place_tokens l) (place_words l).
Proof.
  induction l as [|[[path n] [w tag|la c]] l IH]; intros H; [constructor| |].
  - unfold place_tokens. rewrite filter_cons_True by done. rewrite fmap_cons. change (place_words ((path, n, PkToken w tag) :: l)) with (w :: place_words l). apply Forall2_cons. split; [eapply H; left|]. apply IH. intros. eapply H. by right.
  - unfold place_tokens. rewrite filter_cons_False by done. change (place_words ((path, n, PkPhrase la c) :: l)) with (place_words l). apply IH. intros. eapply H. by right.
Qed.
