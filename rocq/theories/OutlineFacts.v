(** * OutlineFacts: importing an outline part by part *)
From Verif Require Import PyBase DocGraph SpecGraph DocGraphFacts History Effects RelabelFacts MergeFacts AllHist MergeAll GraphThms SpecImport ImportFacts StrNum SpecQuery SpecOutline.

Notation walked := (list (list nid * part)).
Notation parts := (list (list nid * nid * part)).
Definition wcount (l : walked) : Z := Z.of_nat (length (part_words l)).
Lemma part_words_app l l' : part_words (l ++ l') = part_words l ++ part_words l'.
Proof. apply omap_app. Qed.
Lemma wcount_app l l' : wcount (l ++ l') = (wcount l + wcount l')%Z.
Proof. unfold wcount. rewrite part_words_app, app_length. lia. Qed.
Lemma wcount_word p w a l : wcount ((p, PWord w a) :: l) = (1 + wcount l)%Z.
Proof. unfold wcount. change (part_words ((p, PWord w a) :: l)) with (w :: part_words l). cbn [length]. lia. Qed.
Lemma wcount_node p i la l : wcount ((p, PNode i la) :: l) = wcount l.
Proof. done. Qed.
Lemma wcount_nonneg l : (0 ≤ wcount l)%Z.
Proof. unfold wcount. lia. Qed.
Lemma number_app prefix k l l' : number prefix k (l ++ l') = number prefix k l ++ number prefix (k + wcount l) l'.
Proof.
  revert k. induction l as [|[path [w a|i la]] l IH]; intros k; cbn [number app].
  - f_equal. unfold wcount. cbn. lia.
  - rewrite IH. rewrite wcount_word. do 3 f_equal. lia.
  - by rewrite IH.
Qed.
Definition word_ids (l : parts) : list nid := (λ x, x.1.2) <$> filter (λ x, is_word_part x.2 = true) l.
Lemma word_ids_app l l' : word_ids (l ++ l') = word_ids l ++ word_ids l'.
Proof. unfold word_ids. by rewrite filter_app, fmap_app. Qed.
Lemma number_word_id prefix k l path n w a : (path, n, PWord w a) ∈ number prefix k l → ∃ i, (k ≤ i < k + wcount l)%Z ∧ n = NStr (prefix +:+ str_Z i).
Proof.
  revert k. induction l as [|[p [w' a'|i la]] l IH]; intros k; cbn [number].
  - by intros ?%elem_of_nil.
  - intros [[= -> -> -> ->]|H]%elem_of_cons; [exists k; rewrite wcount_word; pose proof (wcount_nonneg l); split; [lia|done]|]. destruct (IH _ H) as (j & Hj & ->). exists j. split; [|done]. rewrite wcount_word. lia.
  - rewrite wcount_node. intros [[=]|H]%elem_of_cons. by apply IH.
Qed.
Lemma prefix_id_inj prefix i j : NStr (prefix +:+ str_Z i) = NStr (prefix +:+ str_Z j) → i = j.
Proof. intros [= H]. apply (f_equal chs) in H. rewrite !chs_app in H. apply app_inv_head in H. apply chs_inj, str_Z_inj in H. done. Qed.

Lemma in_ids (x : node_info) N : x ∈ N → x.1.1 ∈ ids N.
Proof. intros H. apply (elem_of_list_fmap_1 (λ x : node_info, x.1.1) N x H). Qed.
Record noted (ns : string) (base : list node_info) (ps : parts) (N : list node_info) : Prop := {
  nt_ids : ∀ m, m ∈ ids N ↔ m ∈ ids base ∨ ∃ path p, (path, m, p) ∈ ps;
  nt_layers : ∀ x, x ∈ N → ∀ y, y ∈ x.1.2 ↔ (∃ l b, (x.1.1, l, b) ∈ base ∧ y ∈ l) ∨ ∃ path p, (path, x.1.1, p) ∈ ps ∧ y ∈ part_layers ns p;
  nt_words : ∀ x path w extra, x ∈ N → (path, x.1.1, PWord w extra) ∈ ps → ∀ key, dget key x.2 = dget key (dset (ns +:+ ":token") (VStr w) extra);
  nt_others : ∀ x, x ∈ N → (∀ path w extra, (path, x.1.1, PWord w extra) ∉ ps) → ∀ key, dget key x.2 = None;
}.
Lemma elem_note x n l a N : x ∈ note n l a N → (x.1.1 ≠ n ∧ x ∈ N) ∨ (x = (n, l, a) ∧ n ∉ ids N) ∨ ∃ y, y ∈ N ∧ y.1.1 = n ∧ x = merge_info l a y.
Proof.
  unfold note. destruct (decide (n ∈ ids N)) as [H|H].
  - intros (y & -> & Hy)%elem_of_list_fmap. destruct (decide (y.1.1 = n)) as [E|E]; [|by left]. right. right. by exists y.
  - intros [Hx|[= ->]%elem_of_list_singleton]%elem_of_app; [|naive_solver]. left. split; [|done]. intros <-. apply H. by apply in_ids.
Qed.
Definition part_attrs (ns : string) (p : part) : attrs := match p with PWord w extra => dset (ns +:+ ":token") (VStr w) extra | PNode _ _ => [] end.
Lemma noted_part ns base ps N path n p a : noted ns base ps N → (∀ key, dget key a = dget key (part_attrs ns p)) →
  (is_word_part p = true → ∀ path' w extra, (path', n, PWord w extra) ∉ ps) →
  noted ns base (ps ++ [(path, n, p)]) (note n (part_layers ns p) a N).
Proof.
  intros [H1 H2 H3 H4] Ha Hf. 
  assert (Hin : ∀ path' m q, (path', m, q) ∈ ps ++ [(path, n, p)] ↔ (path', m, q) ∈ ps ∨ path' = path ∧ m = n ∧ q = p).
  { intros. rewrite elem_of_app, elem_of_list_singleton. naive_solver. }
  assert (Hd : ∀ key d, dget key (dupdate d a) = match dget key (part_attrs ns p) with Some v => Some v | None => dget key d end) by (intros; by rewrite dget_dupdate, Ha).
  split.
  - intros m. rewrite ids_note. setoid_rewrite Hin. destruct (decide (n ∈ ids N)) as [Hn|Hn]; [|rewrite elem_of_app, elem_of_list_singleton]; rewrite !H1; [|naive_solver].
    apply H1 in Hn. naive_solver.
  - intros x Hx y. setoid_rewrite Hin. apply elem_note in Hx as [[Hne Hx]|[[-> Hn]|(z & Hz & <- & ->)]].
    + rewrite H2 by done. naive_solver.
    + cbn. split; [naive_solver|]. rewrite H1 in Hn. intros [(l & b & Hb & _)|(path' & q & [Hq|(-> & _ & ->)] & Hy)]; [|naive_solver|done].
      exfalso. apply Hn. left. by apply (in_ids (n, l, b)).
    + cbn. rewrite elem_of_app, H2 by done. naive_solver.
  - intros x path' w extra Hx. rewrite Hin. intros Hw key. apply elem_note in Hx as [[Hne Hx]|[[-> Hn]|(z & Hz & <- & ->)]].
    + destruct Hw as [Hw|(_ & ? & _)]; [|done]. by eapply H3.
    + cbn in *. destruct Hw as [Hw|(_ & _ & <-)]; [exfalso; apply Hn, H1; naive_solver|]. apply Ha.
    + cbn in *. rewrite Hd. destruct Hw as [Hw|(_ & _ & <-)].
      * destruct p as [w' e'|i l]; [exfalso; by eapply Hf|]. cbn. by eapply H3.
      * cbn. destruct (dget key (dset _ _ _)) eqn:E; [done|]. apply (H4 z Hz). by apply Hf.
  - intros x Hx Hw key. apply elem_note in Hx as [[Hne Hx]|[[-> Hn]|(z & Hz & <- & ->)]].
    + apply (H4 x Hx). intros path' w extra Hq. apply (Hw path' w extra), Hin. by left.
    + cbn. rewrite Ha. destruct p as [w' e'|i l]; [|done]. exfalso. apply (Hw path w' e'), Hin. by right.
    + cbn in *. rewrite Hd. destruct p as [w' e'|i l]; [exfalso; apply (Hw path w' e'), Hin; by right|]. cbn. apply (H4 z Hz). intros path' w extra Hq. apply (Hw path' w extra), Hin. by left.
Qed.
Lemma noted_init ns base : NoDup (ids base) → (∀ x, x ∈ base → x.2 = []) → noted ns base [] base.
Proof.
  intros ND H. split.
  - intros m. split; [by left|]. intros [?|(? & ? & []%elem_of_nil)]. done.
  - intros [[n l] b] Hx y. cbn. split; [left; by exists l, b|]. intros [(l' & b' & Hx' & Hy)|(? & ? & []%elem_of_nil & _)].
    assert ((n, l, b) = (n, l', b')) as [= -> ->]; [|done]. clear -ND Hx Hx'. induction base as [|z base IH]; [by apply elem_of_nil in Hx|].
    apply NoDup_cons in ND as [Hz ND]. apply elem_of_cons in Hx as [<-|Hx], Hx' as [E|Hx'].
    + done.
    + exfalso. apply Hz. by apply (in_ids (n, l', b')).
    + subst z. exfalso. apply Hz. by apply (in_ids (n, l, b)).
    + by apply IH.
  - intros ? ? ? ? _ []%elem_of_nil.
  - intros x Hx _ key. by rewrite H.
Qed.

(** ** The state of an import *)
Record importing (name : string) (st : style) (base : list node_info) (ns : string) (root : nid) (wk : walked) (g : graph) : Prop := {
  ig_built : ∃ N, built g N (part_edge st root <$> number (s_prefix st) 1 wk) ∧ noted ns base (number (s_prefix st) 1 wk) N;
  ig_name : g_name g = name;
  ig_ns : g_ns g = ns;
  ig_root : g_root g = root;
  ig_tokens : g_tokens g = word_ids (number (s_prefix st) 1 wk);
}.
Definition present (st : style) (base : list node_info) (wk : walked) (n : nid) : Prop := n ∈ ids base ∨ ∃ path p, (path, n, p) ∈ number (s_prefix st) 1 wk.
Lemma present_app st base wk wk' n : present st base wk n → present st base (wk ++ wk') n.
Proof. intros [?|(path & p & H)]; [by left|right]. exists path, p. rewrite number_app. apply elem_of_app. by left. Qed.
Lemma importing_init name st base ns root g : built g base [] → (∀ x, x ∈ base → x.2 = []) → g_name g = name → g_ns g = ns → g_root g = root → g_tokens g = [] → importing name st base ns root [] g.
Proof. intros HB Hb E0 E1 E2 E3. split; [|done|done|done|done]. exists base. split; [done|]. apply noted_init; [by eapply built_NoDup|done]. Qed.
Lemma importing_node name st base ns root wk g i layers parent rest : importing name st base ns root wk g → present st base wk parent → layers ≠ [] → s_node_edge st ≠ [] →
  ∃ g1 g2, add_node g (NStr i) (VSet layers) None [] = (g1, None) ∧ g_ns g1 = ns ∧
    add_edge g1 parent (NStr i) (VSet (s_node_edge st)) None None [("edge_type", VStr dominates)] = (g2, None) ∧
    importing name st base ns root (wk ++ [(parent :: rest, PNode i layers)]) g2 ∧ present st base (wk ++ [(parent :: rest, PNode i layers)]) (NStr i).
Proof.
  intros [(N & HB & HN) Em En Er Et] Hp Hl Hs.
  destruct (built_node g N _ (NStr i) (VSet layers) None [] layers HB) as (g1 & E1 & HB1 & HD1); [by left|]. rewrite E1.
  assert (HN1 : noted ns base (number (s_prefix st) 1 wk ++ [(parent :: rest, NStr i, PNode i layers)]) (note (NStr i) (part_layers ns (PNode i layers)) (given_attrs None []) N)).
  { apply noted_part; done. }
  set (N1 := note _ _ _ _) in *. change (note (NStr i) layers (given_attrs None []) N) with N1 in HB1.
  destruct (built_edge_in g1 N1 _ parent (NStr i) (VSet (s_node_edge st)) None [("edge_type", VStr dominates)] (s_node_edge st) HB1) as (g2 & E2 & HB2 & HD2).
  - apply (nt_ids _ _ _ _ HN1). destruct Hp as [?|(path & p & Hp)]; [by left|right]. exists path, p. apply elem_of_app. by left.
  - apply (nt_ids _ _ _ _ HN1). right. eexists _, _. apply elem_of_app. right. by apply elem_of_list_singleton.
  - by left.
  - exists g1, g2. split; [done|]. split; [destruct HD1 as (_ & -> & _); done|]. split; [done|].
    assert (EQ : number (s_prefix st) 1 (wk ++ [(parent :: rest, PNode i layers)]) = number (s_prefix st) 1 wk ++ [(parent :: rest, NStr i, PNode i layers)]) by (by rewrite number_app).
    split.
    + split.
      * exists N1. rewrite EQ. split; [|done]. rewrite fmap_app. exact HB2.
      * destruct HD1 as (H1 & _), HD2 as (H2 & _). congruence.
      * destruct HD1 as (_ & H1 & _), HD2 as (_ & H2 & _). congruence.
      * destruct HD1 as (_ & _ & H1 & _), HD2 as (_ & _ & H2 & _). congruence.
      * destruct HD1 as (_ & _ & _ & H1 & _), HD2 as (_ & _ & _ & H2 & _). rewrite EQ, word_ids_app, H2, H1, Et. by rewrite app_nil_r.
    + right. exists (parent :: rest), (PNode i layers). rewrite EQ. apply elem_of_app. right. by apply elem_of_list_singleton.
Qed.
Lemma importing_word name st base ns root wk g w extra ad parent rest : importing name st base ns root wk g → present st base wk parent → s_word_edge st ≠ [] →
  (∀ key, dget key ad = dget key (dset (ns +:+ ":token") (VStr w) extra)) →
  let t := NStr (s_prefix st +:+ str_Z (1 + wcount wk)) in
  ∃ g1, add_node g t (VSet [ns; ns +:+ ":token"]) (Some ad) [] = (g1, None) ∧ g_ns g1 = ns ∧ g_root g1 = root ∧ g_tokens g1 = g_tokens g ∧
    ∀ T, ∃ g2, add_edge (set_tokens T g1) parent t (VSet (s_word_edge st)) None None [("edge_type", VStr spans)] = (g2, None) ∧ g_tokens g2 = T ∧ g_name g2 = name ∧ g_ns g2 = ns ∧ g_root g2 = root ∧
    ∀ g3, g_node g3 = g_node g2 → g_succ g3 = g_succ g2 → g_pred g3 = g_pred g2 → g_name g3 = name → g_ns g3 = ns → g_root g3 = root → g_tokens g3 = g_tokens g ++ [t] →
    importing name st base ns root (wk ++ [(parent :: rest, PWord w extra)]) g3.
Proof.
  intros [(N & HB & HN) Em En Er Et] Hp Hs Ha t.
  destruct (built_node g N _ t (VSet [ns; ns +:+ ":token"]) (Some ad) [] [ns; ns +:+ ":token"] HB) as (g1 & E1 & HB1 & HD1); [by left|]. rewrite E1.
  assert (HN1 : noted ns base (number (s_prefix st) 1 wk ++ [(parent :: rest, t, PWord w extra)]) (note t (part_layers ns (PWord w extra)) (given_attrs (Some ad) []) N)).
  { apply noted_part; [done| |].
    - intros key. unfold given_attrs. rewrite dget_dupdate. cbn [dget default]. apply Ha.
    - intros _ path' w' e' Hw. apply number_word_id in Hw as (i & Hi & E). apply prefix_id_inj in E. lia. }
  set (N1 := note _ _ _ _) in *. change (note t [ns; ns +:+ ":token"] (given_attrs (Some ad) []) N) with N1 in HB1.
  exists g1. split; [done|]. split; [destruct HD1 as (_ & -> & _); done|]. split; [destruct HD1 as (_ & _ & -> & _); done|]. split; [destruct HD1 as (_ & _ & _ & -> & _); done|].
  intros T. pose proof (built_tokens _ _ _ T HB1) as HB1'.
  destruct (built_edge_in (set_tokens T g1) N1 _ parent t (VSet (s_word_edge st)) None [("edge_type", VStr spans)] (s_word_edge st) HB1') as (g2 & E2 & HB2 & HD2).
  - apply (nt_ids _ _ _ _ HN1). destruct Hp as [?|(path & p & Hp)]; [by left|right]. exists path, p. apply elem_of_app. by left.
  - apply (nt_ids _ _ _ _ HN1). right. eexists _, _. apply elem_of_app. right. by apply elem_of_list_singleton.
  - by left.
  - exists g2. split; [done|]. 
    assert (EQ : number (s_prefix st) 1 (wk ++ [(parent :: rest, PWord w extra)]) = number (s_prefix st) 1 wk ++ [(parent :: rest, t, PWord w extra)]) by (by rewrite number_app).
    destruct HD1 as (H0 & H1 & H2 & _), HD2 as (H2' & H3 & H4 & H5 & _). cbn in H2', H3, H4, H5. split; [done|]. split; [congruence|]. split; [congruence|]. split; [congruence|].
    intros g3 F1 F2 F3 F3' F4 F5 F6. split; [|done|done|done|].
    + exists N1. rewrite EQ. split; [|done]. eapply built_ext; [exact F1|exact F2|exact F3|]. rewrite fmap_app. exact HB2.
    + rewrite F6, EQ, word_ids_app, Et. done.
Qed.
Lemma importing_imported name st base ns root wk g : importing name st base ns root wk g → imported st base (number (s_prefix st) 1 wk) g.
Proof.
  intros [(N & HB & [H1 H2 H3 H4]) _ En Er Et]. pose proof (built_NoDup _ _ _ HB) as ND. destruct HB as [HI [HN HF] HE]. change (nodes g = ids N) in HN.
  assert (HX : ∀ n a, node_attrs g n = Some a → ∃ x, x ∈ N ∧ x.1.1 = n ∧ attrs_are a x.1.2 x.2).
  { intros n a Ha. assert (Hn : n ∈ ids N) by (rewrite <-HN; apply node_mem; by exists a). apply elem_of_list_fmap in Hn as (x & -> & Hx). exists x. split; [done|]. split; [done|].
    rewrite Forall_forall in HF. destruct (HF x Hx) as (b & Hb & ?). by rewrite Ha in Hb; injection Hb as <-. }
  split.
  - done.
  - intros n. rewrite HN. apply H1.
  - intros n a Ha y. rewrite En. destruct (HX n a Ha) as (x & Hx & <- & HL & _). rewrite HL. by apply H2.
  - intros path n w extra Hw. rewrite En. assert (Hn : n ∈ ids N) by (apply H1; right; by eexists _, _). apply elem_of_list_fmap in Hn as (x & -> & Hx).
    rewrite Forall_forall in HF. destruct (HF x Hx) as (b & Hb & _ & HK). exists b. split; [done|]. intros key Hkey. rewrite HK by done. by eapply H3.
  - intros n a Ha Hw key Hkey. destruct (HX n a Ha) as (x & Hx & <- & _ & HK). rewrite HK by done. by apply H4.
  - rewrite Er. done.
Qed.
