(** * SaltFacts: reading SaltXMI elements (proofs) *)
From Verif Require Import PyBase DocGraph Relabel StrNum Query Text TextFacts SpanFacts Rst Nltk ConllRead Conano ConanoFacts Decour Conll SpecAnaphora AnaphoraFacts SpecConllRead ConllReadText Salt SpecSalt.

(** ** Elements below *)
Lemma below_preorder x : x :: below x = preorder x.
Proof.
  induction x as [t a o ks tl IH] using xml_ind'. cbn [below preorder x_kids]. f_equal. f_equal.
  induction IH as [|k ks Hk _ IH]; [reflexivity|]. rewrite !fmap_cons. f_equal; [exact Hk|exact IH].
Qed.
Lemma elements_below t tag : get_elements t tag = tagged_below tag t.
Proof. unfold get_elements, tagged_below. by rewrite <-below_preorder. Qed.

(** ** Labels *)
Lemma byte_split c : nat_of_ascii c / 16 < 16 ∧ nat_of_ascii c mod 16 < 16 ∧ nat_of_ascii c = 16 * (nat_of_ascii c / 16) + nat_of_ascii c mod 16.
Proof. destruct c as [[] [] [] [] [] [] [] []]; vm_compute; repeat split; lia. Qed.
Lemma hex_digit_at n : n < 16 → hex_chars !! n = Some (hex_digit n).
Proof. intros H. do 16 (destruct n as [|n]; [reflexivity|]). lia. Qed.
Lemma hex_chars_lt n a : hex_chars !! n = Some a → n < 16.
Proof. intros H%lookup_lt_Some. exact H. Qed.
Lemma hex_of_fun s h : hex_of s h ↔ h = concat ((λ c, [hex_digit (nat_of_ascii c / 16); hex_digit (nat_of_ascii c mod 16)]) <$> s).
Proof.
  split.
  - induction 1 as [|c s h a b i j Hi Hj Hc H IH]; [reflexivity|]. rewrite fmap_cons. cbn [concat app]. pose proof (hex_chars_lt _ _ Hi) as Li. pose proof (hex_chars_lt _ _ Hj) as Lj.
    destruct (byte_split c) as (L1 & L2 & Hs). assert (nat_of_ascii c / 16 = i) as -> by lia. assert (nat_of_ascii c mod 16 = j) as -> by lia.
    rewrite (hex_digit_at _ Li) in Hi. rewrite (hex_digit_at _ Lj) in Hj. injection Hi as <-. injection Hj as <-. by rewrite <-IH.
  - intros ->. induction s as [|c s IH]; [apply HO_nil|]. rewrite fmap_cons. cbn [concat app]. destruct (byte_split c) as (L1 & L2 & Hs). eapply HO_cons; [by apply hex_digit_at|by apply hex_digit_at|exact Hs|exact IH].
Qed.
Lemma hex_of_str v h : hex_of (chs v) (chs h) ↔ h = string2xmihex v.
Proof. rewrite hex_of_fun. unfold string2xmihex. split; [intros H; apply chs_inj; by rewrite chs_str|intros ->; by rewrite chs_str]. Qed.
Lemma label_iff x l : label_from_etree x = Ok l ↔ label_reads x l.
Proof.
  unfold label_from_etree, get_xsi_type, x_get. split.
  - destruct (dget "name" (x_attrib x)) as [n|] eqn:En; [|done]. cbn [of_option rbind]. destruct (dget "valueString" (x_attrib x)) as [v|] eqn:Ev; [|done]. cbn [of_option rbind].
    destruct (dget xsi_type (x_attrib x)) as [t|] eqn:Et; [|done]. cbn [of_option rbind]. destruct (dget "value" (x_attrib x)) as [h|] eqn:Eh; [|done]. cbn [of_option rbind]. intros [= <-]. unfold new_label. split; cbn [sl_type sl_name sl_value sl_namespace sl_hex]; unfold has; [exact Et|exact En|exact Ev| |].
    + intros m. destruct (dget "namespace" (x_attrib x)) as [n'|]; [|split; [done|intros [_ ?]; done]]. destruct (decide (n' = "")) as [->|Hn]; [split; [done|intros [? [= <-]]; done]|]. split; [intros [= <-]; done|intros [_ [= <-]]; done].
    + rewrite Eh. destruct (decide (h = "")) as [->|Hh]; [right; split; [reflexivity|]; by apply hex_of_str|left; done].
  - intros [Et En Ev Hns Hh]. unfold has in *. change type_attribute with xsi_type in Et. rewrite En, Ev, Et. cbn [of_option rbind]. destruct l as [t ns n v h]. cbn [sl_type sl_name sl_value sl_namespace sl_hex] in *.
    assert (match dget "namespace" (x_attrib x) with Some n => if decide (n = "") then None else Some n | None => None end = ns) as HN.
    { destruct (dget "namespace" (x_attrib x)) as [m|].
      - destruct (decide (m = "")) as [->|Hm]; [destruct ns as [n'|]; [|reflexivity]; destruct (Hns n') as [H _]; destruct (H eq_refl) as [? [= <-]]; done|]. symmetry. apply Hns. done.
      - destruct ns as [n'|]; [|reflexivity]. destruct (Hns n') as [H _]. destruct (H eq_refl); done. }
    destruct Hh as [[Eh Hne]|[Eh HO]]; rewrite Eh; cbn [of_option rbind]; unfold new_label; rewrite HN.
    + by rewrite decide_False.
    + rewrite decide_True by reflexivity. apply hex_of_str in HO. by rewrite HO.
Qed.
Lemma labels_iff x ls : rmap label_from_etree (x_findall "labels" x) = Ok ls ↔ Forall2 label_reads (labels_of x) ls.
Proof. rewrite rmap_Ok. change (x_findall "labels" x) with (labels_of x). split; intros H; (eapply Forall2_impl; [exact H|]); cbn; intros a b Hab; by apply label_iff. Qed.
Definition labelled_in (ls : list slabel) (name value : string) : Prop := ∃ l, first_such (λ l, sl_name l = name) ls l ∧ sl_value l = value.
Lemma first_unique {A} (P : A → Prop) (l : list A) x y : first_such P l x → first_such P l y → x = y.
Proof.
  intros (p & q & -> & Hx & Hp) (p' & q' & E & Hy & Hp'). revert p' E Hp'. induction Hp as [|a p Ha Hp IH]; intros [|b p'] E Hp'; cbn [app] in E; injection E as E1 E.
  - done.
  - subst. apply List.Forall_inv in Hp'. done.
  - subst. done.
  - apply (IH p'); [exact E|]. by apply List.Forall_inv_tail in Hp'.
Qed.
Lemma find_first n (xs : list xml) ls : Forall2 label_reads xs ls →
  match head (filter (λ k, dget "name" (x_attrib k) = Some n) xs) with
  | Some k => ∃ l, first_such (λ l, sl_name l = n) ls l ∧ label_reads k l
  | None => Forall (λ l, sl_name l ≠ n) ls
  end.
Proof.
  induction 1 as [|x l xs ls H HF IH]; [apply List.Forall_nil|]. rewrite filter_cons. pose proof (lr_name _ _ H) as Hn. unfold has in Hn. destruct (decide (dget "name" (x_attrib x) = Some n)) as [E|E].
  - cbn [head]. exists l. split; [|exact H]. exists [], ls. split; [reflexivity|]. split; [congruence|apply List.Forall_nil].
  - assert (Hl : sl_name l ≠ n) by congruence. destruct (head _) as [k|].
    + destruct IH as (l' & (p & q & -> & Hp & Hq) & Hk). exists l'. split; [|exact Hk]. exists (l :: p), q. split; [reflexivity|]. split; [exact Hp|]. by apply List.Forall_cons.
    + by apply List.Forall_cons.
Qed.
Lemma none_first n ls l : Forall (λ l, sl_name l ≠ n) ls → ¬ first_such (λ l, sl_name l = n) ls l.
Proof. intros HF (p & q & -> & Hl & _). rewrite Forall_app in HF. destruct HF as [_ HF]. by apply List.Forall_inv in HF. Qed.
Lemma value_iff x ls n v : Forall2 label_reads (labels_of x) ls → value_string (find_label n x) = Ok v ↔ labelled_in ls n v.
Proof.
  intros H. pose proof (find_first n _ _ H) as HF. unfold find_label. change (x_findall "labels" x) with (labels_of x). destruct (head _) as [k|].
  - destruct HF as (l & Hl & Hk). cbn [value_string]. pose proof (lr_value _ _ Hk) as Hv. unfold has in Hv. rewrite Hv. cbn [of_option]. split.
    + intros [= <-]. by exists l.
    + intros (l' & Hl' & <-). by rewrite (first_unique _ _ _ _ Hl Hl').
  - cbn [value_string]. split; [done|]. intros (l & Hl & _). by destruct (none_first n ls l HF).
Qed.
Lemma id_iff x ls i : Forall2 label_reads (labels_of x) ls → get_graph_element_id x = Ok i ↔ match i with Some i => labelled_in ls "id" i | None => Forall (λ l, sl_name l ≠ "id") ls end.
Proof.
  intros H. pose proof (find_first "id" _ _ H) as HF. unfold get_graph_element_id, find_label. change (x_findall "labels" x) with (labels_of x). destruct (head _) as [k|].
  - destruct HF as (l & Hl & Hk). pose proof (lr_value _ _ Hk) as Hv. unfold has in Hv. unfold x_get. rewrite Hv. cbn [of_option rbind]. split.
    + intros [= <-]. by exists l.
    + destruct i as [i|].
      * intros (l' & Hl' & <-). by rewrite (first_unique _ _ _ _ Hl Hl').
      * intros HN. by destruct (none_first _ _ l HN).
  - split; [by intros [= <-]|]. destruct i as [i|]; [|done]. intros (l & Hl & _). by destruct (none_first _ _ l HF).
Qed.
Definition base (x : xml) (n : string) (i : option string) (t : string) (ls : list slabel) : Prop :=
  has type_attribute x t ∧ Forall2 label_reads (labels_of x) ls ∧ labelled_in ls "SNAME" n ∧ match i with Some i => labelled_in ls "id" i | None => Forall (λ l, sl_name l ≠ "id") ls end.
Lemma base_iff x e : element_from_etree x = Ok e ↔ ∃ n i t ls, base x n i t ls ∧ e = SElem CNode n i t ls [].
Proof.
  unfold element_from_etree, base. split.
  - destruct (rmap _ _) as [ls|] eqn:E1; [|done]. cbn [rbind]. apply labels_iff in E1. destruct (get_element_name x) as [n|] eqn:E2; [|done]. cbn [rbind]. apply (value_iff _ _ _ _ E1) in E2.
    destruct (get_graph_element_id x) as [i|] eqn:E3; [|done]. cbn [rbind]. apply (id_iff _ _ _ E1) in E3. unfold get_xsi_type. destruct (dget xsi_type (x_attrib x)) as [t|] eqn:E4; [|done]. cbn [of_option rbind]. intros [= <-]. exists n, i, t, ls. done.
  - intros (n & i & t & ls & (H1 & H2 & H3 & H4) & ->). pose proof (proj2 (labels_iff _ _) H2) as ->. cbn [rbind]. unfold get_element_name. rewrite (proj2 (value_iff _ _ _ _ H2) H3). cbn [rbind]. rewrite (proj2 (id_iff _ _ _ H2) H4). cbn [rbind].
    unfold get_xsi_type. unfold has in H1. change type_attribute with xsi_type in H1. rewrite H1. reflexivity.
Qed.

(** ** References *)
Lemma index_iff s z : index_of s = Ok z ↔ refers (chs s) z.
Proof.
  unfold index_of, refers. split.
  - destruct (split_char "."%char (chs s)) as [|p [|n [|? ?]]] eqn:E; try done. intros H. exists p, n. split; [by apply split_char_two|]. split; [apply (split_char_free "."%char (chs s)); rewrite E; apply elem_of_cons; left; reflexivity|].
    split; [apply (split_char_free "."%char (chs s)); rewrite E; apply elem_of_cons; right; by apply elem_of_list_singleton|]. by apply is_integer_int.
  - intros (p & n & -> & Hp & Hn & Hz). rewrite split_char_app by exact Hp. rewrite split_char_none by exact Hn. by apply is_integer_int.
Qed.
Definition layer_list (x : xml) (ls : list Z) : Prop :=
  match dget "layers" (x_attrib x) with None => ls = [] | Some s => ∃ ws, words_in (chs s) ws ∧ Forall2 refers ws ls end.
Lemma layers_iff x ls : get_layer_ids x = Ok ls ↔ layer_list x ls.
Proof.
  unfold get_layer_ids, layer_list. destruct (dget "layers" (x_attrib x)) as [s|]; [|split; [by intros [= <-]|by intros ->]]. rewrite rmap_Ok. split.
  - intros H. exists (split_blanks (chs s)). split; [apply split_words_in|]. eapply Forall2_impl; [exact H|]. cbn. intros w z Hw. apply index_iff in Hw. by rewrite chs_str in Hw.
  - intros (ws & Hws & H). rewrite (words_in_split _ _ Hws). eapply Forall2_impl; [exact H|]. cbn. intros w z Hw. apply index_iff. by rewrite chs_str.
Qed.
Lemma node_id_iff x k z : get_node_id x k = Ok z ↔ ∃ s, has k x s ∧ refers (chs s) z.
Proof.
  unfold get_node_id, x_get, has. destruct (dget k (x_attrib x)) as [s|]; cbn [of_option rbind]; [|split; [done|intros (? & ? & _); done]]. rewrite index_iff. split; [by exists s|]. by intros (s' & [= <-] & H).
Qed.
Lemma position_iff x ls n z : Forall2 label_reads (labels_of x) ls → get_position n x = Ok z ↔ ∃ s, labelled_in ls n s ∧ is_integer (chs s) z.
Proof.
  intros H. unfold get_position. split.
  - destruct (value_string _) as [s|] eqn:E; [|done]. cbn [rbind]. intros Hz. exists s. split; [by apply (value_iff _ _ _ _ H)|]. by apply is_integer_int.
  - intros (s & Hs & Hz). rewrite (proj2 (value_iff _ _ _ _ H) Hs). cbn [rbind]. by apply is_integer_int.
Qed.
(** ** Runs of digits *)
Lemma find_digits_run run s : run ≠ [] → Forall (λ c, is_digit c = true) run → ∃ w s' ws, find_digits run s = (run ++ w) :: ws ∧ Forall (λ c, is_digit c = true) w ∧ s = w ++ s' ∧
  ((s' = [] ∧ ws = []) ∨ ∃ c s'', s' = c :: s'' ∧ is_digit c = false ∧ ws = find_digits [] s'').
Proof.
  intros Hr HF. revert run Hr HF. induction s as [|c s IH]; intros run Hr HF; cbn [find_digits].
  - rewrite decide_False by exact Hr. exists [], [], []. rewrite app_nil_r. split; [reflexivity|]. split; [apply List.Forall_nil|]. split; [reflexivity|]. left. done.
  - destruct (is_digit c) eqn:E.
    + destruct (IH (run ++ [c])) as (w & s' & ws & E1 & Hw & -> & HC); [by destruct run|apply Forall_app; split; [exact HF|]; by apply List.Forall_cons|]. exists (c :: w), s', ws. rewrite E1, <-app_assoc. split; [reflexivity|]. split; [by apply List.Forall_cons|]. split; [reflexivity|exact HC].
    + rewrite decide_False by exact Hr. exists [], (c :: s), (find_digits [] s). rewrite app_nil_r. split; [reflexivity|]. split; [apply List.Forall_nil|]. split; [reflexivity|]. right. by exists c, s.
Qed.
Lemma find_skip p s : Forall (λ c, is_digit c = false) p → find_digits [] (p ++ s) = find_digits [] s.
Proof. induction 1 as [|c p Hc Hp IH]; [reflexivity|]. cbn [app find_digits]. rewrite Hc. rewrite decide_True by reflexivity. exact IH. Qed.
Lemma find_word w : ∀ run s, run ++ w ≠ [] → Forall (λ c, is_digit c = true) w → (match s with [] => True | c :: _ => is_digit c = false end) → find_digits run (w ++ s) = (run ++ w) :: find_digits [] (tail s).
Proof.
  induction w as [|c w IH]; intros run s Hr HF Hs.
  - rewrite app_nil_r in *. cbn [app]. destruct s as [|c s]; cbn [find_digits tail]; [rewrite decide_False by exact Hr; by rewrite decide_True|]. rewrite Hs. by rewrite decide_False.
  - apply Forall_cons in HF as [Hc HF]. cbn [app find_digits]. rewrite Hc. rewrite IH; [by rewrite <-app_assoc|by destruct run|exact HF|exact Hs].
Qed.
Lemma runs_digits s ws : runs_in s ws → find_digits [] s = ws ∧ Forall (λ w, w ≠ [] ∧ Forall (λ c, is_digit c = true) w) ws.
Proof.
  induction 1 as [s H|p w Hp Hw HF|p w c s ws Hp Hw HF Hc H [IH1 IH2]].
  - split; [|apply List.Forall_nil]. rewrite <-(app_nil_r s). rewrite find_skip by exact H. reflexivity.
  - split; [|by repeat constructor]. rewrite find_skip by exact Hp. rewrite <-(app_nil_r w) at 1. rewrite find_word; [reflexivity|by cbn|exact HF|exact I].
  - split; [|by constructor]. rewrite find_skip by exact Hp. rewrite find_word; [|by cbn|exact HF|exact Hc]. cbn [tail app]. by rewrite IH1.
Qed.
Lemma digits_runs n : ∀ s, length s ≤ n → ∃ ws, runs_in s ws.
Proof.
  induction n as [|n IH]; intros s Hn.
  - destruct s; [|cbn in Hn; lia]. exists []. apply RI_none, List.Forall_nil.
  - assert (HP : ∀ l : chars, ∃ p r, l = p ++ r ∧ Forall (λ c, is_digit c = false) p ∧ match r with [] => True | c :: _ => is_digit c = true end).
    { induction l as [|c l (p & r & -> & Hp & Hr)]; [by exists [], []|]. destruct (is_digit c) eqn:E; [exists [], (c :: p ++ r); split; [reflexivity|]; split; [apply List.Forall_nil|exact E]|]. exists (c :: p), r. split; [reflexivity|]. split; [by apply List.Forall_cons|exact Hr]. }
    assert (HQ : ∀ l : chars, ∃ p r, l = p ++ r ∧ Forall (λ c, is_digit c = true) p ∧ match r with [] => True | c :: _ => is_digit c = false end).
    { induction l as [|c l (p & r & -> & Hp & Hr)]; [by exists [], []|]. destruct (is_digit c) eqn:E; [exists (c :: p), r; split; [reflexivity|]; split; [by apply List.Forall_cons|exact Hr]|]. exists [], (c :: p ++ r). split; [reflexivity|]. split; [apply List.Forall_nil|exact E]. }
    destruct (HP s) as (p & r & -> & Hp & Hr). destruct (HQ r) as (w & q & -> & Hw & Hq). destruct w as [|d w].
    + cbn [app] in Hr. destruct q as [|c q]; [|congruence]. exists []. rewrite !app_nil_r. by apply RI_none.
    + destruct q as [|c q].
      * rewrite app_nil_r. exists [d :: w]. apply RI_last; [exact Hp|discriminate|exact Hw].
      * destruct (IH q) as [ws Hws]; [rewrite !app_length in Hn; cbn in Hn; lia|]. exists ((d :: w) :: ws). apply RI_run; [exact Hp|discriminate|exact Hw|exact Hq|exact Hws].
Qed.
Lemma int_of_digits w : w ≠ [] → Forall (λ c, is_digit c = true) w → int_of w = Ok (Z.of_N (dec_val w)).
Proof. intros Hw HF. apply is_integer_int. exists [], [], w, []. rewrite app_nil_r. split; [apply List.Forall_nil|]. split; [apply List.Forall_nil|]. split; [reflexivity|]. split; [exact Hw|]. split; [exact HF|]. left. split; [by left|reflexivity]. Qed.
Definition index_values (x : xml) (k : string) (zs : list Z) : Prop :=
  match dget k (x_attrib x) with None => zs = [] | Some s => ∃ ws, runs_in (chs s) ws ∧ zs = (λ w, Z.of_N (dec_val w)) <$> ws end.
Lemma rmap_digits ws : Forall (λ w, w ≠ [] ∧ Forall (λ c, is_digit c = true) w) ws → rmap int_of ws = Ok ((λ w, Z.of_N (dec_val w)) <$> ws).
Proof. induction 1 as [|w ws [H1 H2] H IH]; [reflexivity|]. cbn [rmap]. rewrite (int_of_digits _ H1 H2). cbn [rbind]. by rewrite IH. Qed.
Lemma index_list_iff x k zs : index_list k x = Ok zs ↔ index_values x k zs.
Proof.
  unfold index_list, index_values. destruct (dget k (x_attrib x)) as [s|]; [|split; [by intros [= <-]|by intros ->]]. destruct (digits_runs _ _ (le_n (length (chs s)))) as [ws Hws]. destruct (runs_digits _ _ Hws) as [E HF]. split.
  - rewrite E, rmap_digits by exact HF. intros [= <-]. by exists ws.
  - intros (ws' & Hws' & ->). destruct (runs_digits _ _ Hws') as [E' HF']. rewrite E'. by apply rmap_digits.
Qed.
Lemma index_list_total x k : ∃ zs, index_list k x = Ok zs.
Proof.
  unfold index_list. destruct (dget k (x_attrib x)) as [s|]; [|by exists []]. destruct (digits_runs _ _ (le_n (length (chs s)))) as [ws Hws]. destruct (runs_digits _ _ Hws) as [E HF]. rewrite E. rewrite rmap_digits by exact HF. by eexists.
Qed.

(** ** Annotations *)
Definition feature_values (x : xml) (d : dict string string) : Prop :=
  Forall (λ k, ∃ t, has type_attribute k t) (x_kids x) ∧ Forall (λ k, ∃ n v, has "name" k n ∧ has "valueString" k v) (annotations x) ∧
  ∀ n v, dget n d = Some v ↔ ∃ k, last_such (λ k, has "name" k n) (annotations x) k ∧ has "valueString" k v.
Definition said_pair (x : xml) : list (string * string) :=
  match dget "name" (x_attrib x), dget "valueString" (x_attrib x) with Some n, Some v => [(n, v)] | _, _ => [] end.
Lemma annotation_iff k l : annotation k = Ok l ↔ (∃ t, has type_attribute k t) ∧
  (if decide (dget type_attribute (x_attrib k) = Some "saltCore:SAnnotation") then (∃ n v, has "name" k n ∧ has "valueString" k v ∧ l = [(n, v)]) else l = []).
Proof.
  unfold annotation, get_xsi_type, has, x_get. change type_attribute with xsi_type. destruct (dget xsi_type (x_attrib k)) as [t|]; cbn [of_option rbind]; [|split; [done|intros [[? ?] _]; done]]. split.
  - intros H. split; [by exists t|]. destruct (decide (t = _)) as [->|Ht].
    + rewrite decide_True by reflexivity. destruct (dget "name" _) as [n|]; [|done]. cbn [of_option rbind] in H. destruct (dget "valueString" _) as [v|]; [|done]. cbn [of_option rbind] in H. injection H as <-. by exists n, v.
    + rewrite decide_False by congruence. by injection H as <-.
  - intros [_ H]. destruct (decide (t = _)) as [->|Ht].
    + rewrite decide_True in H by reflexivity. destruct H as (n & v & -> & -> & ->). reflexivity.
    + rewrite decide_False in H by congruence. by subst l.
Qed.
Lemma foldl_last (ps : list (string * string)) : ∀ d n, dget n (foldl (λ d p, dset p.1 p.2 d) d ps) = match last (filter (λ p, p.1 = n) ps) with Some p => Some p.2 | None => dget n d end.
Proof.
  induction ps as [|p ps IH] using rev_ind; intros d n; [reflexivity|]. rewrite foldl_app. cbn [foldl]. rewrite dget_dset, filter_app, filter_cons. destruct (decide (n = p.1)) as [->|Hn].
  - rewrite decide_True by reflexivity. rewrite filter_nil, last_snoc. reflexivity.
  - rewrite decide_False by congruence. rewrite filter_nil, app_nil_r. apply IH.
Qed.
Lemma annotations_collect ks ps : rconcat annotation ks = Ok ps →
  Forall (λ k, ∃ t, has type_attribute k t) ks ∧ Forall2 (λ k p, has "name" k p.1 ∧ has "valueString" k p.2) (filter (λ k, dget type_attribute (x_attrib k) = Some "saltCore:SAnnotation") ks) ps.
Proof.
  rewrite rconcat_Ok. intros (ls & HF & ->). induction HF as [|k l ks ls H HF IH]; [split; [apply List.Forall_nil|exact (List.Forall2_nil _)]|]. apply annotation_iff in H as [Ht H]. destruct IH as [IH1 IH2]. split; [by apply List.Forall_cons|]. rewrite filter_cons. cbn [concat]. destruct (decide _) as [E|E].
  - destruct H as (n & v & Hn & Hv & ->). cbn [app]. apply List.Forall2_cons; [done|exact IH2].
  - subst l. exact IH2.
Qed.
Lemma annotations_total ks : Forall (λ k, ∃ t, has type_attribute k t) ks → Forall (λ k, ∃ n v, has "name" k n ∧ has "valueString" k v) (filter (λ k, dget type_attribute (x_attrib k) = Some "saltCore:SAnnotation") ks) → ∃ ps, rconcat annotation ks = Ok ps.
Proof.
  intros H1 H2. assert (∀ k, k ∈ ks → ∃ l, annotation k = Ok l) as HA.
  { intros k Hk. rewrite Forall_forall in H1. specialize (H1 _ Hk). rewrite Forall_forall in H2. destruct (decide (dget type_attribute (x_attrib k) = Some "saltCore:SAnnotation")) as [E|E].
    - destruct (H2 k) as (n & v & Hn & Hv); [apply elem_of_list_filter; done|]. exists [(n, v)]. apply annotation_iff. split; [exact H1|]. rewrite decide_True by exact E. by exists n, v.
    - exists []. apply annotation_iff. split; [exact H1|]. by rewrite decide_False. }
  clear -HA. induction ks as [|k ks IH]; [exists []; reflexivity|]. destruct IH as [ps IH]; [intros k' Hk'; apply HA; apply elem_of_cons; by right|]. destruct (HA k) as [l Hl]; [apply elem_of_cons; by left|]. apply rconcat_Ok in IH as (ls & HF & ->). exists (concat (l :: ls)). apply rconcat_Ok. exists (l :: ls). split; [by apply List.Forall2_cons|reflexivity].
Qed.
Lemma last_match (xs : list xml) (ps : list (string * string)) n v :
  Forall2 (λ k p, has "name" k p.1 ∧ has "valueString" k p.2) xs ps →
  (match last (filter (λ p, p.1 = n) ps) with Some p => Some p.2 | None => None end) = Some v ↔ ∃ k, last_such (λ k, has "name" k n) xs k ∧ has "valueString" k v.
Proof.
  induction 1 as [|k p xs ps [Hn Hv] HF IH].
  - cbn. split; [discriminate|]. intros (k & (a & b & E & _) & _). destruct a; discriminate.
  - rewrite filter_cons. assert (Htail : (∃ k', last_such (λ k, has "name" k n) xs k' ∧ has "valueString" k' v) → ∃ k', last_such (λ k, has "name" k n) (k :: xs) k' ∧ has "valueString" k' v).
    { intros (k' & (a & b & -> & Hk & Hb) & Hkv). exists k'. split; [|exact Hkv]. exists (k :: a), b. done. }
    destruct (filter (λ p, p.1 = n) ps) as [|q qs] eqn:Eq.
    + assert (HN : Forall (λ k, ¬ has "name" k n) xs).
      { apply Forall_forall. intros k' Hk' Hkn. apply elem_of_list_lookup in Hk' as [i Hi]. destruct (Forall2_lookup_l _ _ _ _ _ HF Hi) as (p' & Hp' & Hpn & _). assert (p' ∈ filter (λ p, p.1 = n) ps) as Hin by (apply elem_of_list_filter; split; [unfold has in *; congruence|by eapply elem_of_list_lookup_2]). rewrite Eq in Hin. by apply elem_of_nil in Hin. }
      destruct (decide (p.1 = n)) as [E|E]; cbn [last].
      * split.
        -- intros [= <-]. exists k. split; [|exact Hv]. exists [], xs. split; [reflexivity|]. split; [by rewrite <-E|exact HN].
        -- intros (k' & (a & b & Ek & Hk' & Hb) & Hkv). destruct a as [|a0 a]; cbn [app] in Ek; injection Ek as -> Ex; [unfold has in *; congruence|]. exfalso. rewrite Forall_forall in HN. apply (HN k'); [subst xs; apply elem_of_app; right; apply elem_of_cons; by left|exact Hk'].
      * split; [done|]. intros (k' & (a & b & Ek & Hk' & Hb) & Hkv). exfalso. destruct a as [|a0 a]; cbn [app] in Ek; injection Ek as -> Ex; [unfold has in *; congruence|]. rewrite Forall_forall in HN. apply (HN k'); [subst xs; apply elem_of_app; right; apply elem_of_cons; by left|exact Hk'].
    + assert (El : last (if decide (p.1 = n) then p :: q :: qs else q :: qs) = last (q :: qs)) by (destruct (decide _); reflexivity). rewrite El. rewrite IH. split; [exact Htail|].
      intros (k' & (a & b & Ek & Hk' & Hb) & Hkv). destruct a as [|a0 a]; cbn [app] in Ek; injection Ek as E0 Ex.
      * exfalso. assert (q ∈ q :: qs) as Hq by (apply elem_of_cons; by left). rewrite <-Eq in Hq. apply elem_of_list_filter in Hq as [Hqn Hq]. apply elem_of_list_lookup in Hq as [i Hi]. destruct (Forall2_lookup_r _ _ _ _ _ HF Hi) as (k2 & Hk2 & Hn2 & _). subst b. rewrite Forall_forall in Hb. apply (Hb k2); [by eapply elem_of_list_lookup_2|]. rewrite <-Hqn. exact Hn2.
      * exists k'. split; [|exact Hkv]. exists a, b. done.
Qed.
Lemma features_ok x d : get_annotations x = Ok d → feature_values x d.
Proof.
  unfold get_annotations. destruct (rconcat annotation (x_kids x)) as [ps|] eqn:E; [|done]. cbn [rbind]. intros [= <-]. apply annotations_collect in E as [H1 H2]. split; [exact H1|]. split.
  - apply Forall_forall. intros k Hk. apply elem_of_list_lookup in Hk as [i Hi]. destruct (Forall2_lookup_l _ _ _ _ _ H2 Hi) as (p & _ & Hn & Hv). by exists p.1, p.2.
  - intros n v. rewrite foldl_last. apply last_match. exact H2.
Qed.
Lemma features_total x d : feature_values x d → ∃ d', get_annotations x = Ok d'.
Proof. intros (H1 & H2 & _). unfold get_annotations. destruct (annotations_total _ H1 H2) as [ps ->]. cbn [rbind]. by eexists. Qed.
