(** * BracketFacts: proofs about bracketed output (C40) *)
From stdpp Require Import sorting.
From Verif Require Import PyBase DocGraph Relabel StrNum Query Text SpecQuery SpanFacts NatSort OffsetFacts MergeFacts Brackets SpecBrackets.

(** ** The output as a sequence of steps *)
Inductive bop := Open (m : nid) | Word (t : nid) | Close | Blank.
Section run.
  Context (g : graph) (m2c : dict nid nid).
  Fixpoint brun (ops : list bop) (st : list nid) : res (chars * list nid) :=
    match ops with
    | [] => Ok ([], st)
    | Open m :: r => let! x := brun r (m :: st) in Ok ("["%char :: x.1, x.2)
    | Word t :: r => let! s := token_str g t in let! x := brun r st in Ok (chs s ++ x.1, x.2)
    | Close :: r =>
      match st with
      | [] => Err IndexError
      | m :: st => let! c := of_option KeyError (dget m m2c) in let! x := brun r st in Ok (closing_label c ++ x.1, x.2)
      end
    | Blank :: r => let! x := brun r st in Ok (" "%char :: x.1, x.2)
    end.
  Lemma brun_app a : ∀ b st, brun (a ++ b) st = let! x := brun a st in let! y := brun b x.2 in Ok (x.1 ++ y.1, y.2).
  Proof.
    induction a as [|[m|t| |] a IH]; intros b st; cbn [app brun].
    - cbn [rbind fst snd]. destruct (brun b st) as [[? ?]|]; done.
    - rewrite IH. destruct (brun a (m :: st)) as [[x y]|]; cbn [rbind fst snd]; [|done]. destruct (brun b y) as [[? ?]|]; done.
    - destruct (token_str g t) as [s|]; cbn [rbind]; [|done]. rewrite IH. destruct (brun a st) as [[x y]|]; cbn [rbind fst snd]; [|done].
      destruct (brun b y) as [[? ?]|]; cbn [rbind fst snd]; [|done]. by rewrite (assoc_L (++)).
    - destruct st as [|m st]; [done|]. destruct (dget m m2c) as [c|]; cbn [of_option rbind]; [|done]. rewrite IH. destruct (brun a st) as [[x y]|]; cbn [rbind fst snd]; [|done].
      destruct (brun b y) as [[? ?]|]; cbn [rbind fst snd]; [|done]. by rewrite (assoc_L (++)).
    - rewrite IH. destruct (brun a st) as [[x y]|]; cbn [rbind fst snd]; [|done]. destruct (brun b y) as [[? ?]|]; done.
  Qed.
  Lemma brun_opens l : ∀ st, brun (Open <$> l) st = Ok (replicate (length l) "["%char, reverse l ++ st).
  Proof.
    induction l as [|m l IH]; intros st; [done|]. rewrite fmap_cons. cbn [brun]. rewrite IH. cbn [rbind fst snd length replicate].
    rewrite reverse_cons, <-(assoc_L (++)). done.
  Qed.
  Lemma brun_closes n : ∀ st, brun (replicate n Close) st = gen_closing_string m2c n st.
  Proof.
    induction n as [|n IH]; intros st; [done|]. cbn [replicate brun gen_closing_string]. destruct st as [|m st]; [done|].
    destruct (dget m m2c) as [c|]; cbn [of_option rbind]; [|done]. rewrite IH. destruct (gen_closing_string m2c n st) as [[? ?]|]; cbn [rbind fst snd]; [|done].
    unfold closing_label. by rewrite <-!(assoc_L (++)).
  Qed.
  (** the steps for a token *)
  Definition group (opn : nid → list nid) (cls : nid → nat) (t : nid) : list bop :=
    (Open <$> opn t) ++ [Word t] ++ replicate (cls t) Close ++ [Blank].
  Lemma bracket_loop_run (opening closing : dict nid (list nid)) toks : ∀ st ret,
    bracket_loop g opening closing m2c toks st ret =
    let! x := brun (concat (group (λ t, default [] (dget t opening)) (λ t, length (default [] (dget t closing))) <$> toks)) st in Ok (ret ++ x.1).
  Proof.
    induction toks as [|t toks IH]; intros st ret.
    - cbn. by rewrite app_nil_r.
    - rewrite fmap_cons. cbn [concat]. rewrite brun_app. unfold group at 1. rewrite !brun_app, brun_opens. cbn [rbind fst snd app brun bracket_loop].
      destruct (token_str g t) as [s|]; cbn [rbind]; [|by destruct (dget t opening)]. rewrite brun_app, brun_closes.
      destruct (dget t opening) as [l|], (dget t closing) as [c|]; cbn [default id length reverse replicate app gen_closing_string rbind fst snd].
      + destruct (gen_closing_string m2c (length c) (reverse l ++ st)) as [[x y]|]; cbn [rbind fst snd brun]; [|done]. rewrite IH.
        destruct (brun _ y) as [[z w]|]; cbn [rbind fst snd]; [|done]. by rewrite <-!(assoc_L (++)).
      + cbn. rewrite IH. destruct (brun _ (reverse l ++ st)) as [[z w]|]; cbn [rbind fst snd]; [|done]. cbn. by rewrite <-!(assoc_L (++)).
      + change (reverse [] ++ st) with st. destruct (gen_closing_string m2c (length c) st) as [[x y]|]; cbn [rbind fst snd brun]; [|done]. rewrite IH.
        destruct (brun _ y) as [[z w]|]; cbn [rbind fst snd]; [|done]. cbn. by rewrite <-!(assoc_L (++)).
      + cbn. rewrite IH. change (reverse [] ++ st) with st. destruct (brun _ st) as [[z w]|]; cbn [rbind fst snd]; [|done]. cbn. by rewrite <-!(assoc_L (++)).
  Qed.
End run.

(** ** The dictionaries *)
Definition starts (ms : list (nid * nid * nid)) (t : nid) : list nid := (λ x, x.1.1) <$> filter (λ x : nid * nid * nid, x.1.2 = t) ms.
Definition ends (ms : list (nid * nid * nid)) (t : nid) : list nid := (λ x, x.1.1) <$> filter (λ x : nid * nid * nid, x.2 = t) ms.
Lemma dget_dappend {V} k k' (v : V) d : default [] (dget k' (dappend k v d)) = default [] (dget k' d) ++ (if decide (k' = k) then [v] else []).
Proof. unfold dappend. rewrite dget_dset. destruct (decide (k' = k)) as [->|]; [done|]. by rewrite app_nil_r. Qed.
Lemma bracket_dicts_ok g renamed ns l ms : mentions g renamed ns l ms → ∀ o c, ∃ o' c', bracket_dicts g renamed ns l o c = Ok (o', c') ∧
  ∀ t, default [] (dget t o') = default [] (dget t o) ++ starts ms t ∧ default [] (dget t c') = default [] (dget t c) ++ ends ms t.
Proof.
  induction 1 as [|m a l ms Ha Hs H IH|m a s ts t0 t1 l ms Ha Hs Hts H0 H1 H IH]; intros o c; cbn [bracket_dicts].
  - exists o, c. split; [done|]. intros t. cbn. by rewrite !app_nil_r.
  - unfold markable_tokens. rewrite Ha. cbn [of_option rbind]. rewrite Hs. cbn [rbind]. apply IH.
  - unfold markable_tokens. rewrite Ha. cbn [of_option rbind]. rewrite Hs. rewrite Hts. cbn [rbind]. rewrite H0, H1. cbn [of_option rbind].
    destruct (IH (dappend t0 m o) (dappend t1 m c)) as (o' & c' & E & HE). exists o', c'. split; [done|]. intros t. destruct (HE t) as [-> ->].
    rewrite !dget_dappend, <-!(assoc_L (++)). unfold starts, ends. rewrite !filter_cons. cbn [fst snd].
    split; f_equal; destruct (decide _) as [E1|E1], (decide _) as [E2|E2]; congruence || done.
Qed.
Lemma bracket_dicts_inv g renamed ns l : ∀ o c r, bracket_dicts g renamed ns l o c = Ok r → ∃ ms, mentions g renamed ns l ms.
Proof.
  induction l as [|m l IH]; intros o c r; cbn [bracket_dicts]; [eexists; constructor|].
  intros (span & Hm & H)%rbind_Ok. unfold markable_tokens in Hm. apply rbind_Ok in Hm as (a & Ha & Hm).
  destruct (node_attrs g m) as [a'|] eqn:Ea; [|done]. injection Ha as ->. destruct (dget (ns +:+ ":span") a) as [[| | |s| | |]|] eqn:Es; try done.
  - apply rbind_Ok in Hm as (ts & Hts & [= <-]). apply rbind_Ok in H as (t0 & H0 & H). apply rbind_Ok in H as (t1 & H1 & H).
    destruct (head ts) eqn:Eh; [|done]. destruct (last ts) eqn:El; [|done]. injection H0 as ->. injection H1 as ->. destruct (IH _ _ _ H) as [ms Hms].
    eexists. by eapply M_span.
  - injection Hm as <-. destruct (IH _ _ _ H) as [ms Hms]. exists ms. by eapply M_none.
Qed.
Lemma mentions_fun g renamed ns l ms : mentions g renamed ns l ms → ∀ ms', mentions g renamed ns l ms' → ms = ms'.
Proof.
  induction 1 as [|m a l ms Ha Hs H IH|m a s ts t0 t1 l ms Ha Hs Hts H0 H1 H IH]; intros ms' H'; inversion H'; subst; try congruence; auto.
  match goal with H1 : node_attrs g m = Some ?b |- _ => assert (b = a) as -> by congruence end.
  match goal with H1 : dget _ a = Some (VStr ?b) |- _ => assert (b = s) as -> by congruence end.
  match goal with H1 : spanstring2tokens _ _ _ = Ok ?b |- _ => assert (b = ts) as -> by congruence end.
  f_equal; [congruence|]. by apply IH.
Qed.
Lemma mentions_perm g renamed ns l l' : l ≡ₚ l' → ∀ ms, mentions g renamed ns l ms → ∃ ms', mentions g renamed ns l' ms' ∧ ms ≡ₚ ms'.
Proof.
  induction 1 as [|x l l' Hp IH|x y l|l1 l2 l3 H1 IH1 H2 IH2]; intros ms H.
  - inversion H; subst. by exists [].
  - inversion H; subst.
    + destruct (IH _ ltac:(eassumption)) as (ms' & ? & ?). exists ms'. split; [by eapply M_none|done].
    + destruct (IH _ ltac:(eassumption)) as (ms' & ? & ?). eexists. split; [by eapply M_span|by constructor].
  - assert (HC : ∀ z l ms, mentions g renamed ns (z :: l) ms → ∃ pre ms0, ms = pre ++ ms0 ∧ length pre ≤ 1 ∧ mentions g renamed ns l ms0 ∧
      ∀ l' ms', mentions g renamed ns l' ms' → mentions g renamed ns (z :: l') (pre ++ ms')).
    { clear. intros z l ms H. inversion H; subst.
      - exists [], ms. repeat split; [cbn; lia|done|]. intros. by eapply M_none.
      - eexists [_], _. repeat split; [cbn; lia|eassumption|]. intros. by eapply M_span. }
    destruct (HC _ _ _ H) as (p1 & ms1 & -> & _ & H1 & K1). destruct (HC _ _ _ H1) as (p2 & ms2 & -> & _ & H2 & K2).
    exists (p2 ++ p1 ++ ms2). split; [by apply K2, K1|]. rewrite !(assoc_L (++)). by rewrite (comm (++) p1 p2).
  - destruct (IH1 _ H) as (ms1 & H1' & P1). destruct (IH2 _ H1') as (ms2 & H2' & P2). exists ms2. split; [done|]. by etrans.
Qed.
Lemma mentions_fst g renamed ns l ms : mentions g renamed ns l ms → Forall (λ x, x.1.1 ∈ l) ms.
Proof.
  induction 1 as [|m a l ms Ha Hs H IH|m a s ts t0 t1 l ms Ha Hs Hts H0 H1 H IH]; [constructor| |].
  - eapply Forall_impl; [exact IH|]. intros x Hx. by right.
  - apply List.Forall_cons; [left|]. eapply Forall_impl; [exact IH|]. intros x Hx. by right.
Qed.
(** the mentions of a sorted list are sorted *)
Lemma mentions_sorted g renamed ns l ms : mentions g renamed ns l ms → sorted nat_cmp l → StronglySorted (λ x y : nid * nid * nid, nat_cmp x.1.1 y.1.1 ≠ Gt) ms.
Proof.
  induction 1 as [|m a l ms Ha Hs H IH|m a s ts t0 t1 l ms Ha Hs Hts H0 H1 H IH]; intros S; [constructor|apply sorted_cons in S as [_ S]; auto|].
  apply sorted_cons in S as [HF S]. constructor; [auto|]. eapply Forall_impl; [exact (mentions_fst _ _ _ _ _ H)|]. intros x Hx. rewrite Forall_forall in HF. by apply HF.
Qed.
(** chain labels *)
Lemma markable_chains_ok chains : Forall (λ c, c ≠ []) chains → ∃ m2c, markable_chains chains = Ok m2c ∧
  (∀ m, m ∈ concat chains → ∃ c, dget m m2c = Some c ∧ in_chain chains m c) ∧ ∀ m c, dget m m2c = Some c → in_chain chains m c.
Proof.
  intros HF. unfold markable_chains.
  assert (Hin : ∀ (c : nid) (l : list nid) (d : dict nid nid) m, dget m (foldl (λ d m, dset m c d) d l) = if decide (m ∈ l) then Some c else dget m d).
  { intros c l. induction l as [|x l IH]; intros d m; [done|]. cbn [foldl]. rewrite IH, dget_dset.
    destruct (decide (m ∈ l)) as [H|H]; [rewrite decide_True by (by right); done|]. destruct (decide (m = x)) as [->|Hne].
    - rewrite decide_True by left. done.
    - rewrite decide_False; [done|]. by rewrite not_elem_of_cons. }
  assert (H : ∀ cs d, Forall (λ c, c ≠ []) cs → ∃ m2c, rfold (λ d chain, let! c := of_option IndexError (head chain) in Ok (foldl (λ d m, dset m c d) d chain)) d cs = Ok m2c ∧
    ∀ m, (∃ c, dget m m2c = Some c ∧ in_chain cs m c) ∨ (m ∉ concat cs ∧ dget m m2c = dget m d)).
  { induction cs as [|ch cs IH]; intros d HFc.
    - exists d. split; [done|]. intros m. right. split; [apply not_elem_of_nil|done].
    - apply Forall_cons in HFc as [Hne HFc]. destruct ch as [|c ch]; [done|]. cbn [rfold head of_option rbind].
      destruct (IH (foldl (λ d m, dset m c d) d (c :: ch)) HFc) as (m2c & E & HE). exists m2c. split; [exact E|]. intros m.
      destruct (HE m) as [(c' & Hc & (ch' & H1 & H2 & H3))|[Hm Hd]].
      + left. exists c'. split; [done|]. exists ch'. split; [by right|done].
      + rewrite Hd, Hin. destruct (decide (m ∈ c :: ch)) as [Hi|Hi].
        * left. exists c. split; [done|]. exists (c :: ch). split; [left|done].
        * right. split; [|done]. cbn [concat]. rewrite not_elem_of_app. done. }
  destruct (H chains [] HF) as (m2c & E & HE). exists m2c. split; [done|]. split.
  - intros m Hm. by destruct (HE m) as [?|[? _]].
  - intros m c Hc. destruct (HE m) as [(c' & Hc' & ?)|[_ Hn]]; [congruence|]. rewrite Hn in Hc. done.
Qed.

Lemma starts_perm ms ms' t : ms ≡ₚ ms' → starts ms t ≡ₚ starts ms' t.
Proof. intros H. unfold starts. by rewrite H. Qed.
Lemma starts_length ms t : length (starts ms t) = begin_at ms t.
Proof. unfold starts, begin_at. by rewrite fmap_length. Qed.
Lemma ends_length ms t : length (ends ms t) = end_at ms t.
Proof. unfold ends, end_at. by rewrite fmap_length. Qed.
Lemma begin_at_perm ms ms' t : ms ≡ₚ ms' → begin_at ms t = begin_at ms' t.
Proof. intros H. unfold begin_at. by rewrite H. Qed.
Lemma end_at_perm ms ms' t : ms ≡ₚ ms' → end_at ms t = end_at ms' t.
Proof. intros H. unfold end_at. by rewrite H. Qed.

Lemma output_run g renamed layer chains ms : Forall (λ c, c ≠ []) chains → mentions g renamed (layer_namespace g layer) (concat chains) ms →
  ∃ m2c ms', ms' ≡ₚ ms ∧ StronglySorted (λ x y : nid * nid * nid, nat_cmp x.1.1 y.1.1 ≠ Gt) ms' ∧
    Forall (λ x, x.1.1 ∈ concat chains) ms ∧ (∀ m, m ∈ concat chains → ∃ c, dget m m2c = Some c ∧ in_chain chains m c) ∧ (∀ m c, dget m m2c = Some c → in_chain chains m c) ∧
    bracketed_output g renamed layer chains = let! x := brun g m2c (concat (group (starts ms') (end_at ms') <$> g_tokens g)) [] in Ok x.1.
Proof.
  intros HF HM. destruct (markable_chains_ok chains HF) as (m2c & E1 & HE & HE'). destruct (mentions_perm _ _ _ _ (nat_sorted (concat chains)) (symmetry (nat_sorted_perm _)) _ HM) as (ms' & HM' & HP).
  destruct (bracket_dicts_ok _ _ _ _ _ HM' [] []) as (o & c & E2 & HD). exists m2c, ms'. split; [done|].
  split; [eapply mentions_sorted; [done|apply nat_sorted_sorted]|]. split; [by eapply mentions_fst|]. split; [done|]. split; [done|].
  unfold bracketed_output, gen_bracket_mappings. rewrite E1. cbn [rbind]. rewrite E2. cbn [rbind fst snd]. rewrite bracket_loop_run.
  f_equal. f_equal. f_equal. apply list_fmap_ext. intros _ t _. unfold group. destruct (HD t) as [-> ->]. cbn. unfold end_at, ends. by rewrite fmap_length.
Qed.
Lemma output_mentions g renamed layer chains out : Forall (λ c, c ≠ []) chains → bracketed_output g renamed layer chains = Ok out →
  ∃ ms, mentions g renamed (layer_namespace g layer) (concat chains) ms.
Proof.
  intros HF. unfold bracketed_output, gen_bracket_mappings. destruct (markable_chains_ok chains HF) as (m2c & E1 & HE). rewrite E1. cbn [rbind].
  intros (x & (y & H & _)%rbind_Ok & _)%rbind_Ok. apply bracket_dicts_inv in H as [ms H]. destruct (mentions_perm _ _ _ _ (concat chains) (nat_sorted_perm _) _ H) as (ms' & ? & _). eauto.
Qed.
(** ** Pieces *)
Definition labelled (m2c : dict nid nid) (P : nid → Prop) (st : list nid) : Prop := Forall (λ m, ∃ c, dget m m2c = Some c ∧ P c) st.
Lemma closes_pieces m2c P n : ∀ st r, labelled m2c P st → gen_closing_string m2c n st = Ok r →
  ∃ ls, length ls = n ∧ Forall P ls ∧ r.1 = concat (closing_label <$> ls) ∧ labelled m2c P r.2.
Proof.
  induction n as [|n IH]; intros st r HL; cbn [gen_closing_string].
  - intros [= <-]. exists []. repeat split; [constructor|done].
  - destruct st as [|m st]; [done|]. apply Forall_cons in HL as [(c & Hc & HP) HL]. rewrite Hc. cbn [of_option rbind]. intros (x & Hx & [= <-])%rbind_Ok. cbn [fst snd].
    destruct (IH _ _ HL Hx) as (ls & H1 & H2 & H3 & H4). exists (c :: ls). repeat split; [by f_equal/=|by constructor| |done].
    rewrite fmap_cons. cbn [concat]. rewrite <-H3. unfold closing_label. by rewrite <-!(assoc_L (++)).
Qed.
Lemma groups_pieces g m2c P opn cls toks ss : Forall2 (token_is g) toks ss → (∀ t, labelled m2c P (opn t)) → ∀ st x, labelled m2c P st →
  brun g m2c (concat (group opn cls <$> toks)) st = Ok x →
  ∃ labels, Forall2 (λ t ls, length ls = cls t) toks labels ∧ Forall (Forall P) labels ∧
    x.1 = concat (zip_with (λ p ls, piece (length (opn p.1)) p.2 ls) (zip toks ss) labels).
Proof.
  intros H HO. induction H as [|t s toks ss Ht H IH]; intros st x HL.
  - intros [= <-]. by exists [].
  - rewrite fmap_cons. cbn [concat]. rewrite brun_app. unfold group at 1. rewrite !brun_app, brun_opens. cbn [rbind fst snd app brun].
    rewrite (proj2 (token_str_is g t s) Ht). cbn [rbind]. rewrite brun_app, brun_closes. intros (y & Hy & Hx)%rbind_Ok. apply rbind_Ok in Hy as (y1 & Hy & [= <-]).
    apply rbind_Ok in Hy as (y2 & Hy & [= <-]). apply rbind_Ok in Hy as (y3 & Hy & [= <-]). apply rbind_Ok in Hx as (z & Hz & [= <-]). cbn [fst snd brun rbind app] in *.
    apply (closes_pieces m2c P) in Hy as (ls & H1 & H2 & H3 & H4).
    + destruct (IH _ _ H4 Hz) as (labels & G1 & G2 & G3). exists (ls :: labels). split; [by constructor|]. split; [by constructor|]. cbn [zip_with zip concat fst snd].
      rewrite <-G3, H3. unfold piece. rewrite <-!(assoc_L (++)). done.
    + apply Forall_app. split; [|done]. unfold labelled. rewrite (reverse_Permutation (opn t)). apply HO.
Qed.
Lemma output_pieces g renamed layer chains ms ss out : Forall (λ c, c ≠ []) chains → mentions g renamed (layer_namespace g layer) (concat chains) ms → text_tokens g ss →
  bracketed_output g renamed layer chains = Ok out →
  ∃ labels, Forall2 (λ t ls, length ls = end_at ms t) (g_tokens g) labels ∧ Forall (Forall (λ c, ∃ m, in_chain chains m c)) labels ∧
    out = concat (zip_with (λ p ls, piece (begin_at ms p.1) p.2 ls) (zip (g_tokens g) ss) labels).
Proof.
  intros HF HM HT HO. destruct (output_run _ _ _ _ _ HF HM) as (m2c & ms' & HP & _ & HI & HL & _ & E). rewrite E in HO. apply rbind_Ok in HO as (x & Hx & [= <-]).
  eapply (groups_pieces g m2c (λ c, ∃ m, in_chain chains m c)) in Hx as (labels & H1 & H2 & H3); [|done| |constructor].
  - exists labels. split; [|split; [done|]].
    + eapply Forall2_impl; [exact H1|]. intros t ls ->. by apply end_at_perm.
    + rewrite H3. f_equal. clear -HP. induction (zip (g_tokens g) ss) as [|p l IH] in labels |- *; [done|]. destruct labels as [|ls labels]; [done|].
      cbn [zip_with]. f_equal; [|apply IH]. f_equal. by rewrite starts_length, (begin_at_perm _ _ _ HP).
  - intros t. unfold labelled, starts. apply Forall_fmap, Forall_forall. intros y [_ Hy]%elem_of_list_filter. rewrite HP in Hy. rewrite Forall_forall in HI. destruct (HL _ (HI _ Hy)) as (c & Hc & HC). cbn. eauto.
Qed.

(** ** Success and balance *)
Lemma count_app c a b : count c (a ++ b) = count c a + count c b.
Proof. unfold count. by rewrite filter_app, app_length. Qed.
Lemma count_none c s : c ∉ s → count c s = 0.
Proof. intros H. unfold count. induction s as [|x s IH]; [done|]. apply not_elem_of_cons in H as [H1 H2]. rewrite filter_cons, decide_False by congruence. by apply IH. Qed.
Lemma count_eq c s : count c (c :: s) = S (count c s).
Proof. unfold count. by rewrite filter_cons, decide_True by done. Qed.
Lemma count_ne c x s : x ≠ c → count c (x :: s) = count c s.
Proof. intros H. unfold count. by rewrite filter_cons, decide_False by done. Qed.
Lemma prefix_split {A} (a b p q : list A) : a ++ b = p ++ q → (∃ r, a = p ++ r) ∨ (∃ r, p = a ++ r ∧ b = r ++ q).
Proof.
  revert p. induction a as [|x a IH]; intros p H; [right; by exists p|]. destruct p as [|y p]; [left; by exists (x :: a)|].
  injection H as <- H. destruct (IH _ H) as [[r ->]|(r & -> & ->)]; [left; by exists r|right; by exists r].
Qed.
Definition opens (ops : list bop) : list nid := o ← ops; match o with Open m => [m] | _ => [] end.
(** the depth of the text *)
Lemma brun_balance g m2c ops : (∀ t s, Word t ∈ ops → token_is g t s → no_bracket s) → (∀ m c, dget m m2c = Some c → no_bracket (nid_str c)) →
  ∀ st x, brun g m2c ops st = Ok x → (∀ p q, x.1 = p ++ q → count "]"%char p ≤ count "["%char p + length st) ∧
    count "]"%char x.1 + length x.2 = count "["%char x.1 + length st.
Proof.
  intros HW HC. induction ops as [|o ops IH]; intros st x.
  - intros [= <-]. cbn. split; [|done]. intros p q E. symmetry in E. apply app_eq_nil in E as [-> ->]. cbn. lia.
  - assert (IH' : ∀ st x, brun g m2c ops st = Ok x → (∀ p q, x.1 = p ++ q → count "]"%char p ≤ count "["%char p + length st) ∧
      count "]"%char x.1 + length x.2 = count "["%char x.1 + length st).
    { apply IH. intros t s Ht. apply HW. by right. }
    clear IH. destruct o as [m|t| |]; cbn [brun].
    + intros (y & Hy & [= <-])%rbind_Ok. cbn [fst snd]. destruct (IH' _ _ Hy) as [H1 H2]. split.
      * intros [|c p] q E; [cbn; lia|]. injection E as <- E. specialize (H1 _ _ E). cbn [length] in *. rewrite ?count_eq, ?count_ne by done. rewrite ?count_ne by done. lia.
      * cbn [length] in *. rewrite ?count_eq, ?count_ne by done. rewrite ?count_ne by done. lia.
    + intros (s & Hs%token_str_is & H)%rbind_Ok. apply rbind_Ok in H as (y & Hy & [= <-]). cbn [fst snd]. destruct (IH' _ _ Hy) as [H1 H2].
      destruct (HW t s ltac:(left) Hs) as [N1 N2]. split.
      * intros p q E. apply prefix_split in E as [[r E]|(r & -> & E)].
        { rewrite (count_none "]"%char p); [lia|]. intros Hp. apply N2. rewrite E. apply elem_of_app. by left. }
        rewrite !count_app, (count_none "]"%char (chs s)), (count_none "["%char (chs s)) by done. apply (H1 _ _ E).
      * rewrite !count_app, (count_none "]"%char (chs s)), (count_none "["%char (chs s)) by done. done.
    + destruct st as [|m st]; [done|]. destruct (dget m m2c) as [c|] eqn:Ec; [|done]. cbn [of_option rbind]. intros (y & Hy & Hx)%rbind_Ok. assert (x = (closing_label c ++ y.1, y.2)) as -> by congruence. clear Hx. cbn [fst snd length].
      destruct (IH' _ _ Hy) as [H1 H2]. destruct (HC _ _ Ec) as [N1 N2].
      assert (L1 : "["%char ∉ closing_label c).
      { unfold closing_label. rewrite !not_elem_of_app. split; [|split; [done|]]; cbn; rewrite !not_elem_of_cons; repeat split; try done; apply not_elem_of_nil. }
      assert (L2 : ∃ r, closing_label c = "]"%char :: r ∧ "]"%char ∉ r).
      { eexists. split; [reflexivity|]. cbn [app]. rewrite !not_elem_of_cons. repeat split; try done. apply not_elem_of_app. split; [done|]. cbn. rewrite !not_elem_of_cons. repeat split; try done; apply not_elem_of_nil. }
      destruct L2 as (r0 & El & L2). split.
      * intros p q E. apply prefix_split in E as [[r E]|(r & -> & E)].
        { destruct p as [|c0 p]; [cbn; lia|]. rewrite El in E. injection E as <- E. rewrite count_eq.
          rewrite (count_none "]"%char p); [lia|]. intros Hp. apply L2. rewrite E. apply elem_of_app. by left. }
        rewrite !count_app. rewrite (count_none "["%char (closing_label c)) by done. specialize (H1 _ _ E).
        assert (count "]"%char (closing_label c) = 1) as ->; [|lia]. rewrite El, count_eq. f_equal. by apply count_none.
      * rewrite !count_app. rewrite (count_none "["%char (closing_label c)) by done.
        assert (count "]"%char (closing_label c) = 1) as ->; [|lia]. rewrite El, count_eq. f_equal. by apply count_none.
    + intros (y & Hy & [= <-])%rbind_Ok. cbn [fst snd]. destruct (IH' _ _ Hy) as [H1 H2]. split.
      * intros [|c p] q E; [cbn; lia|]. injection E as <- E. specialize (H1 _ _ E). cbn [length] in *. rewrite ?count_eq, ?count_ne by done. rewrite ?count_ne by done. lia.
      * cbn [length] in *. rewrite ?count_eq, ?count_ne by done. rewrite ?count_ne by done. lia.
Qed.
Section counts.
  Context {A : Type}.
  Lemma filter_le (P Q : A → Prop) `{!∀ x, Decision (P x)} `{!∀ x, Decision (Q x)} l :
    (∀ x, x ∈ l → P x → Q x) → length (filter P l) ≤ length (filter Q l).
  Proof.
    induction l as [|x l IH]; intros HPQ; [done|]. rewrite !filter_cons. specialize (IH (λ y Hy, HPQ y (elem_of_list_further _ _ _ Hy))).
    destruct (decide (P x)) as [Hp|Hp]; [|destruct (decide (Q x)); cbn; lia]. rewrite decide_True by (apply HPQ; [left|done]). cbn. lia.
  Qed.
  Lemma filter_split (P Q R : A → Prop) `{!∀ x, Decision (P x)} `{!∀ x, Decision (Q x)} `{!∀ x, Decision (R x)} l :
    (∀ x, R x ↔ P x ∨ Q x) → (∀ x, P x → ¬ Q x) → length (filter R l) = length (filter P l) + length (filter Q l).
  Proof.
    intros HR HD. induction l as [|x l IH]; [done|]. rewrite !filter_cons.
    destruct (decide (P x)) as [Hp|Hp].
    - rewrite (decide_True (P := R x)) by (apply HR; auto). rewrite decide_False by auto. cbn. lia.
    - destruct (decide (Q x)) as [Hq|Hq].
      + rewrite (decide_True (P := R x)) by (apply HR; auto). cbn. lia.
      + rewrite (decide_False (P := R x)); [done|]. rewrite HR. naive_solver.
  Qed.
End counts.
Lemma closes_ok m2c P n : ∀ st, labelled m2c P st → n ≤ length st → ∃ c, gen_closing_string m2c n st = Ok (c, drop n st).
Proof.
  induction n as [|n IH]; intros st HL Hn; [by eexists|]. destruct st as [|m st]; [cbn in Hn; lia|]. apply Forall_cons in HL as [(c & Hc & HP) HL].
  cbn [gen_closing_string]. rewrite Hc. cbn [of_option rbind]. destruct (IH st HL) as [r ->]; [cbn in Hn; lia|]. cbn [rbind fst snd drop]. eauto.
Qed.
Definition before_in_pre (pre : list nid) (ms : list (nid * nid * nid)) : nat := length (filter (λ x : nid * nid * nid, x.1.2 ∈ pre) ms).
Definition last_in_pre (pre : list nid) (ms : list (nid * nid * nid)) : nat := length (filter (λ x : nid * nid * nid, x.2 ∈ pre) ms).
Lemma groups_ok g m2c P ms toks : NoDup toks → Forall (in_order toks) ms → (∀ t, labelled m2c P (starts ms t)) → ∀ suf ss pre st,
  toks = pre ++ suf → Forall2 (token_is g) suf ss → labelled m2c P st → length st + last_in_pre pre ms = before_in_pre pre ms →
  ∃ out st', brun g m2c (concat (group (starts ms) (end_at ms) <$> suf)) st = Ok (out, st') ∧ length st' + last_in_pre toks ms = before_in_pre toks ms.
Proof.
  intros ND HI HO. induction suf as [|t suf IH]; intros ss pre st E HT HL Hlen.
  - rewrite app_nil_r in E. subst pre. exists [], st. done.
  - inversion HT as [|? s ? ss' Ht HT']; subst ss. rewrite fmap_cons. cbn [concat]. rewrite brun_app. unfold group at 1. rewrite !brun_app, brun_opens. cbn [rbind fst snd app brun].
    rewrite (proj2 (token_str_is g t s) Ht). cbn [rbind]. rewrite brun_app, brun_closes.
    assert (Hnp : t ∉ pre). { rewrite E in ND. apply NoDup_app in ND as (_ & ND & _). intros Hin. apply (ND _ Hin). left. }
    assert (C1 : before_in_pre (pre ++ [t]) ms = before_in_pre pre ms + begin_at ms t).
    { apply filter_split; intros y; [rewrite elem_of_app, elem_of_list_singleton; done|]. intros Hy <-. done. }
    assert (C2 : last_in_pre (pre ++ [t]) ms = last_in_pre pre ms + end_at ms t).
    { apply filter_split; intros y; [rewrite elem_of_app, elem_of_list_singleton; done|]. intros Hy <-. done. }
    assert (C3 : last_in_pre (pre ++ [t]) ms ≤ before_in_pre (pre ++ [t]) ms).
    { apply filter_le. intros y Hy Hl. rewrite Forall_forall in HI. destruct (HI y Hy) as (i & j & Hij & Hi & Hj).
      assert (E' : toks = (pre ++ [t]) ++ suf) by (by rewrite <-(assoc_L (++))). apply elem_of_list_lookup in Hl as [j' Hj'].
      assert (j = j') as <-. { eapply (NoDup_lookup toks); [done|exact Hj|]. rewrite E'. by apply lookup_app_l_Some. }
      apply lookup_lt_Some in Hj'. rewrite E' in Hi. rewrite lookup_app_l in Hi by lia. apply elem_of_list_lookup. eauto. }
    assert (HL' : labelled m2c P (reverse (starts ms t) ++ st)). { apply Forall_app. split; [|done]. unfold labelled. rewrite reverse_Permutation. apply HO. }
    assert (Hl' : length (reverse (starts ms t) ++ st) = begin_at ms t + length st) by (rewrite app_length, reverse_length, starts_length; done).
    destruct (closes_ok m2c P (end_at ms t) _ HL') as [c Ec]; [lia|]. rewrite Ec. cbn [rbind fst snd brun app].
    destruct (IH ss' (pre ++ [t]) (drop (end_at ms t) (reverse (starts ms t) ++ st))) as (out & st' & Eo & Hlo).
    + by rewrite <-(assoc_L (++)).
    + done.
    + by apply Forall_drop.
    + rewrite drop_length. lia.
    + rewrite Eo. cbn [rbind fst snd]. eauto.
Qed.
Lemma output_balanced g renamed layer chains ms ss : Forall (λ c, c ≠ []) chains → mentions g renamed (layer_namespace g layer) (concat chains) ms → text_tokens g ss →
  NoDup (g_tokens g) → Forall (in_order (g_tokens g)) ms →
  ∃ out, bracketed_output g renamed layer chains = Ok out ∧
    (Forall no_bracket ss → Forall (λ m, no_bracket (nid_str m)) (concat chains) → balanced out).
Proof.
  intros HF HM HT ND HI. destruct (output_run _ _ _ _ _ HF HM) as (m2c & ms' & HP & _ & HIn & HL & HL2 & E).
  assert (HLs : ∀ t, labelled m2c (λ c, ∃ m, in_chain chains m c) (starts ms' t)).
  { intros t. unfold labelled, starts. apply Forall_fmap, Forall_forall. intros y [_ Hy]%elem_of_list_filter. rewrite HP in Hy. rewrite Forall_forall in HIn.
    destruct (HL _ (HIn _ Hy)) as (c & Hc & HC). cbn. eauto. }
  assert (HI' : Forall (in_order (g_tokens g)) ms') by (by rewrite HP).
  destruct (groups_ok g m2c _ ms' (g_tokens g) ND HI' HLs (g_tokens g) ss [] []) as (out & st' & Eo & Hlo); [done|done|constructor| |].
  { cbn. unfold last_in_pre, before_in_pre. clear. by induction ms' as [|x ms' IH]. }
  exists out. rewrite E, Eo. split; [done|]. intros HB1 HB2.
  assert (length st' = 0).
  { unfold last_in_pre, before_in_pre in Hlo. assert (H1 : filter (λ x : nid * nid * nid, x.2 ∈ g_tokens g) ms' = ms').
    { apply filter_all. intros x Hx. rewrite Forall_forall in HI'. destruct (HI' x Hx) as (i & j & _ & _ & Hj). by apply elem_of_list_lookup_2 in Hj. }
    assert (H2 : filter (λ x : nid * nid * nid, x.1.2 ∈ g_tokens g) ms' = ms').
    { apply filter_all. intros x Hx. rewrite Forall_forall in HI'. destruct (HI' x Hx) as (i & j & _ & Hi & _). by apply elem_of_list_lookup_2 in Hi. }
    rewrite H1, H2 in Hlo. lia. }
  destruct st'; [|done]. edestruct (brun_balance g m2c) as [H1 H2]; [| |exact Eo|].
  - intros t s Hw Hs. rewrite Forall_forall in HB1. apply HB1. unfold text_tokens in HT.
    assert (Ht : t ∈ g_tokens g).
    { apply elem_of_list_In, in_concat in Hw as (l & Hl & Hw). apply elem_of_list_In, elem_of_list_fmap in Hl as (t' & -> & Ht'). apply elem_of_list_In in Hw. unfold group in Hw.
      rewrite !elem_of_app in Hw. destruct Hw as [Hw|[Hw|[Hw|Hw]]].
      - by apply elem_of_list_fmap in Hw as (? & ? & _).
      - apply elem_of_list_singleton in Hw as [= ->]. done.
      - by apply elem_of_replicate in Hw as [? _].
      - by apply elem_of_list_singleton in Hw. }
    apply elem_of_list_lookup in Ht as [i Hi]. destruct (Forall2_lookup_l _ _ _ _ _ HT Hi) as (s' & Hs' & Hts). assert (s = s') as ->; [|by apply elem_of_list_lookup_2 in Hs'].
    destruct Hs as (a & Ha & Hd), Hts as (a' & Ha' & Hd'). congruence.
  - intros m c Hc. apply HL2 in Hc as (ch & Hch & Hh & _). rewrite Forall_forall in HB2. apply HB2. apply elem_of_list_In, in_concat. exists ch. split; [by apply elem_of_list_In|].
    destruct ch; [done|]. injection Hh as ->. by left.
  - split; [|cbn [fst snd length] in H2; lia]. intros p q Epq. specialize (H1 p q Epq). cbn [length] in H1. lia.
Qed.

(** ** Nested spans *)
Section btree_ind.
  Context (P : btree → Prop) (HT : ∀ t, P (BTok t)) (HS : ∀ m ts, Forall P ts → P (BSpan m ts)).
  Fixpoint btree_ind' (x : btree) : P x :=
    match x with
    | BTok t => HT t
    | BSpan m ts => HS m ts ((fix go ts : Forall P ts := match ts with [] => List.Forall_nil _ | y :: ts => @List.Forall_cons _ _ y ts (btree_ind' y) (go ts) end) ts)
    end.
End btree_ind.
Fixpoint with_blanks (l : list (list bop)) : list bop :=
  match l with [] => [] | [o] => o | o :: l => o ++ Blank :: with_blanks l end.
Fixpoint bops (x : btree) : list bop :=
  match x with BTok t => [Word t] | BSpan m ts => Open m :: with_blanks (map bops ts) ++ [Close] end.
Lemma bops_run g m2c word label x : (∀ t, t ∈ btokens x → token_str g t = Ok (str (word t))) →
  (∀ m a b, (m, a, b) ∈ bspans x → dget m m2c = Some (label m)) → ∀ st, brun g m2c (bops x) st = Ok (brender word label x, st).
Proof.
  induction x as [t|m ts IH] using btree_ind'; intros HW HL st.
  - cbn [bops brun]. rewrite HW by left. cbn [rbind brender]. by rewrite chs_str, app_nil_r.
  - cbn [bops brun]. rewrite brun_app. cbn [bspans] in HL. assert (Hm := HL m _ _ ltac:(left)).
    assert (HL' : ∀ m0 a b, (m0, a, b) ∈ concat (map bspans ts) → dget m0 m2c = Some (label m0)) by (intros; eapply HL; right; done). clear HL.
    cbn [btokens] in HW.
    match goal with |- context [brender word label (BSpan m ts)] => cbn [brender]; match goal with |- context [?f ts ++ closing_label _] => set (parts := f) end end.
    assert (E : ∀ st, brun g m2c (with_blanks (map bops ts)) st = Ok (parts ts, st)).
    { clear Hm. induction ts as [|x ts IHts]; intros st'; [done|]. apply Forall_cons in IH as [IHx IH].
      assert (Hx : ∀ st, brun g m2c (bops x) st = Ok (brender word label x, st)).
      { apply IHx; [intros; apply HW; cbn; apply elem_of_app; by left|intros; eapply HL'; cbn; apply elem_of_app; by left]. }
      specialize (IHts IH). destruct ts as [|y ts]; [apply Hx|].
      change (with_blanks (map bops (x :: y :: ts))) with (bops x ++ Blank :: with_blanks (map bops (y :: ts))).
      rewrite brun_app, Hx. cbn [rbind fst snd]. cbn [brun]. rewrite IHts; [done| |].
      - intros; apply HW; cbn; apply elem_of_app; by right.
      - intros; eapply HL'; cbn; apply elem_of_app; by right. }
    rewrite E. cbn [rbind fst snd brun]. rewrite Hm. cbn [of_option rbind fst snd]. by rewrite app_nil_r.
Qed.
Lemma starts_app a b t : starts (a ++ b) t = starts a t ++ starts b t.
Proof. unfold starts. by rewrite filter_app, fmap_app. Qed.
Lemma end_at_app a b t : end_at (a ++ b) t = end_at a t + end_at b t.
Proof. unfold end_at. by rewrite filter_app, app_length. Qed.
Lemma starts_cons m a b l t : starts ((m, a, b) :: l) t = (if decide (t = a) then [m] else []) ++ starts l t.
Proof. unfold starts. rewrite filter_cons. cbn [fst snd]. destruct (decide (a = t)), (decide (t = a)); congruence || done. Qed.
Lemma end_at_cons m a b l t : end_at ((m, a, b) :: l) t = (if decide (t = b) then 1 else 0) + end_at l t.
Proof. unfold end_at. rewrite filter_cons. cbn [fst snd]. destruct (decide (b = t)), (decide (t = b)); congruence || done. Qed.
Lemma starts_none l t : (∀ m a b, (m, a, b) ∈ l → a ≠ t) → starts l t = [].
Proof.
  induction l as [|[[m a] b] l IH]; intros H; [done|]. rewrite starts_cons, IH by (intros; eapply H; by right).
  rewrite decide_False; [done|]. intros ->. by eapply H; [left|].
Qed.
Lemma end_at_none l t : (∀ m a b, (m, a, b) ∈ l → b ≠ t) → end_at l t = 0.
Proof.
  induction l as [|[[m a] b] l IH]; intros H; [done|]. rewrite end_at_cons, IH by (intros; eapply H; by right).
  rewrite decide_False; [done|]. intros ->. by eapply H; [left|].
Qed.
Lemma first_of_in l : l ≠ [] → first_of l ∈ l.
Proof. destruct l; [done|]. left. Qed.
Lemma last_of_in l : l ≠ [] → last_of l ∈ l.
Proof. intros H. unfold last_of. destruct (last l) as [x|] eqn:E; [cbn; apply last_Some in E as [l' ->]; apply elem_of_app; right; left|by apply last_None in E]. Qed.
Lemma bwf_tokens x : bwf x → btokens x ≠ [].
Proof.
  induction x as [t|m ts IH] using btree_ind'; intros H; inversion H as [|? y ts' HF _]; subst; [done|]. apply Forall_cons in IH as [IHy _]. apply Forall_cons in HF as [Hy _].
  cbn. intros E. apply app_eq_nil in E as [E _]. by apply IHy.
Qed.
Lemma bspans_in x : bwf x → ∀ m a b, (m, a, b) ∈ bspans x → a ∈ btokens x ∧ b ∈ btokens x.
Proof.
  induction x as [t|m ts IH] using btree_ind'; intros HW m' a b; [by intros ?%elem_of_nil|]. cbn [bspans]. intros [[= -> -> ->]|H]%elem_of_cons.
  - apply bwf_tokens in HW. split; [by apply first_of_in|by apply last_of_in].
  - inversion HW as [|? y ts' HF _]; subst. apply elem_of_list_In, in_concat in H as (l & Hl & H). apply elem_of_list_In in H. apply in_map_iff in Hl as (x & <- & Hx). apply elem_of_list_In in Hx.
    rewrite Forall_forall in IH, HF. destruct (IH x Hx (HF x Hx) _ _ _ H) as [Ha Hb]. cbn [btokens].
    split; apply elem_of_list_In, in_concat; exists (btokens x); (split; [apply in_map, elem_of_list_In; done|by apply elem_of_list_In]).
Qed.
Lemma bspans_in_list ts : Forall bwf ts → ∀ m a b, (m, a, b) ∈ concat (map bspans ts) → a ∈ concat (map btokens ts) ∧ b ∈ concat (map btokens ts).
Proof.
  intros HF m a b H. apply elem_of_list_In, in_concat in H as (l & Hl & H). apply elem_of_list_In in H. apply in_map_iff in Hl as (x & <- & Hx). apply elem_of_list_In in Hx.
  rewrite Forall_forall in HF. destruct (bspans_in x (HF x Hx) _ _ _ H) as [Ha Hb].
  split; apply elem_of_list_In, in_concat; exists (btokens x); (split; [apply in_map, elem_of_list_In; done|by apply elem_of_list_In]).
Qed.
Lemma first_of_app a b : a ≠ [] → first_of (a ++ b) = first_of a.
Proof. by destruct a. Qed.
Lemma last_of_app a b : b ≠ [] → last_of (a ++ b) = last_of b.
Proof. intros H. unfold last_of. rewrite last_app. destruct (last b) eqn:E; [done|]. by apply last_None in E. Qed.
Lemma list_tokens_ne x ts : Forall bwf (x :: ts) → concat (map btokens (x :: ts)) ≠ [].
Proof. intros [H _]%Forall_cons. cbn. intros [E _]%app_eq_nil. by apply bwf_tokens in H. Qed.

Lemma groups_btree x : bwf x → NoDup (btokens x) → ∀ opn cls P k,
  (∀ t, t ∈ btokens x → opn t = (if decide (t = first_of (btokens x)) then P else []) ++ starts (bspans x) t) →
  (∀ t, t ∈ btokens x → cls t = end_at (bspans x) t + if decide (t = last_of (btokens x)) then k else 0) →
  concat (group opn cls <$> btokens x) = (Open <$> P) ++ bops x ++ replicate k Close ++ [Blank].
Proof.
  induction x as [t|m ts IH] using btree_ind'; intros HW ND opn cls P k HO HC.
  - cbn [btokens]. rewrite fmap_cons. cbn [fmap list_fmap concat]. rewrite app_nil_r. unfold group. rewrite HO, HC by left.
    cbn [btokens first_of last_of head last default bspans]. rewrite !decide_True by done. cbn [bops]. unfold starts, end_at. cbn. by rewrite app_nil_r.
  - inversion HW as [|? x0 ts0 HF _]; subst. set (ts := x0 :: ts0) in *. assert (Hne : ts ≠ []) by done. clearbody ts.
    assert (HL : ∀ P k, (∀ t, t ∈ concat (map btokens ts) → opn t = (if decide (t = first_of (concat (map btokens ts))) then P else []) ++ starts (concat (map bspans ts)) t) →
      (∀ t, t ∈ concat (map btokens ts) → cls t = end_at (concat (map bspans ts)) t + if decide (t = last_of (concat (map btokens ts))) then k else 0) →
      concat (group opn cls <$> concat (map btokens ts)) = (Open <$> P) ++ with_blanks (map bops ts) ++ replicate k Close ++ [Blank]).
    { clear HO HC P k HW x0 ts0. cbn [btokens] in ND. induction ts as [|x ts IHts]; [done|]. intros P k HO HC. apply Forall_cons in IH as [IHx IH]. apply Forall_cons in HF as [HWx HF].
      destruct ts as [|y ts].
      - cbn [map concat with_blanks] in *. rewrite app_nil_r in *. apply IHx; [done|done| |]; intros t Ht; [specialize (HO t); rewrite !app_nil_r in HO; by apply HO|specialize (HC t); rewrite !app_nil_r in HC; by apply HC].
      - set (ts' := y :: ts) in *. assert (Hne' : ts' ≠ []) by done. assert (HT : concat (map btokens ts') ≠ []) by (by apply list_tokens_ne).
        cbn [map concat] in ND, HO, HC |- *. apply NoDup_app in ND as (ND1 & ND2 & ND3). assert (Hxne := bwf_tokens _ HWx).
        rewrite fmap_app, concat_app. rewrite (IHx HWx ND1 opn cls P 0).
        + rewrite (IHts ND3 IH HF Hne' [] k).
          * cbn [fmap list_fmap app replicate]. change (with_blanks (bops x :: map bops ts')) with (bops x ++ Blank :: with_blanks (map bops ts')). rewrite <-!(assoc_L (++)). done.
          * intros t Ht. rewrite HO by (apply elem_of_app; by right). rewrite first_of_app by done. rewrite decide_False; [|intros ->; apply (ND2 _ (first_of_in _ Hxne) Ht)].
            rewrite starts_app, (starts_none (bspans x)); [by destruct (decide _)|]. intros m' a b Hs ->. apply bspans_in in Hs as [Ha _]; [|done]. by apply (ND2 _ Ha).
          * intros t Ht. rewrite HC by (apply elem_of_app; by right). rewrite last_of_app by done. rewrite end_at_app, (end_at_none (bspans x)); [done|].
            intros m' a b Hs ->. apply bspans_in in Hs as [_ Hb]; [|done]. by apply (ND2 _ Hb).
        + intros t Ht. rewrite HO by (apply elem_of_app; by left). rewrite first_of_app by done. rewrite starts_app, (starts_none (concat (map bspans ts'))); [by rewrite app_nil_r|].
          intros m' a b Hs ->. apply bspans_in_list in Hs as [Ha _]; [|done]. by apply (ND2 _ Ht).
        + intros t Ht. rewrite HC by (apply elem_of_app; by left). rewrite last_of_app by done. rewrite decide_False; [|intros ->; apply (ND2 _ Ht); by apply last_of_in].
          rewrite end_at_app, (end_at_none (concat (map bspans ts'))); [by destruct (decide _); lia|]. intros m' a b Hs ->. apply bspans_in_list in Hs as [_ Hb]; [|done]. by apply (ND2 _ Ht). }
    cbn [btokens] in *. rewrite (HL (P ++ [m]) (S k)).
    + rewrite fmap_app. cbn [bops fmap list_fmap]. rewrite <-!(assoc_L (++)). cbn [app]. do 2 f_equal. rewrite <-!(assoc_L (++)). done.
    + intros t Ht. rewrite HO by done. cbn [bspans]. cbn [btokens]. rewrite starts_cons. destruct (decide _); [by rewrite <-(assoc_L (++))|done].
    + intros t Ht. rewrite HC by done. cbn [bspans]. cbn [btokens]. rewrite end_at_cons. destruct (decide _); lia.
Qed.
Lemma id_before_trans a b c : id_before a b → id_before b c → id_before a c.
Proof.
  intros [->|H1] [->|H2]; [by left|by right|by right|]. right. unfold nat_cmp in *. by eapply (gc_trans _ key_cmp_good).
Qed.
Global Instance id_before_antisymm : AntiSymm (=) id_before.
Proof.
  intros a b [->|H1] [E|H2]; [done|done|done|]. rewrite nat_cmp_opp, H1 in H2. done.
Qed.
Global Instance id_before_Trans : Transitive id_before.
Proof. intros a b c. apply id_before_trans. Qed.
Lemma ss_app_nil {A} (R : A → A → Prop) a b : a = [] ∨ b = [] → StronglySorted R a → StronglySorted R b → StronglySorted R (a ++ b).
Proof. intros [->| ->]; [done|]. by rewrite app_nil_r. Qed.
(** the spans that start at a token, outer first *)
Lemma starts_sorted x : bwf x → NoDup (btokens x) → ∀ t, StronglySorted id_before (starts (bspans x) t).
Proof.
  induction x as [t'|m ts IH] using btree_ind'; intros HW ND t; [constructor|]. inversion HW as [|? x ts' HF HB]; subst.
  cbn [bspans]. cbn [btokens] in ND. rewrite starts_cons. cbn [btokens].
  assert (HL : StronglySorted id_before (starts (concat (map bspans (x :: ts'))) t)).
  { clear HB HW. revert IH HF ND. generalize (x :: ts'). intros l. induction l as [|y l IHl]; intros IH HF ND; [constructor|].
    apply Forall_cons in IH as [IHy IH]. apply Forall_cons in HF as [Hy HF]. cbn [map concat] in *. apply NoDup_app in ND as (ND1 & ND2 & ND3). rewrite starts_app.
    apply ss_app_nil; [|by apply IHy|by apply IHl]. destruct (decide (t ∈ btokens y)) as [Ht|Ht].
    - right. apply starts_none. intros m' a b Hs ->. apply bspans_in_list in Hs as [Ha _]; [|done]. by apply (ND2 _ Ht).
    - left. apply starts_none. intros m' a b Hs ->. apply bspans_in in Hs as [Ha _]; done. }
  destruct (decide (t = _)) as [->|Hne]; [|done]. cbn [app]. constructor; [done|].
  cbn [map concat] in *. apply NoDup_app in ND as (ND1 & ND2 & ND3). apply Forall_cons in HF as [Hx HF]. assert (Hxne := bwf_tokens _ Hx). rewrite first_of_app in * by done.
  rewrite starts_app in *. rewrite (starts_none (concat (map bspans ts'))) in *.
  2,3: intros m' a b Hs ->; apply bspans_in_list in Hs as [Ha _]; [|done]; apply (ND2 _ (first_of_in _ Hxne) Ha).
  rewrite app_nil_r in *. destruct x as [t'|m' us]; [constructor|]. cbn [bspans] in *. rewrite starts_cons, decide_True in * by done. cbn [app] in *. apply StronglySorted_inv in HL as [_ HL].
  specialize (HB m' us eq_refl). apply List.Forall_cons; [done|]. eapply Forall_impl; [exact HL|]. intros z. by apply id_before_trans.
Qed.
Lemma starts_sorted_list xs t : Forall bwf xs → NoDup (concat (map btokens xs)) → StronglySorted id_before (starts (concat (map bspans xs)) t).
Proof.
  induction xs as [|y l IHl]; intros HF ND; [constructor|]. apply Forall_cons in HF as [Hy HF]. cbn [map concat] in *. apply NoDup_app in ND as (ND1 & ND2 & ND3). rewrite starts_app.
  apply ss_app_nil; [|by apply starts_sorted|by apply IHl]. destruct (decide (t ∈ btokens y)) as [Ht|Ht].
  - right. apply starts_none. intros m' a b Hs ->. apply bspans_in_list in Hs as [Ha _]; [|done]. by apply (ND2 _ Ht).
  - left. apply starts_none. intros m' a b Hs ->. apply bspans_in in Hs as [Ha _]; done.
Qed.
Lemma ss_starts ms t : StronglySorted (λ x y : nid * nid * nid, nat_cmp x.1.1 y.1.1 ≠ Gt) ms → StronglySorted (λ x y, nat_cmp x y ≠ Gt) (starts ms t).
Proof.
  induction 1 as [|[[m a] b] ms HS IH HF]; [constructor|]. rewrite starts_cons. destruct (decide _) as [->|]; [|done]. constructor; [done|].
  apply Forall_forall. intros y Hy. unfold starts in Hy. apply elem_of_list_fmap in Hy as (z & -> & Hz). apply elem_of_list_filter in Hz as [_ Hz]. rewrite Forall_forall in HF. by apply (HF z).
Qed.
Lemma same_sorted l1 l2 : StronglySorted (λ x y, nat_cmp x y ≠ Gt) l1 → StronglySorted id_before l2 → l1 ≡ₚ l2 → l1 = l2.
Proof.
  intros H1 H2 HP. apply (StronglySorted_unique id_before); [|done|done].
  assert (HC : ∀ x y, x ∈ l2 → y ∈ l2 → id_before x y ∨ id_before y x).
  { clear -H2. induction H2 as [|z l HS IH HF]; intros x y Hx Hy; [by apply elem_of_nil in Hx|]. rewrite Forall_forall in HF.
    apply elem_of_cons in Hx as [->|Hx]; apply elem_of_cons in Hy as [->|Hy]; [left; by left|left; by apply HF|right; by apply HF|by apply IH]. }
  assert (HS : ∀ x, x ∈ l1 → x ∈ l2) by (intros x; by rewrite HP). clear HP H2. induction H1 as [|x l H1 IH HF]; constructor.
  - apply IH. intros y Hy. apply HS. by right.
  - rewrite Forall_forall in HF |- *. intros y Hy. specialize (HF y Hy). destruct (HC x y) as [|[->|Hl]]; [apply HS; left|apply HS; by right|done|by left|].
    rewrite nat_cmp_opp, Hl in HF. done.
Qed.
Lemma output_nested g renamed layer chains ms ss xs : Forall (λ c, c ≠ []) chains → mentions g renamed (layer_namespace g layer) (concat chains) ms → text_tokens g ss →
  NoDup (g_tokens g) → Forall bwf xs → concat (btokens <$> xs) = g_tokens g → concat (bspans <$> xs) ≡ₚ ms →
  ∃ label, (∀ m, m ∈ concat chains → in_chain chains m (label m)) ∧
    bracketed_output g renamed layer chains = Ok (bdocument (λ t, chs (default "" (dget t (zip (g_tokens g) ss)))) label xs).
Proof.
  intros HF HM HT ND HW ET ES. destruct (output_run _ _ _ _ _ HF HM) as (m2c & ms' & HP & HSS & HIn & HL & HL2 & E).
  exists (λ m, default m (dget m m2c)). split.
  { intros m Hm. destruct (HL m Hm) as (c & Hc & H). by rewrite Hc. }
  set (word := λ t, chs (default "" (dget t (zip (g_tokens g) ss)))). set (label := λ m, default m (dget m m2c)).
  assert (HD : ∀ t, t ∈ g_tokens g → starts ms' t = starts (concat (map bspans xs)) t ∧ end_at ms' t = end_at (concat (map bspans xs)) t).
  { intros t _. split; [|apply end_at_perm; by rewrite HP, <-ES]. apply same_sorted; [by apply ss_starts| |apply starts_perm; by rewrite HP, <-ES].
    apply starts_sorted_list; [done|]. change (map btokens xs) with (btokens <$> xs). by rewrite ET. }
  assert (HWd : ∀ t, t ∈ g_tokens g → token_str g t = Ok (str (word t))).
  { intros t Ht. apply token_str_is. unfold word. rewrite str_chs. apply elem_of_list_lookup in Ht as [i Hi].
    destruct (Forall2_lookup_l _ _ _ _ _ HT Hi) as (s & Hs & Hts). rewrite (elem_dget t s); [done| |].
    - unfold dkeys. rewrite fst_zip; [done|]. by rewrite (Forall2_length _ _ _ HT).
    - apply elem_of_list_lookup. exists i. apply lookup_zip_with_Some. eauto. }
  assert (HLb : ∀ m a b, (m, a, b) ∈ concat (map bspans xs) → dget m m2c = Some (label m)).
  { intros m a b H. change (map bspans xs) with (bspans <$> xs) in H. rewrite ES in H. rewrite Forall_forall in HIn. destruct (HL m (HIn _ H)) as (c & Hc & _). unfold label. by rewrite Hc. }
  assert (EG : concat (group (starts ms') (end_at ms') <$> g_tokens g) = concat ((λ x, bops x ++ [Blank]) <$> xs)).
  { rewrite <-ET in HD, ND |- *. change (btokens <$> xs) with (map btokens xs) in *. clear -HW HD ND. revert HD. generalize (starts ms') (end_at ms'). intros opn cls HD.
    induction xs as [|x xs IH]; [done|]. apply Forall_cons in HW as [Hx HW]. cbn [map concat] in HD, ND |- *. rewrite fmap_app, concat_app. apply NoDup_app in ND as (ND1 & ND2 & ND3).
    rewrite fmap_cons. cbn [concat]. f_equal.
    - rewrite (groups_btree x Hx ND1 opn cls [] 0); [done| |]; intros t Ht; destruct (HD t ltac:(apply elem_of_app; by left)) as [D1 D2].
      + rewrite D1, starts_app, (starts_none (concat (map bspans xs))); [rewrite app_nil_r; by destruct (decide _)|]. intros m' a b Hs ->. apply bspans_in_list in Hs as [Ha _]; [|done]. by apply (ND2 _ Ht).
      + rewrite D2, end_at_app, (end_at_none (concat (map bspans xs))); [by destruct (decide _)|]. intros m' a b Hs ->. apply bspans_in_list in Hs as [_ Hb]; [|done]. by apply (ND2 _ Ht).
    - apply IH; [done|done|]. intros t Ht. destruct (HD t ltac:(apply elem_of_app; by right)) as [D1 D2]. rewrite D1, D2, starts_app, end_at_app. split.
      + rewrite (starts_none (bspans x)); [done|]. intros m' a b Hs ->. apply bspans_in in Hs as [Ha _]; [|done]. by apply (ND2 _ Ha).
      + rewrite (end_at_none (bspans x)); [done|]. intros m' a b Hs ->. apply bspans_in in Hs as [_ Hb]; [|done]. by apply (ND2 _ Hb). }
  rewrite E, EG. assert (ER : ∀ st, brun g m2c (concat ((λ x, bops x ++ [Blank]) <$> xs)) st = Ok (bdocument word label xs, st)).
  { rewrite <-ET in HWd. clear -HWd HLb. induction xs as [|x xs IH]; intros st; [done|]. unfold bdocument. rewrite !fmap_cons in *. cbn [map concat] in *. rewrite !brun_app.
    rewrite (bops_run g m2c word label x).
    - cbn [rbind fst snd brun]. rewrite IH; [done| |].
      + intros t Ht. apply HWd. apply elem_of_app. by right.
      + intros m a b H. eapply HLb. apply elem_of_app. by right.
    - intros t Ht. apply HWd. apply elem_of_app. by left.
    - intros m a b H. eapply HLb. apply elem_of_app. by left. }
  rewrite ER. done.
Qed.
(** chains are not empty *)
Lemma walk_nonempty fuel rel : ∀ s cs, walk_chain fuel rel s = Ok cs → Forall (λ c, c ≠ []) cs.
Proof.
  induction fuel as [|fuel IH]; intros s cs; [done|]. cbn [walk_chain]. generalize (default [] (dget s rel)). intros l. revert cs. induction l as [|t l IHl]; intros cs; cbn [rconcat].
  - intros [= <-]. constructor.
  - intros (y & Hy & (ys & Hys & [= <-])%rbind_Ok)%rbind_Ok. apply Forall_app. split; [|by apply IHl]. destruct (dmem t rel).
    + apply rbind_Ok in Hy as (tails & _ & [= <-]). apply Forall_fmap, Forall_forall. done.
    + injection Hy as <-. by repeat constructor.
Qed.
Lemma chains_nonempty fuel g layer chains : get_pointing_chains fuel g layer (Ok chains) → Forall (λ c, c ≠ []) chains.
Proof.
  intros H. inversion H as [|es rel _ _ E]. unfold chains_of in E. apply rbind_Ok in E as (all & Hall & E).
  assert (HA : Forall (Forall (λ c, c ≠ [])) all).
  { apply rmap_Ok in Hall. clear -Hall. induction Hall; constructor; [by eapply walk_nonempty|done]. }
  clear Hall. revert E HA. generalize (@nil (list (list nid))). revert chains. clear. induction all as [|cl all IH]; intros chains before; cbn [unique_chains].
  - intros [= <-] _. constructor.
  - intros (s & _ & (r & Hr & [= <-])%rbind_Ok)%rbind_Ok HA. apply Forall_cons in HA as [H1 HA]. specialize (IH _ _ Hr HA). destruct (existsb _ _); [done|]. by apply Forall_app.
Qed.

Lemma before_colon_no l : ":"%char ∉ l → before_colon l = l.
Proof. induction l as [|c l IH]; [done|]. intros [H1 H2]%not_elem_of_cons. cbn. rewrite decide_False by congruence. by rewrite IH. Qed.
Lemma before_colon_app l r : ":"%char ∉ l → before_colon (l ++ ":"%char :: r) = l.
Proof. induction l as [|c l IH]; [done|]. intros [H1 H2]%not_elem_of_cons. cbn. rewrite decide_False by congruence. by rewrite IH. Qed.
Lemma namespace_of_ok g layer ns : namespace_of g layer ns ↔ layer_namespace g layer = ns.
Proof.
  split.
  - intros [ | |l Hne Hl|ns' rest Hl]; [done|done| |].
    + unfold layer_namespace, layer2namespace. rewrite before_colon_no by done. destruct l; [done|]. apply str_chs.
    + unfold layer_namespace, layer2namespace. rewrite !chs_app. change (chs ":" ++ chs rest) with (":"%char :: chs rest). rewrite before_colon_app by done.
      destruct ns'; [done|]. cbn -[chs]. apply (str_chs (String a ns')).
  - intros <-. destruct layer as [l|]; [|constructor]. destruct (decide (l = "")) as [->|Hne]; [constructor|].
    assert (E : layer_namespace g (Some l) = str (before_colon (chs l))) by (destruct l; done). rewrite E.
    destruct (decide (":"%char ∈ chs l)) as [Hin|Hin].
    + assert (HS : ∃ a b, chs l = a ++ ":"%char :: b ∧ ":"%char ∉ a).
      { clear -Hin. induction (chs l) as [|c s IH]; [by apply elem_of_nil in Hin|]. destruct (decide (c = ":"%char)) as [->|Hc].
        - exists [], s. split; [done|]. apply not_elem_of_nil.
        - apply elem_of_cons in Hin as [?|Hin]; [congruence|]. destruct (IH Hin) as (a & b & -> & Ha). exists (c :: a), b. split; [done|]. apply not_elem_of_cons. split; [congruence|done]. }
      destruct HS as (a & b & El & Ha). rewrite El, before_colon_app by done.
      assert (El' : l = str a +:+ ":" +:+ str b). { apply chs_inj. rewrite !chs_app, !chs_str. done. }
      rewrite El' at 1. apply NS_sub. by rewrite chs_str.
    + rewrite before_colon_no, str_chs by done. by apply NS_plain.
Qed.
