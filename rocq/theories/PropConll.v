(** * PropConll: property C42, the coreference column of CoNLL 2009 files

    [write_conll fuel g clayer mlayer toks_of order r]: the export of [g] ends with
    [r]; [fuel] bounds the recursion depth, [order] is the order in which Python
    iterates over a set, [toks_of] the attribute "tokens" of sentence nodes. *)
From Verif Require Import PyBase DocGraph Relabel SpecGraph DocGraphFacts History Effects AllHist StrNum Query SpecQuery SelectFacts SpanFacts Text Brat Conll SpecConll ConllFacts Witness WitQuery WitBrackets.

(** The file has one row per token, sentence by sentence, with the word and, in the last
    column, an entry per markable that covers the token and chain of the markable. *)
Theorem C42_file : ∀ g clayer mlayer toks_of sents words order, exportable g clayer mlayer toks_of sents words → (∀ l, order l ≡ₚ l) →
  ∃ bound, ∀ fuel r, bound < fuel → write_conll fuel g clayer mlayer toks_of order r →
  ∃ chains ms span cols, lists_chains g clayer chains ∧ lists_markables g (markable_layer g mlayer) ms ∧ spans_of g ms span ∧
    r = Ok (conll_file words cols) ∧ Forall2 (Forall2 (column chains ms span)) sents cols.
Proof. exact conll_main. Qed.
Print Assumptions C42_file.

(** Read back: the second fields are the words; the last fields open and close each chain
    number equally often, and never close before opening if the tokens are in the natural
    order of their ids. *)
Theorem C42_balanced : ∀ g clayer mlayer toks_of sents words order, exportable g clayer mlayer toks_of sents words → (∀ l, order l ≡ₚ l) →
  Forall (Forall one_field) words → NoDup (concat sents) → (∀ t, is_token g t → t ∈ concat sents) →
  ∃ bound, ∀ fuel r, bound < fuel → write_conll fuel g clayer mlayer toks_of order r →
  ∃ out, r = Ok out ∧ field 1 out = chs <$> concat words ∧ length (field 14 out) = length (concat sents) ∧
    (∀ c, total (opened c) (field 14 out) = total (closed c) (field 14 out)) ∧
    ((∀ i j x y, i < j → concat sents !! i = Some x → concat sents !! j = Some y → nat_cmp x y = Lt) →
     ∀ c n, total (closed c) (take n (field 14 out)) ≤ total (opened c) (take n (field 14 out))).
Proof.
  intros g clayer mlayer toks_of sents words order HX HO HW HND HIn. destruct (conll_main g clayer mlayer toks_of sents words order HX HO) as (b & Hb).
  exists b. intros fuel r Hlt Hr. destruct (Hb fuel r Hlt Hr) as (chains & ms & span & cols & _ & [Hms _] & Hsp & -> & Hc). clear Hb Hr.
  eexists. split; [reflexivity|].
  assert (HF : Forall (Forall cell_free) cols).
  { clear -Hc. induction Hc as [|ts cs sents cols H Hc IH]; constructor; [|done]. clear -H. induction H as [|t c ts cs H _ IH]; constructor; [|done]. by eapply column_free. }
  assert (HL : Forall2 (λ ws cs, length ws = length cs) words cols).
  { pose proof (ex_words _ _ _ _ _ _ HX) as Hw. clear -Hc Hw. revert words Hw. induction Hc as [|ts cs sents cols H Hc IH]; intros words Hw; inversion Hw as [|? ws ? words' H1 H2]; subst; constructor; [|by apply IH].
    apply Forall2_length in H, H1. lia. }
  destruct (file_fields words cols HW HF HL) as [E1 E2]. rewrite E1, E2. split; [done|].
  assert (HC : Forall2 (column chains ms span) (concat sents) (concat cols)).
  { clear -Hc. induction Hc as [|ts cs sents cols H Hc IH]; [constructor|]. cbn [concat]. by apply Forall2_app. }
  split; [symmetry; by eapply Forall2_length|]. split.
  - eapply balanced_columns; [exact Hms|exact HND|exact HC|]. intros m t Hm Ht. apply HIn. by apply (proj1 (Hsp m Hm) t).
  - intros HS. eapply prefix_columns; [exact Hms|exact HND|exact HC|]. intros m t Hm Ht. destruct (Hsp m Hm) as [Hel Hso].
    destruct (span m) as [|t' l] eqn:El; [done|]. 
    assert (H1 : t' ∈ concat sents) by (apply HIn, Hel; left). assert (H2 : t ∈ concat sents) by (apply HIn, Hel; by apply last_Some_elem_of).
    apply elem_of_list_lookup in H1 as (i & Hi). apply elem_of_list_lookup in H2 as (j & Hj). exists i, j, t'. split_and!; try done.
    destruct (decide (i ≤ j)) as [|Hij]; [done|]. exfalso. assert (HL1 : nat_cmp t t' = Lt) by (apply (HS j i t t'); [lia|done|done]).
    rewrite last_lookup in Ht. destruct (decide (length (t' :: l) = 1)) as [E|E].
    + rewrite E in Ht. injection Ht as ->. pose proof (NoDup_lookup _ _ _ _ HND Hi Hj). lia.
    + destruct (Hso 0 (Nat.pred (length (t' :: l))) t' t) as [_ Hle]; [clear -E; destruct l; cbn [length Nat.pred] in *; lia|reflexivity|exact Ht|]. apply Hle. rewrite NatSort.nat_cmp_opp, HL1. reflexivity.
Qed.
Print Assumptions C42_balanced.

(** the example: two sentences, nested and overlapping markables, a singleton *)
Definition cf_ops (deep : bool) : list op :=
  let w i := NStr ("t" +:+ i) in
  let node n l ats := OAddNode (NStr n) (VSet l) None ats in
  let span u v := OAddEdge (NStr u) (NStr v) (VSet ["x"]) None None [("edge_type", VStr "spans")] in
  let pt u v := OAddEdge (NStr u) (NStr v) (VSet ["x"; "x:coref"]) None None [("edge_type", VStr points_to)] in
  [ node "s1" ["x"; "x:sentence"] []; node "s2" ["x"; "x:sentence"] [];
    node "t1" ["x"; "x:token"] [("x:token", VStr "Ann's")]; node "t2" ["x"; "x:token"] [("x:token", VStr "dog")];
    node "t3" ["x"; "x:token"] [("x:token", VStr "ran")]; node "t10" ["x"; "x:token"] [("x:token", VStr "It")]; node "t11" ["x"; "x:token"] [("x:token", VStr "barked")];
    node "m1" ["x"; "x:markable"] []; node "m2" ["x"; "x:markable"] []; node "m3" ["x"; "x:markable"] [];
    span "m1" "t1"; span "m1" "t2"; span "m2" "t1"; span "m3" "t10"; pt "m3" "m1";
    OSetTokens [w "1"; w "2"; w "3"; w "10"; w "11"]; OSetSentences [NStr "s1"; NStr "s2"] ] ++
  if deep then [node "np" ["x"] []; span "m1" "np"; span "np" "t2"] else [].
Definition cf_graph (deep : bool) : graph := run (init_graph "doc" "x" None) (cf_ops deep).
Definition cf_toks (s : nid) : res (list nid) :=
  if decide (s = NStr "s1") then Ok [NStr "t1"; NStr "t2"; NStr "t3"] else if decide (s = NStr "s2") then Ok [NStr "t10"; NStr "t11"] else Err KeyError.
Definition cf_sents : list (list nid) := [[NStr "t1"; NStr "t2"; NStr "t3"]; [NStr "t10"; NStr "t11"]].
Definition cf_words : list (list string) := [["Ann's"; "dog"; "ran"]; ["It"; "barked"]].
Definition cf_rank (n : nid) : nat :=
  if bool_decide (n = NStr "x:root_node") then 9 else if bool_decide (n = NStr "m3") then 3 else if bool_decide (n ∈ [NStr "m1"; NStr "m2"]) then 2 else if bool_decide (n = NStr "np") then 1 else 0.
Lemma cf_plain deep : Forall plain (cf_ops deep).
Proof. destruct deep; repeat constructor; done. Qed.
Lemma cf_reachable deep : reachable no_bare_layers (cf_graph deep).
Proof. apply reachable_run; [constructor|]. eapply Forall_impl; [apply cf_plain|]. by intros o [? ?]. Qed.
Lemma cf_once m a : node_attrs (cf_graph false) m = Some a → has_layer a "x:markable" → m = NStr "m1" ∨ m = NStr "m2" ∨ m = NStr "m3".
Proof.
  intros Ha (L & HL & Hin). apply dget_Some_elem in Ha.
  assert (HB : forallb (λ p : nid * attrs, negb (match dget "layers" p.2 with Some (VSet L) => bool_decide ("x:markable" ∈ L) | _ => false end) || bool_decide (p.1 = NStr "m1" ∨ p.1 = NStr "m2" ∨ p.1 = NStr "m3")) (g_node (cf_graph false)) = true) by (vm_compute; reflexivity).
  rewrite forallb_forall in HB. apply elem_of_list_In, HB in Ha. cbn [fst snd] in Ha. rewrite HL in Ha. rewrite bool_decide_eq_true_2 in Ha by done. cbn [negb orb] in Ha. by apply bool_decide_eq_true in Ha.
Qed.
Lemma cf_exportable : exportable (cf_graph false) (Some "x:coref") None cf_toks cf_sents cf_words.
Proof.
  assert (HX : ∀ m l, get_span 9 (cf_graph false) m = Ok l → NoDup l → ∀ fuel ts, get_span fuel (cf_graph false) m = Ok ts → NoDup ts).
  { intros m l Hl HN fuel ts Hts. apply (get_span_mono _ (fuel + 9)) in Hts; [|lia]. apply (get_span_mono _ (fuel + 9)) in Hl; [|lia]. congruence. }
  split.
  - apply cf_reachable.
  - eapply check_typed; [apply cf_reachable|vm_compute; reflexivity].
  - intros l [= <-]. apply plain_str_check. vm_compute. reflexivity.
  - eapply (check_points_acyclic _ _ _ cf_rank); [apply cf_reachable|vm_compute; reflexivity].
  - eapply (check_acyclic _ _ cf_rank); [apply cf_reachable|vm_compute; reflexivity].
  - intros fuel m a ts Ha Hl. destruct (cf_once m a Ha Hl) as [->|[->| ->]]; (eapply HX; [vm_compute; reflexivity|vdec]).
  - apply List.Forall2_cons; [vm_compute; reflexivity|]. apply List.Forall2_cons; [vm_compute; reflexivity|]. constructor.
  - assert (HT : ∀ t s, token_str (cf_graph false) t = Ok s → token_is (cf_graph false) t s) by (intros t s; apply OffsetFacts.token_str_is).
    apply List.Forall2_cons; [|apply List.Forall2_cons; [|constructor]].
    + do 3 (apply List.Forall2_cons; [apply HT; vm_compute; reflexivity|]). constructor.
    + do 2 (apply List.Forall2_cons; [apply HT; vm_compute; reflexivity|]). constructor.
Qed.
Definition cf_text (l : list string) : chars := concat ((λ s, (λ c, if decide (c = "~"%char) then SpecConll.tab else c) <$> chs s ++ [newline]) <$> l) ++ chs "#end document".
Example C42_hyp : exportable (cf_graph false) (Some "x:coref") None cf_toks cf_sents cf_words ∧ Forall (Forall one_field) cf_words ∧ NoDup (concat cf_sents) ∧
  (∀ t, is_token (cf_graph false) t → t ∈ concat cf_sents) ∧
  (∀ i j x y, i < j → concat cf_sents !! i = Some x → concat cf_sents !! j = Some y → nat_cmp x y = Lt) ∧
  write_conll 9 (cf_graph false) (Some "x:coref") None cf_toks (λ l, l) (Ok (cf_text
    ["#begin document (__); __";
     "1~Ann's~_~_~_~_~_~_~_~_~_~_~_~_~(0|(1)"; "2~dog~_~_~_~_~_~_~_~_~_~_~_~_~0)"; "3~ran~_~_~_~_~_~_~_~_~_~_~_~_~_"; "";
     "1~It~_~_~_~_~_~_~_~_~_~_~_~_~(0)"; "2~barked~_~_~_~_~_~_~_~_~_~_~_~_~_"; ""])).
Proof.
  split; [apply cf_exportable|]. split; [|split; [vdec|split; [|split]]].
  - assert (HO : ∀ s, bool_decide (SpecConll.tab ∉ chs s) && bool_decide (newline ∉ chs s) = true → one_field s) by (intros s [H1 H2]%andb_true_iff; by apply bool_decide_eq_true in H1, H2).
    apply List.Forall_cons; [|apply List.Forall_cons; [|constructor]]; [do 3 (apply List.Forall_cons; [apply HO; vm_compute; reflexivity|])|do 2 (apply List.Forall_cons; [apply HO; vm_compute; reflexivity|])]; constructor.
  - exact (check_listed (cf_graph false) eq_refl).
  - intros i j x y Hij Hx Hy. assert (HB : forallb (λ i, forallb (λ j, match concat cf_sents !! i, concat cf_sents !! j with Some x, Some y => negb (i <? j)%nat || bool_decide (nat_cmp x y = Lt) | _, _ => true end) (seq 0 5)) (seq 0 5) = true) by (vm_compute; reflexivity).
    assert (Hi : i < 5) by exact (lookup_lt_Some _ _ _ Hx). assert (Hj : j < 5) by exact (lookup_lt_Some _ _ _ Hy).
    rewrite forallb_forall in HB. assert (HB' := HB i (proj2 (in_seq 5 0 i) (conj (Nat.le_0_l i) Hi))). rewrite forallb_forall in HB'. specialize (HB' j (proj2 (in_seq 5 0 j) (conj (Nat.le_0_l j) Hj))).
    rewrite Hx, Hy in HB'. assert (E : (i <? j)%nat = true) by (by apply Nat.ltb_lt). rewrite E in HB'. cbn [negb orb] in HB'. by apply bool_decide_eq_true in HB'.
  - assert (HW := WC_ok 9 (cf_graph false) (Some "x:coref") None cf_toks (λ l, l) [[NStr "m3"; NStr "m1"]]).
    match type of HW with _ → write_conll _ _ _ _ _ _ ?r => assert (E : r = Ok (cf_text
    ["#begin document (__); __";
     "1~Ann's~_~_~_~_~_~_~_~_~_~_~_~_~(0|(1)"; "2~dog~_~_~_~_~_~_~_~_~_~_~_~_~0)"; "3~ran~_~_~_~_~_~_~_~_~_~_~_~_~_"; "";
     "1~It~_~_~_~_~_~_~_~_~_~_~_~_~(0)"; "2~barked~_~_~_~_~_~_~_~_~_~_~_~_~_"; ""])) by (vm_compute; reflexivity) end.
    rewrite E in HW. apply HW. eapply (check_chains _ _ _ _ [(NStr "m3", [NStr "m1"])]); vm_compute; reflexivity.
Qed.

(** A markable that reaches its last token on two paths is opened but never closed. *)
Theorem C42_repeated_refuted : ∃ g out, reachable no_bare_layers g ∧ acyclic (covers g) ∧ typed g ∧ 
  write_conll 9 g (Some "x:coref") None cf_toks (λ l, l) (Ok out) ∧
  field 14 out = chs <$> ["(0|(1)"; "0"; "_"; "(0)"; "_"] ∧ total (opened 0) (field 14 out) = 2 ∧ total (closed 0) (field 14 out) = 1.
Proof.
  exists (cf_graph true). eexists. split; [apply cf_reachable|]. split; [eapply (check_acyclic _ _ cf_rank); [apply cf_reachable|vm_compute; reflexivity]|].
  split; [eapply check_typed; [apply cf_reachable|vm_compute; reflexivity]|]. split.
  - assert (HW := WC_ok 9 (cf_graph true) (Some "x:coref") None cf_toks (λ l, l) [[NStr "m3"; NStr "m1"]]).
    match type of HW with _ → write_conll _ _ _ _ _ _ ?r => let r' := eval vm_compute in r in assert (E : r = r') by (vm_compute; reflexivity) end.
    rewrite E in HW. apply HW. eapply (check_chains _ _ _ _ [(NStr "m3", [NStr "m1"])]); vm_compute; reflexivity.
  - split; [vm_compute; reflexivity|]. split; vm_compute; reflexivity.
Qed.
Print Assumptions C42_repeated_refuted.

(** Words are written as they are: one with a line break makes two rows, the second with no
    word number. *)
Definition lb_graph : graph := run (init_graph "doc" "x" None)
  [OAddNode (NStr "t1") (VSet ["x"; "x:token"]) None [("x:token", VStr (str (chs "New" ++ newline :: chs "York")))]; OSetTokens [NStr "t1"]; OSetSentences [NStr "s1"]].
Theorem C42_line_break_refuted : ∃ g out, reachable no_bare_layers g ∧ token_is g (NStr "t1") (str (chs "New" ++ newline :: chs "York")) ∧
  write_conll 9 g None None (λ _, Ok [NStr "t1"]) (λ l, l) (Ok out) ∧
  rows_of out !! 0 = Some [number 1; chs "New"] ∧ field 1 out = chs <$> ["New"; "_"].
Proof.
  exists lb_graph. eexists. split; [apply reachable_run; [constructor|repeat constructor; done]|]. split; [eexists; split; vm_compute; reflexivity|]. split.
  - assert (HW := WC_ok 9 lb_graph None None (λ _, Ok [NStr "t1"]) (λ l, l) []).
    match type of HW with _ → write_conll _ _ _ _ _ _ ?r => let r' := eval vm_compute in r in assert (E : r = r') by (vm_compute; reflexivity) end.
    rewrite E in HW. apply HW. eapply (check_chains _ _ _ _ []); vm_compute; reflexivity.
  - split; vm_compute; reflexivity.
Qed.
Print Assumptions C42_line_break_refuted.
