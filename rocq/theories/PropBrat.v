(** * PropBrat: property C49, brat standoff files

    [get_pointing_chains fuel g layer (Ok chains)]: the pointing chains are
    [chains] (C22 says what they are). *)
From Verif Require Import PyBase DocGraph Relabel SpecGraph StrNum Query SpecQuery OffsetFacts Text Brackets SpecBrackets BracketFacts WitQuery WitBrackets Brat SpecBrat BratFacts.
From stdpp Require Import sorting.

(** One line per markable of a chain, in text order, whose offsets select its words from
    the text file; then one line per pair of neighbours in a chain, the later mention
    first.  Markables are numbered chain by chain; the number is the last one given. *)
Theorem C49_output : ∀ fuel g renamed layer show ns ss chains,
  get_pointing_chains fuel g layer (Ok chains) → namespace_of g layer ns → text_tokens g ss → NoDup (g_tokens g) →
  Forall (λ m, ∃ ts i, span_of g renamed ns m ts ∧ contiguous g i ts) (concat chains) →
  get_text fuel g None = Ok (str (SpecQuery.joined ss)) ∧
  ∃ ups downs ents num, Forall2 increasing ups chains ∧ Forall2 decreasing downs chains ∧
    (∀ m, m ∈ concat chains → last_position (concat ups) m (num m)) ∧
    en_markable <$> ents ≡ₚ concat chains ∧ Forall (λ e, en_number e = num (en_markable e) ∧ marks g renamed ns ss e) ents ∧
    (NoDup (concat chains) → en_number <$> ents ≡ₚ seq 1 (length (concat chains))) ∧
    StronglySorted (λ e e', en_from e ≤ en_from e')%Z ents ∧
    brat_output g renamed layer show chains = Ok (concat (entity_line <$> ents) ++
      if show then concat (imap (λ k p, relation_line (S k) (num p.1) (num p.2)) (concat ((λ d, zip d (tail d)) <$> downs))) else []).
Proof.
  intros fuel g renamed layer show ns ss chains _ Hns%namespace_of_ok HT HD HF. split; [by apply tokens2text_is|].
  destruct (brat_output_ok g renamed layer show chains ns ss Hns HT HD HF) as (ups & downs & ents & num & H1 & H2 & H3 & H4 & H5 & H6 & H7).
  exists ups, downs, ents, num. split_and!; try done. intros Hnd. pose proof (ups_perm _ _ H1) as HP. rewrite <-HP.
  rewrite <-(numbers_all (concat ups) num).
  - rewrite HP, <-H4, <-list_fmap_compose. erewrite list_fmap_ext; [reflexivity|]. intros i e He%elem_of_list_lookup_2. rewrite Forall_forall in H5. by apply H5.
  - by rewrite HP.
  - intros m Hm. apply H3. by rewrite <-HP.
Qed.
Print Assumptions C49_output.
Definition bt_words : list string := ["The"; "mayor"; "of"; "Bonn"; "said"; "he"; "likes"; "it"].
Definition bt1 : graph := br_doc bt_words [("m1", "word_1..word_4"); ("m2", "word_4"); ("m6", "word_6"); ("m8", "word_8")] [("m6", "m1"); ("m8", "m2")].
Definition bt1_chains : list (list nid) := [[NStr "m6"; NStr "m1"]; [NStr "m8"; NStr "m2"]].
Definition tabs (l : list string) : chars := concat ((λ s, (λ c, if decide (c = "|"%char) then SpecBrat.tab else c) <$> chs s ++ [newline]) <$> l).
Example C49_output_hyp : get_pointing_chains 5 bt1 (Some "mmax") (Ok bt1_chains) ∧ namespace_of bt1 (Some "mmax") "mmax" ∧ text_tokens bt1 bt_words ∧ NoDup (g_tokens bt1) ∧
  Forall (λ m, ∃ ts i, span_of bt1 None "mmax" m ts ∧ contiguous bt1 i ts) (concat bt1_chains) ∧
  brat_output bt1 None (Some "mmax") true bt1_chains = Ok (tabs
    ["T1|Markable 0 17|The mayor of Bonn"; "T3|Markable 13 17|Bonn"; "T2|Markable 23 25|he"; "T4|Markable 32 34|it"; "R1|Coreference Arg1:T2 Arg2:T1"; "R2|Coreference Arg1:T4 Arg2:T3"]).
Proof.
  split. { eapply (check_chains _ _ _ _ [(NStr "m6", [NStr "m1"]); (NStr "m8", [NStr "m2"])]); vm_compute; reflexivity. }
  split; [by apply namespace_of_ok|]. split; [apply check_text; vm_compute; reflexivity|]. split; [apply (bool_decide_unpack _); vm_compute; exact I|].
  split; [|vm_compute; reflexivity].
  assert (HS : ∀ m s ts i post, node_attrs bt1 (NStr m) = Some [("mmax:span", VStr s); ("layers", VSet ["mmax"; "mmax:markable"])] →
    spanstring2tokens bt1 None (chs s) = Ok ts → ts ≠ [] → drop i (g_tokens bt1) = ts ++ post → ∃ ts i, span_of bt1 None "mmax" (NStr m) ts ∧ contiguous bt1 i ts).
  { intros m s ts i post H1 H2 H3 H4. exists ts, i. split; [eexists _, s; split; [exact H1|split; [reflexivity|exact H2]]|]. split; [exact H3|]. exists post. exact H4. }
  apply List.Forall_cons; [eapply (HS _ _ _ 5 [_; _]); [vm_compute; reflexivity|vm_compute; reflexivity|done|vm_compute; reflexivity]|].
  apply List.Forall_cons; [eapply (HS _ _ _ 0 [_; _; _; _]); [vm_compute; reflexivity|vm_compute; reflexivity|done|vm_compute; reflexivity]|].
  apply List.Forall_cons; [eapply (HS _ _ _ 7 []); [vm_compute; reflexivity|vm_compute; reflexivity|done|vm_compute; reflexivity]|].
  apply List.Forall_cons; [eapply (HS _ _ _ 3 [_; _; _; _]); [vm_compute; reflexivity|vm_compute; reflexivity|done|vm_compute; reflexivity]|]. constructor.
Qed.

(** Every mention needs a span attribute: one without it ends the export. *)
Theorem C49_no_span : ∀ g renamed layer ns show chains m, namespace_of g layer ns → m ∈ concat chains →
  (∀ ts, span_of g renamed ns m ts → ts = []) → ∀ out, brat_output g renamed layer show chains ≠ Ok out.
Proof.
  intros g renamed layer ns show chains m <-%namespace_of_ok Hm Hno out. unfold brat_output.
  destruct (brat_markables _ _ _ _ _ _ _) as [d|e] eqn:E; [|done]. apply brat_markables_bad in E.
  assert (HP : concat (nat_sorted <$> chains) ≡ₚ concat chains).
  { clear. induction chains as [|c cs IH]; [done|]. rewrite fmap_cons. cbn [concat]. by rewrite NatSort.nat_sorted_perm, IH. }
  rewrite HP, Forall_forall in E. destruct (E m Hm) as (ts & x & Hs & Hne & _). by destruct (Hno ts Hs).
Qed.
Print Assumptions C49_no_span.
Example C49_no_span_hyp : brat_output bt1 None (Some "pocores") true bt1_chains = Err KeyError.
Proof. vm_compute. reflexivity. Qed.

(** The offsets of a discontinuous mention are wrong: they select the words that follow. *)
Theorem C49_discontinuous_refuted : ∃ g chains out, reachable no_bare_layers g ∧ get_pointing_chains 5 g (Some "mmax") (Ok chains) ∧
  text_tokens g bt_words ∧ brat_output g None (Some "mmax") false chains = Ok out ∧
  out = tabs ["T1|Markable 4 14|mayor Bonn"; "T2|Markable 23 25|he"] ∧ take 10 (drop 4 (SpecQuery.joined bt_words)) = chs "mayor of B".
Proof.
  exists (br_doc bt_words [("m1", "word_2,word_4"); ("m6", "word_6")] [("m6", "m1")]), [[NStr "m6"; NStr "m1"]]. eexists.
  split; [apply br_doc_reachable|]. split; [eapply (check_chains _ _ _ _ [(NStr "m6", [NStr "m1"])]); vm_compute; reflexivity|].
  split; [apply check_text; vm_compute; reflexivity|]. split; [vm_compute; reflexivity|]. split; vm_compute; reflexivity.
Qed.
Print Assumptions C49_discontinuous_refuted.

(** A mention in two chains is written twice, both times with its last number; the other
    number is never declared. *)
Theorem C49_shared_refuted : ∃ g chains, reachable no_bare_layers g ∧ get_pointing_chains 5 g (Some "mmax") (Ok chains) ∧ text_tokens g bt_words ∧
  chains = [[NStr "m6"; NStr "m1"]; [NStr "m8"; NStr "m1"]] ∧
  brat_output g None (Some "mmax") true chains = Ok (tabs
    ["T3|Markable 0 3|The"; "T3|Markable 0 3|The"; "T2|Markable 23 25|he"; "T4|Markable 32 34|it"; "R1|Coreference Arg1:T2 Arg2:T3"; "R2|Coreference Arg1:T4 Arg2:T3"]).
Proof.
  exists (br_doc bt_words [("m1", "word_1"); ("m6", "word_6"); ("m8", "word_8")] [("m6", "m1"); ("m8", "m1")]), [[NStr "m6"; NStr "m1"]; [NStr "m8"; NStr "m1"]].
  split; [apply br_doc_reachable|]. split; [eapply (check_chains _ _ _ _ [(NStr "m6", [NStr "m1"]); (NStr "m8", [NStr "m1"])]); vm_compute; reflexivity|].
  split; [apply check_text; vm_compute; reflexivity|]. split; [done|vm_compute; reflexivity].
Qed.
Print Assumptions C49_shared_refuted.
