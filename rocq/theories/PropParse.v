(** * PropParse: properties C37-C38 (output of discourse parsers)

    Statements only.  Vocabulary: SpecParse.v.  [read_hilda t] etc. return the
    tree of the document object; [file_of t s]: the text [s] writes the tree [t]
    with any white space. *)
From Verif Require Import PyBase DocGraph Relabel StrNum Query Text SpecText Rst SpecRst Nltk Parsers SpecParse ParseFacts DplpFacts HsFacts WitDis.

(** ** C37 HILDA, DPLP and StageDP *)
Theorem C37_hilda : ∀ p : parse string,
  Forall (λ n, one_line n ∧ ¬ occurs (chs "ParseTree") (chs n)) (names p) → Forall (λ s, ¬ occurs (chs "ParseTree") (chs s)) (units p) →
  read_hilda (hilda_form p) = Ok (parse_tree id p).
Proof. apply read_hilda_form. Qed.
Print Assumptions C37_hilda.
Definition wit_hilda : parse string :=
  Rel "Contrast" Sat Nuc (Unit "Although they did n't like it ,") (Rel "Joint" Nuc Nuc (Unit "they accepted") (Unit "the offer .")).
Example C37_hilda_hyp : Forall (λ n, one_line n ∧ ¬ occurs (chs "ParseTree") (chs n)) (names wit_hilda) ∧
  Forall (λ s, ¬ occurs (chs "ParseTree") (chs s)) (units wit_hilda).
Proof.
  split.
  - do 2 (apply List.Forall_cons; [split; [unfold one_line; nomem|by apply occursb_ok]|]); constructor.
  - do 3 (apply List.Forall_cons; [by apply occursb_ok|]); constructor.
Qed.

(** whatever tree is accepted, the result is a tree of relations and N/S nodes
    with the units of the input in order *)
Theorem C37_hilda_any : ∀ t u, read_hilda t = Ok u → Forall (λ s, ¬ occurs (chs "ParseTree") (chs s)) (leaves t) →
  ∃ p, u = parse_tree id p ∧ units p = leaves t.
Proof.
  intros t u H HF. destruct (hilda_transform_any _ _ H) as (p & -> & Hp). exists p. split; [done|]. rewrite Hp, leaves_map_strings.
  rewrite <-(list_fmap_id (leaves t)) at 2. apply Forall_fmap_ext_1. eapply Forall_impl; [exact HF|]. intros s Hs.
  unfold hilda_typecast. by rewrite re_sub_none, str_chs.
Qed.
Print Assumptions C37_hilda_any.
Example C37_hilda_any_hyp : ∃ u, read_hilda (hilda_form wit_hilda) = Ok u ∧ Forall (λ s, ¬ occurs (chs "ParseTree") (chs s)) (leaves (hilda_form wit_hilda)).
Proof. eexists. split; [by vm_compute|]. repeat (apply List.Forall_cons; [by apply occursb_ok|]); constructor. Qed.

Theorem C37_typecast_refuted : ¬ ∀ p : parse string, Forall one_line (names p) → read_hilda (hilda_form p) = Ok (parse_tree id p).
Proof.
  intros H. specialize (H (Rel "Contrast" Nuc Sat (Unit "a ParseTree is") (Unit "printed"))).
  assert (H' : read_hilda (hilda_form (Rel "Contrast" Nuc Sat (Unit "a ParseTree is") (Unit "printed"))) =
    Ok (parse_tree id (Rel "Contrast" Nuc Sat (Unit "a ParseTree is") (Unit "printed")))).
  { apply H. apply List.Forall_cons; [unfold one_line; nomem|constructor]. }
  vm_compute in H'. discriminate H'.
Qed.
Print Assumptions C37_typecast_refuted.

(** DPLP: the tokens of a unit are those of the rows with its number, in order *)
Theorem C37_dplp : ∀ rows merge (p : parse nat),
  Forall (λ r, match r with Some fields => row_ok fields | None => True end) rows → merge_text rows merge →
  Forall (λ n, one_line n ∧ ¬ occurs (chs "ParentedTree") (chs n)) (names p) →
  read_dplp merge (edu_form (λ i, str_Z (Z.of_nat i)) p) = Ok (parse_doc (λ i, str (join_words (unit_tokens (omap id rows) i))) p).
Proof. intros rows merge p H1 H2 H3. by apply read_dplp_form. Qed.
Print Assumptions C37_dplp.
Definition wit_row (tok id : string) : option (list chars) :=
  Some (chs <$> ["0"; "1"; tok; tok; "IN"; "mark"; "3"; "O"; " (ROOT (S"; id]).
Definition wit_rows : list (option (list chars)) := [wit_row "Although" "1"; wit_row "it" "1"; wit_row "rains" "2"; None].
Definition wit_merge : chars := concat ((λ r, merge_line r ++ [cr; nl]) <$> wit_rows).
Example C37_dplp_hyp : Forall (λ r, match r with Some fields => row_ok fields | None => True end) wit_rows ∧ merge_text wit_rows wit_merge ∧
  read_dplp wit_merge (edu_form (λ i, str_Z (Z.of_nat i)) (Rel "elaboration" Nuc Sat (Unit 1) (Unit 2))) =
  Ok (NTree "elaboration" [NTree "N" [NLeaf "Although it"]; NTree "S" [NLeaf "rains"]]).
Proof.
  split; [|split; [|by vm_compute]].
  - do 3 (apply List.Forall_cons; [split; [do 10 (apply List.Forall_cons; [split; [nomem|split; nomem]|]); apply List.Forall_nil|first [by exists 1|by exists 2]]|]).
    apply List.Forall_cons; [done|constructor].
  - unfold wit_merge, wit_rows. rewrite !fmap_cons, fmap_nil. cbn [concat]. rewrite <-!(assoc_L (++)). repeat (constructor; [by right|]). constructor.
Qed.

(** StageDP: from the text of the file *)
Theorem C37_stagedp : ∀ p s, Forall (λ n, symbol (chs n)) (names p) →
  Forall (λ toks, toks ≠ [] ∧ Forall (λ w, symbol w ∧ "_"%char ∉ w) toks) (units p) →
  file_of (edu_form stagedp_leaf p) s → read_stagedp s = Ok (parse_doc unmarked p).
Proof. apply read_stagedp_form. Qed.
Print Assumptions C37_stagedp.
Definition wit_stagedp : parse (list chars) :=
  Rel "Explanation" Nuc Sat (Unit (chs <$> ["<P>"; "<S>"; "They"; "did"; "n't"; "."])) (Unit (chs <$> ["<S>"; "Two"; "weeks"])).
Ltac symbol_tac := split; [done|repeat (apply List.Forall_cons; [done|]); constructor].
Example C37_stagedp_hyp : Forall (λ n, symbol (chs n)) (names wit_stagedp) ∧
  Forall (λ toks, toks ≠ [] ∧ Forall (λ w, symbol w ∧ "_"%char ∉ w) toks) (units wit_stagedp) ∧
  file_of (edu_form stagedp_leaf wit_stagedp) (chs "(NS-Explanation
  (EDU _!<P>_<S>_They_did_n't_.!_)
  (EDU _!<S>_Two_weeks!_))") ∧
  parse_doc unmarked wit_stagedp = NTree "Explanation" [NTree "N" [NLeaf "They did n't ."]; NTree "S" [NLeaf "Two weeks"]].
Proof.
  split; [|split; [|split; [|by vm_compute]]].
  - apply List.Forall_cons; [symbol_tac|constructor].
  - repeat (apply List.Forall_cons; [split; [done|repeat (apply List.Forall_cons; [split; [symbol_tac|nomem]|]); constructor]|]); constructor.
  - apply (pformat_file (edu_form stagedp_leaf wit_stagedp)). repeat (constructor; [done|]). repeat constructor; done.
Qed.
Theorem C37_underscore_refuted : ¬ ∀ p s, Forall (λ n, symbol (chs n)) (names p) → Forall (λ toks, toks ≠ [] ∧ Forall symbol toks) (units p) →
  file_of (edu_form stagedp_leaf p) s → read_stagedp s = Ok (parse_doc unmarked p).
Proof.
  intros H. specialize (H (Rel "Joint" Nuc Nuc (Unit [chs "foo_bar"]) (Unit [chs "x"])) (chs "(NN-Joint (EDU _!foo_bar!_) (EDU _!x!_))")).
  assert (H' : read_stagedp (chs "(NN-Joint (EDU _!foo_bar!_) (EDU _!x!_))") = Ok (parse_doc unmarked (Rel "Joint" Nuc Nuc (Unit [chs "foo_bar"]) (Unit [chs "x"])))).
  { apply H.
    - apply List.Forall_cons; [symbol_tac|constructor].
    - repeat (apply List.Forall_cons; [split; [done|repeat (apply List.Forall_cons; [symbol_tac|]); constructor]|]); constructor.
    - apply (pformat_file (edu_form stagedp_leaf (Rel "Joint" Nuc Nuc (Unit [chs "foo_bar"]) (Unit [chs "x"])))). repeat (constructor; [done|]). repeat constructor; done. }
  vm_compute in H'. discriminate H'.
Qed.
Print Assumptions C37_underscore_refuted.

(** the results are RST trees, unless a relation has two satellites *)
Theorem C37_rst : ∀ (A : Type) (text : A → string) (p : parse A), nuclear p →
  ∃ r, multi_ok r ∧ parse_tree text p = body r ∧ parse_doc text p = rst_tree r ∧ edus r = text <$> units p ∧ fst <$> relations r = names p.
Proof.
  intros A text p H. exists (to_rst text p). destruct (to_rst_ok text p H) as (H1 & H2 & H3 & H4). repeat split; [done..| |done|done].
  destruct p as [u|n [] [] p q]; done.
Qed.
Print Assumptions C37_rst.
Example C37_rst_hyp : nuclear wit_hilda.
Proof. split; [by intros [_ ?]|]. split; [done|]. split; [by intros [? _]|done]. Qed.

(** ** C38 Heilman/Sagae *)
Theorem C38_converts : ∀ docs h s, hs_wf (length docs) h → file_of (hs_form h) s → ¬ several_sats h →
  ∃ u, read_hs2015 docs s = Ok u ∧ hs_tree capitalized docs h u.
Proof. intros docs h s H1 H2 H3. by destruct (read_hs_outcome docs h s H1 H2) as [[? _]|[_ ?]]. Qed.
Print Assumptions C38_converts.
Definition wit_hs : hs := HNode [(Sat, "contrast", HUnit 0); (Nuc, "span", HNode [(Nuc, "joint", HUnit 1); (Nuc, "joint", HUnit 2); (Nuc, "joint", HUnit 0)])].
Definition wit_docs : list (list chars) := [chs <$> ["Although"; "it"; "rains"]; chs <$> ["we"; "go"]; [chs "out"]].
Definition wit_hs_text : chars := chs "(ROOT
  (satellite:contrast (text 0))
  (nucleus:span
    (nucleus:joint (text 1))
    (nucleus:joint (text 2))
    (nucleus:joint (text 0))))".
Lemma no_several l : Forall (λ k : role * string * hs, ¬ several_sats k.2) l → length (satellites l) < 2 → ¬ several_sats (HNode l).
Proof. intros HF Hl H. inversion H as [? H2|? k Hk H2]; subst; [lia|]. rewrite Forall_forall in HF. by apply (HF k). Qed.
Ltac no_several := apply no_several; [repeat (apply List.Forall_cons; [cbn [snd]; first [no_several|by intros H; inversion H]|]); constructor|vm_compute; lia].
Ltac hs_wf_tac := first [apply HW_unit; vm_compute; lia
  | apply HW_node; [repeat (apply List.Forall_cons; [split; [symbol_tac|cbn [snd]; hs_wf_tac]|]); constructor
                   |first [left; split; [by vm_compute|by vm_compute]|right; split; [vm_compute; lia|by vm_compute]]]].
Example C38_hyp : hs_wf (length wit_docs) wit_hs ∧ file_of (hs_form wit_hs) wit_hs_text ∧ ¬ several_sats wit_hs ∧
  read_hs2015 wit_docs wit_hs_text = Ok (NTree "Contrast" [NTree "S" [NLeaf "Although it rains"];
    NTree "N" [NTree "Joint" [NTree "N" [NLeaf "we go"]; NTree "N" [NLeaf "out"]; NTree "N" [NLeaf "Although it rains"]]]]).
Proof.
  split; [hs_wf_tac|]. split; [|split; [no_several|by vm_compute]].
  apply (pformat_file (hs_form wit_hs)). repeat (constructor; [done|]). repeat constructor; done.
Qed.

(** a nucleus with several satellites anywhere in the tree makes the reader
    fail; such trees are part of the format and meant to be converted *)
Theorem C38_several_satellites_refuted : ∀ docs h s, hs_wf (length docs) h → file_of (hs_form h) s → several_sats h →
  read_hs2015 docs s = Err NameError.
Proof. intros docs h s H1 H2 H3. by destruct (read_hs_outcome docs h s H1 H2) as [[_ ?]|[? _]]. Qed.
Print Assumptions C38_several_satellites_refuted.
Definition wit_sats : hs := HNode [(Nuc, "span", HUnit 0); (Sat, "cause", HUnit 1); (Sat, "result", HUnit 2)].
Example C38_several_hyp : hs_wf (length wit_docs) wit_sats ∧ several_sats wit_sats.
Proof. split; [hs_wf_tac|]. apply SS_here. vm_compute. lia. Qed.
