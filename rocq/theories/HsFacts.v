(** * HsFacts: proofs about the Heilman/Sagae reader *)
From Verif Require Import PyBase DocGraph Relabel SpecGraph StrNum Query Text SpecText TextFacts Rst SpecRst Nltk Dis SpanFacts RstLayout RstRead NltkFacts DisText DisTree Parsers SpecParse ParseFacts DplpFacts.

Section hs_ind.
  Context (P : hs → Prop) (HU : ∀ i, P (HUnit i)) (HN : ∀ kids, Forall (λ k, P k.2) kids → P (HNode kids)).
  Fixpoint hs_ind' (h : hs) : P h :=
    match h with
    | HUnit i => HU i
    | HNode kids => HN kids ((fix go kids : Forall (λ k : role * string * hs, P k.2) kids := match kids with
        | [] => List.Forall_nil _
        | k :: kids => @List.Forall_cons _ _ k kids (hs_ind' k.2) (go kids) end) kids)
    end.
End hs_ind.
Notation kid := (role * string * hs)%type.
Notation cap := capitalized.
(** str.capitalize *)
Lemma cap_capitalized s : str (capitalize (chs s)) = cap s.
Proof.
  unfold capitalized, capitalize. destruct (chs s) as [|c r]; [done|]. do 2 f_equal.
  - by destruct c as [[] [] [] [] [] [] [] []].
  - apply list_fmap_ext. intros _ x _. by destruct x as [[] [] [] [] [] [] [] []].
Qed.
Definition role_type (r : role) : string := match r with Nuc => "nucleus" | Sat => "satellite" end.

Lemma hs_type_label r name ts : hs_type (NTree (hs_label r name) ts) = Ok (role_type r).
Proof.
  unfold hs_type. assert (E : default [] (head (split_char ":"%char (lower (chs (hs_label r name))))) = chs (role_type r)).
  { unfold hs_label. destruct r; rewrite chs_app; unfold lower; rewrite fmap_app.
    - change (lower_ascii <$> chs "nucleus:") with (chs "nucleus" ++ [":"%char]). rewrite <-(assoc_L (++)). cbn [app]. rewrite DisText.split_char_app; [done|].
      intros Hi. cbn in Hi. repeat (apply elem_of_cons in Hi as [Hi|Hi]; [done|]). by apply elem_of_nil in Hi.
    - change (lower_ascii <$> chs "satellite:") with (chs "satellite" ++ [":"%char]). rewrite <-(assoc_L (++)). cbn [app]. rewrite DisText.split_char_app; [done|].
      intros Hi. cbn in Hi. repeat (apply elem_of_cons in Hi as [Hi|Hi]; [done|]). by apply elem_of_nil in Hi. }
  rewrite E, str_chs. rewrite decide_True; [done|]. destruct r; cbn; repeat (first [left | right]).
Qed.
Lemma is_prefix_app k s : is_prefix k (k ++ s) = true.
Proof. apply is_prefix_true. by exists s. Qed.
Lemma cap_label r name ts : one_line name → capitalized_relname (NTree (hs_label r name) ts) = Ok (cap name).
Proof.
  intros H. rewrite <-cap_capitalized. unfold capitalized_relname, hs_label. rewrite chs_app. destruct r.
  - rewrite is_prefix_app, drop_app. rewrite chop_nl_id by done. by rewrite decide_True.
  - destruct (is_prefix (chs "nucleus:") (chs "satellite:" ++ chs name)) eqn:E.
    + apply is_prefix_true in E as [z E]. cbn in E. discriminate E.
    + rewrite is_prefix_app, drop_app. rewrite chop_nl_id by done. by rewrite decide_True.
Qed.
(** ** the tree with texts *)
Section hs_text.
  Context (docs : list (list chars)).
  Definition text_at (i : nat) : string := str (join_words (default [] (docs !! i))).
  Fixpoint kids_text (h : hs) : list ntree :=
    match h with
    | HUnit i => [NTree "text" [NLeaf (text_at i)]]
    | HNode kids => map (λ k : kid, NTree (hs_label k.1.1 k.1.2) (kids_text k.2)) kids
    end.
  Definition add_all := fix go ts := match ts with
      | [] => Ok []
      | t :: ts => let! t := hs_add_edus docs t in let! ts := go ts in Ok (t :: ts) end.
  Lemma add_all_kids h : hs_wf (length docs) h → add_all (hs_kids h) = Ok (kids_text h).
  Proof.
    induction h as [i|kids IH] using hs_ind'; intros HW.
    - inversion HW; subst. cbn [hs_kids add_all hs_add_edus rbind]. rewrite py_int_str_Z. cbn [rbind].
      destruct (lookup_lt_is_Some_2 docs i) as [toks Ht]; [done|]. unfold py_nth. destruct (decide (Z.of_nat i < 0)%Z) as [Hlt|_]; [lia|]. cbv zeta. destruct (decide (Z.of_nat i < 0)%Z) as [Hlt|_]; [lia|]. rewrite Nat2Z.id, Ht. cbn [of_option rbind kids_text].
      unfold text_at. by rewrite Ht.
    - inversion HW as [|? HF _]; subst. cbn [hs_kids kids_text]. clear HW. induction IH as [|k kids Hk IH IHk]; [done|]. apply Forall_cons in HF as [[_ HWk] HF].
      cbn [map add_all]. change (hs_add_edus docs (NTree (hs_label k.1.1 k.1.2) (hs_kids k.2))) with
        (rbind (add_all (hs_kids k.2)) (λ ts, Ok (NTree (hs_label k.1.1 k.1.2) ts))). rewrite (Hk HWk). cbn [rbind]. fold (add_all). rewrite (IHk HF). done.
  Qed.
  (** ** conversion *)
  Lemma types_of (kids : list kid) (f : kid → list ntree) :
    rmap hs_type ((λ k : kid, NTree (hs_label k.1.1 k.1.2) (f k)) <$> kids) = Ok ((λ k : kid, role_type k.1.1) <$> kids).
  Proof. induction kids as [|k kids IH]; [done|]. rewrite !fmap_cons. cbn [rmap]. rewrite hs_type_label, IH. done. Qed.
  Lemma indices_length ty l : length (indices ty l) = length (filter (λ x, x = ty) l).
  Proof.
    unfold indices. rewrite fmap_length. change pair with (λ (i : nat) (x : string), (0 + i, x)). generalize 0 as z.
    induction l as [|x l IH]; intros z; [done|]. cbn [imap]. rewrite !filter_cons. cbn [snd].
    rewrite (imap_ext _ (λ i x, (S z + i, x))) by (intros; unfold compose; f_equal; lia).
    destruct (decide (x = ty)); cbn [length]; by rewrite IH.
  Qed.
  Lemma roles_length r (kids : list kid) : length (filter (λ x, x = role_type r) ((λ k : kid, role_type k.1.1) <$> kids)) = length (filter (λ k : kid, k.1.1 = r) kids).
  Proof.
    induction kids as [|k kids IH]; [done|]. rewrite fmap_cons, !filter_cons. destruct (decide (k.1.1 = r)) as [E|E].
    - rewrite decide_True by by rewrite E. cbn [length]. by rewrite IH.
    - rewrite decide_False; [done|]. intros E2. apply E. by destruct (k.1.1), r.
  Qed.
  Lemma kids_split (kids : list kid) : length kids = length (nuclei kids) + length (satellites kids).
  Proof.
    unfold nuclei, satellites. induction kids as [|k kids IH]; [done|]. rewrite !filter_cons. destruct (decide (k.1.1 = Nuc)) as [E|E].
    - rewrite decide_False by congruence. cbn [length]. lia.
    - rewrite decide_True by by destruct (k.1.1). cbn [length]. lia.
  Qed.
  Definition outcome (h : hs) (r : res ntree) : Prop :=
    (several_sats h ∧ r = Err NameError) ∨ (¬ several_sats h ∧ ∃ u, r = Ok u ∧ hs_tree cap docs h u).
  Lemma transform_outcome h : hs_wf (length docs) h → ∀ l ty, hs_type (NTree l (kids_text h)) = Ok ty → ty ∈ ["root"; "nucleus"; "satellite"] →
    outcome h (hs_transform (NTree l (kids_text h))).
  Proof.
    induction h as [i|kids IH] using hs_ind'; intros HW l ty Hty Hin; cbn [hs_transform]; rewrite Hty; cbn [rbind]; rewrite decide_True by done.
    - inversion HW; subst. right. split; [by intros H; inversion H|].
      destruct (lookup_lt_is_Some_2 docs i) as [toks Ht]; [done|]. exists (NLeaf (text_at i)). split.
      + cbn [kids_text rmap]. change (hs_type (NTree "text" [NLeaf (text_at i)])) with (@Ok string "text"). cbn [rbind].
        rewrite decide_True; [done|]. split; [done|]. apply List.Forall_cons; [done|constructor].
      + unfold text_at. rewrite Ht. by constructor.
    - inversion HW as [|? HF Hroles]; subst. cbn [kids_text].
      assert (Hout : Forall (λ k : kid, outcome k.2 (hs_transform (NTree (hs_label k.1.1 k.1.2) (kids_text k.2)))) kids).
      { clear Hroles HW. induction IH as [|k kids Hk IH IHk]; [constructor|]. apply Forall_cons in HF as [[_ HWk] HF]. apply List.Forall_cons; [|by apply IHk].
        eapply Hk; [done|apply hs_type_label|]. destruct k.1.1; cbn; repeat (first [left | right]). }
      assert (Hnames : Forall (λ k : kid, one_line k.1.2) kids).
      { eapply Forall_impl; [exact HF|]. intros k [Hk _]. by apply symbol_one_line. }
      clear IH HF HW. change (map ?f kids) with (f <$> kids). rewrite types_of. cbn [rbind].
      set (types := (λ k : kid, role_type k.1.1) <$> kids).
      assert (Hkids : kids ≠ []) by (intros ->; destruct Hroles as [[H _]|[H _]]; unfold nuclei in H; cbn in H; lia).
      rewrite decide_False.
      2: { intros [_ HT]. destruct kids as [|k kids]; [done|]. unfold types in HT. rewrite fmap_cons in HT. apply Forall_cons in HT as [HT _]. by destruct (k.1.1). }
      assert (Hn : length (indices "nucleus" types) = length (nuclei kids)) by (rewrite indices_length; apply (roles_length Nuc)).
      assert (Hs : length (indices "satellite" types) = length (satellites kids)) by (rewrite indices_length; apply (roles_length Sat)).
      destruct Hroles as [[H1 H2]|[H1 H2]].
      + (* one nucleus *) destruct (decide (2 ≤ length (satellites kids))) as [Hmany|Hone].
        { left. split; [by constructor|]. destruct (indices "nucleus" types) as [|a [|b ns]]; cbn [length] in Hn; [lia| |lia].
          destruct (indices "satellite" types) as [|c [|d ss]]; cbn [length] in Hs; [lia..|]. done. }
        assert (Hs1 : length (satellites kids) = 1) by (destruct (satellites kids) as [|? [|]]; cbn in *; [done|done|lia]).
        pose proof (kids_split kids) as Hlen. rewrite H1, Hs1 in Hlen. destruct kids as [|k1 [|k2 [|]]]; cbn in Hlen; [lia..| |lia].
        apply Forall_cons in Hout as [Ho1 Hout]. apply Forall_cons in Hout as [Ho2 _].
        apply Forall_cons in Hnames as [Hl1 Hnames]. apply Forall_cons in Hnames as [Hl2 _].
        assert (Hss : ∀ k, k ∈ [k1; k2] → several_sats k.2 → several_sats (HNode [k1; k2])) by (intros k Hk Hk2; by eapply SS_below).
        assert (Hno : ¬ several_sats k1.2 → ¬ several_sats k2.2 → ¬ several_sats (HNode [k1; k2])).
        { intros Hk1 Hk2 HS. inversion HS as [? Hl|? k Hk Hkk]; subst; [lia|]. apply elem_of_cons in Hk as [->|Hk]; [done|].
          apply elem_of_list_singleton in Hk as ->. done. }
        destruct k1 as [[r1 x1] h1], k2 as [[r2 x2] h2]. destruct r1, r2; try (exfalso; vm_compute in H1; discriminate H1).
        * (* nucleus first *)
          unfold types. rewrite !fmap_cons, fmap_nil. cbn [fst snd role_type].
          change (indices "nucleus" ["nucleus"; "satellite"]) with [0]. change (indices "satellite" ["nucleus"; "satellite"]) with [1]. cbn [lookup list_lookup of_option rbind fst snd].
          cbn [fst snd] in *. rewrite cap_label by done. cbn [rbind]. rewrite decide_True by lia.
          destruct Ho1 as [[HS ->]|(HS1 & u1 & -> & Hu1)]; [left; split; [by apply (Hss (Nuc, x1, h1)); [left|]|done]|]. cbn [rbind].
          destruct Ho2 as [[HS ->]|(HS2 & u2 & -> & Hu2)]; [left; split; [by apply (Hss (Sat, x2, h2)); [right; left|]|done]|]. cbn [rbind].
          right. split; [by apply Hno|]. eexists. split; [done|]. by constructor.
        * unfold types. rewrite !fmap_cons, fmap_nil. cbn [fst snd role_type].
          change (indices "nucleus" ["satellite"; "nucleus"]) with [1]. change (indices "satellite" ["satellite"; "nucleus"]) with [0]. cbn [lookup list_lookup of_option rbind fst snd].
          cbn [fst snd] in *. rewrite cap_label by done. cbn [rbind]. rewrite decide_False by lia.
          destruct Ho1 as [[HS ->]|(HS1 & u1 & -> & Hu1)]; [left; split; [by apply (Hss (Sat, x1, h1)); [left|]|done]|]. cbn [rbind].
          destruct Ho2 as [[HS ->]|(HS2 & u2 & -> & Hu2)]; [left; split; [by apply (Hss (Nuc, x2, h2)); [right; left|]|done]|]. cbn [rbind].
          right. split; [by apply Hno|]. eexists. split; [done|]. by constructor.
      + (* several nuclei *)
        destruct (indices "nucleus" types) as [|a [|b ns]]; cbn [length] in Hn; [lia..|].
        destruct (indices "satellite" types) as [|c ss]; [|rewrite H2 in Hs; done].
        assert (Hall : Forall (λ k : kid, k.1.1 = Nuc) kids).
        { apply Forall_forall. intros k Hk. destruct (k.1.1) eqn:E; [done|]. assert (Hi : k ∈ satellites kids) by (apply elem_of_list_filter; done). rewrite H2 in Hi. by apply elem_of_nil in Hi. }
        rewrite <-list_fmap_compose.
        assert (G : (∃ us, rmap (λ p : ntree * res ntree, p.2) (((λ u, (u, hs_transform u)) ∘ (λ k : kid, NTree (hs_label k.1.1 k.1.2) (kids_text k.2))) <$> kids) = Ok us ∧
                     Forall2 (λ (k : kid) u, ¬ several_sats k.2 ∧ hs_tree cap docs k.2 u) kids us) ∨
                    (rmap (λ p : ntree * res ntree, p.2) (((λ u, (u, hs_transform u)) ∘ (λ k : kid, NTree (hs_label k.1.1 k.1.2) (kids_text k.2))) <$> kids) = Err NameError ∧ ∃ k, k ∈ kids ∧ several_sats k.2)).
        { clear -Hout. induction Hout as [|k kids Ho Hout IH]; [left; by exists []|]. rewrite fmap_cons. cbn [rmap]. unfold compose at 1 3. cbn [snd].
          destruct Ho as [[HS ->]|(HS & u & -> & Hu)]; [right; split; [done|]; exists k; split; [left|done]|]. cbn [rbind].
          destruct IH as [(us & -> & H2)|(-> & k' & Hk' & HS')].
          - left. exists (u :: us). split; [done|]. by constructor.
          - right. split; [done|]. exists k'. split; [by right|done]. }
        destruct G as [(us & -> & HF2)|(-> & k & Hk & HS)]; [|left; split; [by eapply SS_below|done]].
        right. split.
        { intros HS. inversion HS as [? Hl|? k Hk Hkk]; subst; [rewrite H2 in Hl; cbn in Hl; lia|]. apply elem_of_list_lookup in Hk as [j Hj].
          destruct (Forall2_lookup_l _ _ _ _ _ HF2 Hj) as (u & _ & Hu & _). done. }
        destruct kids as [|k rest]; [done|]. rewrite fmap_cons. cbn [head of_option rbind]. apply Forall_cons in Hnames as [Hl _]. rewrite cap_label by done. cbn [rbind].
        eexists. split; [done|]. change (map ?f us) with (f <$> us). eapply HT_multi; [done| |done|].
        * intros ->. pose proof (kids_split [k]) as Hlen. rewrite H2 in Hlen. cbn [length] in Hlen. lia.
        * eapply Forall2_impl; [exact HF2|]. by intros k' u [_ ?].
  Qed.
End hs_text.
Lemma nat_symbol i : symbol (chs (str_Z (Z.of_nat i))).
Proof.
  assert (E : str_Z (Z.of_nat i) = str_N (N.of_nat i)) by (unfold str_Z; destruct i; [done|]; simpl; f_equal).
  split; [apply digits_of|]. pose proof (digits_of i) as [_ HF]. pose proof (str_N_digits (N.of_nat i)) as HD. rewrite <-E in HD. rewrite Forall_forall in *.
  intros c Hc. split; [intros ->; by apply HD in Hc|]. split; [intros ->; by apply HD in Hc|]. by apply HF.
Qed.
Lemma hs_symbols n h : hs_wf n h → Forall symbols (hs_kids h).
Proof.
  induction h as [i|kids IH] using hs_ind'; intros HW.
  - cbn [hs_kids]. apply List.Forall_cons; [|constructor]. apply SY_node.
    + split; [done|]. repeat (apply List.Forall_cons; [done|]). constructor.
    + apply List.Forall_cons; [|constructor]. apply SY_leaf, nat_symbol.
  - inversion HW as [|? HF _]; subst. cbn [hs_kids]. clear HW. induction IH as [|k kids Hk IH IHk]; [constructor|]. apply Forall_cons in HF as [[[Hne Hsym] HWk] HF].
    cbn [map]. apply List.Forall_cons; [|by apply IHk]. apply SY_node; [|by apply Hk].
    unfold hs_label. rewrite chs_app. split; [by destruct (k.1.1)|]. apply Forall_app_2; [|done].
    destruct (k.1.1); repeat (apply List.Forall_cons; [done|]); constructor.
Qed.
Lemma read_hs_outcome docs h s : hs_wf (length docs) h → file_of (hs_form h) s → outcome docs h (read_hs2015 docs s).
Proof.
  intros HW Hf. unfold read_hs2015. unfold hs_form in Hf. rewrite (fromstring_file "ROOT" (hs_kids h) s); [| |done].
  2: { apply SY_node; [|by eapply hs_symbols]. split; [done|]. repeat (apply List.Forall_cons; [done|]). constructor. }
  cbn [rbind]. change (hs_add_edus docs (NTree "ROOT" (hs_kids h))) with (rbind (add_all docs (hs_kids h)) (λ ts, Ok (NTree "ROOT" ts))).
  rewrite add_all_kids by done. cbn [rbind]. eapply transform_outcome; [done|reflexivity|left].
Qed.
