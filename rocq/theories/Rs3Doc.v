(** * Rs3Doc: tokens, precedence and the whole document *)
From Verif Require Import PyBase DocGraph Relabel StrNum Query Text Rst Nltk Parsers Anaphora Conano Decour Ptb Convert Tiger Rs3Graph.
From Verif Require Import SpecGraph DocGraphFacts History Effects RelabelFacts GraphThms SpecImport ImportFacts PtbFacts TextFacts GeoffFacts DecourFacts AnaphoraFacts ConllReadText TigerFacts BuiltFrom ViewFacts SpecAnaphora SpecQuery SpecRs3Graph Rs3Facts Rs3Desc Rs3Read.

(** ** Words *)
Lemma split_pre pre s : Forall (λ c, Rst.is_space c = true) pre → split_blanks (pre ++ s) = split_blanks s.
Proof. induction 1 as [|c pre Hc _ IH]; [done|]. cbn [app split_blanks]. by rewrite Hc. Qed.
Lemma split_white s : Forall (λ c, Rst.is_space c = true) s → split_blanks s = [].
Proof. intros H. rewrite <-(app_nil_r s). by rewrite split_pre. Qed.
Lemma split_post s post : Forall (λ c, Rst.is_space c = true) post → split_blanks (s ++ post) = split_blanks s.
Proof.
  intros HP. apply words_in_split. pose proof (split_words_in s) as H. induction H as [|c s ws Hc _ IH|w Hw|w c s ws Hw Hc _ IH].
  - cbn. induction HP; by constructor.
  - cbn [app]. by constructor.
  - destruct HP as [|c post Hc HP]; [rewrite app_nil_r; by constructor|]. constructor; [done|done|]. induction HP; by constructor.
  - rewrite <-app_assoc. cbn [app]. by constructor.
Qed.
Lemma split_strip s : split_blanks (strip s) = split_blanks s.
Proof.
  destruct (strip_split s) as (pre & post & H1 & H2 & E & _). rewrite E at 2. rewrite split_pre, split_post; done.
Qed.
(** ** Ids of tokens *)
Lemma number_no_underscore i : "_"%char ∉ chs (str_Z (Z.of_nat i)).
Proof. by apply str_Z_free. Qed.
Lemma token_node_inj ns x y i j : token_node ns x i = token_node ns y j → el_id x = el_id y ∧ i = j.
Proof.
  unfold token_node. intros H%nstr_inj. do 4 apply append_inj_l in H. apply (f_equal chs) in H. rewrite !chs_app in H. change (chs "_") with ["_"%char] in H. cbn [app] in H.
  apply (f_equal (@rev ascii)) in H. rewrite !rev_app_distr in H. cbn [rev] in H. rewrite <-!app_assoc in H. cbn [app] in H.
  apply cut in H as [H1 H2]; [|intros Hin%elem_of_list_In%in_rev%elem_of_list_In; by apply number_no_underscore in Hin..].
  apply (f_equal (@rev ascii)) in H1, H2. rewrite !rev_involutive in H1, H2. apply chs_inj in H1, H2. split; [done|]. apply str_Z_inj in H1. lia.
Qed.
Lemma token_name ns x i : name_of ns (token_node ns x i) = Some (ns +:+ ":" +:+ el_id x +:+ "_" +:+ str_Z (Z.of_nat i)).
Proof. apply name_of_named. Qed.
Lemma token_colon ns s : ":"%char ∈ chs (ns +:+ ":" +:+ s).
Proof. rewrite chs_app. apply elem_of_app. right. cbn. left. Qed.

Section Tokens.
  Context (ns : string) (d : rs3doc).
  Local Notation els := (elements_of d).
  Definition tinfo (w : string) : list string * attrs := ([ns; ns +:+ ":token"], [(ns +:+ ":token", VStr w); ("label", VStr w)]).
  Definition vadd (T : list (nid * string)) (V : nview) : nview := λ n, match dget n T with Some w => Some (tinfo w) | None => V n end.
  Definition seg_edges (x : xelem) (l : list (nid * string)) : list edge_info :=
    (λ t : nid * string, (node_of_el ns x, t.1, ["rst"; "rst:token"], [("edge_type", VStr "spans")])) <$> l.
  Record Tk (T : list (nid * string)) (E : list edge_info) (g : graph) : Prop := {
    tk_view : viewed g (vadd T (pview ns d els)) E;
    tk_ns : g_ns g = ns;
    tk_root : g_root g = root_of ns els;
    tk_tokens : g_tokens g = T.*1;
    tk_meta : g_meta g = [];
  }.
  Lemma pview_token x i : Forall (λ x, ":"%char ∉ chs (el_id x) ∧ ∀ p, el_parent x = Some p → ":"%char ∉ chs p) els → pview ns d els (token_node ns x i) = None.
  Proof.
    intros HP. unfold pview. set (j := ns +:+ ":" +:+ el_id x +:+ "_" +:+ str_Z (Z.of_nat i)). assert (Hc : ":"%char ∈ chs j) by apply token_colon.
    rewrite decide_False.
    - rewrite token_name. fold j. assert (HN : j ∉ el_id <$> els). { intros (y & -> & Hy)%elem_of_list_fmap. rewrite Forall_forall in HP. by apply (HP y Hy). }
      unfold view_desc. rewrite (from_nil _ _ HN). destruct (kids_in els j) as [|y K] eqn:EK; [done|]. exfalso.
      assert (Hy : y ∈ kids_in els j) by (rewrite EK; left). apply elem_of_list_filter in Hy as [Hy1 Hy2]. rewrite Forall_forall in HP. by apply (proj2 (HP y Hy2) j Hy1).
    - intros E. change (token_node ns x i) with (node_named ns j) in E. apply named_inj in E. rewrite E in Hc. revert Hc. apply (bool_decide_unpack _). vm_compute. exact I.
  Qed.
  Lemma seg_token x i : NStr (ns +:+ ":" +:+ nid_str (node_of_el ns x) +:+ "_" +:+ str_Z (Z.of_nat i)) = token_node ns x i.
  Proof. unfold token_node, node_of_el, node_named. cbn [nid_str]. f_equal. f_equal. f_equal. apply chs_inj. rewrite !chs_app. by rewrite <-!app_assoc. Qed.
  Lemma el_known x : rs3_ok d → x ∈ els → pview ns d els (node_of_el ns x) = Some (dinfo ns (element_desc ns d els x)).
  Proof.
    intros HO Hx. unfold node_of_el. pose proof (elements_perm d) as HP. pose proof (ro_names _ HO) as HN. rewrite <-HP in HN. rewrite Forall_forall in HN. rewrite pview_named by (by apply HN).
    unfold view_desc. destruct (from_head (el_id x) els) as (y & l & E & Ei & Hy); [by apply elem_of_list_fmap_1|]. rewrite E.
    assert (y = x) as ->; [|done]. pose proof (ro_ids _ HO) as HD. rewrite <-HP in HD. apply elem_of_list_lookup in Hx as [a Ha], Hy as [b Hb].
    assert (a = b); [|congruence]. apply (NoDup_lookup _ a b (el_id x) HD); rewrite list_lookup_fmap; [by rewrite Ha|]. rewrite Hb. cbn. by rewrite Ei.
  Qed.
  Lemma vadd_some T V n : is_Some (V n) → is_Some (vadd T V n).
  Proof. unfold vadd. destruct (dget n T); [by eexists|done]. Qed.
  Lemma token_step T E g x i w : rs3_ok d → plain_ids d → Tk T E g → x ∈ els → token_node ns x i ∉ T.*1 →
    ∃ g', rs3_token (node_of_el ns x) (i, chs w) g = (g', None) ∧ Tk (T ++ [(token_node ns x i, w)]) (E ++ seg_edges x [(token_node ns x i, w)]) g'.
  Proof.
    intros HO HP [A0 A1 A2 A3 A4] Hx Ht. unfold rs3_token. cbn [fst snd]. rewrite A1, str_chs, seg_token. set (t := token_node ns x i) in *.
    assert (HP' : Forall (λ x, ":"%char ∉ chs (el_id x) ∧ ∀ p, el_parent x = Some p → ":"%char ∉ chs p) els) by (by rewrite (elements_perm d)).
    assert (Hn : dget t T = None) by (destruct (dget t T) as [v|] eqn:Ed; [|done]; destruct Ht; apply dget_Some_elem in Ed; by apply (elem_of_list_fmap_1 fst) in Ed).
    destruct (view_new g _ _ t (VSet [ns; ns +:+ ":token"]) (Some [(ns +:+ ":token", VStr w); ("label", VStr w)]) [] [ns; ns +:+ ":token"] A0) as (g1 & E1 & V1 & D1).
    { by left. }
    { unfold vadd. rewrite Hn. by apply pview_token. }
    rewrite E1. destruct D1 as (_ & B1 & B2 & B3 & B4 & B5).
    assert (V1' : viewed (set_tokens (g_tokens g1 ++ [t]) g1) (vadd (T ++ [(t, w)]) (pview ns d els)) E).
    { eapply view_ext; [| | |eapply view_same; [exact V1|]]; try done. intros n. unfold vset, vadd. rewrite dget_app. cbn [dget]. destruct (decide (n = t)) as [->|Hne].
      - rewrite Hn. cbn [dget]. unfold tinfo. split; cbn [fst snd]; [done|]. intros k Hk. unfold given_attrs. rewrite dget_dupdate. done.
      - destruct (dget n T); apply same_at_refl. }
    destruct (view_edge_as _ _ _ (node_of_el ns x) t (VSet ["rst"; "rst:token"]) None [("edge_type", VStr spans)] ["rst"; "rst:token"] [("edge_type", VStr "spans")] V1') as (g2 & E2 & V2 & D2).
    { apply vadd_some. rewrite el_known by done. by eexists. }
    { unfold vadd. rewrite dget_app, Hn. cbn [dget]. rewrite decide_True by done. by eexists. }
    { by left. }
    { intros k Hk. unfold given_attrs. rewrite dget_dupdate. cbn [dget default]. unfold id. cbn [dget]. by destruct (decide _). }
    exists g2. split; [exact E2|]. destruct D2 as (_ & C1 & C2 & C3 & C4 & C5). cbn in C1, C2, C3, C4, C5. split; [exact V2|congruence|congruence| |congruence].
    rewrite C3, B3, A3, fmap_app. done.
  Qed.
  (** ** The tokens of a segment *)
  Lemma words_loop x : rs3_ok d → plain_ids d → x ∈ els → ∀ ws k T E g, Tk T E g → (∀ i, k ≤ i → token_node ns x i ∉ T.*1) →
    ∃ g', loop (rs3_token (node_of_el ns x)) (imap (λ i w, (k + i, w)) ws) g = (g', None) ∧
      let L := imap (λ i w, (token_node ns x (k + i), str w)) ws in Tk (T ++ L) (E ++ seg_edges x L) g'.
  Proof.
    intros HO HP Hx. induction ws as [|w ws IH]; intros k T E g HT HF.
    - exists g. cbn. rewrite !app_nil_r. done.
    - rewrite !imap_cons, Nat.add_0_r. cbn [loop]. destruct (token_step T E g x k (str w) HO HP HT Hx) as (g1 & E1 & T1); [by apply HF|]. rewrite chs_str in E1. rewrite E1.
      destruct (IH (S k) _ _ g1 T1) as (g2 & E2 & T2).
      + intros i Hi. rewrite fmap_app, elem_of_app. intros [H|H]; [by apply (HF i); [lia|]|]. apply elem_of_list_singleton in H. apply token_node_inj in H. lia.
      + exists g2. assert (HE : ∀ A (f : nat → chars → A), imap (f ∘ S) ws = imap (λ i w, f (S i) w) ws) by done. split.
        * rewrite <-E2. f_equal. apply imap_ext. intros i y _. cbn. f_equal. lia.
        * cbv zeta in T2. rewrite <-!app_assoc in T2. cbn [app] in T2. cbn [seg_edges].
          assert (HL : imap (λ i w, (token_node ns x (S k + i), str w)) ws = imap ((λ i w, (token_node ns x (k + i), str w)) ∘ S) ws).
          { apply imap_ext. intros i y _. cbn. do 2 f_equal. lia. }
          rewrite HL in T2. exact T2.
  Qed.
  Definition toks_of (L : list xelem) : list (nid * string) := x ← L; segment_tokens ns x.
  Definition tedges_of (L : list xelem) : list edge_info := x ← L; seg_edges x (segment_tokens ns x).
  Lemma segment_tokens_eq x : segment x → segment_tokens ns x = imap (λ i w, (token_node ns x i, str w)) (split_blanks (chs (text_of x))).
  Proof.
    destruct x as [i p r t|]; [|done]. intros _. unfold segment_tokens, words, text_of. rewrite chs_str, split_strip.
    generalize 0 as k. intros _. rewrite imap_fmap. done.
  Qed.
  Lemma toks_ids L n : n ∈ (toks_of L).*1 → ∃ x i, x ∈ L ∧ n = token_node ns x i.
  Proof.
    intros (q & -> & Hq)%elem_of_list_fmap. apply elem_of_list_bind in Hq as (x & Hq & Hx). unfold segment_tokens in Hq. apply elem_of_lookup_imap in Hq as (i & w & -> & _).
    exists x, i. done.
  Qed.
  Lemma segments_tokens L : rs3_ok d → plain_ids d → ∀ P E g, segments d = P ++ L → Tk (toks_of P) E g →
    ∃ g', loop rs3_tokens (node_of_el ns <$> L) g = (g', None) ∧ Tk (toks_of (P ++ L)) (E ++ tedges_of L) g'.
  Proof.
    intros HO HP. induction L as [|x L IH]; intros P E g HS HT.
    - exists g. cbn. rewrite !app_nil_r. done.
    - assert (Hx : x ∈ segments d) by (rewrite HS; apply elem_of_app; right; left). assert (Hs : segment x) by (by apply elem_of_list_filter in Hx as [? _]).
      assert (Hxe : x ∈ els) by (apply elem_of_app; by left). rewrite fmap_cons. cbn [loop]. unfold rs3_tokens at 1.
      pose proof (v_nodes _ _ _ (tk_view _ _ _ HT) (node_of_el ns x)) as Hv. unfold vadd in Hv.
      assert (Hno : ∀ T' : list (nid * string), (∀ n, n ∈ T'.*1 → ∃ x i, n = token_node ns x i) → dget (node_of_el ns x) T' = None).
      { intros T' HT'. destruct (dget (node_of_el ns x) T') as [w|] eqn:Ed; [|done]. apply dget_Some_elem in Ed. apply (elem_of_list_fmap_1 fst) in Ed. destruct (HT' _ Ed) as (y & i & Ey). cbn [fst] in Ey.
        change (token_node ns y i) with (node_named ns (ns +:+ ":" +:+ el_id y +:+ "_" +:+ str_Z (Z.of_nat i))) in Ey. apply named_inj in Ey.
        exfalso. unfold plain_ids in HP. rewrite <-(elements_perm d), Forall_forall in HP. apply (HP x Hxe). rewrite Ey. apply token_colon. }
      rewrite Hno in Hv by (intros n (y & i & _ & ->)%toks_ids; eauto). rewrite el_known in Hv by done. destruct Hv as (a & Ha & _ & Hk).
      assert (Ht : dget (ns +:+ ":text") a = Some (VStr (text_of x))).
      { rewrite Hk by apply key_layers. unfold dinfo. cbn [fst snd]. rewrite dget_desc. cbn [element_desc nd_text]. keys ns. repeat case_decide; try congruence; done. }
      rewrite Ha. cbn [of_option rbind]. rewrite (tk_ns _ _ _ HT), Ht. cbn [of_option rbind].
      destruct (words_loop x HO HP Hxe (split_blanks (chs (text_of x))) 0 _ _ g HT) as (g1 & E1 & T1).
      { intros i _ (y & j & Hy & E')%toks_ids. apply token_node_inj in E' as [E' _]. pose proof (ro_ids _ HO) as HD. rewrite <-(elements_perm d) in HD. unfold elements_of in HD. rewrite HS in HD.
        rewrite fmap_app in HD. apply NoDup_app in HD as (HD & _). rewrite fmap_app in HD. apply NoDup_app in HD as (_ & HD & _).
        apply (HD (el_id y)); [by apply elem_of_list_fmap_1|]. rewrite fmap_cons, <-E'. left. }
      match goal with |- context [loop ?f ?l g] => replace (loop f l g) with (g1, @None exc) end.
      cbv zeta in T1. change (imap (λ i w, (token_node ns x (0 + i), str w)) (split_blanks (chs (text_of x)))) with (imap (λ i w, (token_node ns x i, str w)) (split_blanks (chs (text_of x)))) in T1. rewrite <-(segment_tokens_eq x Hs) in T1.
      destruct (IH (P ++ [x]) (E ++ seg_edges x (segment_tokens ns x)) g1) as (g2 & E2 & T2).
      + by rewrite <-app_assoc.
      + unfold toks_of in *. rewrite bind_app. cbn [mbind list_bind]. rewrite app_nil_r. exact T1.
      + exists g2. split; [exact E2|]. rewrite <-!app_assoc in T2. exact T2.
  Qed.
  (** ** Precedence *)
  Lemma prec_loop l : ∀ g V E, viewed g V E → g_ns g = ns → Forall (λ e : nid * nid, is_Some (V e.1) ∧ is_Some (V e.2)) l →
    ∃ g', for_each add_prec_edge l g = (g', None) ∧
      viewed g' V (E ++ ((λ e : nid * nid, (e.1, e.2, [ns; ns +:+ ":precedence"], [("edge_type", VStr "precedes")])) <$> l)) ∧ same_doc g g'.
  Proof.
    induction l as [|[u v] l IH]; intros g V E HV Hns HF.
    - exists g. rewrite fmap_nil, app_nil_r. split; [done|]. split; [done|apply same_doc_refl].
    - apply Forall_cons in HF as [[Hu Hv] HF]. cbn [for_each]. unfold add_prec_edge at 1. cbn [fst snd] in *. rewrite Hns.
      destruct (view_edge_as g V E u v (VSet [ns; ns +:+ ":precedence"]) None [("edge_type", VStr precedes)] [ns; ns +:+ ":precedence"] [("edge_type", VStr "precedes")] HV Hu Hv) as (g1 & E1 & V1 & D1); [by left| |].
      { intros k _. unfold given_attrs. rewrite dget_dupdate. cbn [default dget]. unfold id. cbn [dget]. by destruct (decide _). }
      rewrite E1. destruct (IH g1 V _ V1) as (g2 & E2 & V2 & D2); [by rewrite (sd_ns _ _ D1)|done|]. exists g2. split; [exact E2|]. split; [|by eapply same_doc_trans].
      rewrite <-app_assoc in V2. exact V2.
  Qed.
  (** ** All nodes *)
  Lemma toks_NoDup L : NoDup (el_id <$> L) → NoDup (toks_of L).*1.
  Proof.
    induction L as [|x L IH]; intros HD; [by apply NoDup_nil|]. rewrite fmap_cons in HD. apply NoDup_cons in HD as [Hx HD]. unfold toks_of in *. cbn [mbind list_bind]. rewrite fmap_app. apply NoDup_app. split; [|split].
    - unfold segment_tokens. generalize (words x) as ws. intros ws. apply NoDup_alt. intros i j n. rewrite !list_lookup_fmap, !list_lookup_imap.
      destruct (ws !! i); [|done]. destruct (ws !! j); [|done]. cbn. intros [= <-] H. injection H as H. apply eq_sym in H. change (NStr (ns +:+ ":" +:+ ns +:+ ":" +:+ el_id x +:+ "_" +:+ str_Z (Z.of_nat j))) with (token_node ns x j) in H.
      assert (HH : token_node ns x i = token_node ns x j) by (unfold token_node; by f_equal). by apply token_node_inj in HH as [_ ?].
    - intros n Hn Hm. assert (Hn' : n ∈ (toks_of [x]).*1) by (unfold toks_of; cbn [mbind list_bind]; by rewrite app_nil_r). apply toks_ids in Hn' as (y & i & Hy & ->). apply elem_of_list_singleton in Hy as ->.
      apply toks_ids in Hm as (z & j & Hz & E). apply token_node_inj in E as [E _]. apply Hx. rewrite E. by apply elem_of_list_fmap_1.
    - by apply IH.
  Qed.
  Lemma missing_iff i : i ∈ missing_names d ↔ i ∉ el_id <$> d_body d ∧ ∃ x, x ∈ els ∧ el_parent x = Some i.
  Proof. unfold missing_names. rewrite elem_of_remove_dups, elem_of_list_filter, elem_of_list_omap. done. Qed.
  Lemma missing_known i : rs3_ok d → i ∈ missing_names d → i ≠ "root_node" ∧ pview ns d els (node_named ns i) = Some (dinfo ns (missing_desc ns d els i)).
  Proof.
    intros HO (Hi & x & Hx & Hp)%missing_iff. assert (Hr : i ≠ "root_node").
    { intros ->. pose proof (ro_names _ HO) as HN. rewrite <-(elements_perm d), Forall_forall in HN. by apply (HN x Hx). }
    split; [done|]. rewrite pview_named by done. unfold view_desc. rewrite from_nil by (by rewrite (elements_perm d)).
    destruct (kids_in els i) as [|y K] eqn:EK; [|done]. exfalso. assert (H : x ∈ kids_in els i) by (by apply elem_of_list_filter). rewrite EK in H. by apply elem_of_nil in H.
  Qed.
  Definition base_nodes : list node_info :=
    (if decide (Exists top (d_body d)) then [] else [(node_named ns "root_node", [ns], [])]) ++
    ((λ x, desc_info ns (node_of_el ns x) (element_desc ns d els x)) <$> els) ++
    ((λ i, desc_info ns (node_named ns i) (missing_desc ns d els i)) <$> missing_names d).
  Lemma base_ids : ids base_nodes = (if decide (Exists top (d_body d)) then [] else [node_named ns "root_node"]) ++ (node_of_el ns <$> els) ++ (node_named ns <$> missing_names d).
  Proof.
    unfold base_nodes. unfold ids. rewrite !fmap_app, <-!list_fmap_compose. f_equal. by destruct (decide _).
  Qed.
  Lemma tops_perm : Exists top els ↔ Exists top (d_body d).
  Proof. by rewrite (elements_perm d). Qed.
  Lemma base_is n x : rs3_ok d → pview ns d els n = Some x → ∃ y, y ∈ base_nodes ∧ y.1.1 = n ∧ (y.1.2, y.2) = x.
  Proof.
    intros HO. unfold pview. destruct (decide (n = node_named ns "root_node")) as [->|Hn].
    - rewrite (decide_ext _ _ _ _ tops_perm). unfold base_nodes. destruct (decide _); [done|]. intros [= <-]. eexists. split; [left|done].
    - destruct (name_of ns n) as [i|] eqn:Ei; [|done]. apply name_of_is in Ei as ->. unfold view_desc. destruct (from i els) as [|z l] eqn:Ef.
      + destruct (kids_in els i) as [|y K] eqn:EK; [done|]. intros [= <-]. exists (desc_info ns (node_named ns i) (missing_desc ns d els i)). split; [|done]. apply elem_of_app. right. apply elem_of_app. right.
        apply (elem_of_list_fmap_1 (λ i, desc_info ns (node_named ns i) (missing_desc ns d els i))). apply missing_iff. split.
        * rewrite <-(elements_perm d). intros Hin. destruct (from_head i els Hin) as (z & l & E & _). congruence.
        * assert (Hy : y ∈ kids_in els i) by (rewrite EK; left). apply elem_of_list_filter in Hy as [H1 H2]. exists y. done.
      + intros [= <-]. assert (Hin : i ∈ el_id <$> els). { destruct (decide (i ∈ el_id <$> els)) as [|H]; [done|]. by rewrite (from_nil i els H) in Ef. }
        destruct (from_head i els Hin) as (z' & l' & E & Ei & Hz). rewrite Ef in E. injection E as <- <-. exists (desc_info ns (node_of_el ns z) (element_desc ns d els z)). split.
        * apply elem_of_app. right. apply elem_of_app. left. by apply (elem_of_list_fmap_1 (λ x, desc_info ns (node_of_el ns x) (element_desc ns d els x))).
        * split; [|done]. unfold desc_info, node_of_el. cbn [fst]. by rewrite Ei.
  Qed.
  Lemma base_known y : rs3_ok d → y ∈ base_nodes → pview ns d els y.1.1 = Some (y.1.2, y.2).
  Proof.
    intros HO. unfold base_nodes. rewrite !elem_of_app. intros [H|[H|H]].
    - destruct (decide (Exists top (d_body d))) as [|Ht]; [by apply elem_of_nil in H|]. apply elem_of_list_singleton in H as ->. cbn [fst snd]. unfold pview. rewrite decide_True by done.
      by rewrite (decide_ext _ _ _ _ tops_perm), decide_False.
    - apply elem_of_list_fmap in H as (x & -> & Hx). cbn [desc_info fst snd]. by apply el_known.
    - apply elem_of_list_fmap in H as (i & -> & Hi). cbn [desc_info fst snd]. by apply missing_known.
  Qed.
  Lemma base_NoDup : rs3_ok d → NoDup (ids base_nodes).
  Proof.
    intros HO. rewrite base_ids. pose proof (ro_ids _ HO) as HD. rewrite <-(elements_perm d) in HD. pose proof (ro_names _ HO) as HN. rewrite <-(elements_perm d), Forall_forall in HN. apply NoDup_app. split; [|split].
    - destruct (decide _); [by apply NoDup_nil|apply NoDup_singleton].
    - intros n Hn. destruct (decide (Exists top (d_body d))); [by apply elem_of_nil in Hn|]. apply elem_of_list_singleton in Hn as ->. rewrite elem_of_app. intros [H|H]; apply elem_of_list_fmap in H as (z & E & Hz); apply named_inj in E.
      + symmetry in E. revert E. by apply HN.
      + subst z. by apply missing_known in Hz as [? _].
    - apply NoDup_app. split; [|split].
      + assert (HE : node_of_el ns <$> els = node_named ns <$> (el_id <$> els)) by (rewrite <-list_fmap_compose; done). rewrite HE. apply NoDup_fmap_2; [intros ? ?; apply named_inj|done].
      + intros n (x & -> & Hx)%elem_of_list_fmap (i & E & Hi)%elem_of_list_fmap. apply named_inj in E as <-. apply missing_iff in Hi as [Hi _]. apply Hi. rewrite <-(elements_perm d). by apply elem_of_list_fmap_1.
      + apply NoDup_fmap_2; [intros ? ?; apply named_inj|]. apply NoDup_remove_dups.
  Qed.
  Lemma node_set g T E : rs3_ok d → viewed g (vadd T (pview ns d els)) E → NoDup T.*1 → (∀ n, n ∈ T.*1 → pview ns d els n = None) →
    has_node_set g (base_nodes ++ (rs3_token_info ns <$> T)).
  Proof.
    intros HO HV HD HT. assert (HI : ids (base_nodes ++ (rs3_token_info ns <$> T)) = ids base_nodes ++ T.*1).
    { unfold ids. rewrite fmap_app, <-list_fmap_compose. done. }
    assert (HG : ∀ n, dget n T = None ↔ n ∉ T.*1).
    { intros n. split; [|intros H; destruct (dget n T) as [w|] eqn:E1; [|done]; apply dget_Some_elem in E1; by apply (elem_of_list_fmap_1 fst) in E1].
      intros E1 ([m w] & -> & Hw)%elem_of_list_fmap. apply (elem_dget _ _ _ HD) in Hw. cbn [fst] in E1. congruence. }
    assert (HB : ∀ n, n ∈ ids base_nodes ↔ is_Some (pview ns d els n)).
    { intros n. split.
      - intros (y & -> & Hy)%elem_of_list_fmap. rewrite base_known by done. by eexists.
      - intros [x Hx]. destruct (base_is n x HO Hx) as (y & Hy & <- & _). by apply (elem_of_list_fmap_1 (λ x : node_info, x.1.1)). }
    split.
    - enough (H : nodes g ≡ₚ ids base_nodes ++ T.*1) by (rewrite <-HI in H; exact H). apply NoDup_Permutation.
      + apply (v_inv _ _ _ HV).
      + apply NoDup_app. split; [by apply base_NoDup|]. split; [|done]. intros n Hn Hm. apply HB in Hn as [x Hx]. rewrite HT in Hx; done.
      + intros n. rewrite (view_in _ _ _ _ HV), elem_of_app, HB. unfold vadd. destruct (dget n T) as [w|] eqn:Ed.
        * split; [|by eexists]. intros _. right. apply dget_Some_elem in Ed. by apply (elem_of_list_fmap_1 fst) in Ed.
        * apply HG in Ed. naive_solver.
    - apply Forall_app. split; apply Forall_forall.
      + intros y Hy. pose proof (v_nodes _ _ _ HV y.1.1) as Hv. unfold vadd in Hv. rewrite (base_known y HO Hy) in Hv.
        assert (Hn : dget y.1.1 T = None). { apply HG. intros Hn. apply HT in Hn. rewrite base_known in Hn; done. }
        rewrite Hn in Hv. exact Hv.
      + intros y (t & -> & Ht)%elem_of_list_fmap. destruct t as [n w]. pose proof (v_nodes _ _ _ HV n) as Hv. unfold vadd in Hv. rewrite (elem_dget _ _ _ HD Ht) in Hv. exact Hv.
  Qed.
  (** ** The document *)
  Lemma root_known : rs3_ok d → is_Some (pview ns d els (root_of ns els)).
  Proof.
    intros HO. unfold root_of. destruct (last (filter top els)) as [x|] eqn:El.
    - assert (Hx : x ∈ els). { apply last_Some_elem_of in El. by apply elem_of_list_filter in El as [_ ?]. } rewrite el_known by done. by eexists.
    - rewrite pview_root, decide_False; [by eexists|]. intros HE. apply Exists_exists in HE as (y & Hy & Ht). apply last_None in El.
      assert (H : y ∈ filter top els) by (by apply elem_of_list_filter). rewrite El in H. by apply elem_of_nil in H.
  Qed.
End Tokens.
Theorem document_read base name ns tokenize precedence d : rs3_ok d → (tokenize = true → plain_ids d) →
  (tokenize = true → precedence = true → 1 < length (segments d ≫= words)) →
  ∃ g, read_rs3_graph base name ns tokenize precedence d = (g, node_of_el ns <$> segments d, None) ∧ GInv g ∧
    has_node_set g (rs3_nodes ns tokenize d) ∧ has_edges g (rs3_edges ns tokenize precedence d) ∧
    g_ns g = ns ∧ g_root g = root_of ns (elements_of d) ∧ g_tokens g = (if tokenize then (doc_tokens ns d).*1 else []) ∧
    g_meta g = [(ns +:+ ":edus", VObj 0)].
Proof.
  intros HO HP HL. unfold read_rs3_graph. rewrite segments_eq, groups_eq. cbv zeta.
  match goal with |- context [set_name ?n (init_graph "" ns None)] => destruct (read_elements ns d n HO) as (g2 & g1 & E1 & E2 & S2) end.
  rewrite E1, E2. clear E1 E2 g1. destruct S2 as [A0 A1 A2 A3 A4].
  assert (HT : ∃ g, (if tokenize then match loop rs3_tokens (node_of_el ns <$> segments d) g2 with
               | (g, Some e) => (g, Some e)
               | (g, None) => if precedence then add_precedence_relations g else (g, None)
               end else (g2, None)) = (g, None) ∧ Tk ns d (if tokenize then doc_tokens ns d else []) (rs3_edges ns tokenize precedence d) g).
  { assert (HT : Tk ns d [] (link_edges ns d) g2) by (split; done). unfold rs3_edges. destruct tokenize.
    - destruct (segments_tokens ns d (segments d) HO (HP eq_refl) [] (link_edges ns d) g2 eq_refl HT) as (g3 & E3 & T3). rewrite E3. cbn [app] in T3.
      change (toks_of ns (segments d)) with (doc_tokens ns d) in T3. change (tedges_of ns (segments d)) with (token_edges_of ns d) in T3.
      destruct precedence; [|exists g3; rewrite app_nil_r; done]. destruct T3 as [B0 B1 B2 B3 B4].
      assert (Hlen : length (doc_tokens ns d).*1 = length (segments d ≫= words)).
      { unfold doc_tokens. rewrite fmap_length. clear. induction (segments d) as [|x l IH]; [done|]. cbn [mbind list_bind]. rewrite !app_length. unfold segment_tokens at 1. rewrite imap_length. f_equal. exact IH. }
      specialize (HL eq_refl eq_refl). rewrite <-Hlen in HL.
      assert (HK : ∀ n, n ∈ (doc_tokens ns d).*1 → is_Some (vadd ns (doc_tokens ns d) (pview ns d (elements_of d)) n)).
      { intros n Hn. unfold vadd. destruct (dget n (doc_tokens ns d)) as [w|] eqn:Ed; [by eexists|]. exfalso. apply elem_of_list_fmap in Hn as ([m w] & -> & Hn).
        apply elem_dget in Hn; [cbn [fst] in Ed; congruence|]. apply toks_NoDup. pose proof (ro_ids _ HO) as HD. rewrite <-(elements_perm d) in HD. unfold elements_of in HD. rewrite fmap_app in HD. by apply NoDup_app in HD as [? _]. }
      unfold add_precedence_relations. rewrite B3, B2. destruct (doc_tokens ns d).*1 as [|t0 [|t1 ts]] eqn:Et; [cbn in HL; lia|cbn in HL; lia|].
      destruct (prec_loop ns ((root_of ns (elements_of d), t0) :: zip (t0 :: t1 :: ts) (t1 :: ts)) g3 _ _ B0 B1) as (g4 & E4 & V4 & D4).
      + apply List.Forall_cons; [split; [apply vadd_some; by apply root_known|apply HK; left]|]. apply Forall_forall. intros [u v] Huv. cbn [fst snd].
        split; apply HK; [by eapply elem_of_zip_l|right; by eapply elem_of_zip_r].
      + exists g4. split; [exact E4|]. destruct D4 as (_ & C1 & C2 & C3 & C4 & C5). split; try congruence. rewrite <-app_assoc in V4. exact V4.
    - exists g2. rewrite app_nil_r. split; [done|]. done. }
  destruct HT as (g & Eg & [B0 B1 B2 B3 B4]). rewrite Eg.
  assert (Hr : dmem (g_root g) (g_node g) = true).
  { rewrite B2. pose proof (vadd_some ns (if tokenize then doc_tokens ns d else []) _ _ (root_known ns d HO)) as H. apply (view_in _ _ _ _ B0) in H. apply node_mem in H as [a Ha]. unfold node_attrs in Ha. unfold dmem. by rewrite Ha. }
  rewrite Hr, B4. cbn [dmem dget]. change (dmem (ns +:+ ":edus") []) with false. cbn iota. eexists. split; [reflexivity|].
  assert (HV : viewed (set_meta (dset (ns +:+ ":edus") (VObj 0) []) g) (vadd ns (if tokenize then doc_tokens ns d else []) (pview ns d (elements_of d))) (rs3_edges ns tokenize precedence d)).
  { eapply view_ext; [| | |exact B0]; done. }
  split; [apply HV|]. split; [|split; [apply HV|]].
  - pose proof (node_set ns d _ _ _ HO HV) as HN. unfold rs3_nodes. destruct tokenize.
    + unfold base_nodes in HN. rewrite <-!app_assoc in HN. apply HN.
      * apply toks_NoDup. pose proof (ro_ids _ HO) as HD. rewrite <-(elements_perm d) in HD. unfold elements_of in HD. rewrite fmap_app in HD. by apply NoDup_app in HD as [? _].
      * intros n (x & i & _ & ->)%toks_ids. apply pview_token. rewrite (elements_perm d). by apply HP.
    + unfold base_nodes in HN. rewrite <-!app_assoc in HN. apply HN; [by apply NoDup_nil|]. intros n Hn. by apply elem_of_nil in Hn.
  - cbn. split; [done|]. split; [done|]. split; [|done]. rewrite B3. by destruct tokenize.
Qed.
