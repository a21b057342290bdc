(** * UrmlFacts: reading a URML document step by step *)
From Verif Require Import PyBase DocGraph Relabel StrNum Query Text Rst Nltk Parsers Anaphora Conano Decour Ptb Convert Tiger Urml.
From Verif Require Import SpecGraph DocGraphFacts History Effects RelabelFacts GraphThms SpecImport ImportFacts PtbFacts TextFacts OffsetFacts GeoffFacts DecourFacts AnaphoraFacts ConllReadText TigerFacts BuiltFrom ViewFacts SpecAnaphora SpecQuery SpanFacts SpecRs3Graph Rs3Facts Rs3Desc Rs3Read Rs3Doc SpecUrml.

(** ** Texts, tokens, types *)
Lemma tokens_same tokenize s : useg_tokens tokenize s = tokens_in tokenize s.
Proof.
  unfold useg_tokens, tokens_in, useg_text. destruct (us_children s) as [|c l].
  - destruct tokenize; [|done]. unfold sanitize. destruct (us_text s) as [t|]; [by rewrite split_strip|done].
  - apply list_fmap_ext. intros i [w|] _; done.
Qed.
Lemma text_same s : str (useg_text s) = text_in s.
Proof.
  unfold useg_text, text_in, sanitize. destruct (us_children s) as [|c l]; [by destruct (us_text s)|]. by rewrite join_sp_joined.
Qed.
Lemma fold_last ns i (l : list (string * string)) : ∀ m,
  dget (ns +:+ ":" +:+ i) (foldl (λ m p, dset (ns +:+ ":" +:+ p.2) p.1 m) m l) =
  match last (fst <$> filter (λ p : string * string, p.2 = i) l) with Some t => Some t | None => dget (ns +:+ ":" +:+ i) m end.
Proof.
  induction l as [|p l IH]; intros m; [done|]. cbn [foldl]. rewrite IH, filter_cons. destruct (decide (p.2 = i)) as [<-|Hi].
  - rewrite fmap_cons. destruct (fst <$> filter _ l) as [|t ts] eqn:E; [cbn; by rewrite dget_dset, decide_True|]. cbn [last]. by destruct (last (t :: ts)) eqn:El; [|by apply last_None in El].
  - destruct (last _); [done|]. rewrite dget_dset, decide_False; [done|]. intros H. do 2 apply append_inj_l in H. by apply Hi.
Qed.
Lemma fold_isolated ns i (l : list useg) : ∀ m,
  dget (ns +:+ ":" +:+ i) (foldl (λ m s, let i := ns +:+ ":" +:+ us_id s in if dmem i m then m else dset i "isolated" m) m l) =
  match dget (ns +:+ ":" +:+ i) m with Some t => Some t | None => if decide (i ∈ us_id <$> l) then Some "isolated" else None end.
Proof.
  induction l as [|s l IH]; intros m; [cbn; by case_match|]. cbn [foldl]. rewrite IH. cbv zeta. unfold dmem. destruct (decide (i = us_id s)) as [->|Hi].
  - destruct (dget (ns +:+ ":" +:+ us_id s) m) as [t|] eqn:E; [by rewrite E|]. rewrite dget_dset, decide_True by done. rewrite decide_True; [done|]. rewrite fmap_cons. left.
  - assert (E : dget (ns +:+ ":" +:+ i) (if match dget (ns +:+ ":" +:+ us_id s) m with Some _ => true | None => false end then m else dset (ns +:+ ":" +:+ us_id s) "isolated" m) = dget (ns +:+ ":" +:+ i) m).
    { destruct (dget (ns +:+ ":" +:+ us_id s) m); [done|]. rewrite dget_dset, decide_False; [done|]. intros H. do 2 apply append_inj_l in H. by apply Hi. }
    rewrite E. destruct (dget (ns +:+ ":" +:+ i) m); [done|]. rewrite fmap_cons. destruct (decide (i ∈ us_id <$> l)) as [H|H]; [by rewrite decide_True by (by right)|]. rewrite decide_False; [done|]. intros [?|?]%elem_of_cons; done.
Qed.
Lemma type_same ns d s : s ∈ ud_segs d → dget (ns +:+ ":" +:+ us_id s) (segment_types_of ns d) = Some (type_in d s).
Proof.
  intros Hs. unfold segment_types_of. cbv zeta. rewrite fold_isolated, fold_last. unfold type_in. rewrite list_filter_filter.
  destruct (last _) as [t|]; [done|]. cbn [dget default]. rewrite decide_True; [done|]. by apply elem_of_list_fmap_1.
Qed.
Lemma type_some d s : type_in d s ≠ "".
Proof.
  unfold type_in. destruct (last _) as [t|] eqn:E; [|done]. apply last_Some_elem_of in E. apply elem_of_list_fmap in E as (p & -> & Hp). apply elem_of_list_filter in Hp as [(_ & [-> | ->]) _]; done.
Qed.
Lemma label_same ns tokenize d s : urml_label ns tokenize (type_in d s) (us_id s) (useg_text s) = label_in ns tokenize d s.
Proof.
  unfold urml_label, label_in. cbv zeta. rewrite decide_False by apply type_some. destruct tokenize; [done|]. by rewrite <-text_same, chs_str.
Qed.
(** ** Nodes: described by [R], or only mentioned in [B] *)
Definition infos (R : list node_info) : dict nid (list string * attrs) := (λ x : node_info, (x.1.1, (x.1.2, x.2))) <$> R.
Definition uview (ns : string) (R : list node_info) (B : list nid) : nview := λ n,
  match dget n (infos R) with Some x => Some x | None => if decide (n ∈ B) then Some ([ns], []) else None end.
Lemma infos_keys R : dkeys (infos R) = ids R.
Proof. unfold infos, ids, dkeys. rewrite <-list_fmap_compose. done. Qed.
Lemma infos_none R n : dget n (infos R) = None ↔ n ∉ ids R.
Proof.
  rewrite dget_None. unfold infos, ids, dkeys. rewrite <-list_fmap_compose. done.
Qed.
Lemma uview_some ns R B n : is_Some (uview ns R B n) ↔ n ∈ ids R ∨ n ∈ B.
Proof.
  unfold uview. destruct (dget n (infos R)) as [x|] eqn:E.
  - split; [|by eexists]. intros _. left. destruct (decide (n ∈ ids R)) as [|H]; [done|]. apply infos_none in H. congruence.
  - apply infos_none in E. destruct (decide (n ∈ B)) as [H|H]; [split; [by right|by eexists]|]. split; [by intros [? ?]|by intros [?|?]].
Qed.
Lemma uview_node g ns R B E n l a ad : viewed g (uview ns R B) E → n ∉ ids R → ns ∈ l → (∀ k, k ≠ "layers" → dget k (given_attrs ad []) = dget k a) →
  ∃ g', add_node g n (VSet l) ad [] = (g', None) ∧ viewed g' (uview ns (R ++ [(n, l, a)]) B) E ∧ same_doc g g'.
Proof.
  intros HV Hn Hl Ha. assert (Hl0 : asked_layers (g_ns g) (VSet l) l) by (left; split; [done|]; intros ->; by apply elem_of_nil in Hl).
  pose proof (proj2 (infos_none R n) Hn) as HR.
  assert (HU : ∀ m, uview ns (R ++ [(n, l, a)]) B m = if decide (m = n) then Some (l, a) else uview ns R B m).
  { intros m. unfold uview, infos. rewrite fmap_app, dget_app. change ((λ x : node_info, (x.1.1, (x.1.2, x.2))) <$> R) with (infos R). cbn [fmap list_fmap dget fst snd]. destruct (decide (m = n)) as [->|Hm].
    - rewrite HR. done.
    - destruct (dget m (infos R)); [done|]. done. }
  destruct (decide (n ∈ B)) as [HB|HB].
  - destruct (view_again g _ E n (VSet l) ad [] l ([ns], []) HV Hl0) as (g' & E1 & V1 & D1); [unfold uview; rewrite HR; by rewrite decide_True|].
    exists g'. split; [done|]. split; [|done]. eapply view_same; [exact V1|]. intros m. rewrite HU. unfold vset. destruct (decide (m = n)); [|apply same_at_refl]. split; cbn [fst snd].
    + intros z. rewrite elem_of_app, elem_of_list_singleton. split; [|by right]. intros [->|?]; done.
    + intros k Hk. rewrite dget_dupdate, Ha by done. by destruct (dget k a).
  - destruct (view_new g _ E n (VSet l) ad [] l HV Hl0) as (g' & E1 & V1 & D1); [unfold uview; rewrite HR; by rewrite decide_False|].
    exists g'. split; [done|]. split; [|done]. eapply view_same; [exact V1|]. intros m. rewrite HU. unfold vset. destruct (decide (m = n)); [|apply same_at_refl]. split; cbn [fst snd]; [done|]. exact Ha.
Qed.
Lemma uview_edge_as g ns R B E u v layers l ad attr b : viewed g (uview ns R B) E → g_ns g = ns → asked_layers (g_ns g) layers l → (∀ k, k ≠ "layers" → dget k (given_attrs ad attr) = dget k b) →
  ∃ g', add_edge g u v layers None ad attr = (g', None) ∧ viewed g' (uview ns R (B ++ [u; v])) (E ++ [(u, v, l, b)]) ∧ same_doc g g'.
Proof.
  intros HV Hns Hl Hb. pose proof (view_built _ _ _ HV) as HB. destruct (built_edge g _ _ u v layers ad attr l HB Hl) as (g' & E1 & B1 & D1).
  exists g'. split; [done|]. split; [|done]. rewrite Hns in B1. set (N := ensure ns v (ensure ns u (vinfo (uview ns R B) <$> nodes g))) in *.
  assert (HI : ∀ n, n ∈ ids N ↔ n = u ∨ n = v ∨ is_Some (uview ns R B n)).
  { intros n. rewrite <-(view_in _ _ _ _ HV). unfold N, ensure. rewrite vinfo_ids. destruct (decide (u ∈ nodes g)) as [Hu|Hu].
    - rewrite vinfo_ids. destruct (decide (v ∈ nodes g)) as [Hv|Hv].
      + rewrite vinfo_ids. naive_solver.
      + rewrite ids_app, vinfo_ids, elem_of_app. cbn. rewrite elem_of_list_singleton. naive_solver.
    - rewrite ids_app, vinfo_ids. destruct (decide (v ∈ _)) as [Hv|Hv]; rewrite ?ids_app, ?vinfo_ids, !elem_of_app in *; cbn in *; rewrite ?elem_of_list_singleton in *; naive_solver. }
  assert (HV' : viewed g' (uview ns R (B ++ [u; v])) (E ++ [(u, v, l, given_attrs ad attr)])).
  { eapply built_view; [exact B1| |].
    - intros n. rewrite HI, !uview_some, elem_of_app, !elem_of_cons. split; [naive_solver|]. intros [?|[?|[?|[?|H]]]]; [by right; right; left|by right; right; right|by left|by right; left|by apply elem_of_nil in H].
    - intros n x Hx. destruct (decide (n ∈ nodes g)) as [Hin|Hin].
      + assert (HX : uview ns R B n = Some x).
        { apply (view_in _ _ _ _ HV) in Hin. revert Hin Hx. unfold uview. destruct (dget n (infos R)); [done|]. destruct (decide (n ∈ B)); [|intros [? ?]; done]. intros _. rewrite decide_True; [done|]. apply elem_of_app. by left. }
        exists (vinfo (uview ns R B) n). split; [|split; [apply vinfo_id|]].
        * assert (Hn : vinfo (uview ns R B) n ∈ vinfo (uview ns R B) <$> nodes g) by (by apply elem_of_list_fmap_1). unfold N, ensure. repeat case_decide; rewrite ?elem_of_app; auto.
        * unfold vinfo. rewrite HX. by destruct x.
      + assert (HX : uview ns R B n = None). { destruct (uview ns R B n) eqn:E0; [|done]. destruct Hin. apply (view_in _ _ _ _ HV). rewrite E0. by eexists. }
        assert (Hx' : x = ([ns], []) ∧ (n = u ∨ n = v)).
        { revert Hx HX. unfold uview. destruct (dget n (infos R)); [done|]. destruct (decide (n ∈ B)) as [|Hb']; [done|]. destruct (decide _) as [H|]; [|done]. intros [= <-] _. split; [done|]. apply elem_of_app in H as [?|H]; [done|]. rewrite !elem_of_cons in H. destruct H as [?|[?|H]]; [by left|by right|by apply elem_of_nil in H]. }
        destruct Hx' as [-> Hn]. exists (n, [ns], []). split; [|split; [done|done]]. unfold N, ensure. rewrite vinfo_ids. destruct Hn as [-> | ->].
        * rewrite (decide_False (P := u ∈ nodes g)) by done. case_decide; rewrite !elem_of_app, ?elem_of_list_singleton; auto.
        * destruct (decide (u ∈ nodes g)) as [Hu|Hu].
          -- rewrite vinfo_ids, decide_False by done. rewrite elem_of_app, elem_of_list_singleton. by right.
          -- rewrite ids_app, vinfo_ids. cbn. destruct (decide (v ∈ nodes g ++ [u])) as [Hv|Hv]; [|apply elem_of_app; right; left].
             rewrite elem_of_app, elem_of_list_singleton in Hv. destruct Hv as [?| ->]; [done|]. apply elem_of_app. right. left. }
  destruct HV' as [H1 H2 (es & HP & HF)]. split; [done|done|]. exists es. split; [done|]. apply Forall2_app_inv_r in HF as (es1 & es2 & F1 & F2 & ->). apply Forall2_app; [done|].
  inversion F2 as [|e ? es' ? (A1 & A2 & A3 & A4) F3]; subst. constructor; [|done]. split; [done|]. split; [done|]. split; [done|]. cbn [snd fst] in *. intros k Hk. by rewrite A4, Hb.
Qed.
Lemma uview_edge g ns R B E u v l ad attr b : viewed g (uview ns R B) E → g_ns g = ns → l ≠ [] → (∀ k, k ≠ "layers" → dget k (given_attrs ad attr) = dget k b) →
  ∃ g', add_edge g u v (VSet l) None ad attr = (g', None) ∧ viewed g' (uview ns R (B ++ [u; v])) (E ++ [(u, v, l, b)]) ∧ same_doc g g'.
Proof. intros HV Hns Hl Hb. apply uview_edge_as; [done|done| |done]. by left. Qed.
