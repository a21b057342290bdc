(** * DisgraphSpan: distinct tokens; spans that cannot be computed *)
From stdpp Require Import relations.
From Verif Require Import PyBase DocGraph Relabel StrNum Query Text SpecText Rst Nltk Dis Conano Exb Tiger Disgraph.
From Verif Require Import SpecGraph DocGraphFacts History Effects RelabelFacts GraphThms SpecImport ImportFacts TextFacts NltkFacts AnaphoraFacts ViewFacts SpecQuery SpanFacts OffsetFacts Rs3Doc.
From Verif Require Rs3Span.
From Verif Require Import DecourFacts GeoffFacts SpecDisgraph DisgraphFacts DisgraphDoc DisgraphMore.

Section Span.
  Context (ns : string) (tokenize : bool).
  Lemma token_name_inj i j a b : token_name ns i a = token_name ns j b → i = j ∧ a = b.
  Proof.
    unfold token_name. intros H%nstr_inj. do 2 apply append_inj_l in H. apply (f_equal chs) in H. rewrite !chs_app in H. change (chs "_") with ["_"%char] in H. cbn [app] in H.
    apply (f_equal (@rev ascii)) in H. rewrite !rev_app_distr in H. cbn [rev] in H. rewrite <-!app_assoc in H. cbn [app] in H.
    apply cut in H as [H1 H2]; [|intros Hin%elem_of_list_In%in_rev%elem_of_list_In; by apply number_no_underscore in Hin..].
    apply (f_equal (@rev ascii)) in H1, H2. rewrite !rev_involutive in H1, H2. apply chs_inj in H1, H2. split; [done|]. apply str_Z_inj in H1. lia.
  Qed.
  Lemma unit_tokens_in u n : n ∈ unit_tokens ns tokenize u → ∃ s r i x k, u = Unit s r i x ∧ n = token_name ns i k.
  Proof.
    destruct u as [s r i x|s r a b us]; cbn [unit_tokens]; [|by intros ?%elem_of_nil]. destruct tokenize; [|by intros ?%elem_of_nil].
    intros (k & w & -> & _)%elem_of_lookup_imap. by exists s, r, i, x, k.
  Qed.
  Lemma tokens_distinct us : NoDup (unit_ids us) → NoDup (u ← us; unit_tokens ns tokenize u).
  Proof.
    unfold unit_ids. induction us as [|u us IH]; intros HD; [exact (NoDup_nil_2)|]. cbn [mbind list_bind] in *. apply NoDup_app in HD as (_ & HX & HD).
    apply NoDup_app. split; [|split; [|by apply IH]].
    - destruct u as [s r i x|]; [|exact NoDup_nil_2]. cbn [unit_tokens]. destruct tokenize; [|exact NoDup_nil_2]. apply NoDup_alt. intros a b n Ha Hb. rewrite list_lookup_imap in Ha, Hb.
      destruct (words_of (Unit s r i x) !! a); [|done]. destruct (words_of (Unit s r i x) !! b); [|done]. injection Ha as <-. injection Hb as Hb.
      assert (HH : token_name ns i b = token_name ns i a) by (unfold token_name; by f_equal). by apply token_name_inj in HH as [_ ?].
    - intros n Hn Hm. apply unit_tokens_in in Hn as (s & r & i & x & k & -> & ->). apply elem_of_list_bind in Hm as (v & Hm & Hv). apply unit_tokens_in in Hm as (s' & r' & i' & x' & k' & -> & E).
      apply token_name_inj in E as [-> _]. apply (HX i'); [left|]. apply elem_of_list_bind. exists (Unit s' r' i' x'). split; [left|done].
  Qed.
  Section Doc.
    Context (precedence : bool) (d : disdoc) (g : graph) (HS : says_exactly ns tokenize precedence d g) (C : Consistent g).
    Lemma link_there e : e ∈ doc_links ns tokenize d → ∃ k a, edge_attrs g e.1.1.1 e.1.1.2 k = Some a ∧ attrs_are a e.1.2 e.2.
    Proof. intros He. eapply edge_there; [exact C|apply (se_edges _ _ _ _ _ HS)|]. apply elem_of_app. by left. Qed.
    Lemma about_link u e : u ∈ read_of d → e ∈ about_edges ns tokenize u → e ∈ doc_links ns tokenize d.
    Proof.
      intros Hu He. apply elem_of_list_bind in Hu as (p & Hu & Hp). unfold doc_links. apply elem_of_list_bind. exists p. split; [|done]. right. apply elem_of_list_bind. by exists u.
    Qed.
    Lemma word_edge u : tokenize = true → u ∈ read_of d → words_of u ≠ [] → ∃ t k a, edge_attrs g (name_of ns u) t k = Some a ∧ name_of ns u ≠ t ∧ dget "edge_type" a = None.
    Proof.
      intros HT Hu Hw. destruct u as [s r i x|]; [|done]. destruct (words_of (Unit s r i x)) as [|w ws] eqn:Ew; [done|].
      assert (Ht : token_name ns i 0 ∈ unit_tokens ns tokenize (Unit s r i x)). { cbn [unit_tokens]. rewrite HT, Ew. left. }
      destruct (link_there (name_of ns (Unit s r i x), token_name ns i 0, [ns], [])) as (k & a & Ha & HA).
      { eapply about_link; [exact Hu|]. cbn [about_edges]. apply elem_of_list_fmap. by exists (token_name ns i 0). }
      exists (token_name ns i 0), k, a. split; [exact Ha|]. split.
      - cbn [name_of]. unfold token_name. intros E%nstr_inj. do 2 apply append_inj_l in E. apply (f_equal chs), (f_equal length) in E. rewrite !chs_app, !app_length in E. cbn in E. lia.
      - destruct HA as [_ HA]. cbn [fst snd] in HA. by rewrite HA.
    Qed.
    Lemma below_span n m : below g n m → (∃ k l, get_span k g n = Ok l) → ∃ k l, get_span k g m = Ok l.
    Proof using C.
      induction 1 as [|x y z (Hne & key & a & Ha & Hty) H IH]; [done|]. intros (k & l & Hk). apply IH.
      destruct (span_step k g x y key a l C Ha Hne Hk) as [_ [Hp|(k' & l' & Hk')]]; [done|by exists k', l'].
    Qed.
    Lemma no_span u n k l : tokenize = true → u ∈ read_of d → words_of u ≠ [] → below g n (name_of ns u) → get_span k g n ≠ Ok l.
    Proof.
      intros HT Hu Hw Hb Hk. destruct (below_span n _ Hb) as (k' & l' & Hk'); [by exists k, l|].
      destruct (word_edge u HT Hu Hw) as (t & kt & a & Ha & Hne & Hty). destruct (span_step k' g _ t kt a l' C Ha Hne Hk') as [Hy _]. done.
    Qed.
    Lemma not_typed u : tokenize = true → u ∈ read_of d → words_of u ≠ [] → ¬ typed g.
    Proof.
      intros HT Hu Hw HY. destruct (word_edge u HT Hu Hw) as (t & kt & a & Ha & Hne & Hty). apply HY in Ha. rewrite Hty in Ha. by destruct Ha.
    Qed.
    (** the root reaches every unit that is read *)
    Lemma edge_below u v rel ty : (u, v, [ns], match ty with Some ty => [("edge_type", VStr ty)] | None => [] end ++ rel) ∈ doc_links ns tokenize d →
      dget "edge_type" rel = None → ty ≠ Some points_to → below g u v.
    Proof.
      intros He Hr Hty. destruct (decide (u = v)) as [->|Hne]; [apply rtc_refl|]. apply rtc_once. split; [done|]. destruct (link_there _ He) as (k & a & Ha & HA). exists k, a. split; [exact Ha|].
      destruct HA as [_ HA]. cbn [fst snd] in HA. rewrite HA by done. rewrite dget_app. destruct ty as [ty|]; [|by rewrite Hr].
      cbn. rewrite decide_True by done. intros [= ->]. by apply Hty.
    Qed.
    Lemma related_below u v rel ty : related ns u v rel ty ∈ doc_links ns tokenize d → ty ≠ Some points_to → below g u v.
    Proof. intros He. eapply edge_below; [exact He|]. cbn. by rewrite decide_False by apply Rs3Span.edge_type_ne. Qed.
    Lemma parts_below u v : u ∈ read_of d → combination_ok u → v ∈ parts_read u → below g (name_of ns u) (name_of ns v).
    Proof.
      intros Hu Hc Hv. destruct u as [s r i x|s r a b us]; [by apply elem_of_nil in Hv|]. pose proof (λ e, about_link _ e Hu) as HL. cbn [about_edges] in HL.
      unfold combination_ok in Hc. assert (Hv' : v ∈ filter (λ v, is_sat v = true) (parts_read (Span s r a b us)) ∨ v ∈ filter (λ v, is_sat v = false) (parts_read (Span s r a b us))).
      { rewrite !elem_of_list_filter. destruct (is_sat v); [by left|by right]. }
      destruct (filter (λ v, is_sat v = true) _) as [|s1 [|s2 ss]]; [| |cbn in Hc; lia].
      - destruct Hv' as [Hv'|Hv']; [by apply elem_of_nil in Hv'|]. eapply related_below; [apply HL, elem_of_list_fmap; exists v; split; [reflexivity|done]|done].
      - destruct (filter (λ v, is_sat v = false) _) as [|n1 [|n2 nn]]; [| |cbn in Hc; lia].
        + destruct Hv' as [Hv'|Hv']; [|by apply elem_of_nil in Hv']. apply elem_of_list_singleton in Hv' as ->. eapply related_below; [apply HL; left|done].
        + assert (Hn : below g (name_of ns (Span s r a b us)) (name_of ns n1)) by (eapply related_below; [apply HL; left|done]).
          destruct Hv' as [Hv'|Hv']; apply elem_of_list_singleton in Hv' as ->; [|exact Hn]. etrans; [exact Hn|]. eapply related_below; [apply HL; right; left|done].
    Qed.
    Lemma inside_below p v : p ∈ read_of d → Forall combination_ok (read_of d) → v ∈ read_inside p → below g (name_of ns p) (name_of ns v).
    Proof.
      intros Hp HF. induction p as [s r i x|s r a b us IH] using disunit_ind'; intros Hv; [apply elem_of_list_singleton in Hv as ->; apply rtc_refl|]. rewrite read_inside_parts in Hv.
      apply elem_of_cons in Hv as [->|Hv]; [apply rtc_refl|]. apply elem_of_list_bind in Hv as (w & Hv & Hw). rewrite Forall_forall in HF, IH.
      assert (Hw' : w ∈ us) by (cbn [parts_read] in Hw; destruct us; [by apply elem_of_nil in Hw|by right]).
      etrans; [eapply parts_below; [exact Hp|by apply HF|exact Hw]|]. apply IH; [done| |done]. by eapply read_parts.
    Qed.
    Lemma root_below v : Forall combination_ok (read_of d) → v ∈ read_of d → below g (root_name ns d) (name_of ns v).
    Proof.
      intros HF Hv. pose proof Hv as Hv0. apply elem_of_list_bind in Hv as (p & Hv & Hp). etrans; [|by eapply inside_below; [by apply top_read|done|exact Hv]].
      eapply (edge_below _ _ [] (Some "dominates")); [|done|done]. unfold doc_links. apply elem_of_list_bind. exists p. split; [left|done].
    Qed.
  End Doc.
End Span.
