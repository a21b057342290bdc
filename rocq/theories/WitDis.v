(** * WitDis: deciding what the hypotheses of PropDis.v say about literals *)
From Verif Require Import PyBase DocGraph Relabel StrNum Query Text SpecText Rst SpecRst Nltk Dis SpecDis NltkFacts.

Lemma normal_words (ws : list string) s : ws ≠ [] → forallb (λ w, negb (String.eqb w "") && forallb (λ c, negb (is_space c)) (chs w)) ws = true →
  chs s = join_words (chs <$> ws) → normal_text s.
Proof.
  intros Hne HF E. exists (chs <$> ws). split; [by destruct ws|]. split; [|done]. apply Forall_fmap, Forall_forall. intros w Hw.
  rewrite forallb_forall in HF. apply elem_of_list_In in Hw. apply HF in Hw. apply andb_true_iff in Hw as [H1 H2]. split.
  - intros E2. cbn beta in E2. destruct w; [discriminate H1|discriminate E2].
  - apply Forall_forall. intros c Hc. rewrite forallb_forall in H2. apply elem_of_list_In in Hc. apply H2, negb_true_iff in Hc. by rewrite Hc.
Qed.
Fixpoint occursb (k s : chars) : bool := is_prefix k s || match s with [] => false | _ :: s => occursb k s end.
Lemma occursb_ok k s : occursb k s = false → ¬ occurs k s.
Proof.
  intros H (a & b & ->). induction a as [|c a IH]; cbn [app occursb] in H.
  - assert (Hp : is_prefix k (k ++ b) = true) by (apply is_prefix_true; by exists b).
    destruct (k ++ b); cbn [occursb] in H; by rewrite Hp in H.
  - apply orb_false_iff in H as [_ H]. by apply IH.
Qed.
Lemma no_B s : "B"%char ∉ s → ¬ looks_escaped s.
Proof.
  intros HB (x & y & [(_ & _ & a & b & ->)|(_ & _ & a & b & ->)]); apply HB; apply elem_of_app; right; apply elem_of_app; left; cbn; do 3 right; left.
Qed.
Ltac nomem := cbn; rewrite ?not_elem_of_cons; repeat split; try done; apply not_elem_of_nil.
Ltac dis_text_by ws := split; [by apply (normal_words ws)|by apply occursb_ok|by apply occursb_ok|apply no_B; nomem].
Ltac dis_name_tac := split; [split; [done|by repeat (apply List.Forall_cons; [done|])]|split; nomem|by apply occursb_ok|apply no_B; nomem|done].
