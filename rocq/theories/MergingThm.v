(** * MergingThm: merging several documents (proofs) *)
From Verif Require Import PyBase DocGraph Relabel SpecGraph DocGraphFacts Effects AllHist MergeFacts MergeAll Merging SpecMerging MergingFacts.

Lemma last_omap_cons {A B} (f : A → option B) x l : last (omap f (x :: l)) = match last (omap f l) with Some v => Some v | None => f x end.
Proof.
  cbn [omap list_omap]. destruct (f x) as [v|] eqn:E; [|by destruct (last (omap f l))]. rewrite last_cons. destruct (last _); reflexivity.
Qed.
Lemma first_nonempty_cons {A} (x : list A) l : first_nonempty (x :: l) = match x with [] => first_nonempty l | _ => x end.
Proof. unfold first_nonempty. rewrite filter_cons. by destruct x. Qed.
Lemma merged_none ts g : layers_of_text ts g [] → all_merged g [] g.
Proof.
  intros H. split.
  - intros n. split; [by left|]. intros [?|(og & m & Hx & _)]; [done|]. by apply elem_of_nil in Hx.
  - done.
  - intros og m a Hx. by apply elem_of_nil in Hx.
  - intros i x _. rewrite Exists_cons, Exists_nil. tauto.
  - intros i key _ _ _. by rewrite last_omap_cons.
  - done.
  - exists []. split; [by rewrite app_nil_r|constructor].
  - split; [done|]. split; [done|]. split; [done|]. cbn. rewrite first_nonempty_cons. by destruct (g_sentences g).
Qed.
Section one.
  Context (ts : list pyval) (g og : graph) (ogs : list graph) (H : layers_of_text ts g (og :: ogs)).
  Context (g1 : graph) (M : merge_result (aligned g og) g og g1) (H1 : layers_of_text ts g1 ogs) (g' : graph) (A : all_merged g1 ogs g').
  Lemma same_aligned d m : aligned g1 d m = aligned g d m.
  Proof using H M. unfold aligned. by rewrite (n_tokens ts g og ogs H g1 M). Qed.
  Lemma tokens_len i : i < length (g_tokens g) → ∃ t, g_tokens g !! i = Some t.
  Proof. apply lookup_lt_is_Some_2. Qed.
  Lemma merged_one : all_merged g (og :: ogs) g'.
  Proof using H M A.
    pose proof (n_tokens ts g og ogs H g1 M) as ET. pose proof (o_says ts g og ogs H) as [Sg So]. split.
    - intros n. rewrite (am_nodes _ _ _ A), (mr_nodes _ _ _ _ M). split.
      + intros [[?|(m & ? & ? & ->)]|(d & m & Hd & ? & ? & ->)]; [by left|right; exists og, m; split; [left|done]|right; exists d, m; split; [by right|]; by rewrite same_aligned].
      + intros [?|(d & m & [->|Hd]%elem_of_cons & ? & ? & ->)]; [by left; left|left; right; by exists m|right; exists d, m; by rewrite same_aligned].
    - intros n Hn Ht. rewrite (am_own _ _ _ A n); [|apply (mr_nodes _ _ _ _ M); by left|by rewrite ET]. apply (mr_own _ _ _ _ M n Hn). intros m Hm ->. destruct (o_map ts g og ogs H m Hm) as [[_ Hx]|[_ E]]; [done|]. rewrite E in Hn. by apply (o_apart ts g og ogs H m).
    - intros d m a [->|Hd]%elem_of_cons Ha Hr Ht.
      + assert (Hm : m ∈ nodes og) by (apply node_mem; by eexists). assert (Hg : m ∉ nodes g) by (intros Hx; by apply (o_apart ts g og ogs H m)).
        destruct (mr_other _ _ _ _ M m a Hr Ha) as (a' & Ha' & HL & HV & _). rewrite (aligned_other g og m Ht) in Ha', HL, HV. assert (Hx : m ∈ nodes g1) by (apply node_mem; by eexists).
        assert (EN : node_attrs g m = None). { destruct (node_attrs g m) as [b|] eqn:E; [|done]. exfalso. apply Hg, node_mem. by eexists. } rewrite EN in HL, HV.
        exists a'. split; [rewrite (am_own _ _ _ A m Hx); [exact Ha'|]|split].
        * rewrite ET. intros Hy. apply Hg. by eapply said_node.
        * intros x. rewrite HL. unfold ohas_layer. naive_solver.
        * intros key K1 K2. rewrite (HV key K1 K2). by destruct (dget key a).
      + destruct (am_other _ _ _ A d m a Hd Ha Hr Ht) as (a' & Ha' & HL & HV). exists a'. rewrite (mr_ns _ _ _ _ M) in HV. done.
    - intros i x Hi. rewrite (am_layers _ _ _ A i x) by (by rewrite ET). rewrite !Exists_cons. destruct (tokens_len i Hi) as [t Ht]. destruct (n_token ts g og ogs H g1 M i t Ht) as (o & a & b & a' & Ho & Ea & Eb & Ea' & HL & _ & _).
      assert (token_layer i x g1 ↔ token_layer i x g ∨ token_layer i x og) as ->; [|tauto]. unfold token_layer, token_at. rewrite ET, Ht, Ho, Ea, Eb, Ea'. unfold ohas_layer. specialize (HL x). naive_solver.
    - intros i key Hi K1 K2. rewrite (am_values _ _ _ A i key) by (rewrite ?ET, ?(mr_ns _ _ _ _ M); done). rewrite !last_omap_cons. destruct (tokens_len i Hi) as [t Ht]. destruct (n_token ts g og ogs H g1 M i t Ht) as (o & a & b & a' & Ho & Ea & Eb & Ea' & _ & HV & _).
      destruct (last (omap (token_value i key) ogs)); [done|]. unfold token_value, token_at. rewrite ET, Ht, Ho, Ea, Eb, Ea'. cbn [oget]. by apply HV.
    - intros n Hn. rewrite (am_text _ _ _ A n) by (by rewrite ET). by apply (n_text ts g og ogs H g1 M).
    - destruct (am_edges _ _ _ A) as (news & EE & EN). destruct (mr_edges _ _ _ _ M) as (br & mv & E1 & HB & HM). exists ((br ++ mv) :: news). split.
      + rewrite EE, E1. cbn [concat]. by rewrite <-!app_assoc.
      + constructor; [exists br, mv; done|]. eapply Forall2_impl; [exact EN|]. intros d new (b & m & -> & HB' & HM'). exists b, m. split; [done|]. split.
        * destruct HB' as (l & Hl & HF). exists l. split; [done|]. eapply Forall2_impl; [exact HF|]. intros e e' [E2 E3]. split; [by rewrite <-!same_aligned|done].
        * destruct HM' as (l & Hl & HF). exists l. split; [done|]. eapply Forall2_impl; [exact HF|]. intros e e' (E2 & E3 & E4). split; [by rewrite <-!same_aligned, <-(mr_root _ _ _ _ M)|]. split; [by rewrite <-(mr_ns _ _ _ _ M)|done].
    - destruct (am_rest _ _ _ A) as (A1 & A2 & A3 & A4). split; [by rewrite A1|]. split; [by rewrite A2, (mr_ns _ _ _ _ M)|]. split; [by rewrite A3, (mr_root _ _ _ _ M)|]. rewrite A4. cbn [fmap list_fmap]. rewrite !first_nonempty_cons, (mr_sentences _ _ _ _ M). destruct (g_sentences g); [|done]. by destruct (g_sentences og).
  Qed.
End one.

Lemma all_thm ts ogs : ∀ g r, layers_of_text ts g ogs → merge_all g ogs r → ∃ g', r = (g', None) ∧ all_merged g ogs g'.
Proof.
  induction ogs as [|og ogs IH]; intros g r H Hm.
  - inversion Hm; subst. exists g. split; [done|]. by eapply merged_none.
  - inversion Hm as [|? ? ? g1 e Hx|? ? ? g1 ? Hx Hy]; subst; destruct (o_merge ts g og ogs H _ Hx) as (g2 & E & M); [done|]. injection E as <-.
    pose proof (n_layers ts g og ogs H g1 Hx M) as H1. destruct (IH g1 r H1 Hy) as (g' & -> & A). exists g'. split; [done|]. by apply (merged_one ts g og ogs H g1 M).
Qed.
Lemma all_exists ts ogs : ∀ g, layers_of_text ts g ogs → ∃ r, merge_all g ogs r.
Proof.
  induction ogs as [|og ogs IH]; intros g H; [eexists; constructor|].
  destruct (o_exists ts g og ogs H) as [r Hr]. destruct (o_merge ts g og ogs H r Hr) as (g1 & -> & M). destruct (IH g1 (n_layers ts g og ogs H g1 Hr M)) as [r Hx]. exists r. by eapply MA_step.
Qed.
