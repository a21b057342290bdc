(** * RstRound: reading back written documents *)
From Verif Require Import PyBase DocGraph Relabel StrNum Query Text Rst SpecRst SpanFacts RstLayout RstWrite RstRead.

(** nuclei with their numbers and the index of their first unit *)
Fixpoint places (j lo : nat) (l : list rst) : list (nat * nat * rst) :=
  match l with [] => [] | c :: l => (S j, lo, c) :: places (S j + nsize (body c)) (lo + length (edus c)) l end.
Lemma places_numbered j lo l : (λ p, (p.1.1, p.2)) <$> places j lo l = numbered j l.
Proof. revert j lo. induction l as [|c l IH]; intros j lo; [done|]. cbn [places numbered fmap list_fmap fst snd]. f_equal. apply IH. Qed.
Lemma places_in j lo l p : p ∈ places j lo l → (p.1.1, p.2) ∈ numbered j l.
Proof. intros H. rewrite <-(places_numbered j lo). apply elem_of_list_fmap. by exists p. Qed.
Lemma places_lo j lo l p : p ∈ places j lo l → lo ≤ p.1.2 ∧ p.1.2 + length (edus p.2) ≤ lo + length (concat (edus <$> l)).
Proof.
  revert j lo. induction l as [|c l IH]; intros j lo; [by intros ?%elem_of_nil|]. cbn [places fmap list_fmap concat]. rewrite app_length.
  intros [->|H]%elem_of_cons; cbn [fst snd]; [lia|]. apply IH in H. change (list_fmap rst (list string) edus l) with (edus <$> l). lia.
Qed.
Definition nsizes (l : list rst) : nat := sum_list ((λ c, S (nsize (body c))) <$> l).
Lemma nsizes_cons c l : nsizes (c :: l) = S (nsize (body c)) + nsizes l.
Proof. done. Qed.
Lemma nsizes_app l1 l2 : nsizes (l1 ++ l2) = nsizes l1 + nsizes l2.
Proof. induction l1 as [|c l IH]; [done|]. cbn [app]. rewrite !nsizes_cons, IH. lia. Qed.
Lemma places_app j lo l1 l2 : places j lo (l1 ++ l2) = places j lo l1 ++ places (j + nsizes l1) (lo + length (concat (edus <$> l1))) l2.
Proof.
  revert j lo. induction l1 as [|c l IH]; intros j lo; [unfold nsizes; simpl; by rewrite !Nat.add_0_r|].
  cbn [app places]. rewrite IH. do 3 f_equal; [rewrite nsizes_cons; lia|]. rewrite fmap_cons. cbn [concat]. rewrite app_length. lia.
Qed.
Lemma numbered_app j l1 l2 : numbered j (l1 ++ l2) = numbered j l1 ++ numbered (j + nsizes l1) l2.
Proof. rewrite <-(places_numbered j 0), places_app, fmap_app, !places_numbered. done. Qed.
Lemma places_split j lo l ps1 p ps2 : places j lo l = ps1 ++ p :: ps2 → ∃ l1 c l2, l = l1 ++ c :: l2 ∧
  p = (S (j + nsizes l1), lo + length (concat (edus <$> l1)), c) ∧ ps1 = places j lo l1 ∧
  ps2 = places (S (j + nsizes l1) + nsize (body c)) (lo + length (concat (edus <$> l1)) + length (edus c)) l2.
Proof.
  revert j lo ps1. induction l as [|c l IH]; intros j lo ps1; [by destruct ps1|]. destruct ps1 as [|q ps1]; cbn [places app].
  - intros [= <- <-]. exists [], c, l. unfold nsizes. simpl. by rewrite !Nat.add_0_r.
  - intros [= <- H]. apply IH in H as (l1 & c' & l2 & -> & -> & -> & ->). exists (c :: l1), c', l2.
    rewrite nsizes_cons, fmap_cons. cbn [concat places app]. rewrite app_length.
    split; [done|]. split; [f_equal; f_equal; lia|]. split; [done|]. f_equal; lia.
Qed.
Lemma lay_seg_length k ro r : length (filter (λ x, is_seg x = true) (lay k ro r)) = length (edus r).
Proof.
  rewrite <-(lay_texts r k ro). induction (lay k ro r) as [|x L IH]; [done|]. rewrite filter_cons. destruct (decide (is_seg x = true)) as [H|H]; [|done].
  destruct x; [|done]. cbn [fmap list_fmap xtext concat length app]. by rewrite IH.
Qed.
Lemma edus_pos r : multi_ok r → 0 < length (edus r).
Proof.
  induction r as [s|rel nf n s IHn IHs|rel l IH] using rst_ind'; intros Hm; [simpl; lia| |].
  - destruct Hm as [Hn Hs]. specialize (IHn Hn). destruct nf; simpl; rewrite app_length; lia.
  - apply multi_ok_Multi in Hm as [Hl Hm]. rewrite edus_Multi. destruct l as [|c l]; [simpl in Hl; lia|].
    apply Forall_cons in IH as [IH _]. apply Forall_cons in Hm as [Hm _]. cbn [fmap list_fmap concat]. rewrite app_length. specialize (IH Hm). lia.
Qed.

Lemma find_nodup {A} `{EqDecision A} (l : list A) i x : NoDup l → l !! i = Some x → list_find (λ e, e = x) l = Some (i, x).
Proof.
  intros Hnd Hi. destruct (list_find (λ e, e = x) l) as [[j y]|] eqn:E.
  - apply list_find_Some in E as (Hj & -> & _). by rewrite (NoDup_lookup _ _ _ _ Hnd Hj Hi).
  - apply list_find_None in E. rewrite Forall_forall in E. exfalso. apply (E x); [by eapply elem_of_list_lookup_2|done].
Qed.
Lemma find_none {A} `{EqDecision A} (l : list A) x : x ∉ l → list_find (λ e, e = x) l = None.
Proof. intros H. apply list_find_None. apply Forall_forall. intros y Hy ->. done. Qed.
Definition is_min (m : nat) (l : list nat) : Prop := m ∈ l ∧ Forall (λ x, m ≤ x) l.
Lemma is_min_unique m m' l : is_min m l → is_min m' l → m = m'.
Proof. intros [H1 H2] [H3 H4]. rewrite Forall_forall in H2, H4. specialize (H2 _ H3). specialize (H4 _ H1). lia. Qed.
Lemma is_min_perm m l l' : l ≡ₚ l' → is_min m l → is_min m l'.
Proof. intros H [? ?]. split; by rewrite <-H. Qed.
Lemma foldl_min p ps : is_min (foldl Nat.min p ps) (p :: ps).
Proof.
  revert p. induction ps as [|q ps IH]; intros p; simpl; [split; [left|by constructor]|].
  destruct (IH (p `min` q)) as [H1 H2]. apply Forall_cons in H2 as [H2 H3]. split.
  - apply elem_of_cons in H1 as [H1|H1]; [|do 2 right; done]. destruct (Nat.min_spec p q) as [[_ E]|[_ E]]; rewrite E in H1 at 2; rewrite H1; [left|right; left].
  - constructor; [lia|]. constructor; [lia|done].
Qed.
Lemma is_min_exists l : l ≠ [] → ∃ m, is_min m l.
Proof. destruct l as [|p ps]; [done|]. intros _. exists (foldl Nat.min p ps). apply foldl_min. Qed.

Section round.
  Context (r : rs3data) (rt : dict string string).
  Hypothesis edus_nodup : NoDup (r_edus r).
  Hypothesis span_undeclared : dget "span" rt = None.
  Record sub (k : nat) (ro : option (string * string)) (rr : rst) (lo : nat) (ext : list string) : Prop := {
    s_inf : ∀ x, x ∈ lay k ro rr → dget (xid x) (r_elems r) = Some (info_of rt x);
    s_kids : ∀ j, k ≤ j < k + nsize (body rr) →
      kids_of r (Some (idn j)) ≡ₚ (if decide (j = k) then ext else []) ++ kin (Some (idn j)) (lay k ro rr);
    s_par : ∀ j, k ≤ j < k + nsize (body rr) → snd <$> ro ≠ Some (idn j);
    s_edus : ∃ pre post, r_edus r = pre ++ (xid <$> filter (λ x, is_seg x = true) (lay k ro rr)) ++ post ∧ length pre = lo;
    s_grp : ∀ x, x ∈ lay k ro rr → is_seg x = false → xid x ∉ r_edus r;
  }.
  Lemma sub_inf k ro rr lo ext x : sub k ro rr lo ext → x ∈ lay k ro rr → inf r (xid x) = info_of rt x.
  Proof using Type. intros H Hx. unfold inf. by rewrite (s_inf _ _ _ _ _ H _ Hx). Qed.
  Lemma sub_top k ro rr lo ext : sub k ro rr lo ext → ∃ x, x ∈ lay k ro rr ∧ inf r (idn k) = info_of rt x ∧ xid x = idn k ∧
    xparent x = snd <$> ro ∧ xrelname x = fst <$> ro ∧
    is_seg x = match rr with Edu _ => true | _ => false end ∧
    i_gtype (info_of rt x) = match rr with Edu _ => None | Mono _ _ _ _ => Some "span" | Multi _ _ => Some "multinuc" end ∧
    i_text (info_of rt x) = match rr with Edu s => s | _ => "" end.
  Proof using Type.
    intros H. destruct rr as [s|rel nf n s|rel l].
    - exists (Seg (idn k) (snd <$> ro) (fst <$> ro) s). split; [left|]. split; [apply (sub_inf _ _ _ _ _ (Seg _ _ _ _) H); left|done].
    - exists (Grp (idn k) (Some "span") (snd <$> ro) (fst <$> ro)). split; [left|]. split; [apply (sub_inf _ _ _ _ _ (Grp _ _ _ _) H); left|done].
    - exists (Grp (idn k) (Some "multinuc") (snd <$> ro) (fst <$> ro)). split; [left|]. split; [apply (sub_inf _ _ _ _ _ (Grp _ _ _ _) H); left|done].
  Qed.
  Lemma sub_Mono k ro rel nf n s lo ext : sub k ro (Mono rel nf n s) lo ext →
    sub (nuc_at k nf s) (Some ("span", idn k)) n (if nf then lo else lo + length (edus s)) [idn (sat_at k nf n)] ∧
    sub (sat_at k nf n) (Some (rel, idn (nuc_at k nf s))) s (if nf then lo + length (edus n) else lo) [] ∧
    kids_of r (Some (idn k)) ≡ₚ ext ++ [idn (nuc_at k nf s)].
  Proof using Type.
    intros [H1 H2 H3 H4 H5]. cbn [lay] in H1, H2, H4, H5. rewrite nsize_Mono in H2, H3.
    set (A := lay (nuc_at k nf s) (Some ("span", idn k)) n) in *. set (B := lay (sat_at k nf n) (Some (rel, idn (nuc_at k nf s))) s) in *.
    set (g := Grp (idn k) (Some "span") (snd <$> ro) (fst <$> ro)) in *.
    assert (HAB : ∀ z, z ∈ g :: (if nf then A ++ B else B ++ A) ↔ z = g ∨ z ∈ A ∨ z ∈ B).
    { intros z. rewrite elem_of_cons. destruct nf; rewrite elem_of_app; tauto. }
    assert (Hk : ∀ j, k ≤ j < k + (3 + nsize (body n) + nsize (body s)) → kin (Some (idn j)) (g :: (if nf then A ++ B else B ++ A)) ≡ₚ
       kin (Some (idn j)) A ++ kin (Some (idn j)) B).
    { intros j Hj. change (g :: ?l) with ([g] ++ l). rewrite kin_app, (kin_none _ [g]).
      2: { intros x ->%elem_of_list_singleton. cbn [g xparent]. by apply H3. }
      destruct nf; rewrite kin_app; cbn [app]; [done|apply Permutation_app_comm]. }
    assert (Hnr : ∀ j, nuc_at k nf s ≤ j < nuc_at k nf s + nsize (body n) → k < j < k + (3 + nsize (body n) + nsize (body s))) by (intros j; unfold nuc_at; destruct nf; lia).
    assert (Hsr : ∀ j, sat_at k nf n ≤ j < sat_at k nf n + nsize (body s) → k < j < k + (3 + nsize (body n) + nsize (body s))) by (intros j; unfold sat_at; destruct nf; lia).
    assert (Hns : ∀ j, nuc_at k nf s ≤ j < nuc_at k nf s + nsize (body n) → ¬ (sat_at k nf n ≤ j < sat_at k nf n + nsize (body s))).
    { intros j. unfold nuc_at, sat_at. destruct nf; lia. }
    pose proof (nsize_pos (body n)) as Pn. pose proof (nsize_pos (body s)) as Ps.
    split; [|split].
    - split.
      + intros x Hx. apply H1, HAB. auto.
      + intros j Hj. rewrite H2 by (specialize (Hnr j Hj); lia). rewrite decide_False by (specialize (Hnr j Hj); lia). cbn [app].
        rewrite Hk by (specialize (Hnr j Hj); lia). rewrite (Permutation_app_comm (kin _ A)). apply Permutation_app; [|done]. unfold B.
        destruct (decide (j = nuc_at k nf s)) as [->|Hne]; [by rewrite kin_top by (apply Hns; lia)|].
        rewrite kin_outside; [done|by apply Hns|]. cbn. intros [= E%idn_inj]. congruence.
      + intros j Hj. cbn. intros [= E%idn_inj]. specialize (Hnr j Hj). lia.
      + destruct H4 as (pre & post & E & Hl). rewrite filter_cons, decide_False in E by done. destruct nf.
        * rewrite filter_app, fmap_app, <-(assoc_L (++)) in E. by eexists pre, _.
        * rewrite filter_app, fmap_app, <-(assoc_L (++)), (assoc_L (++) pre) in E. eexists _, _. split; [exact E|].
          rewrite app_length, fmap_length. unfold A, B. rewrite lay_seg_length. lia.
      + intros x Hx. apply H5, HAB. auto.
    - split.
      + intros x Hx. apply H1, HAB. auto.
      + intros j Hj. rewrite H2 by (specialize (Hsr j Hj); lia). rewrite decide_False by (specialize (Hsr j Hj); lia). cbn [app].
        rewrite Hk by (specialize (Hsr j Hj); lia). unfold A at 1. rewrite kin_outside; [by destruct (decide (j = _))| |].
        * intros Hj'. by apply (Hns j Hj').
        * cbn. intros [= E%idn_inj]. specialize (Hsr j Hj). lia.
      + intros j Hj. cbn. intros [= E%idn_inj]. apply (Hns j); [lia|done].
      + destruct H4 as (pre & post & E & Hl). rewrite filter_cons, decide_False in E by done. destruct nf.
        * rewrite filter_app, fmap_app, <-(assoc_L (++)), (assoc_L (++) pre) in E. eexists _, _. split; [exact E|].
          rewrite app_length, fmap_length. unfold A, B. rewrite lay_seg_length. lia.
        * rewrite filter_app, fmap_app, <-(assoc_L (++)) in E. by eexists pre, _.
      + intros x Hx. apply H5, HAB. auto.
    - rewrite H2 by lia. rewrite decide_True by done. f_equiv. rewrite Hk by lia. unfold A, B. rewrite kin_top.
      + rewrite kin_outside; [done| |].
        * intros Hj. apply Hsr in Hj. lia.
        * cbn. intros [= E%idn_inj]. unfold nuc_at in E. destruct nf; lia.
      + intros Hj. apply Hnr in Hj. lia.
  Qed.
  Lemma sub_Multi k ro rel l lo ext : sub k ro (Multi rel l) lo ext →
    Forall (λ p, sub p.1.1 (Some (rel, idn k)) p.2 p.1.2 []) (places (S k) lo l) ∧
    kids_of r (Some (idn k)) ≡ₚ ext ++ ((λ p, idn p.1.1) <$> places (S k) lo l).
  Proof using Type.
    intros [H1 H2 H3 H4 H5]. rewrite lay_Multi in H1, H2, H4, H5. rewrite nsize_Multi in H2, H3.
    set (g := Grp (idn k) (Some "multinuc") (snd <$> ro) (fst <$> ro)) in *.
    set (blk := λ p : nat * rst, lay p.1 (Some (rel, idn k)) p.2) in *.
    change (sum_list ((λ c, S (nsize (body c))) <$> l)) with (nsizes l) in *.
    assert (Hk : ∀ j, k ≤ j < k + S (nsizes l) → kin (Some (idn j)) (g :: concat (blk <$> numbered (S k) l)) = kin (Some (idn j)) (concat (blk <$> numbered (S k) l))).
    { intros j Hj. change (g :: ?l) with ([g] ++ l). rewrite kin_app, (kin_none _ [g]); [done|].
      intros x ->%elem_of_list_singleton. cbn [g xparent]. by apply H3. }
    assert (Hout : ∀ j ps, k < j → Forall (λ p : nat * rst, ¬ (p.1 ≤ j < p.1 + nsize (body p.2))) ps → kin (Some (idn j)) (concat (blk <$> ps)) = []).
    { intros j ps Hj. induction 1 as [|p ps Hp HF IH]; [done|]. rewrite fmap_cons. cbn [concat]. rewrite kin_app, IH, app_nil_r.
      apply kin_outside; [done|]. cbn. intros [= E%idn_inj]. lia. }
    split.
    - apply Forall_forall. intros p Hp. apply elem_of_list_split in Hp as (ps1 & ps2 & Hp).
      destruct (places_split _ _ _ _ _ _ Hp) as (l1 & c & l2 & -> & -> & E1 & E2).
      cbn [fst snd]. rewrite numbered_app in *. cbn [numbered] in *. rewrite nsizes_app in *. rewrite nsizes_cons in *.
      set (kc := S (S k + nsizes l1)) in *.
      assert (HN1 : Forall (λ p, p.1 + nsize (body p.2) < kc) (numbered (S k) l1)).
      { apply Forall_forall. intros p (_ & _ & H)%numbered_in. fold (nsizes l1) in H. lia. }
      assert (HN2 : Forall (λ p, kc + nsize (body c) < p.1) (numbered (kc + nsize (body c)) l2)).
      { apply Forall_forall. intros p (_ & H & _)%numbered_in. lia. }
      rewrite fmap_app, fmap_cons, concat_app in H1, H2, H4, H5, Hk. cbn [concat] in H1, H2, H4, H5, Hk.
      change (blk (kc, c)) with (lay kc (Some (rel, idn k)) c) in *. set (C := lay kc (Some (rel, idn k)) c) in *.
      assert (HC : ∀ z, z ∈ C → z ∈ g :: concat (blk <$> numbered (S k) l1) ++ C ++ concat (blk <$> numbered (kc + nsize (body c)) l2)).
      { intros z Hz. right. apply elem_of_app. right. apply elem_of_app. by left. }
      split.
      + intros x Hx. by apply H1, HC.
      + intros j Hj. rewrite H2 by lia. rewrite decide_False by lia. rewrite Hk by lia. rewrite !kin_app. cbn [app].
        rewrite (Hout j (numbered (S k) l1)); [|lia|]. 2: { eapply Forall_impl; [exact HN1|]. intros p Hp'. simpl in Hp'. lia. }
        rewrite (Hout j (numbered _ l2)); [|lia|]. 2: { eapply Forall_impl; [exact HN2|]. intros p Hp'. simpl in Hp'. lia. }
        rewrite app_nil_r. by destruct (decide (j = kc)).
      + intros j Hj. cbn. intros [= E%idn_inj]. lia.
      + destruct H4 as (pre & post & E & Hl). rewrite filter_cons, decide_False in E by done. rewrite !filter_app, !fmap_app in E.
        rewrite <-!(assoc_L (++)), (assoc_L (++) pre) in E. eexists _, _. split; [exact E|].
        rewrite app_length, fmap_length. rewrite Hl. f_equal.
        clear. generalize (S k) as j. induction l1 as [|c l IH]; intros j; [done|].
        cbn [numbered]. rewrite !fmap_cons. cbn [concat]. rewrite filter_app, !app_length, IH. f_equal. apply lay_seg_length.
      + intros x Hx. by apply H5, HC.
    - rewrite H2 by lia. rewrite decide_True by done. f_equiv. rewrite Hk by lia. rewrite <-(places_numbered (S k) lo).
      assert (G : Forall (λ p, k < p.1.1) (places (S k) lo l)).
      { apply Forall_forall. intros p Hp%places_in%numbered_in. simpl in Hp. lia. }
      clear -G. induction G as [|p ps Hp HF IH]; [done|]. rewrite !fmap_cons. cbn [concat]. rewrite kin_app, IH.
      unfold blk. cbn [fst snd]. rewrite kin_top by lia. done.
  Qed.

  (** ** positions *)
  Lemma grp_pos id kids ps m : id ∉ r_edus r → kids_of r (Some id) ≡ₚ kids →
    Forall2 (λ c p, ev (λ f, get_position r f c = Ok p)) kids ps → is_min m ps → ev (λ f, get_position r f id = Ok m).
  Proof using Type.
    intros Hid Hk HF Hm. eapply ev_S; [exact (ev_Forall2 _ _ _ HF)|]. intros f Hf. simpl. rewrite find_none by done.
    apply rmap_Ok in Hf. destruct (rmap_perm _ _ _ _ Hk Hf) as (ps' & -> & Hp). cbn [rbind].
    destruct ps' as [|p ps']; [apply Permutation_nil_l in Hp as <-; by destruct Hm as [?%elem_of_nil _]|].
    f_equal. eapply is_min_unique; [apply foldl_min|]. by eapply is_min_perm.
  Qed.
  Lemma sub_edu k ro s lo ext : sub k ro (Edu s) lo ext → r_edus r !! lo = Some (idn k).
  Proof using Type. intros H. destruct (s_edus _ _ _ _ _ H) as (pre & post & E & <-). rewrite E. simpl. by apply list_lookup_middle. Qed.
  Lemma sub_group k ro rr lo ext : sub k ro rr lo ext → (∀ s, rr ≠ Edu s) → idn k ∉ r_edus r.
  Proof using Type.
    intros H Hne. destruct (sub_top _ _ _ _ _ H) as (x & Hx & _ & Hid & _ & _ & Hseg & _). rewrite <-Hid.
    apply (s_grp _ _ _ _ _ H _ Hx). rewrite Hseg. destruct rr as [s| |]; [by destruct (Hne s)|done|done].
  Qed.
  Lemma pos_sub rr : multi_ok rr → ∀ k ro lo ext pqs, sub k ro rr lo ext →
    Forall2 (λ q pq, ev (λ f, get_position r f q = Ok pq)) ext pqs →
    ∃ p p0, ev (λ f, get_position r f (idn k) = Ok p) ∧ lo ≤ p0 < lo + length (edus rr) ∧ (p = p0 ∨ is_min p (pqs ++ [p0])).
  Proof using edus_nodup.
    induction rr as [s|rel nf n s IHn IHs|rel l IH] using rst_ind'; intros Hm k ro lo ext pqs Hs Hq.
    - exists lo, lo. split; [|simpl; split; [lia|by left]]. exists 1. intros [|f] Hf; [lia|]. simpl.
      rewrite (find_nodup _ lo); [done|done|]. by eapply sub_edu.
    - destruct Hm as [Hmn Hms]. destruct (sub_Mono _ _ _ _ _ _ _ _ Hs) as (Hn & Hsat & Hk).
      destruct (IHs Hms _ _ _ _ [] Hsat) as (ps & ps0 & Eps & Rps & Hps); [constructor|].
      assert (ps = ps0) as <- by (destruct Hps as [?|[?%elem_of_list_singleton _]]; done). clear Hps.
      destruct (IHn Hmn _ _ _ _ [ps] Hn) as (pn & pn0 & Epn & Rpn & Hpn); [by repeat constructor|].
      assert (Rn : lo ≤ pn < lo + length (edus (Mono rel nf n s))).
      { assert (pn = pn0 ∨ pn = ps) as [-> | ->].
        { destruct Hpn as [?|[H _]]; [by left|]. cbn [app] in H. apply elem_of_cons in H as [->|H]; [by right|].
          apply elem_of_list_singleton in H as ->. by left. }
        all: destruct nf; simpl; rewrite app_length; lia. }
      destruct (is_min_exists (pqs ++ [pn])) as [m Hmin]; [by destruct pqs|].
      exists m, pn. split; [|split; [done|by right]]. eapply grp_pos; [by eapply sub_group|exact Hk| |exact Hmin].
      apply Forall2_app; [done|]. by repeat constructor.
    - apply multi_ok_Multi in Hm as [Hlen Hm]. destruct (sub_Multi _ _ _ _ _ _ Hs) as (Hc & Hk).
      assert (HQ : ∃ qs, Forall2 (λ c p, ev (λ f, get_position r f c = Ok p)) ((λ p, idn p.1.1) <$> places (S k) lo l) qs ∧
        Forall (λ q, lo ≤ q < lo + length (concat (edus <$> l))) qs).
      { assert (Hr : Forall (λ p : nat * nat * rst, lo ≤ p.1.2 ∧ p.1.2 + length (edus p.2) ≤ lo + length (concat (edus <$> l)) ∧ p.2 ∈ l) (places (S k) lo l)).
        { apply Forall_forall. intros p Hp. pose proof (places_lo _ _ _ _ Hp). apply places_in, numbered_in in Hp as (Hp & _). simpl in Hp. tauto. }
        revert Hr Hc. generalize (places (S k) lo l) as ps. induction ps as [|p ps IHp]; intros Hr Hc; [by exists []; repeat constructor|].
        apply Forall_cons in Hr as [(R1 & R2 & Rin) Hr]. apply Forall_cons in Hc as [Hp Hc]. destruct (IHp Hr Hc) as (qs & Hqs & Rqs).
        rewrite Forall_forall in IH, Hm. destruct (IH _ Rin (Hm _ Rin) _ _ _ _ [] Hp) as (q & q0 & Eq & Rq & Hq0); [constructor|].
        assert (q = q0) as <- by (destruct Hq0 as [?|[?%elem_of_list_singleton _]]; done).
        exists (q :: qs). split; [by constructor|]. constructor; [lia|done]. }
      destruct HQ as (qs & Hqs & Rqs).
      assert (Hne : qs ≠ []). { intros ->. apply Forall2_length in Hqs. rewrite fmap_length in Hqs. destruct l; [simpl in Hlen; lia|done]. }
      destruct (is_min_exists qs Hne) as [m0 Hm0]. destruct (is_min_exists (pqs ++ qs)) as [m Hmin]; [by destruct pqs|].
      exists m, m0. split; [|split].
      + eapply grp_pos; [by eapply sub_group|exact Hk| |exact Hmin]. by apply Forall2_app.
      + rewrite edus_Multi. destruct Hm0 as [H0 _]. rewrite Forall_forall in Rqs. by apply Rqs.
      + right. destruct Hm0 as [H0 H0']. destruct Hmin as [H1 H2]. apply Forall_app in H2 as [H2 H2'].
        rewrite Forall_forall in H0', H2'. split; [|apply Forall_app; split; [done|by repeat constructor; apply H2']].
        apply elem_of_app in H1 as [H1|H1]; apply elem_of_app; [by left|right]. apply elem_of_list_singleton.
        specialize (H0' _ H1). specialize (H2' _ H0). lia.
  Qed.
  Lemma height_child c p h : i_parent (inf r c) = Some p → ev (λ f, node_height r f p = Ok h) → ev (λ f, node_height r f c = Ok (S h)).
  Proof using Type. intros Hc Hp. eapply ev_S; [exact Hp|]. intros f Hf. simpl. rewrite Hc, Hf. done. Qed.

  (** ** sorting *)
  Lemma sort_two f nuc sat kn ks h pn ps : rid_of nuc = Some kn → rid_of sat = Some ks →
    node_height r f kn = Ok h → node_height r f ks = Ok (S h) → get_position r f kn = Ok pn → get_position r f ks = Ok ps →
    sort_subtrees r f [nuc; sat] = Ok (if decide (pn < ps) then [nuc; sat] else [sat; nuc]).
  Proof using Type.
    intros Rn Rs Hn Hs Pn Ps. unfold sort_subtrees. simpl. unfold tree_key. rewrite Rn, Rs, Hn, Hs. cbn [rbind isort insert].
    assert (E : Nat.compare (S h, sat).1 (h, nuc).1 = Gt) by (apply Nat.compare_gt_iff; simpl; lia). rewrite E. cbn [fmap list_fmap snd rmap].
    rewrite Rn, Rs, Pn, Ps. cbn [rbind isort insert fst]. destruct (Nat.compare_spec ps pn).
    - rewrite decide_False by lia. done.
    - rewrite decide_False by lia. done.
    - rewrite decide_True by lia. done.
  Qed.
  Lemma rmap_tree_key g (ts : list dtree) : (∀ t, t ∈ ts → ∃ i k, rid_of t = Some i ∧ g i = Ok k) → ∃ ks, rmap (tree_key g) ts = Ok ks ∧ ks.*2 = ts.
  Proof using Type.
    induction ts as [|t ts IH]; intros H; [by exists []|]. destruct IH as (ks & Hk & Ek); [intros u Hu; apply H; by right|].
    destruct (H t) as (i & k & Hi & Hg); [left|]. exists ((k, t) :: ks). cbn [rmap]. unfold tree_key at 1. rewrite Hi, Hg. cbn [rbind]. rewrite Hk. cbn. by rewrite Ek.
  Qed.
  Lemma sort_many f us ts ps : us ≡ₚ ts →
    Forall2 (λ t p, ∃ i, rid_of t = Some i ∧ (∃ h, node_height r f i = Ok h) ∧ get_position r f i = Ok p) ts ps →
    increasing (λ p, p) ps → sort_subtrees r f us = Ok ts.
  Proof using Type.
    intros Hp HF Hi. unfold sort_subtrees.
    destruct (rmap_tree_key (node_height r f) us) as (hs & Hhs & Ehs).
    { intros t Ht. rewrite Hp in Ht. apply elem_of_list_lookup in Ht as [j Hj]. destruct (Forall2_lookup_l _ _ _ _ _ HF Hj) as (p & _ & i & H1 & [h H2] & _). eauto. }
    rewrite Hhs. cbn [rbind]. set (bh := (isort _ hs).*2).
    assert (Hbh : bh ≡ₚ ts). { unfold bh. rewrite isort_perm, Ehs. done. }
    assert (Hz : rmap (tree_key (get_position r f)) ts = Ok (zip ps ts)).
    { clear -HF. induction HF as [|t p ts ps (i & H1 & _ & H2) HF IH]; [done|]. cbn [rmap]. unfold tree_key at 1. rewrite H1, H2. cbn [rbind]. rewrite IH. done. }
    destruct (rmap_perm _ _ _ _ Hbh Hz) as (zs & -> & Hzs). cbn [rbind].
    rewrite (isort_increasing (λ x : nat * dtree, x.1) zs (zip ps ts)); [|done|].
    - f_equal. rewrite snd_zip; [done|]. apply Forall2_length in HF. lia.
    - clear -HF Hi. induction HF as [|t p ts ps H HF IH]; [done|]. destruct Hi as [Hp Hi]. cbn [zip_with increasing]. split; [|by apply IH].
      apply Forall_forall. intros [q u] Hq. apply elem_of_zip_l in Hq. simpl. rewrite Forall_forall in Hp. by apply Hp.
  Qed.
End round.
