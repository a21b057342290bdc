(** * AliasFacts: heaps in which no [layers] set is shared *)
From Verif Require Import PyBase DocGraph Alias SpecAlias.

(** ** Mapping over dictionaries *)
Section dmap.
  Context {K V W : Type} `{EqDecision K} (f : V → W).
  Implicit Types (d : dict K V).
  Lemma dget_dmap k d : dget k (dmap f d) = f <$> dget k d.
  Proof. induction d as [|[a b] d IH]; [done|]. cbn. case_decide; [done|exact IH]. Qed.
  Lemma dmem_dmap k d : dmem k (dmap f d) = dmem k d.
  Proof. unfold dmem. rewrite dget_dmap. by destruct (dget k d). Qed.
  Lemma dset_dmap k v d : dmap f (dset k v d) = dset k (f v) (dmap f d).
  Proof. induction d as [|[a b] d IH]; [done|]. cbn. case_decide; [done|]. cbn. f_equal. exact IH. Qed.
  Lemma ddel_dmap k d : dmap f (ddel k d) = ddel k (dmap f d).
  Proof. induction d as [|[a b] d IH]; [done|]. cbn. case_decide; [exact IH|]. cbn. f_equal. exact IH. Qed.
  Lemma dupdate_dmap d1 d2 : dmap f (dupdate d1 d2) = dupdate (dmap f d1) (dmap f d2).
  Proof.
    unfold dupdate. induction d2 as [|[a b] d IH]; [done|]. cbn [foldr fst snd].
    rewrite dset_dmap, IH. done.
  Qed.
  Lemma dkeys_dmap d : dkeys (dmap f d) = dkeys d.
  Proof. unfold dkeys, dmap. rewrite <-list_fmap_compose. by apply list_fmap_ext. Qed.
  Lemma default_dmap (o : option (dict K V)) : default [] (dmap f <$> o) = dmap f (default [] o).
  Proof. by destruct o. Qed.
  Lemma length_dmap d : length (dmap f d) = length d.
  Proof. apply fmap_length. Qed.
End dmap.
Lemma dmap_ext {K V W} (f f' : V → W) (d : dict K V) :
  (∀ p, p ∈ d → f p.2 = f' p.2) → dmap f d = dmap f' d.
Proof.
  intros H. induction d as [|[a b] d IH]; [done|]. cbn. f_equal.
  - f_equal. apply (H (a, b)). by left.
  - apply IH. intros p Hp. apply H. by right.
Qed.

Section dict2.
  Context {K V : Type} `{EqDecision K}.
  Implicit Types (d : dict K V).
  Lemma dget_split k v d : dget k d = Some v →
    ∃ d1 d2, d = d1 ++ (k, v) :: d2 ∧ ∀ x, dset k x d = d1 ++ (k, x) :: d2.
  Proof.
    induction d as [|[a b] d IH]; [done|]. cbn. destruct (decide (k = a)) as [->|Hne].
    - intros [= ->]. by exists [], d.
    - intros (d1 & d2 & -> & Hs)%IH. exists ((a, b) :: d1), d2. split; [done|].
      intros x. cbn. by rewrite Hs.
  Qed.
  Lemma dset_same k v d : dget k d = Some v → dset k v d = d.
  Proof. intros (d1 & d2 & -> & Hs)%dget_split. apply Hs. Qed.
  Lemma dset_twice k v w d : dset k v (dset k w d) = dset k v d.
  Proof.
    induction d as [|[a b] d IH]; cbn.
    - by rewrite decide_True.
    - destruct (decide (k = a)) as [->|Hne]; cbn.
      + by rewrite decide_True.
      + rewrite decide_False by done. by rewrite IH.
  Qed.
  Lemma dset_new_app k v d : dget k d = None → dset k v d = d ++ [(k, v)].
  Proof.
    induction d as [|[a b] d IH]; [done|]. cbn. case_decide; [done|].
    intros Hn%IH. by rewrite Hn.
  Qed.
  Lemma NoDup_dupdate d1 d2 : NoDup (dkeys d1) → NoDup (dkeys (dupdate d1 d2)).
  Proof. intros H. induction d2 as [|[a b] d2 IH]; [done|]. cbn. by apply NoDup_dset. Qed.
End dict2.

(** ** The addresses held by a graph *)
Definition olocs {V} (L : V → list nat) (o : option V) : list nat := match o with Some v => L v | None => [] end.

Section dl.
  Context {K V : Type} `{EqDecision K} (L : V → list nat).
  Implicit Types (d : dict K V).
  Lemma dl_app d1 d2 : dl L (d1 ++ d2) = dl L d1 ++ dl L d2.
  Proof. unfold dl. apply bind_app. Qed.
  Lemma dl_cons k v d : dl L ((k, v) :: d) = L v ++ dl L d.
  Proof. done. Qed.
  Lemma dl_dset k v d : olocs L (dget k d) ++ dl L (dset k v d) ≡ₚ L v ++ dl L d.
  Proof.
    destruct (dget k d) as [w|] eqn:E; cbn.
    - destruct (dget_split _ _ _ E) as (d1 & d2 & -> & ->).
      rewrite !dl_app, !dl_cons. solve_Permutation.
    - rewrite dset_new_app by done. rewrite dl_app. cbn. rewrite app_nil_r. solve_Permutation.
  Qed.
  Lemma dl_get k v d : dget k d = Some v → ∃ R, dl L d ≡ₚ L v ++ R.
  Proof.
    intros (d1 & d2 & -> & _)%dget_split. exists (dl L d1 ++ dl L d2).
    rewrite dl_app, dl_cons. solve_Permutation.
  Qed.
  Lemma dl_elem l d : l ∈ dl L d ↔ ∃ p, p ∈ d ∧ l ∈ L p.2.
  Proof.
    unfold dl. rewrite elem_of_list_bind. split.
    - intros (p & ? & ?). by exists p.
    - intros (p & ? & ?). by exists p.
  Qed.
  Lemma dl_ddel k d : dl L (ddel k d) ⊆+ dl L d.
  Proof.
    induction d as [|[a b] d IH]; [done|]. cbn. case_decide.
    - by apply submseteq_inserts_l.
    - change (L b ++ dl L (ddel k d) ⊆+ L b ++ dl L d). by apply submseteq_skips_l.
  Qed.
End dl.

#[global] Arguments dmap : simpl never.
#[global] Arguments dl : simpl never.

(** A write that changes what one position shows. *)
Lemma dmap_write {K V W} `{EqDecision K} (L : V → list nat) (f f' : V → W) k v l (d : dict K V) :
  dget k d = Some v → l ∈ L v → NoDup (dl L d) →
  (∀ w, l ∉ L w → (∀ x, x ∈ L w → x ∈ dl L d) → f' w = f w) →
  dmap f' d = dset k (f' v) (dmap f d).
Proof.
  induction d as [|[a b] d IH]; [done|]. rewrite dl_cons.
  intros Hg Hl Hnd Hf. apply NoDup_app in Hnd as (_ & Hd & Hnd).
  unfold dmap in *. rewrite !fmap_cons. cbn [fst snd dset]. cbn [dget] in Hg.
  destruct (decide (k = a)) as [->|Hne].
  - injection Hg as ->. f_equal. apply (dmap_ext f' f). intros p Hp. apply Hf.
    + intros Hl'. apply (Hd l Hl). apply dl_elem. by exists p.
    + intros x Hx. rewrite elem_of_app. right. apply dl_elem. by exists p.
  - assert (Hin : l ∈ dl L d).
    { apply dl_elem. exists (k, v). split; [by apply dget_Some_elem|done]. }
    f_equal.
    + f_equal. apply Hf; [|intros; apply elem_of_app; by left]. intros Hl'. by apply (Hd l).
    + apply IH; try done. intros w H1 H2. apply Hf; [done|].
      intros x Hx. apply elem_of_app. right. by apply H2.
Qed.

(** [s] may be stored under a key that is not [layers]; see [sfree] (SpecAlias)
    for [layers]. *)
Definition lfree (h : heap) (G : list nat) (s : nat) : Prop :=
  ∀ l, l ∈ G → dget "layers" (dict_at h l) ≠ Some (HSet s).
(** dictionary contents that may be stored next to [G] *)
Record nfits (h : heap) (G : list nat) (d : dict string hval) : Prop := {
  n_keys : NoDup (dkeys d);
  n_refs : ∀ k s, dget k d = Some (HSet s) → s < length (hp_sets h);
  n_free : ∀ k s, k ≠ "layers" → dget k d = Some (HSet s) → lfree h G s;
}.
Record fits (h : heap) (G : list nat) (d : dict string hval) : Prop := {
  f_nfits : nfits h G d;
  f_lay : ∀ s, dget "layers" d = Some (HSet s) → sfree h G s;
  f_one : ∀ s k, dget "layers" d = Some (HSet s) → dget k d = Some (HSet s) → k = "layers";
}.

(** [h'] keeps the dictionaries [G] and all sets. *)
Record ext (h h' : heap) (G : list nat) : Prop := {
  x_sets : hp_sets h `prefix_of` hp_sets h';
  x_len : length (hp_dicts h) ≤ length (hp_dicts h');
  x_at : ∀ l, l ∈ G → dict_at h' l = dict_at h l;
}.

Lemma ext_refl h G : ext h h G.
Proof. by split. Qed.
Lemma ext_trans h1 h2 h3 G : ext h1 h2 G → ext h2 h3 G → ext h1 h3 G.
Proof.
  intros [A1 A2 A3] [B1 B2 B3]. split; [by etrans|lia|].
  intros l Hl. by rewrite B3, A3.
Qed.
Lemma ext_sub h h' G G' : ext h h' G → G' ⊆ G → ext h h' G'.
Proof. intros [A1 A2 A3] Hs. split; [done..|]. intros l Hl. apply A3, Hs, Hl. Qed.
Lemma ext_sets_len h h' G : ext h h' G → length (hp_sets h) ≤ length (hp_sets h').
Proof. intros [A1 _ _]. by apply prefix_length. Qed.
Lemma ext_set_at h h' G s : ext h h' G → s < length (hp_sets h) → set_at h' s = set_at h s.
Proof.
  intros [[k A] _ _] Hs. unfold set_at. rewrite A, lookup_app_l by done. done.
Qed.
Lemma ext_new_set h s G : ext h (new_set h s).1 G.
Proof. split; [by apply prefix_app_r|done|done]. Qed.
Lemma dict_at_new h d : dict_at (new_dict h d).1 (length (hp_dicts h)) = d.
Proof. unfold dict_at, new_dict. cbn. rewrite lookup_app_r by lia. by rewrite Nat.sub_diag. Qed.
Lemma dict_at_new_old h d l : l < length (hp_dicts h) → dict_at (new_dict h d).1 l = dict_at h l.
Proof. intros Hl. unfold dict_at, new_dict. cbn. by rewrite lookup_app_l. Qed.
Lemma ext_new_dict h d G : (∀ l, l ∈ G → l < length (hp_dicts h)) → ext h (new_dict h d).1 G.
Proof.
  intros H. split; [done|cbn; rewrite app_length; lia|].
  intros l Hl. apply dict_at_new_old. auto.
Qed.
Lemma dict_at_put h l d : l < length (hp_dicts h) → dict_at (put_dict h l d) l = d.
Proof. intros H. unfold dict_at, put_dict. cbn. by rewrite list_lookup_insert. Qed.
Lemma dict_at_put_ne h l l' d : l' ≠ l → dict_at (put_dict h l d) l' = dict_at h l'.
Proof. intros H. unfold dict_at, put_dict. cbn. by rewrite list_lookup_insert_ne. Qed.
Lemma put_dict_len h l d : length (hp_dicts (put_dict h l d)) = length (hp_dicts h).
Proof. apply insert_length. Qed.
Lemma put_put h l d d' : put_dict (put_dict h l d) l d' = put_dict h l d'.
Proof. unfold put_dict. cbn. by rewrite list_insert_insert. Qed.
Lemma ext_put h l d G : l ∉ G → ext h (put_dict h l d) G.
Proof.
  intros H. split; [done|by rewrite put_dict_len|].
  intros l' Hl. apply dict_at_put_ne. by intros ->.
Qed.
Lemma set_at_new h s : set_at (new_set h s).1 (length (hp_sets h)) = s.
Proof. unfold set_at. cbn. rewrite lookup_app_r by lia. by rewrite Nat.sub_diag. Qed.

(** ** Keeping the discipline *)
Lemma HInv_ext h h' G : HInv h G → ext h h' G → HInv h' G.
Proof.
  intros [A1 A2 A3 A4 A5] Hx. destruct Hx as [B1 B2 B3] eqn:E. clear E. split; [done|..].
  - intros l Hl. specialize (A2 l Hl). lia.
  - intros l Hl. rewrite B3 by done. auto.
  - intros l k s Hl. rewrite B3 by done. intros H%A4; [|done]. pose proof (ext_sets_len _ _ _ Hx). lia.
  - intros l l' k s Hl Hl'. rewrite !B3 by done. eauto.
Qed.
Lemma HInv_sub h G G' : HInv h G → NoDup G' → G' ⊆ G → HInv h G'.
Proof.
  intros [A1 A2 A3 A4 A5] Hn Hs. split; [done|..].
  - intros l Hl. apply A2, Hs, Hl.
  - intros l Hl. apply A3, Hs, Hl.
  - intros l k s Hl. apply (A4 l), Hs, Hl.
  - intros l l' k s Hl Hl'. apply (A5 l); by apply Hs.
Qed.
Lemma HInv_perm h G G' : HInv h G → G ≡ₚ G' → HInv h G'.
Proof.
  intros HI Hp. eapply HInv_sub; [exact HI|..].
  - rewrite <-Hp. apply HI.
  - intros x. by rewrite Hp.
Qed.
Lemma HInv_subm h G G' : HInv h G → G' ⊆+ G → HInv h G'.
Proof.
  intros HI Hs. apply submseteq_Permutation in Hs as (k & Hk).
  eapply HInv_sub; [exact HI|..].
  - pose proof (i_nodup _ _ HI) as Hn. rewrite Hk in Hn. by apply NoDup_app in Hn as (? & _).
  - intros x Hx. rewrite Hk. apply elem_of_app. by left.
Qed.
Lemma HInv_nil h : HInv h [].
Proof. split; try (intros; exfalso; by eapply elem_of_nil). by apply NoDup_nil. Qed.

Lemma HInv_cons h G l : HInv h (l :: G) ↔
  HInv h G ∧ l ∉ G ∧ l < length (hp_dicts h) ∧ fits h G (dict_at h l).
Proof.
  split.
  - intros HI. pose proof HI as [A1 A2 A3 A4 A5]. split_and!.
    + eapply HInv_subm; [exact HI|]. by apply submseteq_cons.
    + by apply NoDup_cons in A1 as [? _].
    + apply A2. by left.
    + apply NoDup_cons in A1 as [A1 A1'].
      assert (Hl : l ∈ l :: G) by by left.
      split; [split|..].
      * by apply A3.
      * intros k s. by apply A4.
      * intros k s Hk Hd l' Hl' Hd'.
        destruct (A5 l' l k s ltac:(by right) Hl Hd' Hd) as [-> ->]. done.
      * intros s Hs l' k Hl' Hk.
        destruct (A5 l l' k s Hl ltac:(by right) Hs Hk) as [-> _]. done.
      * intros s k Hs Hk. by destruct (A5 l l k s Hl Hl Hs Hk).
  - intros ([A1 A2 A3 A4 A5] & Hn & Hv & [[B1 B2 B3] B4 B5]). split.
    + by apply NoDup_cons.
    + intros x [->|Hx]%elem_of_cons; auto.
    + intros x [->|Hx]%elem_of_cons; auto.
    + intros x k s [->|Hx]%elem_of_cons; eauto.
    + intros x y k s [->|Hx]%elem_of_cons [->|Hy]%elem_of_cons H1 H2.
      * split; [done|]. eauto.
      * exfalso. by eapply B4.
      * destruct (decide (k = "layers")) as [->|Hk].
        -- exfalso. by eapply B4.
        -- exfalso. by eapply B3.
      * eauto.
Qed.

Lemma nfits_ext h h' G d : nfits h G d → ext h h' G → nfits h' G d.
Proof.
  intros [B1 B2 B3] Hx. split; [done|..].
  - intros k s Hd%B2. pose proof (ext_sets_len _ _ _ Hx). lia.
  - intros k s Hk Hd l Hl. rewrite (x_at _ _ _ Hx) by done. by apply (B3 k s).
Qed.
Lemma nfits_sub h G G' d : nfits h G d → G' ⊆ G → nfits h G' d.
Proof.
  intros [B1 B2 B3] Hs. split; [done..|]. intros k s Hk Hd l Hl. apply (B3 k s Hk Hd), Hs, Hl.
Qed.
Lemma sfree_ext h h' G s : sfree h G s → ext h h' G → sfree h' G s.
Proof. intros Hf Hx l k Hl. rewrite (x_at _ _ _ Hx) by done. by apply Hf. Qed.
Lemma sfree_sub h G G' s : sfree h G s → G' ⊆ G → sfree h G' s.
Proof. intros Hf Hs l k Hl. apply Hf, Hs, Hl. Qed.
Lemma sfree_new h G : HInv h G → ∀ s, length (hp_sets h) ≤ s → sfree h G s.
Proof. intros HI s Hs l k Hl Hd%(i_refs _ _ HI); [lia|done]. Qed.
Lemma nfits_update h G d1 d2 : nfits h G d1 → nfits h G d2 → nfits h G (dupdate d1 d2).
Proof.
  intros [A1 A2 A3] [B1 B2 B3]. split.
  - by apply NoDup_dupdate.
  - intros k s. rewrite dget_dupdate. destruct (dget k d2) eqn:E; [intros [= ->]|]; eauto.
  - intros k s Hk. rewrite dget_dupdate. destruct (dget k d2) eqn:E; [intros [= ->]|]; eauto.
Qed.
Lemma nfits_del h G k d : nfits h G d → nfits h G (ddel k d).
Proof.
  intros [A1 A2 A3]. split.
  - by apply NoDup_ddel.
  - intros k' s. rewrite dget_ddel. case_decide; [done|]. eauto.
  - intros k' s Hk. rewrite dget_ddel. case_decide; [done|]. eauto.
Qed.
Lemma nfits_set h G v d : nfits h G d → (∀ s, v = HSet s → s < length (hp_sets h)) →
  nfits h G (dset "layers" v d).
Proof.
  intros [A1 A2 A3] Hv. split.
  - by apply NoDup_dset.
  - intros k' s. rewrite dget_dset. case_decide; [intros [= ->]; by apply Hv|]. eauto.
  - intros k' s Hk. rewrite dget_dset. case_decide; [done|]. eauto.
Qed.
Lemma nfits_nil h G : nfits h G [].
Proof. split; [by apply NoDup_nil|done|done]. Qed.
(** storing [v] as the layers *)
Lemma fits_set h G v d : nfits h G d →
  (∀ s, v = HSet s → s < length (hp_sets h) ∧ sfree h G s ∧ ∀ k, k ≠ "layers" → dget k d ≠ Some (HSet s)) →
  fits h G (dset "layers" v d).
Proof.
  intros Hn Hv. split.
  - apply nfits_set; [done|]. intros s Hs. by apply Hv.
  - intros s. rewrite dget_dset_eq. intros [= ->]. by apply (Hv s).
  - intros s k. rewrite dget_dset_eq. intros [= ->]. rewrite dget_dset.
    case_decide; [done|]. intros Hk. destruct (Hv s eq_refl) as (_ & _ & H'). by destruct (H' k).
Qed.
Lemma fits_ext h h' G d : fits h G d → ext h h' G → fits h' G d.
Proof.
  intros [A1 A2 A3] Hx. split; [by eapply nfits_ext| |done].
  intros s Hs. eapply sfree_ext; eauto.
Qed.
Lemma fits_sub h G G' d : fits h G d → G' ⊆ G → fits h G' d.
Proof.
  intros [A1 A2 A3] Hx. split; [by eapply nfits_sub| |done].
  intros s Hs. eapply sfree_sub; eauto.
Qed.
Lemma HInv_in h G l : HInv h G → l ∈ G → nfits h [] (dict_at h l) ∧ NoDup (dkeys (dict_at h l)).
Proof.
  intros HI Hl. split; [|by apply HI]. split; [by apply HI| |].
  - intros k s. by apply HI.
  - intros k s _ _ ? []%elem_of_nil.
Qed.

(** ** What is shown *)
Lemma val_ext h h' G v : ext h h' G → (∀ s, v = HSet s → s < length (hp_sets h)) → val h' v = val h v.
Proof. intros Hx Hv. destruct v; cbn; try done. by rewrite (ext_set_at _ _ _ _ Hx) by auto. Qed.
Lemma see_ext h h' G d : ext h h' G → NoDup (dkeys d) →
  (∀ k s, dget k d = Some (HSet s) → s < length (hp_sets h)) → see h' d = see h d.
Proof.
  intros Hx Hn Hr. apply dmap_ext. intros [k v] Hp. cbn. eapply val_ext; [exact Hx|].
  intros s ->. apply (Hr k). by apply elem_dget.
Qed.
Lemma see_at_ext h h' G l : HInv h G → ext h h' G → l ∈ G → see_at h' l = see_at h l.
Proof.
  intros HI Hx Hl. unfold see_at. rewrite (x_at _ _ _ Hx) by done.
  eapply see_ext; [exact Hx|by apply HI|]. intros k s. by apply HI.
Qed.
Lemma see_dset h k v d : see h (dset k v d) = dset k (val h v) (see h d).
Proof. apply dset_dmap. Qed.
Lemma see_dupdate h d1 d2 : see h (dupdate d1 d2) = dupdate (see h d1) (see h d2).
Proof. apply dupdate_dmap. Qed.
Lemma see_ddel h k d : see h (ddel k d) = ddel k (see h d).
Proof. apply ddel_dmap. Qed.
Lemma see_dget h k d : dget k (see h d) = val h <$> dget k d.
Proof. apply dget_dmap. Qed.

Lemma dl_one_elem {K} l (d : dict K nat) : l ∈ dl one d ↔ ∃ k, (k, l) ∈ d.
Proof.
  rewrite dl_elem. split.
  - intros ([k x] & Hp & ->%elem_of_list_singleton). by exists k.
  - intros [k Hp]. exists (k, l). split; [done|]. by apply elem_of_list_singleton.
Qed.
Lemma dmap3_ext h h' (s : dict nid (dict nid (dict nid nat))) :
  (∀ l, l ∈ succ_locs s → see_at h' l = see_at h l) →
  dmap (dmap (dmap (see_at h'))) s = dmap (dmap (dmap (see_at h))) s.
Proof.
  intros Hs. apply dmap_ext. intros p Hp. apply dmap_ext. intros q Hq. apply dmap_ext. intros r Hr.
  apply Hs. unfold succ_locs. apply dl_elem. exists p. split; [done|].
  apply dl_elem. exists q. split; [done|]. apply dl_elem. exists r. split; [done|].
  by apply elem_of_list_singleton.
Qed.
Lemma graph_of_see h h' g : (∀ l, l ∈ locs g → see_at h' l = see_at h l) → graph_of h' g = graph_of h g.
Proof.
  intros Hs. unfold graph_of. f_equal.
  - apply dmap_ext. intros [k l] Hp. apply Hs. apply elem_of_app. left. apply dl_one_elem. by exists k.
  - apply dmap3_ext. intros l Hl. apply Hs. apply elem_of_app. by right.
Qed.
Lemma graph_of_ext h h' g G : HInv h G → ext h h' G → locs g ⊆ G → graph_of h' g = graph_of h g.
Proof. intros HI Hx Hs. apply graph_of_see. intros l Hl. eapply see_at_ext; eauto. Qed.

(** writing into the dictionary of a node *)
Lemma graph_write_node h h' g n l : NoDup (locs g) → dget n (h_node g) = Some l →
  (∀ l', l' ∈ locs g → l' ≠ l → see_at h' l' = see_at h l') →
  graph_of h' g = set_node (dset n (see_at h' l) (g_node (graph_of h g))) (graph_of h g).
Proof.
  intros Hn Hg Hs. unfold graph_of, set_node. cbn. f_equal.
  - apply (dmap_write one (see_at h) (see_at h') n l l).
    + done.
    + by apply elem_of_list_singleton.
    + unfold locs in Hn. by apply NoDup_app in Hn as (? & _).
    + intros w Hw Hin. apply Hs.
      * apply elem_of_app. left. apply Hin. by apply elem_of_list_singleton.
      * intros ->. apply Hw. by apply elem_of_list_singleton.
  - apply dmap3_ext. intros l' Hl'. apply Hs; [apply elem_of_app; by right|].
    intros ->. unfold locs in Hn. apply NoDup_app in Hn as (_ & Hd & _).
    apply (Hd l); [|done]. apply dl_one_elem. exists n. by apply dget_Some_elem.
Qed.
(** writing into the dictionary of an edge *)
Lemma graph_write_edge h h' g u v k nbrs kd l : NoDup (locs g) →
  dget u (h_succ g) = Some nbrs → dget v nbrs = Some kd → dget k kd = Some l →
  (∀ l', l' ∈ locs g → l' ≠ l → see_at h' l' = see_at h l') →
  graph_of h' g =
    set_succ (dset u (dset v (dset k (see_at h' l) (dmap (see_at h) kd)) (dmap (dmap (see_at h)) nbrs))
                (g_succ (graph_of h g))) (graph_of h g).
Proof.
  intros Hn Hu Hv Hk Hs. unfold graph_of, set_succ. cbn.
  assert (Hl1 : l ∈ dl one kd) by (apply dl_one_elem; exists k; by apply dget_Some_elem).
  assert (Hl2 : l ∈ dl (dl one) nbrs).
  { apply dl_elem. exists (v, kd). split; [by apply dget_Some_elem|done]. }
  assert (Hl3 : l ∈ succ_locs (h_succ g)).
  { apply dl_elem. exists (u, nbrs). split; [by apply dget_Some_elem|done]. }
  pose proof Hn as Hn'. unfold locs in Hn'. apply NoDup_app in Hn' as (_ & Hd & Hns).
  assert (Hs' : ∀ l', l' ∈ succ_locs (h_succ g) → l' ≠ l → see_at h' l' = see_at h l').
  { intros l' Hl'. apply Hs. apply elem_of_app. by right. }
  f_equal.
  - apply dmap_ext. intros [a b] Hp. cbn. apply Hs.
    + apply elem_of_app. left. apply dl_one_elem. by exists a.
    + intros ->. apply (Hd l); [|done]. apply dl_one_elem. by exists a.
  - assert (Hsub2 : ∀ x, x ∈ dl (dl one) nbrs → x ∈ succ_locs (h_succ g)).
    { intros x Hx. apply dl_elem. exists (u, nbrs). split; [by apply dget_Some_elem|done]. }
    assert (Hsub1 : ∀ x, x ∈ dl one kd → x ∈ dl (dl one) nbrs).
    { intros x Hx. apply dl_elem. exists (v, kd). split; [by apply dget_Some_elem|done]. }
    assert (Hn2 : NoDup (dl (dl one) nbrs)).
    { destruct (dl_get (dl (dl one)) _ _ _ Hu) as (R & HR). unfold succ_locs in Hns. rewrite HR in Hns.
      by apply NoDup_app in Hns as (? & _). }
    assert (Hn1 : NoDup (dl one kd)).
    { destruct (dl_get (dl one) _ _ _ Hv) as (R & HR). rewrite HR in Hn2.
      by apply NoDup_app in Hn2 as (? & _). }
    assert (Hno : ∀ w : nat, l ∉ one w → w ≠ l).
    { intros w Hw ->. apply Hw. by apply elem_of_list_singleton. }
    rewrite (dmap_write (dl (dl one)) (dmap (dmap (see_at h))) (dmap (dmap (see_at h'))) u nbrs l _ Hu Hl2 Hns).
    2:{ intros w Hw Hin. apply dmap_ext. intros p Hp. apply dmap_ext. intros q Hq.
        assert (Hq' : q.2 ∈ dl (dl one) w).
        { apply dl_elem. exists p. split; [done|]. apply dl_elem. exists q. split; [done|].
          by apply elem_of_list_singleton. }
        apply Hs'; [by apply Hin|]. intros E. apply Hw. by rewrite <-E. }
    rewrite (dmap_write (dl one) (dmap (see_at h)) (dmap (see_at h')) v kd l _ Hv Hl1 Hn2).
    2:{ intros w Hw Hin. apply dmap_ext. intros p Hp.
        assert (Hq' : p.2 ∈ dl one w).
        { apply dl_elem. exists p. split; [done|]. by apply elem_of_list_singleton. }
        apply Hs'; [apply Hsub2; by apply Hin|]. intros E. apply Hw. by rewrite <-E. }
    rewrite (dmap_write one (see_at h) (see_at h') k l l _ Hk ltac:(by apply elem_of_list_singleton) Hn1).
    2:{ intros w Hw Hin. apply Hs'; [apply Hsub2, Hsub1, Hin; by apply elem_of_list_singleton|by apply Hno]. }
    done.
Qed.
