(** * RstRead: what the rs3 reader makes of written documents *)
From Verif Require Import PyBase DocGraph Relabel StrNum Query Text Rst SpecRst SpanFacts RstLayout RstWrite.

(** ** generalities *)
Definition ev (P : nat → Prop) : Prop := ∃ n, ∀ f, n ≤ f → P f.
Lemma ev_and P Q : ev P → ev Q → ev (λ f, P f ∧ Q f).
Proof. intros [n Hn] [m Hm]. exists (n `max` m). intros f Hf. split; [apply Hn|apply Hm]; lia. Qed.
Lemma ev_imp (P Q : nat → Prop) : ev P → (∀ f, P f → Q f) → ev Q.
Proof. intros [n Hn] H. exists n. intros f Hf. by apply H, Hn. Qed.
Lemma ev_S (P Q : nat → Prop) : ev P → (∀ f, P f → Q (S f)) → ev Q.
Proof. intros [n Hn] H. exists (S n). intros [|f] Hf; [lia|]. apply H, Hn. lia. Qed.
Lemma ev_true (P : nat → Prop) : (∀ f, P f) → ev P.
Proof. intros H. by exists 0. Qed.
Lemma ev_Forall2 {A B} (P : A → B → nat → Prop) l k : Forall2 (λ x y, ev (P x y)) l k → ev (λ f, Forall2 (λ x y, P x y f) l k).
Proof.
  induction 1 as [|x y l k Hx HF IH]; [apply ev_true; by constructor|].
  eapply ev_imp; [exact (ev_and _ _ Hx IH)|]. intros f [? ?]. by constructor.
Qed.
Lemma rmap_perm {A B} (f : A → res B) l l' r' : l ≡ₚ l' → rmap f l' = Ok r' → ∃ r, rmap f l = Ok r ∧ r ≡ₚ r'.
Proof.
  intros Hp. revert r'. induction Hp as [|x l l' Hp IH|x y l|l1 l2 l3 H1 IH1 H2 IH2]; intros r'.
  - intros [= <-]. by exists [].
  - cbn [rmap]. intros (z & Hz & (zs & Hzs & [= <-])%rbind_Ok)%rbind_Ok. destruct (IH _ Hzs) as (r & Hr & Hpr). exists (z :: r).
    rewrite Hz. simpl. rewrite Hr. split; [done|]. by constructor.
  - cbn [rmap]. intros (a & Ha & (zs & (b & Hb & (cs & Hc & [= <-])%rbind_Ok)%rbind_Ok & [= <-])%rbind_Ok)%rbind_Ok.
    exists (b :: a :: cs). rewrite Hb. simpl. rewrite Ha. simpl. rewrite Hc. split; [done|]. apply perm_swap.
  - intros Hr. destruct (IH2 _ Hr) as (r2 & Hr2 & P2). destruct (IH1 _ Hr2) as (r1 & Hr1 & P1). exists r1. split; [done|]. by rewrite P1.
Qed.
Definition increasing {A} (key : A → nat) : list A → Prop :=
  fix go l := match l with [] => True | x :: l => Forall (λ y, key x < key y) l ∧ go l end.
Lemma isort_increasing {A} (key : A → nat) l l' : l ≡ₚ l' → increasing key l' → isort (λ x y, Nat.compare (key x) (key y)) l = l'.
Proof.
  set (cmp := λ x y, Nat.compare (key x) (key y)). intros Hp Hi.
  assert (Hcle : ∀ x y, cle cmp x y ↔ key x ≤ key y) by (intros x y; unfold cle, cmp; rewrite Nat.compare_gt_iff; lia).
  assert (Hs : sorted cmp (isort cmp l)).
  { apply isort_sorted; [intros x y z; rewrite !Hcle; lia|]. intros x y. rewrite Hcle. unfold cmp. rewrite Nat.compare_gt_iff. lia. }
  assert (Hp' : isort cmp l ≡ₚ l') by by rewrite isort_perm.
  revert Hs Hp' Hi. generalize (isort cmp l) as s. clear Hp l. intros s. revert l'. induction s as [|y s IH]; intros l' Hs Hp Hi.
  - by apply Permutation_nil_l in Hp.
  - destruct l' as [|x l']; [by apply Permutation_nil_r in Hp|]. apply sorted_cons in Hs as [Hy Hs]. destruct Hi as [Hx Hi].
    assert (y = x) as ->.
    { assert (Hin : y ∈ x :: l') by (rewrite <-Hp; left). apply elem_of_cons in Hin as [?|Hin]; [done|].
      assert (Hin' : x ∈ y :: s) by (rewrite Hp; left). apply elem_of_cons in Hin' as [?|Hin']; [done|].
      rewrite Forall_forall in Hx, Hy. apply Hx in Hin. apply Hy, Hcle in Hin'. lia. }
    f_equal. apply IH; [done| |done]. by apply Permutation_cons_inv in Hp.
Qed.

(** ** white space *)
Lemma split_word (w : chars) : is_word w → split_blanks w = [w].
Proof.
  intros [Hne HF]. induction HF as [|c w Hc HF IH]; [done|]. simpl. rewrite Hc. destruct w as [|d w]; [done|].
  pose proof (Forall_inv HF) as Hd. simpl in Hd. rewrite Hd. by rewrite IH.
Qed.
Lemma split_word_blank (w s : chars) : is_word w → split_blanks (w ++ " "%char :: s) = w :: split_blanks s.
Proof.
  intros [Hne HF]. induction HF as [|c w Hc HF IH]; [done|]. cbn [app split_blanks]. rewrite Hc.
  destruct w as [|d w]; [reflexivity|]. pose proof (Forall_inv HF) as Hd. cbn beta in Hd. cbn [app] in *. rewrite Hd, IH by done. done.
Qed.
Lemma split_join (ws : list chars) : Forall is_word ws → split_blanks (join_words ws) = ws.
Proof.
  induction 1 as [|w ws Hw HF IH]; [done|]. destruct ws as [|v ws]; [by apply split_word|].
  cbn [join_words] in *. rewrite split_word_blank by done. by rewrite IH.
Qed.
Lemma normalize_normal s : normal_text s → normalize_edu_string s = Ok s.
Proof.
  intros (ws & Hne & HF & E). unfold normalize_edu_string. rewrite decide_False.
  - rewrite E, split_join by done. rewrite <-E, str_chs. done.
  - intros ->. destruct ws as [|w ws]; [done|]. apply Forall_cons in HF as [[Hw _] _]. destruct w as [|c w]; [done|]. by destruct ws.
Qed.

(** ** the data read from a document *)
Definition rt_of (rt : dict string string) (rel : string) : string := default "span" (dget rel rt).
Definition info_of (rt : dict string string) (x : xelem) : info :=
  {| i_parent := xparent x; i_relname := xrelname x;
     i_nuc := match xrelname x with None => "root" | Some rel => if decide (rt_of rt rel = "rst") then "satellite" else "nucleus" end;
     i_reltype := match xrelname x with None => "" | Some rel => rt_of rt rel end;
     i_seg := is_seg x; i_text := match x with Seg _ _ _ s => s | _ => "" end; i_gtype := match x with Grp _ ty _ _ => ty | _ => None end |}.
Definition elem_good (rt : dict string string) (x : xelem) : Prop :=
  Forall normal_text (xtext x) ∧ match xrelname x with None => True | Some rel => rt_of rt rel ∈ ["rst"; "multinuc"; "span"] end.
Definition kin (p : option string) (L : list xelem) : list string := xid <$> filter (λ x, xparent x = p) L.
Record data_of (rt : dict string string) (E : list xelem) (r : rs3data) : Prop := {
  do_elems : r_elems r = (λ x, (xid x, info_of rt x)) <$> E;
  do_edus : r_edus r = xid <$> filter (λ x, is_seg x = true) E;
  do_kids : ∀ p, kids_of r p = kin p E;
}.
Lemma dset_new {K V} `{EqDecision K} (k : K) (v : V) d : k ∉ d.*1 → dset k v d = d ++ [(k, v)].
Proof.
  induction d as [|[k' v'] d IH]; [done|]. simpl. intros [Hne Hn]%not_elem_of_cons. destruct (decide (k = k')) as [->|?]; [done|].
  by rewrite IH.
Qed.
Lemma add_elem_ok rt E r x : data_of rt E r → xid x ∉ xid <$> E → elem_good rt x →
  ∃ r', add_elem rt r x = Ok r' ∧ data_of rt (E ++ [x]) r'.
Proof.
  intros [H1 H2 H3] Hx [Ht Hr].
  assert (Hk : xid x ∉ (r_elems r).*1).
  { rewrite H1. rewrite <-list_fmap_compose. exact Hx. }
  assert (Ho : dget (xid x) (r_elems r) = None) by by apply dget_None.
  assert (Hn : ∀ old, (match xrelname x with
             | None => Ok ("root", i_reltype no_info)
             | Some rel => let rt := default "span" (dget rel rt) in
               if decide (rt = "rst") then Ok ("satellite", rt)
               else if decide (rt = "multinuc" ∨ rt = "span") then Ok ("nucleus", rt)
               else old end) = Ok (i_nuc (info_of rt x), i_reltype (info_of rt x))).
  { intros old. unfold info_of. cbn [i_nuc i_reltype]. destruct (xrelname x) as [rel|]; [|done]. fold (rt_of rt rel) in *. cbn zeta.
    destruct (decide (rt_of rt rel = "rst")) as [E1|E1]; [done|]. rewrite decide_True; [done|].
    apply elem_of_cons in Hr as [?|Hr]; [done|]. apply elem_of_cons in Hr as [?|Hr]; [by left|]. apply elem_of_list_singleton in Hr. by right. }
  assert (Hnew : ∀ (e : bool) new, new = info_of rt x → e = is_seg x → data_of rt (E ++ [x])
    {| r_children := dset (xparent x) (default [] (dget (xparent x) (r_children r)) ++ [xid x]) (r_children r);
       r_elems := dset (xid x) new (r_elems r); r_edus := if e then r_edus r ++ [xid x] else r_edus r |}).
  { intros e new -> ->. split; cbn [r_elems r_edus r_children].
    - rewrite dset_new by done. by rewrite H1, fmap_app.
    - rewrite H2, filter_app, fmap_app. rewrite (filter_cons _ x []). destruct (is_seg x) eqn:Es; [by rewrite decide_True|].
      rewrite decide_False by done. simpl. by rewrite app_nil_r.
    - intros p. unfold kids_of, kin in *. cbn [r_children]. rewrite dget_dset. rewrite filter_app, fmap_app, (filter_cons _ x []).
      destruct (decide (xparent x = p)) as [<-|Hp].
      + rewrite decide_True by done. simpl. by rewrite H3.
      + rewrite decide_False by done. simpl. by rewrite app_nil_r. }
  destruct x as [id p rel s|id ty p rel]; unfold add_elem; cbn [xid xparent xrelname is_seg] in *; rewrite Ho; cbn [default from_option].
  - rewrite Hn. cbn [rbind]. cbn [xtext] in Ht. apply Forall_cons in Ht as [Ht _]. rewrite normalize_normal by done. cbn [rbind].
    eexists. split; [done|]. by apply (Hnew true).
  - rewrite Hn. cbn [rbind]. eexists. split; [done|]. by apply (Hnew false).
Qed.
Lemma read_data rt E : NoDup (xid <$> E) → Forall (elem_good rt) E →
  ∃ r, rfold (add_elem rt) {| r_children := []; r_elems := []; r_edus := [] |} E = Ok r ∧ data_of rt E r.
Proof.
  assert (G : ∀ E1 E2 r, data_of rt E1 r → NoDup (xid <$> (E1 ++ E2)) → Forall (elem_good rt) E2 →
    ∃ r', rfold (add_elem rt) r E2 = Ok r' ∧ data_of rt (E1 ++ E2) r').
  { intros E1 E2. revert E1. induction E2 as [|x E2 IH]; intros E1 r Hr Hnd HF.
    - rewrite app_nil_r. by exists r.
    - apply Forall_cons in HF as [Hx HF]. destruct (add_elem_ok rt E1 r x Hr) as (r1 & Hr1 & Hd); [|done|].
      + rewrite fmap_app, fmap_cons in Hnd. apply NoDup_app in Hnd as (_ & Hd & _). intros Hin. apply (Hd _ Hin). left.
      + simpl. rewrite Hr1. cbn [rbind]. specialize (IH (E1 ++ [x]) r1 Hd). rewrite <-(assoc_L (++)) in IH. apply IH; [done|done]. }
  intros Hnd HF. apply (G [] E); [|done|done]. done.
Qed.

(** ** parents within a block *)
Lemma lay_parent_range r k ro x : x ∈ lay k ro r → xparent x = snd <$> ro ∨ ∃ j, xparent x = Some (idn j) ∧ k ≤ j < k + nsize (body r).
Proof.
  intros Hx. destruct (lay_parents r k ro) as (y & l & E & Hl). destruct (lay_head k ro r) as (y' & l' & E' & _ & Hp & _).
  rewrite E in E'. injection E' as <- <-. assert (Hx' := Hx). rewrite E in Hx'. apply elem_of_cons in Hx' as [->|Hx']; [by left|].
  right. destruct (Hl _ Hx') as (z & rel & Hz & Hpz & _). apply lay_ids in Hz as (j & Ej & Hj). exists j. by rewrite Hpz, Ej.
Qed.
Lemma kin_app p L1 L2 : kin p (L1 ++ L2) = kin p L1 ++ kin p L2.
Proof. unfold kin. by rewrite filter_app, fmap_app. Qed.
Lemma kin_none p L : (∀ x, x ∈ L → xparent x ≠ p) → kin p L = [].
Proof.
  intros H. unfold kin. induction L as [|x L IH]; [done|]. rewrite filter_cons, decide_False by (apply H; left). apply IH. intros y Hy. apply H. by right.
Qed.
Lemma kin_outside j k ro r : ¬ (k ≤ j < k + nsize (body r)) → snd <$> ro ≠ Some (idn j) → kin (Some (idn j)) (lay k ro r) = [].
Proof.
  intros Hj Hr. apply kin_none. intros x Hx E. apply lay_parent_range in Hx as [H|(i & H & Hi)]; [congruence|].
  rewrite E in H. injection H as H. apply idn_inj in H. lia.
Qed.
Lemma kin_top j k rel r : ¬ (k ≤ j < k + nsize (body r)) → kin (Some (idn j)) (lay k (Some (rel, idn j)) r) = [idn k].
Proof.
  intros Hj. destruct (lay_parents r k (Some (rel, idn j))) as (y & l & E & Hl).
  destruct (lay_head k (Some (rel, idn j)) r) as (y' & l' & E' & Hid & Hp & _).
  rewrite E in E'. injection E' as <- <-. rewrite E. change (y :: l) with ([y] ++ l). rewrite kin_app.
  rewrite (kin_none _ l). 2: { intros x Hx Hpx. destruct (Hl _ Hx) as (z & rel' & Hz & Hpz & _). apply lay_ids in Hz as (i & Ei & Hi).
    rewrite Hpx, Ei in Hpz. injection Hpz as H. apply idn_inj in H. lia. }
  unfold kin. unfold filter. simpl. rewrite decide_True by done. simpl. by rewrite Hid.
Qed.
