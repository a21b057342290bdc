(** * NatSort: facts about natural_sort_key and stable sorting *)
From Verif Require Import PyBase DocGraph Relabel StrNum Query.

Section nsplit.
  (** what re.split('([0-9]+)', s) returns *)
  Definition unsplit (p : chars * list (chars * chars)) : chars :=
    p.1 ++ (q ← p.2; q.1 ++ q.2).
  Definition no_digits (l : chars) : Prop := Forall (λ c, is_digit c = false) l.
  Definition all_digits (l : chars) : Prop := Forall (λ c, is_digit c = true) l.
  (** inner texts are not empty: adjacent digit groups would have been one *)
  Fixpoint inner_ok (l : list (chars * chars)) : Prop :=
    match l with
    | [] => True
    | (d, t) :: l' => d ≠ [] ∧ all_digits d ∧ no_digits t ∧ (l' ≠ [] → t ≠ []) ∧ inner_ok l'
    end.
  Lemma nsplit_spec s :
    unsplit (nsplit s) = s ∧ no_digits (nsplit s).1 ∧ inner_ok (nsplit s).2.
  Proof.
    induction s as [|c s IH]; [split; [done|split; [constructor|done]]|].
    simpl. destruct (nsplit s) as [t l]. destruct IH as (Hu & Ht & Hl). simpl in *.
    destruct (is_digit c) eqn:Ec.
    - destruct t as [|c' t]; [destruct l as [|[d t'] l']|]; simpl in *.
      + subst. split_and!; try done; by repeat constructor.
      + destruct Hl as (? & ? & ? & ? & ?). subst. split_and!; try done; by constructor.
      + subst. unfold unsplit. simpl. split_and!; try done; by repeat constructor.
    - unfold unsplit in *. simpl in *. subst. split_and!; try done; by constructor.
  Qed.
  Definition join2 (p q : chars * list (chars * chars)) : chars * list (chars * chars) :=
    match p with
    | (t, l) => match l with
      | [] => (t ++ q.1, q.2)
      | _ => (t, (fix go l := match l with
                   | [] => []
                   | [(d, t')] => (d, t' ++ q.1) :: q.2
                   | x :: l => x :: go l end) l)
      end
    end.
  Lemma join2_cons t d t' x l q :
    join2 (t, (d, t') :: x :: l) q = (t, (d, t') :: (join2 ([], x :: l) q).2).
  Proof. done. Qed.
  Lemma nsplit_app p s : (nsplit s).1 ≠ [] → nsplit (p ++ s) = join2 (nsplit p) (nsplit s).
  Proof.
    intros Hs. induction p as [|c p IH]; [simpl; by destruct (nsplit s)|].
    simpl. rewrite IH. destruct (nsplit s) as [u m]. simpl in Hs. destruct (nsplit p) as [t l].
    destruct (is_digit c) eqn:Ec.
    - destruct t as [|c' t], l as [|[d t'] l]; simpl.
      + by destruct u.
      + destruct l as [|x l]; [done|]. done.
      + done.
      + destruct l as [|x l]; [done|]. done.
    - destruct l as [|[d t'] l]; simpl; [done|]. by destruct l.
  Qed.
  Lemma nsplit_digits d s : d ≠ [] → all_digits d → (nsplit s).1 ≠ [] ∨ s = [] →
    nsplit (d ++ s) = ([], (d, (nsplit s).1) :: (nsplit s).2).
  Proof.
    intros Hd Hall Hs. induction d as [|c d IH]; [done|].
    apply Forall_cons in Hall as [Hc Hall]. simpl. destruct d as [|c' d].
    - destruct Hs as [Hs| ->]; [|simpl; by rewrite Hc].
      simpl. destruct (nsplit s) as [t l]. simpl in *. rewrite Hc. by destruct t.
    - rewrite IH by done. rewrite Hc. done.
  Qed.
  Lemma nsplit_nodigit c s : is_digit c = false → (nsplit (c :: s)).1 ≠ [].
  Proof. intros Hc. simpl. destruct (nsplit s). by rewrite Hc. Qed.
End nsplit.

Lemma kpart_cmp_good : good_cmp kpart_cmp.
Proof.
  pose proof (lexcmp_good _ ascii_cmp_good) as [He Ho Ht].
  pose proof N_cmp_good as [He' Ho' Ht'].
  split.
  - intros [n|s] [m|t]; simpl; try done.
    + rewrite He'. naive_solver.
    + rewrite He. naive_solver.
  - intros [n|s] [m|t]; simpl; first [done|apply Ho'|apply Ho].
  - intros [n|s] [m|t] [k|u]; simpl; first [done|apply Ht'|apply Ht].
Qed.
Lemma key_cmp_good : good_cmp (lexcmp kpart_cmp).
Proof. apply lexcmp_good, kpart_cmp_good. Qed.

Lemma nat_cmp_refl a : nat_cmp a a = Eq.
Proof. by apply key_cmp_good. Qed.
Lemma nat_cmp_opp a b : nat_cmp b a = CompOpp (nat_cmp a b).
Proof. apply key_cmp_good. Qed.
Lemma nat_cle_trans a b c : cle nat_cmp a b → cle nat_cmp b c → cle nat_cmp a c.
Proof.
  unfold cle. destruct key_cmp_good as [He Ho Ht]. unfold nat_cmp.
  set (f := lexcmp kpart_cmp) in *.
  destruct (f (natural_sort_key a) (natural_sort_key b)) eqn:E1; [| |done].
  - apply He in E1. by rewrite E1.
  - intros _. destruct (f (natural_sort_key b) (natural_sort_key c)) eqn:E2; [| |done].
    + apply He in E2. rewrite <-E2. by rewrite E1.
    + intros _. by rewrite (Ht _ _ _ E1 E2).
Qed.
Lemma nat_cle_total a b : nat_cmp a b = Gt → cle nat_cmp b a.
Proof. intros H. unfold cle. rewrite nat_cmp_opp, H. done. Qed.
Lemma nat_sorted_sorted l : sorted nat_cmp (nat_sorted l).
Proof. apply isort_sorted; [apply nat_cle_trans|apply nat_cle_total]. Qed.
Lemma nat_sorted_perm l : nat_sorted l ≡ₚ l.
Proof. apply isort_perm. Qed.

(** comparison of ids that differ in a number *)
Lemma key_of_join p q : ∃ pre t, key_of (join2 p q) = pre ++ KText (t ++ q.1) :: (x ← q.2; [KInt (dec_val x.1); KText x.2])
  ∧ ∀ q', key_of (join2 p q') = pre ++ KText (t ++ q'.1) :: (x ← q'.2; [KInt (dec_val x.1); KText x.2]).
Proof.
  destruct p as [t l]. destruct l as [|[d t'] l].
  { exists [], t. done. }
  revert t d t'. induction l as [|[d2 t2] l IH]; intros t d t'.
  - by exists [KText t; KInt (dec_val d)], t'.
  - destruct (IH [] d2 t2) as (pre & x & H1 & H2). rewrite join2_cons.
    destruct pre as [|k pre].
    { exfalso. specialize (H2 (["a"%char], [])). unfold key_of in H2. simpl in H2.
      injection H2 as H2 _. destruct l as [|[] l]; simpl in H2; by destruct x. }
    exists (KText t :: KInt (dec_val d) :: KText t' :: pre), x.
    assert (Hk : ∀ q0, key_of (join2 ([], (d2, t2) :: l) q0) =
      KText [] :: (x ← (join2 ([], (d2, t2) :: l) q0).2; [KInt (dec_val x.1); KText x.2])).
    { intros q0. unfold key_of. f_equal. }
    split.
    + rewrite Hk in H1. injection H1 as _ H1. unfold key_of. cbn [fst snd]. simpl. f_equal. f_equal. f_equal. exact H1.
    + intros q'. rewrite join2_cons. specialize (H2 q'). rewrite Hk in H2. injection H2 as _ H2.
      unfold key_of. cbn [fst snd]. simpl. f_equal. f_equal. f_equal. exact H2.
Qed.
(** the last character is no digit *)
Definition no_trailing_digit (p : chars) : Prop := ∀ c, last p = Some c → is_digit c = false.
Definition no_leading_digit (p : chars) : Prop := ∀ c, head p = Some c → is_digit c = false.

Lemma key_number (p q : chars) (n : N) :
  no_trailing_digit p → no_leading_digit q →
  ∃ pre, (∀ m r, no_leading_digit r →
    key_of (nsplit (p ++ chs (str_N m) ++ r)) = pre ++ KInt m :: key_of (nsplit r)) ∧
    key_of (nsplit (p ++ chs (str_N n) ++ q)) = pre ++ KInt n :: key_of (nsplit q).
Proof.
  intros Hp Hq.
  assert (Hnum : ∀ m r, no_leading_digit r →
    nsplit (chs (str_N m) ++ r) = ([], (chs (str_N m), (nsplit r).1) :: (nsplit r).2)).
  { intros m r Hr. apply nsplit_digits; [apply str_N_nonempty|apply str_N_digits|].
    destruct r as [|c r]; [by right|]. left. apply nsplit_nodigit. by apply Hr. }
  destruct p as [|c p _] using rev_ind.
  - assert (H : ∀ m r, no_leading_digit r →
      key_of (nsplit ([] ++ chs (str_N m) ++ r)) = [KText []] ++ KInt m :: key_of (nsplit r)).
    { intros m r Hr. cbn [app]. rewrite Hnum by done. unfold key_of. simpl. by rewrite dec_val_str_N. }
    exists [KText []]. split; [done|]. by apply H.
  - assert (Hc : is_digit c = false) by (apply Hp; by rewrite last_snoc).
    destruct (key_of_join (nsplit p) ([c], [])) as (pre & t & _ & Hpre).
    assert (H : ∀ m r, no_leading_digit r →
      key_of (nsplit ((p ++ [c]) ++ chs (str_N m) ++ r)) =
      (pre ++ [KText (t ++ [c])]) ++ KInt m :: key_of (nsplit r)).
    { intros m r Hr. rewrite <-!(assoc_L (++)). rewrite nsplit_app.
      2: { by apply nsplit_nodigit. }
      rewrite Hpre. cbn [app]. simpl nsplit. rewrite Hnum by done. rewrite Hc. simpl.
      by rewrite dec_val_str_N. }
    exists (pre ++ [KText (t ++ [c])]). split; [done|]. by apply H.
Qed.
(** ids that agree up to a number are ordered by the number, whatever follows *)
Lemma nat_cmp_number (p q r : chars) (n m : N) :
  no_trailing_digit p → no_leading_digit q → no_leading_digit r → n ≠ m →
  nat_cmp (NStr (str (p ++ chs (str_N n) ++ q))) (NStr (str (p ++ chs (str_N m) ++ r))) = N.compare n m.
Proof.
  intros Hp Hq Hr Hne. unfold nat_cmp, natural_sort_key, nid_str. rewrite !chs_str.
  destruct (key_number p q n Hp Hq) as (pre & H1 & H2). rewrite H2, (H1 m r Hr).
  rewrite lexcmp_app by apply kpart_cmp_good. cbn [lexcmp kpart_cmp].
  destruct (N.compare n m) eqn:E; [|done|done]. by apply N.compare_eq in E.
Qed.
Lemma nat_sorted_stable k l :
  filter (λ x, nat_cmp x k = Eq) (nat_sorted l) = filter (λ x, nat_cmp x k = Eq) l.
Proof.
  unfold nat_sorted. apply (isort_stable nat_cmp). intros a b Ha Hb.
  apply (nat_cle_trans a k b); unfold cle; [by rewrite Ha|]. by rewrite nat_cmp_opp, Hb.
Qed.
