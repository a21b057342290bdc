(** * StrNum: characters, decimal numerals and orders

    Python 2 [str] values are byte strings; Coq [string] is a list of 8 bit
    characters.  Nothing here models a function of /repo except
    [natural_sort_key]. *)
From Verif Require Export PyBase.
From Coq Require Import DecimalString DecimalN DecimalFacts.
From Coq Require Export Ascii.

Definition chars := list ascii.
Definition chs (s : string) : chars := list_ascii_of_string s.
Definition str (l : chars) : string := string_of_list_ascii l.
Lemma str_chs s : str (chs s) = s.
Proof. apply string_of_list_ascii_of_string. Qed.
Lemma chs_str l : chs (str l) = l.
Proof. apply list_ascii_of_string_of_list_ascii. Qed.
Lemma chs_inj s t : chs s = chs t → s = t.
Proof. intros H. by rewrite <-(str_chs s), <-(str_chs t), H. Qed.
Lemma str_inj s t : str s = str t → s = t.
Proof. intros H. by rewrite <-(chs_str s), <-(chs_str t), H. Qed.
Lemma chs_app s t : chs (s +:+ t) = chs s ++ chs t.
Proof. induction s as [|c s IH]; [done|]. unfold String.append. simpl. f_equal. exact IH. Qed.
Lemma str_app s t : str (s ++ t) = str s +:+ str t.
Proof. apply chs_inj. by rewrite chs_app, !chs_str. Qed.
Lemma slen s : String.length s = length (chs s).
Proof. induction s as [|c s IH]; simpl; [done|]. by f_equal. Qed.

Definition is_digit (c : ascii) : bool :=
  let n := N_of_ascii c in (48 <=? n)%N && (n <=? 57)%N.
(** value of a digit / of a digit string, [int(text)] *)
Definition digit_val (c : ascii) : N := (N_of_ascii c - 48)%N.
Definition dec_val_from (acc : N) (l : chars) : N :=
  foldl (λ acc c, (10 * acc + digit_val c)%N) acc l.
Definition dec_val (l : chars) : N := dec_val_from 0 l.
(** [str(n)] for n >= 0 *)
Definition str_N (n : N) : string := NilZero.string_of_uint (N.to_uint n).

Fixpoint uint_chars (d : Decimal.uint) : chars :=
  match d with
  | Decimal.Nil => []
  | Decimal.D0 d => "0"%char :: uint_chars d
  | Decimal.D1 d => "1"%char :: uint_chars d
  | Decimal.D2 d => "2"%char :: uint_chars d
  | Decimal.D3 d => "3"%char :: uint_chars d
  | Decimal.D4 d => "4"%char :: uint_chars d
  | Decimal.D5 d => "5"%char :: uint_chars d
  | Decimal.D6 d => "6"%char :: uint_chars d
  | Decimal.D7 d => "7"%char :: uint_chars d
  | Decimal.D8 d => "8"%char :: uint_chars d
  | Decimal.D9 d => "9"%char :: uint_chars d
  end.
Lemma nilempty_chars d : chs (NilEmpty.string_of_uint d) = uint_chars d.
Proof. induction d; simpl; try done; unfold chs; simpl; f_equal; apply IHd. Qed.
Lemma uint_chars_digits d : Forall (λ c, is_digit c = true) (uint_chars d).
Proof. induction d; simpl; constructor; done. Qed.
Lemma dec_val_from_uint d : ∀ acc : N,
  dec_val_from acc (uint_chars d) = match acc with 0%N => N.of_uint d | Npos p => Npos (Pos.of_uint_acc d p) end.
Proof.
  unfold dec_val_from, N.of_uint. induction d; intros acc; [by destruct acc|..].
  all: cbn [uint_chars foldl]; rewrite IHd; destruct acc; [|].
  all: try done.
  all: cbn [Pos.of_uint_acc]; match goal with |- context [N.add ?x ?y] =>
    match goal with |- context [Pos.of_uint_acc _ (Pos.add ?b ?c)] =>
      assert (x + y = Npos (Pos.add b c))%N as E
    end end; [|by rewrite E].
  all: match goal with |- (_ + digit_val ?c)%N = _ =>
    let v := eval vm_compute in (digit_val c) in change (digit_val c) with v end.
  all: lia.
Qed.
Lemma N_to_uint_nonnil n : N.to_uint n ≠ Decimal.Nil.
Proof.
  destruct n as [|p]; [done|]. simpl. apply DecimalPos.Unsigned.to_uint_nonnil.
Qed.
Lemma str_N_chars n : chs (str_N n) = uint_chars (N.to_uint n).
Proof.
  unfold str_N, NilZero.string_of_uint. pose proof (N_to_uint_nonnil n) as H.
  destruct (N.to_uint n) eqn:E; [done|..]; rewrite <-E, nilempty_chars; by rewrite E.
Qed.
Lemma dec_val_str_N n : dec_val (chs (str_N n)) = n.
Proof.
  rewrite str_N_chars. unfold dec_val. rewrite dec_val_from_uint.
  apply DecimalN.Unsigned.of_to.
Qed.
Lemma str_N_digits n : Forall (λ c, is_digit c = true) (chs (str_N n)).
Proof. rewrite str_N_chars. apply uint_chars_digits. Qed.
Lemma str_N_nonempty n : chs (str_N n) ≠ [].
Proof.
  rewrite str_N_chars. pose proof (N_to_uint_nonnil n). by destruct (N.to_uint n).
Qed.
Lemma str_N_inj n m : str_N n = str_N m → n = m.
Proof. intros H. by rewrite <-(dec_val_str_N n), <-(dec_val_str_N m), H. Qed.

(** [str(z)] for any integer *)
Definition str_Z (z : Z) : string :=
  match z with
  | Zneg p => "-" +:+ str_N (Npos p)
  | _ => str_N (Z.to_N z)
  end.
Lemma str_Z_inj x y : str_Z x = str_Z y → x = y.
Proof.
  assert (Hd : ∀ n s, str_N n = "-" +:+ s → False).
  { intros n s H. pose proof (str_N_digits n) as HF. rewrite H in HF. rewrite chs_app in HF.
    simpl in HF. apply Forall_cons in HF as [HF _]. done. }
  unfold str_Z. destruct x as [|p|p], y as [|q|q]; intros H; try done.
  all: try (apply str_N_inj in H; simpl in H; congruence).
  all: try (by destruct (Hd _ _ H)).
  all: try (by destruct (Hd _ _ (eq_sym H))).
  unfold String.append in H. simpl in H. injection H as H. apply str_N_inj in H. congruence.
Qed.

(** ** Orders *)
Record good_cmp {A} (cmp : A → A → comparison) : Prop := {
  gc_eq : ∀ x y, cmp x y = Eq ↔ x = y;
  gc_opp : ∀ x y, cmp y x = CompOpp (cmp x y);
  gc_trans : ∀ x y z, cmp x y = Lt → cmp y z = Lt → cmp x z = Lt;
}.
Section lex.
  Context {A : Type} (cmp : A → A → comparison).
  (** Python's comparison of sequences *)
  Fixpoint lexcmp (l k : list A) : comparison :=
    match l, k with
    | [], [] => Eq
    | [], _ => Lt
    | _, [] => Gt
    | x :: l, y :: k => match cmp x y with Eq => lexcmp l k | c => c end
    end.
  Lemma lexcmp_good : good_cmp cmp → good_cmp lexcmp.
  Proof.
    intros [He Ho Ht]. split.
    - intros l. induction l as [|x l IH]; intros [|y k]; simpl; try done.
      destruct (cmp x y) eqn:E.
      + apply He in E. subst. rewrite IH. naive_solver.
      + split; [done|]. intros [= -> _]. assert (cmp y y = Eq) by by apply He. congruence.
      + split; [done|]. intros [= -> _]. assert (cmp y y = Eq) by by apply He. congruence.
    - intros l. induction l as [|x l IH]; intros [|y k]; simpl; try done.
      rewrite (Ho x y). destruct (cmp x y); simpl; [apply IH|done|done].
    - intros l. induction l as [|x l IH]; intros [|y k] [|z m]; simpl; try done.
      destruct (cmp x y) eqn:E1; [| |done].
      + apply He in E1 as ->. destruct (cmp y z); [apply IH|done|done].
      + intros _. destruct (cmp y z) eqn:E2; [|intros _|done].
        * apply He in E2 as ->. by rewrite E1.
        * by rewrite (Ht _ _ _ E1 E2).
  Qed.
  Lemma lexcmp_app l k m : good_cmp cmp → lexcmp (l ++ k) (l ++ m) = lexcmp k m.
  Proof.
    intros H. induction l as [|x l IH]; simpl; [done|].
    assert (E : cmp x x = Eq) by by apply H. by rewrite E.
  Qed.
End lex.
Definition ascii_cmp (a b : ascii) : comparison := N.compare (N_of_ascii a) (N_of_ascii b).
Lemma N_cmp_good : good_cmp N.compare.
Proof.
  split.
  - apply N.compare_eq_iff.
  - intros. apply N.compare_antisym.
  - intros x y z. rewrite !N.compare_lt_iff. lia.
Qed.
Lemma ascii_cmp_good : good_cmp ascii_cmp.
Proof.
  destruct N_cmp_good as [He Ho Ht]. split; unfold ascii_cmp.
  - intros x y. rewrite He. split; [|by intros ->]. intros H.
    by rewrite <-(ascii_N_embedding x), <-(ascii_N_embedding y), H.
  - intros. apply Ho.
  - intros x y z. apply Ht.
Qed.

(** ** Stable sorting: [sorted(l, key=...)], as insertion sort *)
Section sort.
  Context {A : Type} (cmp : A → A → comparison).
  Fixpoint insert (x : A) (l : list A) : list A :=
    match l with
    | [] => [x]
    | y :: l' => match cmp x y with Gt => y :: insert x l' | _ => x :: l end
    end.
  Fixpoint isort (l : list A) : list A :=
    match l with [] => [] | x :: l' => insert x (isort l') end.
  Lemma insert_perm x l : insert x l ≡ₚ x :: l.
  Proof.
    induction l as [|y l IH]; simpl; [done|]. destruct (cmp x y); [done|done|].
    rewrite IH. apply perm_swap.
  Qed.
  Lemma isort_perm l : isort l ≡ₚ l.
  Proof. induction l as [|x l IH]; simpl; [done|]. by rewrite insert_perm, IH. Qed.
  Definition cle (x y : A) : Prop := cmp x y ≠ Gt.
  Definition sorted (l : list A) : Prop :=
    ∀ i j x y, i < j → l !! i = Some x → l !! j = Some y → cle x y.
  Lemma sorted_cons x l : sorted (x :: l) ↔ Forall (cle x) l ∧ sorted l.
  Proof.
    unfold sorted. split.
    - intros H. split.
      + apply Forall_forall. intros y [j Hj]%elem_of_list_lookup. apply (H 0 (S j)); [lia|done|done].
      + intros i j y z Hij Hi Hj. apply (H (S i) (S j)); [lia|done|done].
    - intros [HF H] [|i] [|j] y z Hij Hi Hj; try lia; simpl in *.
      + injection Hi as ->. rewrite Forall_forall in HF. apply HF. by apply elem_of_list_lookup; exists j.
      + apply (H i j); [lia|done|done].
  Qed.
  Hypothesis cle_trans : ∀ x y z, cle x y → cle y z → cle x z.
  Hypothesis cle_total : ∀ x y, cmp x y = Gt → cle y x.
  Lemma insert_sorted x l : sorted l → sorted (insert x l).
  Proof using cle_trans cle_total.
    induction l as [|y l IH]; simpl.
    - intros _. apply sorted_cons. split; [constructor|]. intros i j ? ? ? Hi. by rewrite lookup_nil in Hi.
    - intros H. pose proof H as [HF Hs]%sorted_cons. destruct (cmp x y) eqn:E.
      + apply sorted_cons. split; [|done]. assert (cle x y) by (unfold cle; by rewrite E).
        constructor; [done|]. eapply Forall_impl; [done|]. intros z Hz. by eapply cle_trans.
      + apply sorted_cons. split; [|done]. assert (cle x y) by (unfold cle; by rewrite E).
        constructor; [done|]. eapply Forall_impl; [done|]. intros z Hz. by eapply cle_trans.
      + apply sorted_cons. split; [|by apply IH]. rewrite insert_perm. constructor; [by apply cle_total|done].
  Qed.
  Lemma isort_sorted l : sorted (isort l).
  Proof using cle_trans cle_total.
    induction l as [|x l IH]; simpl; [|by apply insert_sorted].
    intros i j ? ? ? Hi. by rewrite lookup_nil in Hi.
  Qed.
  (** stability: elements with equal keys keep their order *)
  Lemma insert_stable (P : A → Prop) `{!∀ x, Decision (P x)} x l :
    (∀ a b, P a → P b → cmp a b ≠ Gt) → filter P (insert x l) = filter P (x :: l).
  Proof using Type.
    intros HP. induction l as [|y l IH]; [done|]. cbn [insert].
    destruct (cmp x y) eqn:E; [done|done|].
    rewrite filter_cons, IH. rewrite !filter_cons.
    destruct (decide (P x)), (decide (P y)); try done. by destruct (HP x y).
  Qed.
  Lemma isort_stable (P : A → Prop) `{!∀ x, Decision (P x)} l :
    (∀ a b, P a → P b → cmp a b ≠ Gt) → filter P (isort l) = filter P l.
  Proof using Type.
    intros HP. induction l as [|x l IH]; [done|]. simpl. rewrite insert_stable by done.
    rewrite !filter_cons. by rewrite IH.
  Qed.
End sort.
