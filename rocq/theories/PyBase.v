(** * PyBase: the fragment of Python 2 data the models need

    Exceptions are values, dictionaries are association lists, sets of
    strings are lists read up to membership.  Nothing in this file models a
    function of /repo; it fixes the vocabulary used by the other files. *)
From stdpp Require Export base list list_numbers strings.
From Coq Require Export ZArith Lia.
#[global] Open Scope string_scope.
#[global] Open Scope list_scope.

(** Hashable identifiers used as node ids and edge keys.  networkx allows any
    hashable object; discoursegraphs uses ints and strings only
    (discoursegraph.py:626 checks [isinstance(element, (str, int))]). *)
Inductive nid := NInt (z : Z) | NStr (s : string).
Global Instance nid_eq_dec : EqDecision nid.
Proof. solve_decision. Defined.

(** Exceptions that the modelled functions raise. *)
Inductive exc :=
| KeyError | AssertionError | ValueError | TypeError | AttributeError
| IndexError | StopIteration | NameError | NotImplementedError | IOError
| NetworkXError | NetworkXUnfeasible
| OutOfFuel (* a loop/recursion of the code does not end within the fuel *).
Global Instance exc_eq_dec : EqDecision exc.
Proof. solve_decision. Defined.

Inductive res (A : Type) := Ok (a : A) | Err (e : exc).
Arguments Ok {A} a.
Arguments Err {A} e.

Definition rbind {A B} (r : res A) (f : A → res B) : res B :=
  match r with Ok a => f a | Err e => Err e end.
Notation "'let!' x := e 'in' f" := (rbind e (λ x, f))
  (at level 200, x pattern, e at level 100, f at level 200, right associativity).

Fixpoint rmap {A B} (f : A → res B) (l : list A) : res (list B) :=
  match l with
  | [] => Ok []
  | x :: l' => let! y := f x in let! ys := rmap f l' in Ok (y :: ys)
  end.

Definition of_option {A} (e : exc) (o : option A) : res A :=
  match o with Some a => Ok a | None => Err e end.

(** Values of node and edge attributes. [VSet l] is a Python set of [str],
    [VBadSet] a set with a member that is no [str], [VObj] any other object
    (opaque, truthy). *)
Inductive pyval :=
| VNone | VBool (b : bool) | VInt (z : Z) | VStr (s : string)
| VSet (l : list string) | VBadSet | VObj (i : nat).
Global Instance pyval_eq_dec : EqDecision pyval.
Proof. solve_decision. Defined.

(** Python truth value testing. *)
Definition truthy (v : pyval) : bool :=
  match v with
  | VNone => false
  | VBool b => b
  | VInt z => negb (z =? 0)%Z
  | VStr s => negb (String.eqb s "")
  | VSet l => match l with [] => false | _ => true end
  | VBadSet | VObj _ => true
  end.

(** ** Dictionaries: association lists, in insertion order *)
Section dict.
  Context {K V : Type} `{EqDecision K}.
  Implicit Types (k : K) (v : V) (d : list (K * V)).

  Fixpoint dget k d : option V :=
    match d with
    | [] => None
    | (k', v) :: d' => if decide (k = k') then Some v else dget k d'
    end.

  (** [d[k] = v]: an existing key keeps its position, a new one goes last. *)
  Fixpoint dset k v d : list (K * V) :=
    match d with
    | [] => [(k, v)]
    | (k', v') :: d' =>
        if decide (k = k') then (k', v) :: d' else (k', v') :: dset k v d'
    end.

  (** [del d[k]] *)
  Fixpoint ddel k d : list (K * V) :=
    match d with
    | [] => []
    | (k', v') :: d' => if decide (k = k') then ddel k d' else (k', v') :: ddel k d'
    end.

  (** [d1.update(d2)] on plain dicts (whose iteration order Python 2 leaves
      open): right-to-left, so that the first binding of [d2] wins even for a
      list with a repeated key, which no Python dict has. *)
  Definition dupdate d1 d2 : list (K * V) :=
    foldr (λ p d, dset p.1 p.2 d) d1 d2.

  Definition dkeys d : list K := d.*1.
  Definition dmem k d : bool := match dget k d with Some _ => true | None => false end.

  Lemma dget_dset k k' v d :
    dget k' (dset k v d) = if decide (k' = k) then Some v else dget k' d.
  Proof.
    induction d as [|[a b] d IH]; simpl.
    - repeat case_decide; congruence.
    - repeat (case_decide; simpl); subst; try congruence; rewrite ?IH;
        repeat case_decide; congruence.
  Qed.
  Lemma dget_dset_eq k v d : dget k (dset k v d) = Some v.
  Proof. rewrite dget_dset. case_decide; congruence. Qed.
  Lemma dget_dset_ne k k' v d : k' ≠ k → dget k' (dset k v d) = dget k' d.
  Proof. intros. rewrite dget_dset. case_decide; congruence. Qed.

  Lemma dget_ddel k k' d :
    dget k' (ddel k d) = if decide (k' = k) then None else dget k' d.
  Proof.
    induction d as [|[a b] d IH]; simpl.
    - case_decide; congruence.
    - repeat (case_decide; simpl); subst; try congruence; rewrite ?IH;
        repeat case_decide; congruence.
  Qed.

  Lemma dget_dupdate k d1 d2 :
    dget k (dupdate d1 d2) =
    match dget k d2 with Some v => Some v | None => dget k d1 end.
  Proof.
    induction d2 as [|[a b] d2 IH]; simpl; [done|].
    rewrite dget_dset. case_decide; [done|]. apply IH.
  Qed.

  Lemma dget_Some_elem k v d : dget k d = Some v → (k, v) ∈ d.
  Proof.
    induction d as [|[a b] d IH]; simpl; [done|]. case_decide.
    - intros [= ->]; subst. left.
    - intros ?. right. auto.
  Qed.
  Lemma dget_None d k : dget k d = None ↔ k ∉ dkeys d.
  Proof.
    induction d as [|[a b] d IH]; simpl.
    - split; [intros _; apply not_elem_of_nil|done].
    - rewrite not_elem_of_cons. case_decide; [naive_solver|]. rewrite IH. naive_solver.
  Qed.
  Lemma dget_is_Some d k : is_Some (dget k d) ↔ k ∈ dkeys d.
  Proof.
    rewrite <-not_eq_None_Some, dget_None.
    destruct (decide (k ∈ dkeys d)); naive_solver.
  Qed.
  Lemma elem_dget k v d : NoDup (dkeys d) → (k, v) ∈ d → dget k d = Some v.
  Proof.
    unfold dkeys. induction d as [|[a b] d IH]; simpl; [by rewrite elem_of_nil|].
    rewrite NoDup_cons, elem_of_cons. intros [Hn Hnd] [[= -> ->]|Hin].
    - case_decide; congruence.
    - case_decide; [|auto]. subst. destruct Hn. apply elem_of_list_fmap.
      by exists (a, v).
  Qed.
  Lemma dmem_spec k d : dmem k d = true ↔ k ∈ dkeys d.
  Proof.
    unfold dmem. rewrite <-dget_is_Some. destruct (dget k d); split; try done.
    - by intros [? ?].
  Qed.
  Lemma dmem_false k d : dmem k d = false ↔ k ∉ dkeys d.
  Proof. rewrite <-dmem_spec. destruct (dmem k d); naive_solver. Qed.

  Lemma dkeys_dset k v d :
    dkeys (dset k v d) = if decide (k ∈ dkeys d) then dkeys d else dkeys d ++ [k].
  Proof.
    unfold dkeys.
    induction d as [|[a b] d IH]; [done|].
    cbn [dset]. destruct (decide (k = a)) as [->|Hne]; rewrite !fmap_cons; cbn [fst].
    - rewrite decide_True; [done|left].
    - rewrite IH. destruct (decide (k ∈ d.*1)).
      + rewrite decide_True; [done|by right].
      + rewrite decide_False; [done|]. by rewrite not_elem_of_cons.
  Qed.
  Lemma dkeys_dset_elem k k' v d : k' ∈ dkeys (dset k v d) ↔ k' = k ∨ k' ∈ dkeys d.
  Proof.
    rewrite dkeys_dset. case_decide.
    - naive_solver.
    - rewrite elem_of_app, elem_of_list_singleton. naive_solver.
  Qed.
  Lemma NoDup_dset k v d : NoDup (dkeys d) → NoDup (dkeys (dset k v d)).
  Proof.
    intros. rewrite dkeys_dset. case_decide; [done|].
    apply NoDup_app. split_and!; [done| |apply NoDup_singleton].
    intros x ? ->%elem_of_list_singleton. done.
  Qed.
  Lemma ddel_filter k d : ddel k d = filter (λ p, p.1 ≠ k) d.
  Proof.
    induction d as [|[a b] d IH]; [done|]. simpl. rewrite filter_cons. simpl.
    destruct (decide (k = a)) as [->|Hne].
    - rewrite decide_False by naive_solver. done.
    - rewrite decide_True by naive_solver. by rewrite IH.
  Qed.
  Lemma dkeys_ddel k d : dkeys (ddel k d) = filter (λ x, x ≠ k) (dkeys d).
  Proof.
    induction d as [|[a b] d IH]; [done|]. simpl. rewrite filter_cons.
    destruct (decide (k = a)) as [->|Hne].
    - rewrite decide_False by naive_solver. done.
    - rewrite decide_True by naive_solver. simpl. by rewrite IH.
  Qed.
  Lemma dkeys_ddel_elem k k' d : k' ∈ dkeys (ddel k d) ↔ k' ≠ k ∧ k' ∈ dkeys d.
  Proof. rewrite dkeys_ddel, elem_of_list_filter. done. Qed.
  Lemma NoDup_ddel k d : NoDup (dkeys d) → NoDup (dkeys (ddel k d)).
  Proof. intros. rewrite dkeys_ddel. by apply NoDup_filter. Qed.
  Lemma dget_app k d1 d2 :
    dget k (d1 ++ d2) = match dget k d1 with Some v => Some v | None => dget k d2 end.
  Proof. induction d1 as [|[a b] d1 IH]; simpl; [done|]. by case_decide. Qed.
End dict.

Notation dict K V := (list (K * V)) (only parsing).
Notation attrs := (list (string * pyval)).

(** Extensional equality of attribute dictionaries (Python [==] on dicts,
    except that set values are compared by [veq]). *)
Definition set_eq (l1 l2 : list string) : Prop := ∀ x, x ∈ l1 ↔ x ∈ l2.
Definition set_union (l1 l2 : list string) : list string :=
  l1 ++ filter (λ x, x ∉ l1) l2.
Lemma elem_set_union x l1 l2 : x ∈ set_union l1 l2 ↔ x ∈ l1 ∨ x ∈ l2.
Proof.
  unfold set_union. rewrite elem_of_app, elem_of_list_filter.
  destruct (decide (x ∈ l1)); naive_solver.
Qed.
Definition set_add (x : string) (l : list string) : list string :=
  if decide (x ∈ l) then l else l ++ [x].
Lemma elem_set_add x y l : y ∈ set_add x l ↔ y = x ∨ y ∈ l.
Proof.
  unfold set_add. case_decide.
  - naive_solver.
  - rewrite elem_of_app, elem_of_list_singleton. naive_solver.
Qed.

(** [s.union(t)] where the receiver comes from a stored attribute: only sets
    have the method. *)
Definition py_union (v : pyval) (l : list string) : res pyval :=
  match v with
  | VSet l0 => Ok (VSet (set_union l0 l))
  | VBadSet => Ok VBadSet
  | _ => Err AttributeError
  end.

Lemma rbind_Ok {A B} (r : res A) (f : A → res B) b :
  rbind r f = Ok b ↔ ∃ a, r = Ok a ∧ f a = Ok b.
Proof. destruct r; simpl; naive_solver. Qed.
Lemma rbind_Err {A B} (r : res A) (f : A → res B) e :
  rbind r f = Err e ↔ r = Err e ∨ ∃ a, r = Ok a ∧ f a = Err e.
Proof. destruct r; simpl; naive_solver. Qed.
