(** * PropRst: properties C32-C34 (rs3 files)

    Statements only.  Vocabulary: SpecRst.v.  [write_rs3 defaults t] is the pair
    of the class dictionary after the call and the document written for [t];
    [read_rs3 f d] the tree read from [d], with [f] a bound on the recursion. *)
From stdpp Require Import relations.
From Verif Require Import PyBase DocGraph Relabel StrNum Query Text Rst SpecRst RstThms.

(** ** C32 the writer writes well-formed documents *)
Theorem C32_written_wf : ∀ defaults r, rst_ok r → ∃ d, (write_rs3 defaults (rst_tree r)).2 = Ok d ∧ rs3_wf d ∧
  concat (xtext <$> d_body d) = edus r ∧ (∀ rel ty, (rel, ty) ∈ relations r → (rel, ty) ∈ d_rels d).
Proof. exact write_wf. Qed.
Print Assumptions C32_written_wf.
(** a relation with a multinuclear nucleus and a satellite before it *)
Definition wit_rst : rst :=
  Mono "Cause" false (Multi "Joint" [Edu "It rains"; Mono "Elaboration" true (Edu "we stay") (Edu "at home")]) (Edu "A storm came").
Example C32_hyp : rst_ok wit_rst ∧ edus wit_rst = ["A storm came"; "It rains"; "we stay"; "at home"].
Proof.
  split; [|done]. split; [simpl; auto with lia|by repeat constructor|].
  intros rel a b Ha Hb. unfold wit_rst in *; cbn in Ha, Hb. repeat (apply elem_of_cons in Ha as [[= -> ->]|Ha]); try (by apply elem_of_nil in Ha);
    repeat (apply elem_of_cons in Hb as [[= ?]|Hb]; try done); by apply elem_of_nil in Hb.
Qed.

(** for any tree that is accepted, ids are unique and the units are kept *)
Theorem C32_any_tree : ∀ defaults t d, (write_rs3 defaults t).2 = Ok d →
  NoDup (xid <$> d_body d) ∧ concat (xtext <$> d_body d) = nleaves t.
Proof. exact write_any. Qed.
Print Assumptions C32_any_tree.
Definition wit_flat : ntree := NTree "Joint" [NTree "N" [NLeaf "a"; NLeaf "b"]; NTree "N" [NLeaf "c"]].
Example C32_any_hyp : (match (write_rs3 default_relations wit_flat).2 with Ok d => length (d_body d) | Err _ => 0 end) = 4 ∧
  nleaves wit_flat = ["a"; "b"; "c"].
Proof. by vm_compute. Qed.

(** but not for every accepted tree do parents lead to the root: for two
    satellites each becomes the parent of the other *)
Theorem C32_accepted_cycle_refuted : ¬ ∀ defaults t d, (write_rs3 defaults t).2 = Ok d → rs3_wf d.
Proof.
  intros H. set (t := NTree "Cause" [NTree "S" [NLeaf "a"]; NTree "S" [NLeaf "b"]]).
  destruct (write_rs3 default_relations t).2 as [d|] eqn:E; [|by vm_compute in E]. apply H in E as HW. vm_compute in E. injection E as <-.
  destruct (wf_up _ HW (Seg "3" (Some "5") (Some "Cause") "a")) as (y & Hy & Hp & Hr); [left|]. cbn [d_body] in *.
  assert (G : y = Seg "3" (Some "5") (Some "Cause") "a" ∨ y = Seg "5" (Some "3") (Some "Cause") "b").
  { revert Hr. apply (rtc_ind_r (λ z, z = Seg "3" (Some "5") (Some "Cause") "a" ∨ z = Seg "5" (Some "3") (Some "Cause") "b")); [by left|].
    intros a b _ (_ & Hb & Hab) [-> | ->]; cbn in Hab; injection Hab as Hab;
      (repeat (apply elem_of_cons in Hb as [->|Hb]; [cbn in Hab; auto; done|])); by apply elem_of_nil in Hb. }
  by destruct G as [-> | ->].
Qed.
Print Assumptions C32_accepted_cycle_refuted.

(** ** C33 a written document reads back as the tree *)
Theorem C33_round_trip : ∀ r defaults, rst_ok r → Forall normal_text (edus r) → NoDup (edus r) →
  NoDup defaults.*1 → dget "span" defaults = None →
  ∃ d t n, (write_rs3 defaults (rst_tree r)).2 = Ok d ∧ erase t = rst_tree r ∧ ∀ f, n ≤ f → read_rs3 f d = Ok t.
Proof. exact read_written. Qed.
Print Assumptions C33_round_trip.
Example C33_hyp : rst_ok wit_rst ∧ Forall normal_text (edus wit_rst) ∧ NoDup (edus wit_rst) ∧ NoDup default_relations.*1 ∧
  dget "span" default_relations = None ∧
  (match (write_rs3 default_relations (rst_tree wit_rst)).2 with Ok d => rbind (read_rs3 20 d) (λ t, Ok (erase t)) | Err e => Err e end) = Ok (rst_tree wit_rst).
Proof.
  split; [apply C32_hyp|]. split.
  { repeat (apply List.Forall_cons || apply List.Forall_nil).
    - exists [chs "A"; chs "storm"; chs "came"]. split; [done|]. split; [|done]. repeat (constructor; [split; [done|by repeat constructor]|]). constructor.
    - exists [chs "It"; chs "rains"]. split; [done|]. split; [|done]. repeat (constructor; [split; [done|by repeat constructor]|]). constructor.
    - exists [chs "we"; chs "stay"]. split; [done|]. split; [|done]. repeat (constructor; [split; [done|by repeat constructor]|]). constructor.
    - exists [chs "at"; chs "home"]. split; [done|]. split; [|done]. repeat (constructor; [split; [done|by repeat constructor]|]). constructor. }
  split; [apply (bool_decide_unpack (NoDup _)); by vm_compute|]. split; [apply (bool_decide_unpack (NoDup _)); by vm_compute|]. split; [done|]. by vm_compute.
Qed.

Definition reads_back (r : rst) : Prop :=
  ∃ d t n, (write_rs3 default_relations (rst_tree r)).2 = Ok d ∧ erase t = rst_tree r ∧ ∀ f, n ≤ f → read_rs3 f d = Ok t.
(** with equal units the file cannot always be read back: they are looked up by
    their text *)
Theorem C33_equal_units_refuted : ¬ ∀ r, rst_ok r → Forall normal_text (edus r) → reads_back r.
Proof.
  intros H. set (r := Mono "Cause" true (Multi "Joint" [Edu "a"; Edu "b"]) (Edu "a")).
  destruct (H r) as (d & t & n & Hd & Ht & Hr).
  - split; [simpl; auto with lia|by repeat constructor|].
    intros rel a b Ha Hb. cbn in Ha, Hb. repeat (apply elem_of_cons in Ha as [[= -> ->]|Ha]); try (by apply elem_of_nil in Ha);
      repeat (apply elem_of_cons in Hb as [[= ?]|Hb]; try done); by apply elem_of_nil in Hb.
  - repeat constructor; by apply normal_char.
  - vm_compute in Hd. injection Hd as <-. specialize (Hr (n + 9)). rewrite Nat.add_comm in Hr.
    match type of Hr with _ → read_rs3 _ ?d = _ => set (D := d) in *; assert (E : ∀ m, read_rs3 (9 + m) D = Err AssertionError) by (intros m; reflexivity) end.
    rewrite (E n) in Hr. assert (Err AssertionError = Ok t) as [=]. apply Hr. lia.
Qed.
Print Assumptions C33_equal_units_refuted.
(** a relation name with both types loses the distinction *)
Theorem C33_two_types_refuted : ¬ ∀ r, multi_ok r → Forall (λ p, rel_ok p.1) (relations r) → Forall normal_text (edus r) → NoDup (edus r) → reads_back r.
Proof.
  intros H. set (r := Mono "Cause" true (Multi "Cause" [Edu "a"; Edu "b"]) (Edu "c")).
  destruct (H r) as (d & t & n & Hd & Ht & Hr).
  - simpl. auto with lia.
  - by repeat constructor.
  - repeat constructor; by apply normal_char.
  - apply (bool_decide_unpack (NoDup _)). by vm_compute.
  - vm_compute in Hd. injection Hd as <-. specialize (Hr (n + 9)). rewrite Nat.add_comm in Hr.
    match type of Hr with _ → read_rs3 _ ?d = _ => set (D := d) in *; assert (E : ∀ m, ∃ t', read_rs3 (9 + m) D = Ok t' ∧ erase t' ≠ rst_tree r) end.
    { intros m. let t' := eval vm_compute in (read_rs3 9 D) in match t' with Ok ?u => exists u end. split; [reflexivity|]. by vm_compute. }
    destruct (E n) as (t' & E1 & E2). rewrite E1 in Hr. destruct E2. rewrite <-Ht. f_equal.
    assert (Ok t' = Ok t) as [= ->]; [apply Hr; lia|done].
Qed.
Print Assumptions C33_two_types_refuted.

(** ** C34 the relations declared in the header *)
(** exactly: the built-in ones and those of all trees written before in the
    process and of the tree itself, where the last use of a name decides *)
Theorem C34_header_exact : ∀ before r, Forall rst_ok before → rst_ok r →
  ∃ d, (write_rs3 (after_writing (rst_tree <$> before)) (rst_tree r)).2 = Ok d ∧ NoDup (d_rels d).*1 ∧
  ∀ rel ty, (rel, ty) ∈ d_rels d ↔
    match last_use rel (concat (relations <$> before) ++ relations r) with
    | Some ty' => ty' = ty
    | None => (rel, ty) ∈ default_relations end.
Proof. exact header_exact. Qed.
Print Assumptions C34_header_exact.
Example C34_hyp : Forall rst_ok [wit_rst; Mono "Joint" true (Edu "a") (Edu "b")] ∧
  last_use "Joint" (concat (relations <$> [wit_rst; Mono "Joint" true (Edu "a") (Edu "b")])) = Some "rst".
Proof.
  split; [|done]. constructor; [apply C32_hyp|]. constructor; [|constructor]. split; [done|by repeat constructor|].
  intros rel a b [= -> ->]%elem_of_list_singleton [= ->]%elem_of_list_singleton. done.
Qed.
(** the elements of the document do not depend on the history *)
Theorem C34_body_independent : ∀ defaults1 defaults2 r, rst_ok r →
  ∃ d1 d2, (write_rs3 defaults1 (rst_tree r)).2 = Ok d1 ∧ (write_rs3 defaults2 (rst_tree r)).2 = Ok d2 ∧ d_body d1 = d_body d2.
Proof. exact body_same. Qed.
Print Assumptions C34_body_independent.
(** the header does *)
Theorem C34_header_history_refuted : ¬ ∀ before r, Forall rst_ok before → rst_ok r →
  (write_rs3 (after_writing (rst_tree <$> before)) (rst_tree r)).2 = (write_rs3 default_relations (rst_tree r)).2.
Proof.
  intros H. specialize (H [Mono "Joint" true (Edu "a") (Edu "b")] (Edu "c")). vm_compute in H. discriminate H.
  - constructor; [|constructor]. split; [done|by repeat constructor|].
    intros rel a b [= -> ->]%elem_of_list_singleton [= ->]%elem_of_list_singleton. done.
  - split; [done|constructor|]. by intros rel a b ?%elem_of_nil.
Qed.
Print Assumptions C34_header_history_refuted.
(** an earlier tree can even change how a later file is read: after a relation
    called "span" was written, nuclei are read as satellites *)
Theorem C34_reading_history_refuted : ¬ ∀ before r, rst_ok r → Forall normal_text (edus r) → NoDup (edus r) →
  ∃ d t n, (write_rs3 (after_writing (rst_tree <$> before)) (rst_tree r)).2 = Ok d ∧ erase t = rst_tree r ∧ ∀ f, n ≤ f → read_rs3 f d = Ok t.
Proof.
  intros H. set (r := Mono "Cause" true (Edu "a") (Edu "b")).
  destruct (H [Mono "span" true (Edu "a") (Edu "b")] r) as (d & t & n & Hd & Ht & Hr).
  - split; [done|by repeat constructor|]. intros rel a b [= -> ->]%elem_of_list_singleton [= ->]%elem_of_list_singleton. done.
  - repeat constructor; by apply normal_char.
  - apply (bool_decide_unpack (NoDup _)). by vm_compute.
  - vm_compute in Hd. injection Hd as <-. specialize (Hr (n + 9)). rewrite Nat.add_comm in Hr.
    match type of Hr with _ → read_rs3 _ ?d = _ => set (D := d) in *; assert (E : ∀ m, ∃ t', read_rs3 (9 + m) D = Ok t' ∧ erase t' ≠ rst_tree r) end.
    { intros m. let t' := eval vm_compute in (read_rs3 9 D) in match t' with Ok ?u => exists u end. split; [reflexivity|]. by vm_compute. }
    destruct (E n) as (t' & E1 & E2). rewrite E1 in Hr. destruct E2. rewrite <-Ht. f_equal.
    assert (Ok t' = Ok t) as [= ->]; [apply Hr; lia|done].
Qed.
Print Assumptions C34_reading_history_refuted.
