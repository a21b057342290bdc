(** * PccFacts: documents of the corpus (proofs) *)
From Verif Require Import PyBase DocGraph Relabel StrNum SpanFacts Parsers Merging Pcc SpecPcc.

Lemma prefixb_iff p s : prefixb p s = true ↔ ∃ q, s = p ++ q.
Proof.
  revert s. induction p as [|c p IH]; intros s; [split; [intros _; by exists s|done]|]. destruct s as [|x s]; cbn [prefixb].
  - split; [done|]. by intros (q & E).
  - destruct (decide (c = x)) as [->|Hc].
    + rewrite IH. split; intros (q & E); exists q; [by rewrite E|by injection E].
    + split; [done|]. intros (q & E). by injection E as ->.
Qed.
Lemma within_nil p : p ≠ [] → ¬ within p [].
Proof. intros Hp (a & b & E). symmetry in E. apply app_eq_nil in E as [_ E]. by apply app_eq_nil in E as [? _]. Qed.
Lemma within_cons p c s : within p (c :: s) ↔ (∃ q, c :: s = p ++ q) ∨ within p s.
Proof.
  split.
  - intros ([|x a] & b & E); [left; by exists b|]. injection E as -> ->. right. by exists a, b.
  - intros [(q & E)|(a & b & ->)]; [by exists [], q|by exists (c :: a), b].
Qed.
Lemma contains_iff p s : p ≠ [] → contains p s = true ↔ within p s.
Proof.
  intros Hp. induction s as [|c s IH]; cbn [contains].
  - destruct p; [done|]. cbn. split; [done|]. by intros ?%within_nil.
  - rewrite within_cons, <-IH, <-prefixb_iff. destruct (prefixb p (c :: s)); [|naive_solver]. split; [by left|done].
Qed.
Lemma within_mono p q s : within (p ++ q) s → within p s.
Proof. intros (a & b & ->). exists a, (q ++ b). by rewrite <-app_assoc. Qed.
Lemma prefix_until (p q dir rest : chars) (c : ascii) : c ∉ p → p ++ q = dir ++ c :: rest → ∃ y, dir = p ++ y.
Proof.
  revert dir. induction p as [|x p IH]; intros dir Hc E; [by exists dir|]. destruct dir as [|y dir]; cbn in E; injection E as -> E.
  - exfalso. apply Hc. by left.
  - destruct (IH dir) as (z & ->); [|done|by exists z]. intros Hx. apply Hc. by right.
Qed.
Definition maz : chars := chs "maz-".
Lemma within_after_dir q dir rest : ¬ within maz dir → within (maz ++ q) (dir ++ "/"%char :: rest) → within (maz ++ q) rest.
Proof.
  induction dir as [|c dir IH]; intros Hn H.
  - apply within_cons in H as [(r & E)|H]; [|done]. done.
  - apply IH; [intros Hx; apply Hn; apply within_cons; by right|]. change ((c :: dir) ++ "/"%char :: rest) with (c :: (dir ++ "/"%char :: rest)) in H. apply within_cons in H as [(r & E)|H]; [|done].
    exfalso. rewrite <-app_assoc in E. symmetry in E. change (c :: dir ++ "/"%char :: rest) with ((c :: dir) ++ "/"%char :: rest) in E. apply prefix_until in E as (y & E).
    + apply Hn. exists [], y. exact E.
    + unfold maz. cbn. rewrite !elem_of_cons, elem_of_nil. intros [?|[?|[?|[?|?]]]]; done.
Qed.
Lemma digit_not c : is_digit c = true → c ≠ "m"%char ∧ c ≠ "."%char ∧ c ≠ "/"%char.
Proof. intros H. split_and!; intros ->; by vm_compute in H. Qed.
(** the rest of a name after its first letter *)
Lemma within_tail ds ext : Forall (λ c, is_digit c = true) ds → within maz (ds ++ "."%char :: ext) → within maz ext.
Proof.
  induction 1 as [|c ds Hc HF IH]; intros H.
  - apply within_cons in H as [(r & E)|H]; done.
  - change ((c :: ds) ++ "."%char :: ext) with (c :: (ds ++ "."%char :: ext)) in H. apply within_cons in H as [(r & E)|H]; [|by apply IH]. injection E as -> _. by apply digit_not in Hc as [? _].
Qed.
Lemma within_tail4 s : within maz (chs "az-" ++ s) → within maz s.
Proof. cbn. intros H. apply within_cons in H as [(r & E)|H]; [done|]. apply within_cons in H as [(r & E)|H]; [done|]. apply within_cons in H as [(r & E)|H]; [done|exact H]. Qed.
Lemma digits_eq ds ds' s s' : Forall (λ c, is_digit c = true) ds → Forall (λ c, is_digit c = true) ds' → ds ++ "."%char :: s = ds' ++ "."%char :: s' → ds = ds'.
Proof.
  intros H. revert ds'. induction H as [|c ds Hc HF IH]; intros ds' H' E.
  - destruct H' as [|c' ds' Hc']; [done|]. injection E as <- _. by apply digit_not in Hc' as (_ & ? & _).
  - destruct H' as [|c' ds' Hc' HF']; [injection E as -> _; by apply digit_not in Hc as (_ & ? & _)|]. injection E as <- E. f_equal. by apply IH.
Qed.
Lemma file_within d d' f : doc_id d → file_of d' f → within (d ++ ["."%char]) f ↔ d = d'.
Proof.
  intros (ds & -> & _ & HD) (dir & ext & -> & (ds' & -> & _ & HD') & _ & Hd & He). split.
  - intros H. rewrite <-app_assoc in H. apply (within_after_dir (ds ++ ["."%char])) in H; [|done]. change (chs "maz-" ++ ds ++ ["."%char]) with ("m"%char :: (chs "az-" ++ ds ++ ["."%char])) in H. unfold maz in H. cbn in H. apply within_cons in H as [(r & E)|H].
    + cbn in E. injection E as E. rewrite <-app_assoc in E. cbn in E. by rewrite (digits_eq _ _ _ _ HD' HD E).
    + exfalso. apply He. apply (within_tail ds'); [done|]. apply within_tail4. eapply (within_mono _ (ds ++ ["."%char])). exact H.
  - intros [= ->]. exists (dir ++ ["/"%char]), ext. rewrite <-!app_assoc. cbn. by rewrite <-?app_assoc.
Qed.
Lemma fnmatch_file d d' f : doc_id d → file_of d' f → fnmatch_id d f = true ↔ d = d'.
Proof. intros Hd Hf. unfold fnmatch_id. rewrite contains_iff by (by destruct d). by apply file_within. Qed.
(** ** Ids *)
Lemma basename_id s : "/"%char ∉ s → basename s = s.
Proof. induction s as [|c s IH]; intros H; [done|]. cbn [basename]. rewrite decide_False by (intros ?; apply H; by right). rewrite decide_False; [done|]. intros ->. apply H. by left. Qed.
Lemma basename_of dir base : "/"%char ∉ base → basename (dir ++ "/"%char :: base) = base.
Proof.
  intros H. induction dir as [|c dir IH].
  - cbn [app basename]. rewrite decide_False by done. by rewrite decide_True.
  - cbn [app basename]. rewrite decide_True; [exact IH|]. apply elem_of_app. right. by left.
Qed.
Lemma digit_run_of ds x s : Forall (λ c, is_digit c = true) ds → is_digit x = false → digit_run (ds ++ x :: s) = (ds, x :: s).
Proof. intros H Hx. induction H as [|c ds Hc HF IH]; cbn [app digit_run]; [by rewrite Hx|]. by rewrite Hc, IH. Qed.
Lemma docid_none s : ¬ within maz s → docid s = None.
Proof.
  induction s as [|c s IH]; intros H; [done|]. cbn [docid]. rewrite IH by (intros ?; apply H, within_cons; by right). unfold docid_at. destruct (prefixb _ _) eqn:E; [|done]. exfalso. apply H, within_cons. left. by apply prefixb_iff.
Qed.
Lemma docid_file d f : file_of d f → docid (basename f) = Some d.
Proof.
  intros (dir & ext & -> & (ds & -> & Hne & HD) & Hs & _ & He). rewrite basename_of.
  - assert (E : chs "maz-" ++ ds = "m"%char :: (chs "az-" ++ ds)) by reflexivity. rewrite E. cbn [app docid]. rewrite docid_none.
    + unfold docid_at. assert (prefixb (chs "maz-") ("m"%char :: ((chs "az-" ++ ds) ++ "."%char :: ext)) = true) as ->; [apply prefixb_iff; exists (ds ++ "."%char :: ext); cbn; reflexivity|].
      change (drop 4 ("m"%char :: ((chs "az-" ++ ds) ++ "."%char :: ext))) with (ds ++ "."%char :: ext). rewrite digit_run_of by done. destruct ds; [done|]. by rewrite decide_True.
    + rewrite <-app_assoc. intros H. apply He. apply (within_tail ds); [done|]. by apply within_tail4.
  - intros H. apply elem_of_app in H as [H|H]; [apply elem_of_app in H as [H|H]|].
    + cbn in H. rewrite !elem_of_cons, elem_of_nil in H. destruct H as [?|[?|[?|[?|?]]]]; done.
    + rewrite List.Forall_forall in HD. apply elem_of_list_In, HD, digit_not in H. naive_solver.
    + apply elem_of_cons in H as [?|?]; done.
Qed.
