(** * PropPcc: documents of the Potsdam Commentary Corpus (C104) *)
From Verif Require Import PyBase DocGraph Relabel StrNum ConvertFacts SpecGraph Witness Merging SpecMerging Pcc SpecPcc PccThm PropMerging.

(** ** C104 Documents of a corpus *)
Theorem C104_ids : ∀ ds tok, Forall2 file_of ds tok → ∃ ids, document_ids tok = Ok ids ∧ ids ≡ₚ ds ∧ sorted (lexcmp ascii_cmp) ids ∧ corpus_len tok = Ok (length tok).
Proof.
  intros ds tok H. exists (isort (lexcmp ascii_cmp) ds). pose proof (ids_thm ds tok H) as E. split; [exact E|]. split; [apply isort_perm|]. split.
  - pose proof (lexcmp_good _ ascii_cmp_good) as G. apply isort_sorted; [by apply good_cle_trans|by apply good_cle_total].
  - unfold corpus_len. rewrite E. cbn [rbind]. f_equal. rewrite isort_perm. by eapply Forall2_length.
Qed.
Print Assumptions C104_ids.
(** the files that are merged *)
Theorem C104_files : ∀ layers d, well_named layers → doc_id d →
  (∀ x, x ∈ selected layers d ↔ layer_file layers d x) ∧ sublist (selected layers d) (concat ((λ p : string * list chars, pair p.1 <$> p.2) <$> layers)).
Proof. intros layers d HW Hd. split; [intros x; by apply selected_iff|apply selected_sublist]. Qed.
Print Assumptions C104_files.
Theorem C104_document : ∀ read layers d, well_named layers → doc_id d →
  (∀ r, (∀ x, ¬ layer_file layers d x) → get_document read layers d r ↔ r = Err TypeError) ∧
  ∀ xs g ogs ts, xs = selected layers d → Forall2 (λ x y, read x.1 x.2 = Ok y) xs (g :: ogs) → layers_of_text ts g ogs →
    (∃ r, get_document read layers d r) ∧ ∀ r, get_document read layers d r → ∃ g', r = Ok g' ∧ all_merged g ogs g'.
Proof.
  intros read layers d HW Hd. split; [intros r; by apply document_none|]. intros xs g ogs ts -> HR%SpanFacts.rmap_Ok HL. split; [by eapply document_exists|]. intros r. by eapply document_all.
Qed.
Print Assumptions C104_document.
(** documents by index; negative indices count from the end *)
Theorem C104_index : ∀ read layers ds tok i r, Forall2 file_of ds tok → ∃ ids, document_ids tok = Ok ids ∧ ids ≡ₚ ds ∧ let n := Z.of_nat (length tok) in
  get_item read layers tok i r ↔
    (¬ (- n ≤ i < n)%Z ∧ r = Err IndexError) ∨ (- n ≤ i < n)%Z ∧ ∃ d, ids !! Z.to_nat (i mod n) = Some d ∧ get_document read layers d r.
Proof.
  intros read layers ds tok i r H. exists (isort (lexcmp ascii_cmp) ds). split; [by apply ids_thm|]. split; [apply isort_perm|]. rewrite <-(Forall2_length _ _ _ H). by apply item_thm.
Qed.
Print Assumptions C104_index.

Definition f_a : chars := chs "pcc-2.0/syntax/maz-17.xml".
Definition f_b : chars := chs "pcc-2.0/rst/maz-17.rs3".
Definition f_d : chars := chs "pcc-2.0/rst/maz-117.rs3".
Definition two_layers : list (string * list chars) := [("syntax", [f_a]); ("rst", [f_d; f_b])].
Definition read_two (l : string) (f : chars) : res graph := if decide (l = "syntax") then Ok wit_a else if decide (f = f_b) then Ok wit_b else Ok wit_d.
Lemma file_of_mk f d dir ds ext : f = dir ++ "/"%char :: d ++ "."%char :: ext → d = chs "maz-" ++ ds → ds ≠ [] → forallb is_digit ds = true → "/"%char ∉ ext → contains (chs "maz-") dir = false → contains (chs "maz-") ext = false → file_of d f.
Proof.
  intros -> -> H1 H2 H3 H4 H5. exists dir, ext. split; [done|]. split; [exists ds; split; [done|split; [done|]]; apply List.Forall_forall; by apply forallb_forall|]. split; [done|]. split; intros Hx; apply PccFacts.contains_iff in Hx; [by rewrite Hx in H4|done|by rewrite Hx in H5|done].
Qed.
Example C104_hyp : well_named two_layers ∧ doc_id (chs "maz-17") ∧ Forall2 file_of [chs "maz-17"; chs "maz-117"] [f_b; f_d] ∧ selected two_layers (chs "maz-17") = [("syntax", f_a); ("rst", f_b)] ∧
  Forall2 (λ x y, read_two x.1 x.2 = Ok y) (selected two_layers (chs "maz-17")) [wit_a; wit_b] ∧ layers_of_text words3 wit_a [wit_b].
Proof.
  assert (Ha : file_of (chs "maz-17") f_a) by (apply (file_of_mk _ _ (chs "pcc-2.0/syntax") (chs "17") (chs "xml")); [vm_compute; reflexivity|reflexivity|done|reflexivity|vdec|reflexivity|reflexivity]).
  assert (Hb : file_of (chs "maz-17") f_b) by (apply (file_of_mk _ _ (chs "pcc-2.0/rst") (chs "17") (chs "rs3")); [vm_compute; reflexivity|reflexivity|done|reflexivity|vdec|reflexivity|reflexivity]).
  assert (Hd : file_of (chs "maz-117") f_d) by (apply (file_of_mk _ _ (chs "pcc-2.0/rst") (chs "117") (chs "rs3")); [vm_compute; reflexivity|reflexivity|done|reflexivity|vdec|reflexivity|reflexivity]).
  split; [|split; [|split; [|split; [|split]]]].
  - unfold well_named, two_layers. repeat apply List.Forall_cons; cbn [snd]; try apply List.Forall_nil; repeat apply List.Forall_cons; try apply List.Forall_nil; eauto.
  - by destruct Ha as (? & ? & _ & ? & _).
  - constructor; [done|]. constructor; [done|]. constructor.
  - vm_compute. reflexivity.
  - assert (selected two_layers (chs "maz-17") = [("syntax", f_a); ("rst", f_b)]) as -> by (vm_compute; reflexivity). repeat constructor.
  - destruct C103_hyp as [H1 H2 H3 H4 H5 H6 H7 H8]. split.
    + apply Forall_cons in H1 as [? H1]. apply Forall_cons in H1 as [? H1]. repeat apply List.Forall_cons; try done; apply List.Forall_nil.
    + apply Forall_cons in H2 as [? H2]. apply Forall_cons in H2 as [? H2]. repeat apply List.Forall_cons; try done; apply List.Forall_nil.
    + apply Forall_cons in H3 as [? H3]. apply Forall_cons in H3 as [? H3]. repeat apply List.Forall_cons; try done; apply List.Forall_nil.
    + done.
    + done.
    + apply Forall_cons in H6 as [? H6]. repeat apply List.Forall_cons; try done; apply List.Forall_nil.
    + intros i j d d' n Hi Hj. apply H7; [apply (prefix_lookup _ _ _ _ Hi); by exists [wit_d]|apply (prefix_lookup _ _ _ _ Hj); by exists [wit_d]].
    + apply Forall_cons in H8 as [? H8]. repeat apply List.Forall_cons; try done; apply List.Forall_nil.
Qed.
(** a part of an id mixes the files of different documents *)
Theorem C104_part_refuted : selected two_layers (chs "17") = [("syntax", f_a); ("rst", f_d); ("rst", f_b)].
Proof. vm_compute. reflexivity. Qed.
Print Assumptions C104_part_refuted.
