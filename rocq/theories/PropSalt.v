(** * PropSalt: SaltXMI documents (C97-C99) *)
From Verif Require Import PyBase DocGraph StrNum Rst Conano SpecAnaphora SpecConllRead Salt SpecSalt SaltFacts SaltDoc SaltBack SaltLing SaltDone.

(** ** An example: the text "Ja ." with two tokens under one node *)
Definition ex_label (type : string) (name value : string) (hex : string) : xml := XElem "labels" [(type_attribute, type); ("namespace", "salt"); ("name", name); ("value", hex); ("valueString", value)] None [] None.
Definition ex_elem (tag type : string) (a : dict string string) (ls : list xml) : xml := XElem tag ((type_attribute, type) :: a) None ls None.
Definition ex_name (n : string) : xml := ex_label "saltCore:SFeature" "SNAME" n "".
Definition ex_text : xml := ex_elem "nodes" "sDocumentStructure:STextualDS" [] [ex_name "text1"; ex_label "saltCore:SFeature" "SDATA" "Ja ." "4A61202E"; ex_label "saltCore:SElementId" "id" "doc#text1" ""].
Definition ex_token (n pos : string) : xml := ex_elem "nodes" "sDocumentStructure:SToken" [("layers", "//@layers.0")] [ex_name n; ex_label "saltCore:SAnnotation" "tiger.pos" pos ""].
Definition ex_node : xml := ex_elem "nodes" "sDocumentStructure:SStructure" [("layers", "//@layers.0")] [ex_name "const1"].
Definition ex_ends (s t : string) : dict string string := [("source", "//@nodes." +:+ s); ("target", "//@nodes." +:+ t)].
Definition ex_textual (n s on off : string) : xml := ex_elem "edges" "sDocumentStructure:STextualRelation" (ex_ends s "0") [ex_name n; ex_label "saltCore:SFeature" "SSTART" on ""; ex_label "saltCore:SFeature" "SEND" off ""].
Definition ex_dom (n s t : string) : xml := ex_elem "edges" "sDocumentStructure:SDominanceRelation" (ex_ends s t) [ex_name n].
Definition ex_layer : xml := ex_elem "layers" "saltCore:SLayer" [("nodes", "//@nodes.1 //@nodes.2 //@nodes.3"); ("edges", "//@edges.2 //@edges.3")] [ex_name "tiger"].
Definition ex_doc : xml := XElem "sDocumentStructure:SDocumentGraph" [] None
  [ex_label "saltCore:SElementId" "id" "doc" "";
   ex_text; ex_token "t1" "ITJ"; ex_token "t2" "$."; ex_node;
   ex_textual "r1" "1" "0" "2"; ex_textual "r2" "2" "3" "4"; ex_dom "d1" "3" "1"; ex_dom "d2" "3" "2"; ex_layer] None.
Definition ex_salt : sdoc := match salt_document ex_doc with Ok d => d | Err _ => SDoc "" [] [] [] end.
Definition ex_ling : ldoc := match linguistic_document (λ l, l) ex_salt with Ok d => d | Err _ => LDoc "" [] [] [] "" [] end.
Lemma ex_reads : salt_document ex_doc = Ok ex_salt.
Proof. vm_compute. reflexivity. Qed.
Lemma ex_completes : linguistic_document (λ l, l) ex_salt = Ok ex_ling.
Proof. vm_compute. reflexivity. Qed.

(** ** C97 What a SaltDocument contains *)
Theorem C97_faithful : ∀ t d, salt_document t = Ok d → document_reads t d.
Proof. exact document_ok. Qed.
Print Assumptions C97_faithful.
Theorem C97_accepted : ∀ t, (∃ d, salt_document t = Ok d) ↔ ∃ d, document_reads t d.
Proof. intros t. split; intros [d H]; [exists d; by apply document_ok|by eapply document_total]. Qed.
Print Assumptions C97_accepted.
(** no token, span, structure or spanning relation is read as such *)
Theorem C97_classes_refuted : (∀ t d e, salt_document t = Ok d → e ∈ sd_nodes d ++ sd_edges d ++ sd_layers d → se_class e ∉ [CToken; CSpan; CStructure; CSpanning]) ∧
  ∃ t d e, salt_document t = Ok d ∧ e ∈ sd_nodes d ∧ se_type e = "sDocumentStructure:SToken" ∧ se_class e = CNode.
Proof.
  split.
  - intros t d e H He. pose proof (document_ok t d H) as [_ H1 H2 H3]. apply reads_all in H1, H2, H3. assert (HF : Forall read_elem (sd_nodes d ++ sd_edges d ++ sd_layers d)) by (by rewrite !Forall_app). rewrite Forall_forall in HF. by apply HF.
  - exists ex_doc, ex_salt, (SElem CNode "t1" None "sDocumentStructure:SToken" [SLabel "saltCore:SFeature" (Some "salt") "SNAME" "t1" "7431"; SLabel "saltCore:SAnnotation" (Some "salt") "tiger.pos" "ITJ" "49544A"] [("layers", FInts [0%Z]); ("features", FDict [("tiger.pos", "ITJ")])]).
    split; [exact ex_reads|]. split; [|split; reflexivity]. change (sd_nodes ex_salt) with (sd_nodes ex_salt). apply elem_of_list_lookup. exists 1. vm_compute. reflexivity.
Qed.
Print Assumptions C97_classes_refuted.
Example C97_hyp : document_reads ex_doc ex_salt ∧ sd_id ex_salt = "doc" ∧ length (sd_nodes ex_salt) = 4 ∧ length (sd_edges ex_salt) = 4 ∧
  (se_fields <$> sd_layers ex_salt) = [[("nodes", FInts [1; 2; 3]%Z); ("edges", FInts [2; 3]%Z)]].
Proof. split; [exact (document_ok _ _ ex_reads)|]. vm_compute. done. Qed.

(** ** C98 Written elements are read back *)
Theorem C98_element : ∀ x e, create_class_instance x = Ok e → only_labels x →
  ∃ y, to_etree e = Ok y ∧ create_class_instance y = Ok e ∧ x_tag y = tag_of_class (se_class e).
Proof. intros x e H HO. destruct (write_read x e H HO) as (y & H1 & H2 & H3 & _). by exists y. Qed.
Print Assumptions C98_element.
Theorem C98_document : ∀ t d, salt_document t = Ok d → Forall only_labels (tagged_below "nodes" t ++ tagged_below "edges" t ++ tagged_below "layers" t) →
  Forall (λ e, tag_of_class (se_class e) = "nodes") (sd_nodes d) → Forall (λ e, tag_of_class (se_class e) = "edges") (sd_edges d) → Forall (λ e, tag_of_class (se_class e) = "layers") (sd_layers d) →
  ∃ ns es ls, rmap to_etree (sd_nodes d) = Ok ns ∧ rmap to_etree (sd_edges d) = Ok es ∧ rmap to_etree (sd_layers d) = Ok ls ∧
  ∀ root labs l, x_kids root = labs ++ ns ++ es ++ ls → Forall (λ k, x_tag k = "labels" ∧ x_kids k = []) labs →
    first_such (λ k, has "name" k "id") labs l → has "valueString" l (sd_id d) → salt_document root = Ok d.
Proof. exact document_back. Qed.
Print Assumptions C98_document.
Example C98_hyp : create_class_instance ex_layer = Ok (SElem CLayer "tiger" None "saltCore:SLayer" [SLabel "saltCore:SFeature" (Some "salt") "SNAME" "tiger" "7469676572"] [("nodes", FInts [1; 2; 3]%Z); ("edges", FInts [2; 3]%Z)]) ∧ only_labels ex_layer ∧
  Forall only_labels (tagged_below "nodes" ex_doc ++ tagged_below "edges" ex_doc ++ tagged_below "layers" ex_doc) ∧
  Forall (λ e, tag_of_class (se_class e) = "nodes") (sd_nodes ex_salt) ∧ Forall (λ e, tag_of_class (se_class e) = "edges") (sd_edges ex_salt) ∧ Forall (λ e, tag_of_class (se_class e) = "layers") (sd_layers ex_salt).
Proof.
  split; [vm_compute; reflexivity|]. unfold only_labels. split; [apply (bool_decide_unpack _); vm_compute; exact I|]. split; [apply (bool_decide_unpack _); vm_compute; exact I|].
  split; [apply (bool_decide_unpack _); vm_compute; exact I|]. split; apply (bool_decide_unpack _); vm_compute; exact I.
Qed.

(** ** C99 LinguisticDocument *)
Theorem C99_accepted : ∀ ord t d, (∀ l, ord l ≡ₚ l) → salt_document t = Ok d → ends_named d → (∃ l, linguistic_document ord d = Ok l) ↔ (∃ s, first_text d s) ∧ ends_exist d.
Proof.
  intros ord t d Ho H HN. pose proof (document_ok t d H) as [_ H1 H2 _]. apply reads_all in H1, H2. split.
  - intros [l Hl]. destruct (outcome_only ord Ho d H1 H2 HN l Hl) as [HT HX]. split; [by eexists|exact HX].
  - intros [[s Hs] HX]. eexists. by apply (outcome ord Ho d H1 H2 HN s).
Qed.
Print Assumptions C99_accepted.
Theorem C99_completed : ∀ ord t d l, (∀ l, ord l ≡ₚ l) → salt_document t = Ok d → ends_named d → linguistic_document ord d = Ok l → linguistic d l.
Proof.
  intros ord t d l Ho H HN Hl. pose proof (document_ok t d H) as [_ H1 H2 _]. apply reads_all in H1, H2. by eapply (linguistic_thm ord d (ld_text l) l Ho).
Qed.
Print Assumptions C99_completed.
(** there are no sentences and no token can be printed, whatever the document says *)
Theorem C99_sentences_refuted : (∀ ord t d l, salt_document t = Ok d → linguistic_document ord d = Ok l → ld_sentences l = [] ∧ (∀ i s, print_token l i ≠ Ok s) ∧ ∀ i s, print_sentence l i ≠ Ok s) ∧
  ∃ t d l n, salt_document t = Ok d ∧ linguistic_document (λ l, l) d = Ok l ∧ ld_nodes l !! 2 = Some n ∧ se_type n = "sDocumentStructure:SToken" ∧ field n "features" (FDict [("tiger.pos", "$.")]) ∧ field n "onset" (FInt 3) ∧ field n "offset" (FInt 4).
Proof.
  split.
  - intros ord t d l H Hl. pose proof (document_ok t d H) as [_ H1 _ _]. apply reads_all in H1. destruct (no_sentences ord d l) as [Hs Hp]; [|exact Hl|].
    + eapply Forall_impl; [exact H1|]. by intros e (? & _).
    + split; [exact Hs|]. split; [intros i s; by apply print_plain|]. intros i s HS. unfold print_sentence in HS. rewrite Hs in HS. apply bind_ok in HS as (z & HZ & _). destruct (py_index ([] : list (list Z)) i); done.
  - exists ex_doc, ex_salt, ex_ling. eexists. split; [exact ex_reads|]. split; [exact ex_completes|]. split; [vm_compute; reflexivity|]. split; [reflexivity|]. split; [reflexivity|]. split; reflexivity.
Qed.
Print Assumptions C99_sentences_refuted.
Example C99_hyp : ends_named ex_salt ∧ first_text ex_salt "Ja ." ∧ linguistic_document (λ l, l) ex_salt = Ok ex_ling ∧
  ((λ n, (dget "onset" (se_fields n), dget "offset" (se_fields n), dget "dominates" (se_fields n), dget "dominated_by" (se_fields n))) <$> ld_nodes ex_ling) =
  [(None, None, None, None); (Some (FInt 0), Some (FInt 2), None, Some (FInts [3])); (Some (FInt 3), Some (FInt 4), None, Some (FInts [3])); (None, None, Some (FInts [1; 2]), None)]%Z.
Proof.
  split; [split|].
  - assert (edges_of ex_salt CTextual = (edges_of ex_salt CTextual)) by reflexivity. apply Forall_forall. intros e He. assert (e ∈ take 2 (sd_edges ex_salt)) as Hx by (revert He; vm_compute; exact (λ x, x)). apply elem_of_list_lookup in Hx as [[|[|k]] Hk]; vm_compute in Hk; [injection Hk as <-; exists 1; reflexivity|injection Hk as <-; exists 2; reflexivity|done].
  - apply Forall_forall. intros e He. assert (e ∈ drop 2 (sd_edges ex_salt)) as Hx by (revert He; vm_compute; exact (λ x, x)). apply elem_of_list_lookup in Hx as [[|[|k]] Hk]; vm_compute in Hk; [injection Hk as <-; exists 3, 1; split; reflexivity|injection Hk as <-; exists 3, 2; split; reflexivity|done].
  - split; [|split; [exact ex_completes|vm_compute; reflexivity]]. exists (nth 0 (sd_nodes ex_salt) (SElem CNode "" None "" [] [])), (tail (sd_nodes ex_salt)). split; vm_compute; reflexivity.
Qed.
