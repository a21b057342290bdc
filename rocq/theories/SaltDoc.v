(** * SaltDoc: reading SaltXMI documents (proofs) *)
From Verif Require Import PyBase DocGraph Relabel StrNum Query Text TextFacts SpanFacts Rst Nltk ConllRead Conano Decour Conll SpecAnaphora SpecConllRead Salt SpecSalt SaltFacts.

Lemma bind_ok {A B} (r : res A) (f : A → res B) b : rbind r f = Ok b → ∃ a, r = Ok a ∧ f a = Ok b.
Proof. destruct r as [a|]; [|done]. cbn [rbind]. intros H. by exists a. Qed.
Lemma node_iff x e : node_from_etree x = Ok e ↔ ∃ n i t ls l d, base x n i t ls ∧ layer_list x l ∧ get_annotations x = Ok d ∧ e = SElem CNode n i t ls [("layers", FInts l); ("features", FDict d)].
Proof.
  unfold node_from_etree. split.
  - intros (e0 & H0 & H)%bind_ok. apply base_iff in H0 as (n & i & t & ls & HB & ->). apply bind_ok in H as (l & Hl & H). apply bind_ok in H as (d & Hd & H). injection H as <-. exists n, i, t, ls, l, d. split; [exact HB|]. split; [by apply layers_iff|]. split; [exact Hd|reflexivity].
  - intros (n & i & t & ls & l & d & HB & Hl & Hd & ->). assert (H0 : element_from_etree x = Ok (SElem CNode n i t ls [])) by (apply base_iff; by exists n, i, t, ls). rewrite H0. cbn [rbind]. rewrite (proj2 (layers_iff _ _) Hl). cbn [rbind]. rewrite Hd. reflexivity.
Qed.
Lemma primary_iff x e : primary_text_from_etree x = Ok e ↔ ∃ n i t ls l d s, base x n i t ls ∧ layer_list x l ∧ get_annotations x = Ok d ∧ labelled_in ls "SDATA" s ∧ e = SElem CPrimaryText n i t ls [("layers", FInts l); ("features", FDict d); ("text", FStr s)].
Proof.
  unfold primary_text_from_etree. split.
  - intros (e0 & H0 & H)%bind_ok. apply node_iff in H0 as (n & i & t & ls & l & d & HB & Hl & Hd & ->). apply bind_ok in H as (s & Hs & H). injection H as <-. exists n, i, t, ls, l, d, s. split; [exact HB|]. split; [exact Hl|]. split; [exact Hd|]. split; [|reflexivity]. eapply value_iff; [apply HB|exact Hs].
  - intros (n & i & t & ls & l & d & s & HB & Hl & Hd & Hs & ->). assert (H0 : node_from_etree x = Ok (SElem CNode n i t ls [("layers", FInts l); ("features", FDict d)])) by (apply node_iff; by exists n, i, t, ls, l, d). rewrite H0. cbn [rbind].
    assert (value_string (find_label "SDATA" x) = Ok s) as -> by (eapply value_iff; [apply HB|exact Hs]). reflexivity.
Qed.
Definition ends (x : xml) (a b : Z) : Prop := (∃ s, has "source" x s ∧ refers (chs s) a) ∧ (∃ s, has "target" x s ∧ refers (chs s) b).
Lemma edge_iff x e : edge_from_etree x = Ok e ↔ ∃ n i t ls l a b, base x n i t ls ∧ layer_list x l ∧ ends x a b ∧ e = SElem CEdge n i t ls [("layers", FInts l); ("source", FInt a); ("target", FInt b)].
Proof.
  unfold edge_from_etree. split.
  - intros (e0 & H0 & H)%bind_ok. apply base_iff in H0 as (n & i & t & ls & HB & ->). apply bind_ok in H as (l & Hl & H). apply bind_ok in H as (a & Ha & H). apply bind_ok in H as (b & Hb & H). injection H as <-. exists n, i, t, ls, l, a, b. split; [exact HB|]. split; [by apply layers_iff|]. split; [split; by apply node_id_iff|reflexivity].
  - intros (n & i & t & ls & l & a & b & HB & Hl & [Ha Hb] & ->). assert (H0 : element_from_etree x = Ok (SElem CNode n i t ls [])) by (apply base_iff; by exists n, i, t, ls). rewrite H0. cbn [rbind]. rewrite (proj2 (layers_iff _ _) Hl). cbn [rbind]. rewrite (proj2 (node_id_iff _ _ _) Ha). cbn [rbind]. rewrite (proj2 (node_id_iff _ _ _) Hb). reflexivity.
Qed.
Definition positioned (ls : list slabel) (name : string) (z : Z) : Prop := ∃ s, labelled_in ls name s ∧ is_integer (chs s) z.
Lemma textual_iff x e : textual_from_etree x = Ok e ↔ ∃ n i t ls l a b on off, base x n i t ls ∧ layer_list x l ∧ ends x a b ∧ positioned ls "SSTART" on ∧ positioned ls "SEND" off ∧
  e = SElem CTextual n i t ls [("layers", FInts l); ("source", FInt a); ("target", FInt b); ("onset", FInt on); ("offset", FInt off)].
Proof.
  unfold textual_from_etree. split.
  - intros (e0 & H0 & H)%bind_ok. apply edge_iff in H0 as (n & i & t & ls & l & a & b & HB & Hl & He & ->). cbv zeta in H. apply bind_ok in H as (on & Hon & H). apply bind_ok in H as (off & Hoff & H). injection H as <-. exists n, i, t, ls, l, a, b, on, off. split; [exact HB|]. split; [exact Hl|]. split; [exact He|].
    split; [eapply position_iff; [apply HB|exact Hon]|]. split; [eapply position_iff; [apply HB|exact Hoff]|reflexivity].
  - intros (n & i & t & ls & l & a & b & on & off & HB & Hl & He & Hon & Hoff & ->). assert (H0 : edge_from_etree x = Ok (SElem CEdge n i t ls [("layers", FInts l); ("source", FInt a); ("target", FInt b)])) by (apply edge_iff; by exists n, i, t, ls, l, a, b). rewrite H0. cbn [rbind].
    assert (get_position "SSTART" x = Ok on) as -> by (eapply position_iff; [apply HB|exact Hon]). cbn [rbind]. assert (get_position "SEND" x = Ok off) as -> by (eapply position_iff; [apply HB|exact Hoff]). reflexivity.
Qed.
Lemma dominance_iff x e : dominance_from_etree x = Ok e ↔ ∃ n i t ls l a b d, base x n i t ls ∧ layer_list x l ∧ ends x a b ∧ get_annotations x = Ok d ∧
  e = SElem CDominance n i t ls [("layers", FInts l); ("source", FInt a); ("target", FInt b); ("features", FDict d)].
Proof.
  unfold dominance_from_etree. split.
  - intros (e0 & H0 & H)%bind_ok. apply edge_iff in H0 as (n & i & t & ls & l & a & b & HB & Hl & He & ->). apply bind_ok in H as (d & Hd & H). injection H as <-. exists n, i, t, ls, l, a, b, d. split; [exact HB|]. split; [exact Hl|]. split; [exact He|]. split; [exact Hd|reflexivity].
  - intros (n & i & t & ls & l & a & b & d & HB & Hl & He & Hd & ->). assert (H0 : edge_from_etree x = Ok (SElem CEdge n i t ls [("layers", FInts l); ("source", FInt a); ("target", FInt b)])) by (apply edge_iff; by exists n, i, t, ls, l, a, b). rewrite H0. cbn [rbind]. rewrite Hd. reflexivity.
Qed.
Lemma layer_iff x e : layer_from_etree x = Ok e ↔ ∃ n i t ls ns es, base x n i t ls ∧ index_values x "nodes" ns ∧ index_values x "edges" es ∧ e = SElem CLayer n i t ls [("nodes", FInts ns); ("edges", FInts es)].
Proof.
  unfold layer_from_etree. split.
  - intros (e0 & H0 & H)%bind_ok. apply base_iff in H0 as (n & i & t & ls & HB & ->). apply bind_ok in H as (ns & Hns & H). apply bind_ok in H as (es & Hes & H). injection H as <-. exists n, i, t, ls, ns, es. split; [exact HB|]. split; [by apply index_list_iff|]. split; [by apply index_list_iff|reflexivity].
  - intros (n & i & t & ls & ns & es & HB & Hns & Hes & ->). assert (H0 : element_from_etree x = Ok (SElem CNode n i t ls [])) by (apply base_iff; by exists n, i, t, ls). rewrite H0. cbn [rbind]. rewrite (proj2 (index_list_iff _ _ _) Hns). cbn [rbind]. rewrite (proj2 (index_list_iff _ _ _) Hes). reflexivity.
Qed.

(** ** The classes *)
Inductive reader_of : string → (xml → res selem) → Prop :=
| R_node t : t ∈ ["sDocumentStructure:SStructure"; "sDocumentStructure:SSpan"; "sDocumentStructure:SToken"] → reader_of t node_from_etree
| R_text : reader_of "sDocumentStructure:STextualDS" primary_text_from_etree
| R_spanning : reader_of "sDocumentStructure:SSpanningRelation" edge_from_etree
| R_textual : reader_of "sDocumentStructure:STextualRelation" textual_from_etree
| R_dominance : reader_of "sDocumentStructure:SDominanceRelation" dominance_from_etree
| R_layer : reader_of "saltCore:SLayer" layer_from_etree.
Lemma in1 {A} (a : A) l : a ∈ a :: l. Proof. apply elem_of_cons. by left. Qed.
Lemma in2 {A} (a b : A) l : a ∈ l → a ∈ b :: l. Proof. intros H. apply elem_of_cons. by right. Qed.
Lemma class_reader_iff t f : class_reader t = Some f ↔ reader_of t f.
Proof.
  split.
  - unfold class_reader. intros H.
    destruct (decide (t = "sDocumentStructure:SStructure")) as [->|_]; [injection H as <-; apply R_node, in1|].
    destruct (decide (t = "sDocumentStructure:SSpan")) as [->|_]; [injection H as <-; apply R_node, in2, in1|].
    destruct (decide (t = "sDocumentStructure:SToken")) as [->|_]; [injection H as <-; apply R_node, in2, in2, in1|].
    destruct (decide (t = "sDocumentStructure:STextualDS")) as [->|_]; [injection H as <-; apply R_text|].
    destruct (decide (t = "sDocumentStructure:SSpanningRelation")) as [->|_]; [injection H as <-; apply R_spanning|].
    destruct (decide (t = "sDocumentStructure:STextualRelation")) as [->|_]; [injection H as <-; apply R_textual|].
    destruct (decide (t = "sDocumentStructure:SDominanceRelation")) as [->|_]; [injection H as <-; apply R_dominance|].
    destruct (decide (t = "saltCore:SLayer")) as [->|_]; [injection H as <-; apply R_layer|done].
  - intros [t' H| | | | |]; try reflexivity. repeat (apply elem_of_cons in H as [->|H]; [reflexivity|]). by apply elem_of_nil in H.
Qed.
Lemma create_iff x e : create_class_instance x = Ok e ↔ ∃ t f, has type_attribute x t ∧ reader_of t f ∧ f x = Ok e.
Proof.
  unfold create_class_instance, get_xsi_type, has. change type_attribute with xsi_type. split.
  - intros (t & Ht & H)%bind_ok. apply bind_ok in H as (f & Hf & H). exists t, f. destruct (dget xsi_type _) as [t'|]; [|done]. injection Ht as ->. split; [reflexivity|]. split; [|exact H]. apply class_reader_iff. by destruct (class_reader t) as [f'|]; [injection Hf as ->|].
  - intros (t & f & Ht & Hf & H). rewrite Ht. cbn [of_option rbind]. apply class_reader_iff in Hf. rewrite Hf. exact H.
Qed.
Lemma layers_field x l fs : layer_list x l → dget "layers" fs = Some (FInts l) → ∃ ls, dget "layers" fs = Some (FInts ls) ∧ match dget "layers" (x_attrib x) with None => ls = [] | Some s => ∃ ws, words_in (chs s) ws ∧ Forall2 refers ws ls end.
Proof. intros H1 H2. exists l. split; [exact H2|exact H1]. Qed.
Lemma create_reads x e : create_class_instance x = Ok e → element_reads x e.
Proof.
  intros (t0 & f & Ht0 & Hf & H)%create_iff. assert (TT : ∀ n i t ls, base x n i t ls → t = t0). { intros n i t ls (H1 & _). unfold has in *. congruence. }
  assert (KL : ∀ ls, layer_list x ls → layer_list x ls) by done.
  destruct Hf as [t0 Hin| | | | |].
  - apply node_iff in H as (n & i & t & ls & l & d & HB & Hl & Hd & ->). pose proof (TT _ _ _ _ HB) as ->. apply features_ok in Hd. split; cbn [se_type se_labels se_name se_id se_class]; [apply HB|apply HB|apply HB|apply HB|]. split; [exact Hin|]. split; [exists l; split; [reflexivity|exact Hl]|]. split; [exists d; split; [reflexivity|exact Hd]|]. exact (Permutation_refl _).
  - apply primary_iff in H as (n & i & t & ls & l & d & s & HB & Hl & Hd & Hs & ->). pose proof (TT _ _ _ _ HB) as ->. apply features_ok in Hd. split; cbn [se_type se_labels se_name se_id se_class]; [apply HB|apply HB|apply HB|apply HB|]. split; [reflexivity|]. split; [exists l; split; [reflexivity|exact Hl]|]. split; [exists d; split; [reflexivity|exact Hd]|]. split; [exists s; split; [exact Hs|reflexivity]|]. exact (Permutation_refl _).
  - apply edge_iff in H as (n & i & t & ls & l & a & b & HB & Hl & ((sa & Ha & Ra) & (sb & Hb & Rb)) & ->). pose proof (TT _ _ _ _ HB) as ->. split; cbn [se_type se_labels se_name se_id se_class]; [apply HB|apply HB|apply HB|apply HB|]. split; [reflexivity|]. split; [exists l; split; [reflexivity|exact Hl]|]. split; [by exists sa, a|]. split; [by exists sb, b|]. exact (Permutation_refl _).
  - apply textual_iff in H as (n & i & t & ls & l & a & b & on & off & HB & Hl & ((sa & Ha & Ra) & (sb & Hb & Rb)) & (s1 & L1 & I1) & (s2 & L2 & I2) & ->). pose proof (TT _ _ _ _ HB) as ->. split; cbn [se_type se_labels se_name se_id se_class]; [apply HB|apply HB|apply HB|apply HB|]. split; [reflexivity|]. split; [exists l; split; [reflexivity|exact Hl]|]. split; [by exists sa, a|]. split; [by exists sb, b|]. split; [by exists s1, on|]. split; [by exists s2, off|]. exact (Permutation_refl _).
  - apply dominance_iff in H as (n & i & t & ls & l & a & b & d & HB & Hl & ((sa & Ha & Ra) & (sb & Hb & Rb)) & Hd & ->). pose proof (TT _ _ _ _ HB) as ->. apply features_ok in Hd. split; cbn [se_type se_labels se_name se_id se_class]; [apply HB|apply HB|apply HB|apply HB|]. split; [reflexivity|]. split; [exists l; split; [reflexivity|exact Hl]|]. split; [by exists sa, a|]. split; [by exists sb, b|]. split; [exists d; split; [reflexivity|exact Hd]|]. exact (Permutation_refl _).
  - apply layer_iff in H as (n & i & t & ls & ns & es & HB & Hn & He & ->). pose proof (TT _ _ _ _ HB) as ->. split; cbn [se_type se_labels se_name se_id se_class]; [apply HB|apply HB|apply HB|apply HB|]. split; [reflexivity|]. split; [exists ns; split; [reflexivity|exact Hn]|]. split; [exists es; split; [reflexivity|exact He]|]. exact (Permutation_refl _).
Qed.
Lemma reads_create x e : element_reads x e → ∃ e', create_class_instance x = Ok e'.
Proof.
  intros [Ht Hls Hn Hi HC]. destruct e as [c n i t ls fs]. cbn [se_type se_labels se_name se_id se_class] in *. assert (HB : base x n i t ls) by done.
  destruct c; try done.
  - destruct HC as (Hin & (l & _ & Hl) & (d & _ & Hd) & _). destruct (features_total _ _ Hd) as [d' Hd']. eexists. apply create_iff. exists t, node_from_etree. split; [exact Ht|]. split; [by apply R_node|]. apply node_iff. exists n, i, t, ls, l, d'. done.
  - destruct HC as (-> & (l & _ & Hl) & (d & _ & Hd) & (s & Hs & _) & _). destruct (features_total _ _ Hd) as [d' Hd']. eexists. apply create_iff. exists "sDocumentStructure:STextualDS", primary_text_from_etree. split; [exact Ht|]. split; [apply R_text|]. apply primary_iff. exists n, i, "sDocumentStructure:STextualDS", ls, l, d', s. done.
  - destruct HC as (-> & (l & _ & Hl) & (sa & a & Ha & Ra & _) & (sb & b & Hb & Rb & _) & _). eexists. apply create_iff. exists "sDocumentStructure:SSpanningRelation", edge_from_etree. split; [exact Ht|]. split; [apply R_spanning|]. apply edge_iff. exists n, i, "sDocumentStructure:SSpanningRelation", ls, l, a, b. split; [exact HB|]. split; [exact Hl|]. split; [split; [by exists sa|by exists sb]|reflexivity].
  - destruct HC as (-> & (l & _ & Hl) & (sa & a & Ha & Ra & _) & (sb & b & Hb & Rb & _) & (s1 & z1 & L1 & I1 & _) & (s2 & z2 & L2 & I2 & _) & _). eexists. apply create_iff. exists "sDocumentStructure:STextualRelation", textual_from_etree. split; [exact Ht|]. split; [apply R_textual|]. apply textual_iff. exists n, i, "sDocumentStructure:STextualRelation", ls, l, a, b, z1, z2. split; [exact HB|]. split; [exact Hl|]. split; [split; [by exists sa|by exists sb]|]. split; [by exists s1|]. split; [by exists s2|reflexivity].
  - destruct HC as (-> & (l & _ & Hl) & (sa & a & Ha & Ra & _) & (sb & b & Hb & Rb & _) & (d & _ & Hd) & _). destruct (features_total _ _ Hd) as [d' Hd']. eexists. apply create_iff. exists "sDocumentStructure:SDominanceRelation", dominance_from_etree. split; [exact Ht|]. split; [apply R_dominance|]. apply dominance_iff. exists n, i, "sDocumentStructure:SDominanceRelation", ls, l, a, b, d'. split; [exact HB|]. split; [exact Hl|]. split; [split; [by exists sa|by exists sb]|]. split; [exact Hd'|reflexivity].
  - destruct HC as (-> & (ns & _ & Hns) & (es & _ & Hes) & _). eexists. apply create_iff. exists "saltCore:SLayer", layer_from_etree. split; [exact Ht|]. split; [apply R_layer|]. apply layer_iff. exists n, i, "saltCore:SLayer", ls, ns, es. done.
Qed.
(** ** Documents *)
Lemma head_first {A} (P : A → Prop) `{!∀ a, Decision (P a)} (l : list A) x : head (filter P l) = Some x ↔ first_such P l x.
Proof.
  split.
  - induction l as [|a l IH]; [done|]. rewrite filter_cons. destruct (decide (P a)) as [Ha|Ha]; [intros [= <-]; exists [], l; split; [reflexivity|]; split; [exact Ha|apply List.Forall_nil]|]. intros HH. destruct (IH HH) as (p & q & -> & Hx & Hp). exists (a :: p), q. split; [reflexivity|]. split; [exact Hx|]. by apply List.Forall_cons.
  - intros (p & q & -> & Hx & Hp). induction Hp as [|a p Ha Hp IH]; cbn [app]; rewrite filter_cons; [by rewrite decide_True|]. by rewrite decide_False.
Qed.
Lemma doc_id_iff t i : get_doc_id t = Ok i ↔ ∃ l, first_such (λ k, has "name" k "id") (labels_of t) l ∧ has "valueString" l i.
Proof.
  unfold get_doc_id, find_label. change (x_findall "labels" t) with (labels_of t). split.
  - destruct (head _) as [l|] eqn:E; [|done]. intros H. exists l. split; [apply head_first in E; exact E|]. unfold x_get in H. unfold has. by destruct (dget _ _); [injection H as ->|].
  - intros (l & Hl & Hv). assert (head (filter (λ k, dget "name" (x_attrib k) = Some "id") (labels_of t)) = Some l) as -> by (apply head_first; exact Hl). unfold x_get. unfold has in Hv. by rewrite Hv.
Qed.
Lemma document_ok t d : salt_document t = Ok d → document_reads t d.
Proof.
  unfold salt_document. intros (i & Hi & H)%bind_ok. apply bind_ok in H as (ns & Hns & H). apply bind_ok in H as (es & Hes & H). apply bind_ok in H as (ls & Hls & H). injection H as <-.
  rewrite elements_below in Hns, Hes, Hls. apply rmap_Ok in Hns, Hes, Hls. split; cbn [sd_id sd_nodes sd_edges sd_layers]; [by apply doc_id_iff|..]; (eapply Forall2_impl; [eassumption|]); intros x e He; by apply create_reads.
Qed.
Lemma rmap_create xs es : Forall2 element_reads xs es → ∃ es', rmap create_class_instance xs = Ok es'.
Proof. induction 1 as [|x e xs es H HF [es' IH]]; [by exists []|]. destruct (reads_create _ _ H) as [e' He]. exists (e' :: es'). cbn [rmap]. rewrite He. cbn [rbind]. by rewrite IH. Qed.
Lemma document_total t d : document_reads t d → ∃ d', salt_document t = Ok d'.
Proof.
  intros [Hi H1 H2 H3]. unfold salt_document. apply doc_id_iff in Hi. rewrite Hi. cbn [rbind]. rewrite !elements_below.
  destruct (rmap_create _ _ H1) as [? ->]. cbn [rbind]. destruct (rmap_create _ _ H2) as [? ->]. cbn [rbind]. destruct (rmap_create _ _ H3) as [? ->]. by eexists.
Qed.
